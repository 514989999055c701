(** Writing the collated configuration of a run and reading a configuration file, PyFHD/pyfhd_tools/pyfhd_setup.py:15-1108.
    The reading side belongs to configargparse, PyYAML and argparse, which pyfhd_setup.py:26-39 and pyfhd.py:94 call; what is
    modelled is what those libraries document, for a command line of the shape "pyfhd -c FILE OBS_ID". *)
From Coq Require Import String Ascii DecimalString.
From Verif Require Import Base OptionsBase OptionsTable.
Import ListNotations.
Open Scope string_scope.
Open Scope list_scope.

Section Options.
(** [float_of s] is the [repr] of [float(s)], or None when [float] raises; [path_of s] is [str(Path(s))]. *)
Variable float_of : string -> option string.
Variable path_of : string -> string.

(** ** Writing *)

(** pyfhd_setup.py:1088: [key.replace("_", "-")]. *)
Fixpoint dashed (s : string) : string :=
  match s with
  | EmptyString => EmptyString
  | String c r => String (if Ascii.eqb c "_" then "-"%char else c) (dashed r)
  end.

(** pyfhd_setup.py:1092-1096: [f"{z}"], [f"{b}"]. *)
Definition show_int (z : Z) : string := NilZero.string_of_int (Z.to_int z).
Definition show_bool (b : bool) : string := if b then "True" else "False".

(** pyfhd_setup.py:1102-1104: [f"{item}"] for an element of a list; inside a list Python uses [repr]. Simplified: the
    escapes of [repr] are left out. *)
Fixpoint repr (v : val) : string :=
  match v with
  | VNone => "None" | VBool b => show_bool b | VInt z => show_int z | VFloat t => t
  | VStr s => "'" ++ s ++ "'" | VPath s => "PosixPath('" ++ s ++ "')"
  | VList l => "[" ++ String.concat ", " (map repr l) ++ "]"
  end.
Definition show (v : val) : string :=
  match v with VStr s => s | VPath s => s | _ => repr v end.

(** One line "key : value" of the file: the value is plain text, a text between single quotes, or a flow list of such
    texts (pyfhd_setup.py:1089-1108). The texts are kept as written, without escapes. *)
Inductive token := Plain (s : string) | Quoted (s : string) | Flow (l : list string).

(** pyfhd_setup.py:1076-1085. *)
Definition unwritten : list string :=
  ["top_level_dir"; "log_name"; "log_time"; "commit"; "obs_id"; "config_file"; "grid_psf_file_sav"; "grid_psf_file_npz"].

(** pyfhd_setup.py:1073-1108, the body of the loop. *)
Definition write_line (kv : string * val) : list (string * token) :=
  let '(key, v) := kv in
  if existsb (String.eqb key) unwritten then []
  else match v with
       | VNone => [(dashed key, Plain "~")]
       | VFloat t => [(dashed key, Plain t)]
       | VInt z => [(dashed key, Plain (show_int z))]
       | VBool b => [(dashed key, Plain (show_bool b))]
       | VList [] => []
       | VList l => [(key, Flow (map show l))]
       | VStr s => [(dashed key, Quoted s)]
       | VPath s => [(dashed key, Quoted s)]
       end.

(** pyfhd_setup.py:1073-1108, the loop. The two comment lines before it (1069-1070) are left out. *)
Definition write_config (cfg : list (string * val)) : list (string * token) := flat_map write_line cfg.

(** ** YAML *)

(** What a value of a YAML file is for configargparse (YAMLConfigFileParser): null, a text, or a list of texts. *)
Inductive yval := YNull | YText (s : string) | YSeq (l : list string).

(** What may follow the closing quote of a scalar: spaces, then nothing or a comment. *)
Fixpoint blank_tail (spaced : bool) (s : string) : bool :=
  match s with
  | EmptyString => true
  | String c r => if Ascii.eqb c " " then blank_tail true r else spaced && Ascii.eqb c "#"
  end.

(** A YAML single-quoted scalar, from after its opening quote: two quotes stand for one, a lone quote closes. Simplified: a
    scalar not closed on its line is refused, although YAML would go on to the next line. *)
Fixpoint unquote (s : string) : option string :=
  match s with
  | EmptyString => None
  | String c r =>
      if Ascii.eqb c "'" then
        match r with
        | String c' r' => if Ascii.eqb c' "'" then option_map (String "'") (unquote r')
                          else if blank_tail false r then Some "" else None
        | EmptyString => Some ""
        end
      else option_map (String c) (unquote r)
  end.

(** A value as configargparse sees it after PyYAML and [str]. The plain texts written by PyFHD are numbers and booleans,
    which [str] gives back as they stand, and "~". *)
Definition yaml_value (t : token) : option yval :=
  match t with
  | Plain s => Some (if String.eqb s "~" then YNull else YText s)
  | Quoted s => option_map YText (unquote (s ++ "'"))
  | Flow l => option_map YSeq
      (fold_right (fun s acc => match unquote (s ++ "'"), acc with Some x, Some r => Some (x :: r) | _, _ => None end) (Some []) l)
  end.

Fixpoint yaml (f : list (string * token)) : result (list (string * yval)) :=
  match f with
  | [] => Ok []
  | (k, t) :: f' => match yaml_value t with
                    | None => Err SystemExit
                    | Some y => r <- yaml f' ;; Ok ((k, y) :: r)
                    end
  end.

(** ** Reading: configargparse and argparse on the options of pyfhd_setup.py:33-1008 *)

(** The namespace argparse fills, [options] of pyfhd.py:94. *)
Definition env := list (string * val).
Fixpoint lookup (e : env) (d : string) : option val :=
  match e with [] => None | (k, v) :: e' => if String.eqb d k then Some v else lookup e' d end.
Definition set (e : env) (d : string) (v : val) : env :=
  map (fun kv => if String.eqb d (fst kv) then (fst kv, v) else kv) e.
Definition defaults : env := map (fun o => (o_dest o, o_default o)) options.

(** [int(s)] of a decimal text. Simplified: the spaces and underscores Python also takes are left out. *)
Definition int_of (s : string) : option Z := option_map Z.of_int (NilZero.int_of_string s).

Fixpoint chars (s : string) : list val :=
  match s with EmptyString => [] | String c r => VStr (String c EmptyString) :: chars r end.

(** The [type] function applied to a text; [list(s)] is the list of the characters. *)
Definition convert (t : ty) (s : string) : option val :=
  match t with
  | TText => Some (VStr s)
  | TInt => option_map VInt (int_of s)
  | TFloat => option_map VFloat (float_of s)
  | TPath => Some (VPath (path_of s))
  | TList => Some (VList (chars s))
  end.

(** [value in choices] for the values the options list: texts and integers. *)
Definition in_choices (v : val) (cs : list val) : bool :=
  match cs with
  | [] => true
  | _ => existsb (fun c => match v, c with
                           | VStr a, VStr b => String.eqb a b
                           | VInt a, VInt b => Z.eqb a b
                           | _, _ => false
                           end) cs
  end.

(** argparse on "--flag=s". A switch takes no value. *)
Definition take (o : option_def) (s : string) (e : env) : result env :=
  match o_kind o with
  | Switch => Err SystemExit
  | Store t => match convert t s with
               | Some v => if in_choices v (o_choices o) then Ok (set e (o_dest o) v) else Err SystemExit
               | None => Err SystemExit
               end
  | Append t => match convert t s, lookup e (o_dest o) with
                | Some v, Some (VList l) => Ok (set e (o_dest o) (VList (l ++ [v])))
                | _, _ => Err SystemExit
                end
  | Many => Ok (set e (o_dest o) (VList [VStr s]))
  end.

Definition lower_ascii (c : ascii) : ascii :=
  let n := nat_of_ascii c in if (65 <=? n)%nat && (n <=? 90)%nat then ascii_of_nat (n + 32) else c.
Fixpoint lower (s : string) : string :=
  match s with EmptyString => EmptyString | String c r => String (lower_ascii c) (lower r) end.
Definition one_of (l : list string) (s : string) : bool := existsb (String.eqb s) l.

(** configargparse: a key is known when it is a long flag, with or without its two dashes. *)
Definition is_long (f : string) : bool := prefix "--" f.
Definition names (o : option_def) (key : string) : bool :=
  existsb (fun f => is_long f && (String.eqb f ("--" ++ key) || String.eqb f key)) (o_flags o).
Definition known (key : string) : option option_def := find (fun o => names o key) options.

(** argparse's abbreviations: every long flag that begins with the text; --help and --version are flags too. *)
Definition long_flags : list (string * option option_def) :=
  flat_map (fun o => map (fun f => (f, Some o)) (filter is_long (o_flags o))) options
  ++ [("--help", None); ("--version", None)].
Definition completions (arg : string) : list (string * option option_def) :=
  filter (fun fo => prefix arg (fst fo)) long_flags.

Fixpoint split_eq (s : string) : string * string :=
  match s with
  | EmptyString => (EmptyString, EmptyString)
  | String c r => if Ascii.eqb c "=" then (EmptyString, r) else let '(a, b) := split_eq r in (String c a, b)
  end.

(** An unknown key goes to argparse as "--key=value"; the name ends at the first equals sign; an exact flag or else the only
    flag that begins with the name is meant, otherwise the argument is unrecognised or ambiguous. *)
Definition unknown_arg (key s : string) (e : env) : result env :=
  let '(name, v) := split_eq ("--" ++ key ++ "=" ++ s) in
  match find (fun o => existsb (String.eqb name) (o_flags o)) options with
  | Some o => take o v e
  | None => match completions name with
            | [(_, Some o)] => take o v e
            | _ => Err SystemExit
            end
  end.

(** configargparse on one key of the file. The option --config is on the command line and so is left alone. *)
Definition read_key (e : env) (kv : string * yval) : result env :=
  let '(key, y) := kv in
  match known key with
  | Some o =>
      if String.eqb (o_dest o) "config" then Ok e
      else match y, o_kind o with
           | YNull, _ => Ok e
           | YText s, Switch =>
               if one_of ["true"; "yes"; "1"] (lower s) then Ok (set e (o_dest o) (VBool true))
               else if one_of ["false"; "no"; "0"] (lower s) then Ok e
               else Err SystemExit
           | YText s, _ => take o s e
           | YSeq l, Append _ => fold_res (fun e s => take o s e) l e
           | YSeq l, Many => if existsb (prefix "-") l then Err SystemExit else Ok (set e (o_dest o) (VList (map VStr l)))
           | YSeq _, Switch => Err AttributeError
           | YSeq _, Store _ => Err SystemExit
           end
  | None =>
      match y with
      | YNull => Ok e
      | YText s => unknown_arg key s e
      | YSeq l => fold_res (fun e s => unknown_arg key s e) l e
      end
  end.

(** The options of a run started with "pyfhd -c FILE OBS_ID", FILE holding these keys (pyfhd.py:94). Simplified: keys are
    taken to be distinct, and an element of an [nargs="*"] list that begins with a dash is refused. *)
Definition read_keys (d : list (string * yval)) : result env := fold_res read_key d defaults.
Definition read_config (f : list (string * token)) : result env := d <- yaml f ;; read_keys d.
End Options.
