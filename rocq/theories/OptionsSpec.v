(** What C103-C106 say, apart from the model of the writer and the reader. *)
From Coq Require Import String Ascii DecimalString.
From Verif Require Import Base OptionsBase OptionsTable.
Import ListNotations.
Open Scope string_scope.
Open Scope list_scope.

(** A text without single quotes and line ends. *)
Definition clean (s : string) : Prop :=
  forall c, In c (list_ascii_of_string s) -> c <> "'"%char /\ c <> "010"%char.

(** The name with hyphens for underscores. *)
Definition hyphens (s : string) : string :=
  string_of_list_ascii (map (fun c => if Ascii.eqb c "_" then "-"%char else c) (list_ascii_of_string s)).

(** The flag of the option is its name with hyphens. *)
Definition hyphenated (o : option_def) : Prop := In ("--" ++ hyphens (o_dest o))%string (o_flags o).

(** Decimal text of an integer. *)
Definition decimal (z : Z) : string := NilZero.string_of_int (Z.to_int z).

(** Internal entries of the configuration, which are not meant to be written. *)
Definition internal (k : string) : Prop :=
  In k ["top_level_dir"; "log_name"; "log_time"; "commit"; "obs_id"; "config_file"; "grid_psf_file_sav"; "grid_psf_file_npz"].

Section Spec.
Variable float_of : string -> option string.
Variable path_of : string -> string.

Definition chosen (o : option_def) (v : val) : Prop := o_choices o = [] \/ In v (o_choices o).

(** The value has the type of the option, and can be told from the option's default. *)
Definition reloadable (o : option_def) (v : val) : Prop :=
  match v with
  | VNone => o_default o = VNone
  | VList [] => o_default o = VList []
  | VList l => o_kind o = Many /\ In ("--" ++ o_dest o)%string (o_flags o)
               /\ forall x, In x l -> exists s, x = VStr s /\ clean s /\ prefix "-" s = false
  | VBool b => hyphenated o /\ o_kind o = Switch /\ (b = true \/ o_default o = VBool false)
  | VInt z => hyphenated o /\ ((o_kind o = Store TInt /\ chosen o (VInt z))
                               \/ (o_kind o = Store TFloat /\ o_choices o = [] /\ float_of (decimal z) <> None))
  | VFloat t => hyphenated o /\ o_kind o = Store TFloat /\ o_choices o = [] /\ float_of t = Some t /\ t <> "~"
  | VStr s => hyphenated o /\ o_kind o = Store TText /\ chosen o (VStr s) /\ clean s
  | VPath s => hyphenated o /\ o_kind o = Store TPath /\ o_choices o = [] /\ path_of s = s /\ clean s
  end.

(** The same value, an integer being the same as the float it denotes. *)
Definition same (v w : val) : Prop :=
  v = w \/ exists z t, v = VInt z /\ w = VFloat t /\ float_of (decimal z) = Some t.
End Spec.

(** Every text of the configuration is clean and every list empty. *)
Definition plain_config (cfg : list (string * val)) : Prop :=
  forall k v, In (k, v) cfg -> match v with VStr s => clean s | VPath s => clean s | VList l => l = [] | _ => True end.

(** The long flags of the program. *)
Definition long_flag (f : string) : Prop :=
  prefix "--" f = true /\ ((exists o, In o options /\ In f (o_flags o)) \/ In f ["--help"; "--version"]).

(** The key names a flag: it is one, or exactly one flag begins with it. *)
Definition names_flag (k : string) : Prop :=
  long_flag ("--" ++ k)%string \/ long_flag k
  \/ exists f, long_flag f /\ prefix ("--" ++ k) f = true
               /\ forall g, long_flag g -> prefix ("--" ++ k) g = true -> g = f.
