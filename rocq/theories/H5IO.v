(** Model of PyFHD/io/pyfhd_io.py: format_array, dtype_picker, save_dataset, dict_to_group, save, load_dataset,
    group_to_dict and load.  An HDF5 file is a tree of groups and datasets with boolean attributes.  Compression, chunk
    sizes, logging and the order of keys (dictionaries are compared without it) are not represented; the
    variable_lengths argument, which PyFHD never passes, record arrays and arrays of arrays are not modelled. *)
From Coq Require Import String Ascii.
From Verif Require Import Base.
Import ListNotations.
Open Scope nat_scope.
Open Scope list_scope.

(** A Python string as its code points; a float. *)
Definition text := list N.
Inductive fval := FNum (q : Q) | FInf (negative : bool) | FNaN.

(** What h5py and NumPy do where it matters: how an integer outside int64, and a long double, are converted;
    whether the object h5py returns for a scalar string has a [dtype] attribute (Python's bytes, which h5py's manual
    announces, has none); UTF-8 decoding of bytes outside ASCII. *)
Record h5lib := { cast_i64 : Z -> Z; cast_f64 : fval -> fval; bytes_dtype : bool; utf8 : list N -> option text }.

(** Contents of an array by dtype: integers of any width; floats and complex numbers ([long]: wider than double);
    booleans; unicode strings; byte strings; object arrays of strings, floats or complex numbers with None. *)
Inductive elems :=
| EInt (l : list Z)
| EFloat (long : bool) (l : list fval)
| EComplex (long : bool) (l : list (fval * fval))
| EBool (l : list bool)
| EStr (l : list text)
| EBytes (l : list (list N))
| EObjStr (l : list (option text))
| EObjFloat (l : list (option fval))
| EObjComplex (l : list (option (fval * fval))).

Inductive scalar := SInt (z : Z) | SFloat (f : fval) | SComplex (re im : fval) | SBool (b : bool) | SStr (t : text).
Inductive value :=
| VDict (l : list (string * value))
| VArr (shape : list nat) (e : elems)
| VList (shape : list nat) (e : elems)
| VScalar (s : scalar)
| VPath (t : text)
| VNone.

Inductive node :=
| NGroup (items : list (string * node)) (attrs : list (string * bool))
| NArr (shape : list nat) (e : elems)
| NScalar (s : scalar)
| NNull.

Definition ascii_text (t : text) : bool := forallb (fun c => (c <? 128)%N) t.
Definition encode_ascii (l : list text) : result elems := if forallb ascii_text l then Ok (EBytes l) else Err ValueError.
Definition is_nan (x : fval) : bool := match x with FNaN => true | _ => false end.

(** pyfhd_io.py 114-162. [.astype(bytes)] fails on characters outside ASCII. *)
Definition format_array (e : elems) : result elems :=
  match e with
  | EStr l => encode_ascii l
  | EObjStr (x :: l) => encode_ascii (map (fun o => match o with Some t => t | None => [] end) (x :: l))
  | EObjFloat (x :: l) => Ok (EFloat false (map (fun o => match o with Some f => f | None => FNaN end) (x :: l)))
  | EObjComplex (x :: l) => Ok (EComplex false (map (fun o => match o with
        | Some (re, im) => if is_nan re then (FNaN, FNaN) else (re, im) | None => (FNaN, FNaN) end) (x :: l)))
  | _ => Ok e
  end.
(** 138-157: what the caller's own array holds afterwards ([array[array == None] = ...] is in place) *)
Definition format_array_caller (e : elems) : elems :=
  match e with
  | EObjStr l => EObjStr (map (fun o => match o with Some t => Some t | None => Some [] end) l)
  | EObjFloat l => EObjFloat (map (fun o => match o with Some f => Some f | None => Some FNaN end) l)
  | EObjComplex l => EObjComplex (map (fun o => match o with Some c => Some c | None => Some (FNaN, FNum 0) end) l)
  | _ => e
  end.

Definition in_i64 (z : Z) : bool := ((- 2 ^ 63 <=? z) && (z <? 2 ^ 63))%Z.
(** 11-34 and the conversion to the dtype chosen there: int64, float64, complex128, or the array's own *)
Definition to_dtype (lib : h5lib) (e : elems) : result elems :=
  match e with
  | EInt l => Ok (EInt (map (fun z => if in_i64 z then z else cast_i64 lib z) l))
  | EFloat true l => Ok (EFloat false (map (cast_f64 lib) l))
  | EComplex true l => Ok (EComplex false (map (fun c => (cast_f64 lib (fst c), cast_f64 lib (snd c))) l))
  | EObjStr _ | EObjFloat _ | EObjComplex _ => Err TypeError
  | _ => Ok e
  end.

(** [create_dataset(key, shape=shape, data=array, compression="gzip")]: a scalar dataset cannot be compressed; another
    number of elements is an error. *)
Definition prod_nat (l : list nat) : nat := fold_right Nat.mul 1 l.
Definition array_node (lib : h5lib) (shape ashape : list nat) (e : elems) : result node :=
  e <- format_array e ;; e <- to_dtype lib e ;;
  match shape with
  | [] => Err TypeError
  | _ => if prod_nat shape =? prod_nat ashape then Ok (NArr shape e) else Err ValueError
  end.

(** [create_dataset(key, data=scalar)]: integers that fit neither int64 nor uint64 become objects; a string with a zero
    character or a lone surrogate is a ValueError. *)
Definition vlen_text (t : text) : bool := forallb (fun c => negb ((c =? 0) || ((55296 <=? c) && (c <? 57344)))%N) t.
Definition scalar_node (s : scalar) : result node :=
  match s with
  | SInt z => if ((- 2 ^ 63 <=? z) && (z <? 2 ^ 64))%Z then Ok (NScalar s) else Err TypeError
  | SStr t => if vlen_text t then Ok (NScalar s) else Err ValueError
  | _ => Ok (NScalar s)
  end.

(** Names: h5py treats "/" as the separator of a path and creates missing groups on the way. A leading slash (absolute
    path) and "." are not treated specially here. *)
Fixpoint split_slash (s : string) : list string :=
  match s with
  | EmptyString => [EmptyString]
  | String c r =>
    if Ascii.eqb c "/" then EmptyString :: split_slash r
    else match split_slash r with h :: t => String c h :: t | [] => [String c EmptyString] end
  end.
Definition path (s : string) : list string := filter (fun x => negb (String.eqb x "")) (split_slash s).
Fixpoint lookup {A} (k : string) (l : list (string * A)) : option A :=
  match l with [] => None | (k', x) :: l => if String.eqb k k' then Some x else lookup k l end.
Fixpoint put (p : list string) (n : node) (items : list (string * node)) : option (list (string * node)) :=
  match p with
  | [] => None
  | k :: rest =>
    match rest with
    | [] => match lookup k items with None => Some (items ++ [(k, n)]) | Some _ => None end
    | _ =>
      match lookup k items with
      | None => match put rest n [] with Some sub => Some (items ++ [(k, NGroup sub [])]) | None => None end
      | Some (NGroup sub ats) =>
        match put rest n sub with
        | Some sub => Some (map (fun kx => if String.eqb k (fst kx) then (k, NGroup sub ats) else kx) items)
        | None => None
        end
      | Some _ => None
      end
    end
  end.

(** A file or group under construction. *)
Definition root := (list (string * node) * list (string * bool))%type.
Definition empty_root : root := ([], []).
Definition is_none (v : value) : bool := match v with VNone => true | _ => false end.
(** lines 289-297: the values whose creation is inside [try ... except ValueError] *)
Definition swallows (v : value) : bool := match v with VScalar _ => true | _ => false end.

(** Create the object for [v] under the name [key] (165-298); then record whether it was None (330-333, 383-400). *)
Definition create (key : string) (v : value) (n : result node) (g : root) : result root :=
  match n with
  | Err ValueError => if swallows v then Ok g else Err ValueError
  | Err e => Err e
  | Ok n =>
    match put (path key) n (fst g) with
    | Some items => Ok (items, snd g)
    | None => if swallows v then Ok g else Err ValueError
    end
  end.
Definition mark (key : string) (v : value) (g : root) : result root := Ok (fst g, snd g ++ [(key, is_none v)]).

(** save_dataset 224-298 and dict_to_group 301-333; [chunk] is to_chunk's key -> shape *)
Fixpoint build (lib : h5lib) (chunk : list (string * list nat)) (key : string) (v : value) : result node :=
  match v with
  | VDict l =>
    g <- (fix go l g := match l with
          | [] => Ok g
          | (k, x) :: r => g <- create k x (build lib chunk k x) g ;; g <- mark k x g ;; go r g
          end) l empty_root ;;
    Ok (NGroup (fst g) (snd g))
  | VArr shape e => array_node lib (match lookup key chunk with Some s => s | None => shape end) shape e
  | VList shape e => array_node lib shape shape e
  | VScalar s => scalar_node s
  | VPath t => if vlen_text t then Ok (NScalar (SStr t)) else Err ValueError
  | VNone => Ok NNull
  end.

(** The elementary steps of writing the top level of a dictionary (save 383-400), and running them. *)
Definition save_steps (lib : h5lib) (chunk : list (string * list nat)) (l : list (string * value)) : list (root -> result root) :=
  flat_map (fun kx => [create (fst kx) (snd kx) (build lib chunk (fst kx) (snd kx)); mark (fst kx) (snd kx)]) l.
Definition run (steps : list (root -> result root)) (g : root) : result root := fold_res (fun g s => s g) steps g.
(** save 375-411: the file is truncated, then written *)
Definition save (lib : h5lib) (chunk : list (string * list nat)) (name : string) (v : value) : result root :=
  match v with
  | VArr _ _ => run (save_steps lib chunk [(name, v)]) empty_root
  | VDict l => run (save_steps lib chunk l) empty_root
  | _ => Ok empty_root
  end.

(** What the caller's value holds after a [save] that returned: arrays are formatted in place (245), lists are copied first
    (266). *)
Fixpoint save_caller (v : value) : value :=
  match v with
  | VDict l => VDict (map (fun kx => (fst kx, save_caller (snd kx))) l)
  | VArr shape e => VArr shape (format_array_caller e)
  | _ => v
  end.

Fixpoint map_res_opt {A B} (f : A -> option B) (l : list A) : option (list B) :=
  match l with [] => Some [] | a :: l => match f a, map_res_opt f l with Some b, Some r => Some (b :: r) | _, _ => None end end.
(** load_dataset 414-455 once the attribute is known to be False; [_decode_byte_arr] is an np.vectorize, which fails on
    empty input. *)
Definition load_data (lib : h5lib) (n : node) : result value :=
  match n with
  | NArr shape (EBytes l) =>
    match l with
    | [] => Err ValueError
    | _ => match map_res_opt (fun t => if ascii_text t then Some t else utf8 lib t) l with
           | Some l => Ok (VArr shape (EStr l)) | None => Err ValueError end
    end
  | NArr shape e => Ok (VArr shape e)
  | NScalar (SStr t) => if bytes_dtype lib then Ok (VScalar (SStr t)) else Err AttributeError
  | NScalar s => Ok (VScalar s)
  | NNull => Err ValueError
  | NGroup _ _ => Err TypeError
  end.
(** load_dataset 414-455 and group_to_dict 458-480; [attr] is the attribute of that name in the parent *)
Fixpoint load_node (lib : h5lib) (attr : option bool) (n : node) : result value :=
  match n with
  | NGroup items attrs =>
    l <- (fix go items := match items with
          | [] => Ok []
          | (k, x) :: r => v <- load_node lib (lookup k attrs) x ;; rest <- go r ;; Ok ((k, v) :: rest)
          end) items ;;
    Ok (VDict l)
  | _ => match attr with None => Err KeyError | Some true => Ok VNone | Some false => load_data lib n end
  end.
(** load 483-540, lazy_load False: a file with one entry is taken for a bare array *)
Definition load (lib : h5lib) (g : root) : result value :=
  match fst g with
  | [(_, n)] => match n with NArr shape e => Ok (VArr shape e) | NGroup _ _ => Err TypeError | _ => Err ValueError end
  | _ => load_node lib None (NGroup (fst g) (snd g))
  end.

(** The file on disk when the program dies after [j] steps of [save] of a dictionary over [old] (None: no file), on
    the most favourable assumption that every completed step is on disk and the file can be opened. Step 1 is opening
    the file with mode "w" (375). *)
Definition crash_disk (lib : h5lib) (chunk : list (string * list nat)) (old : option root) (l : list (string * value)) (j : nat)
  : result (option root) :=
  match j with
  | O => Ok old
  | S j => g <- run (firstn j (save_steps lib chunk l)) empty_root ;; Ok (Some g)
  end.
