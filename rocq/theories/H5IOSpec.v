(** Vocabulary for the statements about save and load. *)
From Coq Require Import String Ascii.
From Verif Require Import Base H5IO.
Import ListNotations.
Open Scope nat_scope.

(** Equal contents, whatever the width of the element type. *)
Definition same_elems (a b : elems) : Prop :=
  match a, b with
  | EInt l, EInt l' => l = l'
  | EFloat _ l, EFloat _ l' => l = l'
  | EComplex _ l, EComplex _ l' => l = l'
  | EBool l, EBool l' => l = l'
  | EStr l, EStr l' => l = l'
  | EBytes l, EBytes l' => l = l'
  | EObjStr l, EObjStr l' => l = l'
  | EObjFloat l, EObjFloat l' => l = l'
  | EObjComplex l, EObjComplex l' => l = l'
  | _, _ => False
  end.

(** Equal values; dictionaries have the same keys, in any order, with equal values. *)
Fixpoint same (v w : value) : Prop :=
  match v, w with
  | VDict l, VDict l' =>
    NoDup (map fst l') /\ length l = length l'
    /\ (fix all l := match l with [] => True | (k, x) :: r => (exists y, In (k, y) l' /\ same x y) /\ all r end) l
  | VArr s e, VArr s' e' => s = s' /\ same_elems e e'
  | VList s e, VList s' e' => s = s' /\ same_elems e e'
  | VScalar s, VScalar s' => s = s'
  | VPath t, VPath t' => t = t'
  | VNone, VNone => True
  | _, _ => False
  end.

(** A key without "/". *)
Definition plain_key (k : string) : Prop := path k = [k].

(** The values that HDF5 can hold as they are. *)
Definition plain_elems (e : elems) : Prop :=
  match e with
  | EInt l => forall z, In z l -> (- 2 ^ 63 <= z < 2 ^ 63)%Z
  | EFloat long _ => long = false
  | EComplex long _ => long = false
  | EBool _ => True
  | EStr l => l <> [] /\ forall t c, In t l -> In c t -> (c < 128)%N
  | _ => False
  end.
Definition plain_scalar (lib : h5lib) (s : scalar) : Prop :=
  match s with
  | SInt z => (- 2 ^ 63 <= z < 2 ^ 64)%Z
  | SStr t => bytes_dtype lib = true /\ forall c, In c t -> c <> 0%N /\ ~ (55296 <= c < 57344)%N
  | _ => True
  end.
Fixpoint plain (lib : h5lib) (chunk : list (string * list nat)) (key : string) (v : value) : Prop :=
  match v with
  | VDict l => NoDup (map fst l)
    /\ (fix all l := match l with [] => True | (k, x) :: r => (plain_key k /\ plain lib chunk k x) /\ all r end) l
  | VArr shape e => shape <> [] /\ plain_elems e /\ (forall s, lookup key chunk = Some s -> s = shape)
  | VScalar s => plain_scalar lib s
  | VNone => True
  | VList _ _ | VPath _ => False
  end.

(** No array in the value is an object array holding None. *)
Definition elems_full (e : elems) : Prop :=
  match e with EObjStr l => ~ In None l | EObjFloat l => ~ In None l | EObjComplex l => ~ In None l | _ => True end.
Fixpoint full (v : value) : Prop :=
  match v with
  | VDict l => (fix all l := match l with [] => True | (_, x) :: r => full x /\ all r end) l
  | VArr _ e => elems_full e
  | _ => True
  end.

(** The object at a path inside a file. *)
Fixpoint at_path (p : list string) (items : list (string * node)) : option node :=
  match p with
  | [] => None
  | k :: rest =>
    match rest with
    | [] => lookup k items
    | _ => match lookup k items with Some (NGroup sub _) => at_path rest sub | _ => None end
    end
  end.

(** Arrays of numbers and booleans that HDF5 can hold as they are. *)
Definition numeric (e : elems) : Prop := plain_elems e /\ forall l, e <> EStr l.

(** What the file holds for an array of Python objects: None is an empty string in an array of strings, and not-a-number in
    an array of numbers; a complex number whose real part is not a number loses its imaginary part as well. *)
Definition cleaned_number (o : option fval) (x : fval) : Prop := match o with Some y => x = y | None => x = FNaN end.
Definition cleaned_complex (o : option (fval * fval)) (x : fval * fval) : Prop :=
  match o with None => x = (FNaN, FNaN) | Some (FNaN, _) => x = (FNaN, FNaN) | Some y => x = y end.
Definition cleaned_text (o : option text) (x : text) : Prop := match o with Some y => x = y | None => x = [] end.
Definition cleaned (e e' : elems) : Prop :=
  match e, e' with
  | EObjFloat l, EFloat false l' => Forall2 cleaned_number l l'
  | EObjComplex l, EComplex false l' => Forall2 cleaned_complex l l'
  | EObjStr l, EBytes l' => Forall2 cleaned_text l l'
  | _, _ => False
  end.
Definition objects (e : elems) : Prop :=
  match e with EObjStr _ | EObjFloat _ | EObjComplex _ => True | _ => False end.

(** What the caller's own array of objects holds once it has been saved: no None any more; the missing complex numbers have
    the imaginary part 0. *)
Definition filled (e e' : elems) : Prop :=
  match e, e' with
  | EObjFloat l, EObjFloat l' => Forall2 (fun o x => x = Some (match o with Some y => y | None => FNaN end)) l l'
  | EObjComplex l, EObjComplex l' => Forall2 (fun o x => x = Some (match o with Some y => y | None => (FNaN, FNum 0) end)) l l'
  | EObjStr l, EObjStr l' => Forall2 (fun o x => x = Some (match o with Some y => y | None => [] end)) l l'
  | _, _ => e = e'
  end.
