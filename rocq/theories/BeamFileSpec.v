(** Vocabulary for the statements about the beam file. *)
From Coq Require Import String Ascii.
From Verif Require Import Base H5IO H5IOSpec BeamFile.
Import ListNotations.
Open Scope nat_scope.
Open Scope list_scope.

(** The beam of a sav file has this many baselines, frequencies and polarizations, and every entry has this shape. *)
Definition box {A} (n_bl n_freq n_pol : nat) (a : list (list (list A))) : Prop :=
  length a = n_bl /\ (forall x, In x a -> length x = n_freq /\ forall y, In y x -> length y = n_pol).
Definition entries_of (shape : list nat) (a : list (list (list entry))) : Prop :=
  forall x y e, In x a -> In y x -> In e y -> fst e = shape /\ length (snd e) = prod_nat shape.

(** The piece of an array with the dimensions n_pol x n_freq x ... that belongs to a polarization and a frequency. *)
Definition piece {A} (n_freq m : nat) (data : list A) (p f : nat) : list A :=
  firstn m (skipn ((p * n_freq + f) * m) data).
(** The entry of a sav file for a baseline, frequency and polarization. *)
Definition sav_entry (a : list (list (list entry))) (b f p : nat) : list (fval * fval) :=
  snd (nth p (nth f (nth b a []) []) ([], [])).

(** A file name is a non-empty stem followed by a dot and a non-empty extension without dots. *)
Fixpoint no_dot (s : string) : bool :=
  match s with EmptyString => true | String c r => negb (Ascii.eqb c ".") && no_dot r end.
Definition named (s : string) (stem ext : string) : Prop :=
  s = (stem ++ "." ++ ext)%string /\ stem <> EmptyString /\ ext <> EmptyString /\ no_dot ext = true.

(** The number of the group of a baseline, frequency and polarization in a sav file. *)
Definition id_entry (ids : list (list (list Z))) (b f p : nat) : Z := nth p (nth f (nth b ids []) []) 0%Z.
Definition int64 (ids : list (list (list Z))) : Prop :=
  forall x y z, In x ids -> In y x -> In z y -> (- 2 ^ 63 <= z < 2 ^ 63)%Z.

(** The other fields can be held by HDF5 as they are, and are not called like the beam. *)
Definition plain_fields (lib : h5lib) (shape : list nat) (fields : list (string * value)) : Prop :=
  plain lib [("beam_ptr"%string, shape)] "" (VDict fields) /\ (forall k, In k (map fst fields) -> k <> "beam_ptr"%string /\ k <> "id"%string).
