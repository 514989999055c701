(** Vocabulary for the statements about extract_header and create_params. *)
From Coq Require Import String.
From Verif Require Import Base UvHeader.
Import ListNotations.
Open Scope nat_scope.
Open Scope list_scope.
Open Scope string_scope.

(** The file has the group parameters [names], in this order. *)
Definition parameters (f : uvfile) (names : list string) : Prop :=
  f_int f "PCOUNT" = Some (List.length names) /\ forall i, i < List.length names -> f_ptype f i = Some (nth i names "").

(** The keywords about axes, date and pointing are there. *)
Definition described (f : uvfile) : Prop :=
  (forall k, In k ["NAXIS"; "GCOUNT"; "NAXIS2"; "NAXIS3"; "NAXIS4"] -> f_int f k <> None)
  /\ (forall k, In k ["CRVAL4"; "CDELT4"; "CRPIX4"] -> f_num f k <> None)
  /\ f_dated f = true
  /\ (f_num f "OBSRA" <> None \/ f_num f "RA" <> None) /\ (f_num f "OBSDEC" <> None \/ f_num f "DEC" <> None).

(** Everything PyFHD needs to know about a visibility. *)
Definition complete (names : list string) : Prop :=
  In "UU" names /\ In "VV" names /\ In "WW" names /\ In "DATE" names
  /\ (In "BASELINE" names \/ In "ANTENNA1" names /\ In "ANTENNA2" names).

(** [i] is the first group parameter called [name]. *)
Definition first_at (names : list string) (name : string) (i : nat) : Prop :=
  i < List.length names /\ nth i names "" = name /\ forall j, j < i -> nth j names "" <> name.

(** [v] is the value of keyword [k], or if that is missing of [k']. *)
Definition given (f : uvfile) (k k' : string) (v : Q) : Prop :=
  f_num f k = Some v \/ f_num f k = None /\ f_num f k' = Some v.

(** The time of visibility [r]: the sum of all its DATE parameters (UVFITS allows to split a date into a day and a
    fraction). *)
Definition date_sum (f : uvfile) (names : list string) (r : nat) : Q :=
  fold_right Qplus 0%Q (map (fun i => nth r (f_column f i) 0%Q)
                            (filter (fun i => String.eqb (nth i names "") "DATE") (seq 0 (List.length names)))).
