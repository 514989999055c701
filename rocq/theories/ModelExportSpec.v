(** Vocabulary for the statements about the export of model visibilities to FHD. *)
From Coq Require Import String Ascii ZArith QArith.
From Verif Require Import Base Cplx Obs ModelExport.
Import ListNotations.
Open Scope list_scope.

Fixpoint chars (s : string) : list ascii := match s with EmptyString => [] | String c s => c :: chars s end.
(** A text without blanks, tabs and line ends. *)
Definition unspaced (s : string) : Prop := forall c, In c (chars s) -> ~ In (nat_of_ascii c) [9; 10; 11; 12; 13; 28; 29; 30; 31; 32].
(** An observation identifier: something, without white space and slashes. *)
Definition identifier (s : string) : Prop := s <> EmptyString /\ unspaced s /\ ~ In "/"%char (chars s).
Definition from_root (s : string) : Prop := exists r, s = String "/" r.
(** The numbers IDL's single precision can hold, whatever their exponent: 24 bits times a power of two. *)
Definition single_number (q : Q) : Prop :=
  exists m : Z, exists a b : nat, (Z.abs m < 2 ^ 24)%Z /\ q * inject_Z (2 ^ Z.of_nat a) == inject_Z m * inject_Z (2 ^ Z.of_nat b).
Definition rounds (single : C -> C) : Prop := forall z, single_number (re (single z)) /\ single_number (im (single z)).
