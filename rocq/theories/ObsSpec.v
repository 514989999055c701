(** Vocabulary for the statements about create_obs, update_obs, create_params and extract_visibilities. *)
From Verif Require Import Base HistogramSpec Utils1Spec.
Open Scope nat_scope.

(** Entry [q] of [n] lies between offset [i] and the next one. *)
Definition in_time_bin (offsets : list nat) (n i q : nat) : Prop :=
  nth i offsets 0 <= q /\ q < (if S i <? length offsets then nth (S i) offsets 0 else n).

(** [count] is the number of distinct elements of [l]. *)
Definition distinct_count (l : list Z) (count : nat) : Prop :=
  exists vals, NoDup vals /\ (forall v, In v vals <-> In v l) /\ length vals = count.

(** [lo] is the least element of [l]. *)
Definition least (l : list Q) (lo : Q) : Prop := In lo l /\ forall x, In x l -> (lo <= x)%Q.

(** The tile of an antenna: 1 + its position in the antenna table; antennas that are not in the table keep
    their number. *)
Definition tile_of (antenna_numbers : list Z) (a b : Z) : Prop :=
  (forall i, i < length antenna_numbers -> nth i antenna_numbers 0%Z = a -> b = Z.of_nat (i + 1))
  /\ (~ In a antenna_numbers -> b = a).

(** The UVFITS number of a baseline. *)
Definition encode (pair : Z * Z) : Z := (256 * fst pair + snd pair)%Z.
