(** Vocabulary for the statements about the small helpers. *)
From Verif Require Import Base Cplx.
Open Scope nat_scope.

(** Non-decreasing integer array. *)
Definition nondecreasing (l : list Z) : Prop :=
  forall i j, i < j -> j < length l -> (nth i l 0 <= nth j l 0)%Z.

(** Position [p] is the last of a run of equal values. *)
Definition ends_run (l : list Z) (p : nat) : bool :=
  (S p =? length l) || negb (nth p l 0 =? nth (S p) l 0)%Z.

(** Rational powers and the falling factorial a(a-1)...(a-n+1). *)
Fixpoint qpow (a : Q) (n : nat) : Q :=
  match n with O => 1%Q | S k => (a * qpow a k)%Q end.
Fixpoint falling (a : Q) (n : nat) : Q :=
  match n with O => 1%Q | S k => (falling a k * (a - inject_Z (Z.of_nat k)))%Q end.
(** sum_{k<n} f k *)
Fixpoint qsum (n : nat) (f : nat -> Q) : Q :=
  match n with O => 0%Q | S k => (qsum k f + f k)%Q end.

(** How many elements are <= v, >= v. *)
Definition count_le (l : list Z) (v : Z) : nat := length (filter (fun x => x <=? v)%Z l).
Definition count_ge (l : list Z) (v : Z) : nat := length (filter (fun x => v <=? x)%Z l).

(** [v] is a median of [l]. *)
Definition is_median (l : list Z) (v : Z) : Prop :=
  In v l /\ length l <= 2 * count_le l v /\ length l <= 2 * count_ge l v.

Definition nth2 {A} (d : A) (m : list (list A)) (r c : nat) : A := nth c (nth r m []) d.

(** [m] is a rows x cols matrix. *)
Definition shape2 {A} (m : list (list A)) (rows cols : nat) : Prop :=
  length m = rows /\ forall r, r < rows -> length (nth r m []) = cols.
