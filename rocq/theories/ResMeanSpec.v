(** What resistant_mean is for, stated without the model's helpers. *)
From Coq Require Import Qabs Permutation.
From Verif Require Import Base.
Open Scope Q_scope.

(** m is the median: arrange the values in increasing order and take the middle one, or the average
    of the two middle ones. *)
Definition is_med (l : list Q) (m : Q) : Prop :=
  exists s, Permutation l s
    /\ (forall i j, (i <= j)%nat -> (j < length s)%nat -> nth i s 0 <= nth j s 0)
    /\ l <> []
    /\ m == (nth ((length s - 1) / 2) s 0 + nth (length s / 2) s 0) / 2.

(** The arithmetic mean and the (population) variance of a non-empty list. *)
Definition is_mean (l : list Q) (m : Q) : Prop :=
  l <> [] /\ m * inject_Z (Z.of_nat (length l)) == fold_right Qplus 0 l.
Definition is_var (l : list Q) (v : Q) : Prop :=
  exists m, is_mean l m /\ is_mean (map (fun x => (x - m) * (x - m)) l) v.

(** Correction of the standard deviation for the truncation, for at most 4.5 deviations. *)
Definition correction (d : Q) (c : Q) : Prop :=
  (d <= 45 # 10 /\ exists x, (d <= 1 /\ x == 1 \/ 1 < d /\ x == d)
     /\ c == (20142 # 1000000) * x * x * x - (23584 # 100000) * x * x + (90723 # 100000) * x - (15405 # 100000))
  \/ (45 # 10 < d /\ c == 1).
