(** What a histogram and its reverse indices are, independently of the model. *)
From Verif Require Import Base.
Open Scope Q_scope.

(** [d] is within the limits. *)
Definition within (lo hi d : Q) : Prop := lo <= d /\ d <= hi.

(** [d] falls in bin [i] of width [b] starting at [lo]. *)
Definition in_bin (lo b : Q) (i : nat) (d : Q) : Prop :=
  lo + inject_Z (Z.of_nat i) * b <= d /\ d < lo + inject_Z (Z.of_nat i + 1) * b.

Definition within_b (lo hi d : Q) : bool := Qle_bool lo d && Qle_bool d hi.
Definition in_bin_b (lo b : Q) (i : nat) (d : Q) : bool :=
  Qle_bool (lo + inject_Z (Z.of_nat i) * b) d
  && negb (Qle_bool (lo + inject_Z (Z.of_nat i + 1) * b) d).

(** Number of data elements within the limits that fall in bin [i]. *)
Definition bin_count (lo hi b : Q) (data : list Q) (i : nat) : nat :=
  length (filter (fun d => within_b lo hi d && in_bin_b lo b i d) data).

(** Increasing list of their positions. *)
Definition bin_positions (lo hi b : Q) (data : list Q) (i : nat) : list nat :=
  filter (fun k => within_b lo hi (nth k data 0) && in_bin_b lo b i (nth k data 0))
         (seq 0 (length data)).

Lemma within_b_spec lo hi d : within_b lo hi d = true <-> within lo hi d.
Proof. unfold within_b, within. now rewrite andb_true_iff, !Qle_bool_iff. Qed.

Lemma in_bin_b_spec lo b i d : in_bin_b lo b i d = true <-> in_bin lo b i d.
Proof.
  unfold in_bin_b, in_bin. rewrite andb_true_iff, negb_true_iff, Qle_bool_iff.
  split; intros [H1 H2]; split; auto.
  - apply Qnot_le_lt. intros H. apply Qle_bool_iff in H. congruence.
  - apply Bool.not_true_is_false. intros H%Qle_bool_iff. eapply Qlt_not_le; eauto.
Qed.
