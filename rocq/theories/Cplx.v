(** Complex numbers with exact rational parts, standing for complex128. *)
From Coq Require Export Qcanon Field.
From Verif Require Export Base.
Open Scope Qc_scope.

Record C := mkC { re : Qc; im : Qc }.

Declare Scope C_scope.
Delimit Scope C_scope with C.
Bind Scope C_scope with C.

Definition C0 : C := mkC 0 0.
Definition C1 : C := mkC 1 0.
Definition Ci : C := mkC 0 1.
Definition RtoC (x : Qc) : C := mkC x 0.
Definition Cadd (a b : C) : C := mkC (re a + re b) (im a + im b).
Definition Copp (a : C) : C := mkC (- re a) (- im a).
Definition Csub (a b : C) : C := mkC (re a - re b) (im a - im b).
Definition Cmul (a b : C) : C :=
  mkC (re a * re b - im a * im b) (re a * im b + im a * re b).
Definition Cconj (a : C) : C := mkC (re a) (- im a).
(** Squared modulus. *)
Definition Cnorm2 (a : C) : Qc := re a * re a + im a * im a.
Definition Cinv (a : C) : C := mkC (re a / Cnorm2 a) (- im a / Cnorm2 a).
Definition Cdiv (a b : C) : C := Cmul a (Cinv b).
Definition Cscale (x : Qc) (a : C) : C := mkC (x * re a) (x * im a).

Infix "+" := Cadd : C_scope.
Infix "-" := Csub : C_scope.
Infix "*" := Cmul : C_scope.
Infix "/" := Cdiv : C_scope.
Notation "- x" := (Copp x) : C_scope.

Definition C_eq_dec (a b : C) : {a = b} + {a <> b}.
Proof. decide equality; apply Qc_eq_dec. Defined.
Definition Ceqb (a b : C) : bool := if C_eq_dec a b then true else false.

Lemma C_ext a b : re a = re b -> im a = im b -> a = b.
Proof. destruct a, b; simpl; congruence. Qed.

Lemma C_ring : ring_theory C0 C1 Cadd Cmul Csub Copp eq.
Proof. constructor; intros; apply C_ext; simpl; ring. Qed.

Lemma Qc_sq_nonneg (x : Qc) : 0 <= x * x.
Proof.
  unfold Qcle. change (this (x * x)) with (Qred (this x * this x)%Q).
  rewrite Qred_correct. unfold Qle. simpl. nia.
Qed.

Lemma Qc_sum_nonneg_0 (x y : Qc) : 0 <= x -> 0 <= y -> x + y = 0 -> x = 0.
Proof.
  intros Hx Hy H. apply Qcle_antisym; auto.
  rewrite <- H. rewrite <- (Qcplus_0_r x) at 1. apply Qcplus_le_compat; auto. apply Qcle_refl.
Qed.

Lemma Qc_sum_sq_0 (x y : Qc) : x * x + y * y = 0 -> x = 0 /\ y = 0.
Proof.
  intros H.
  pose proof (Qc_sum_nonneg_0 _ _ (Qc_sq_nonneg x) (Qc_sq_nonneg y) H) as Hx.
  rewrite Hx in H.
  assert (Hy : y * y = 0) by (rewrite <- H; ring).
  split; [destruct (Qcmult_integral _ _ Hx)|destruct (Qcmult_integral _ _ Hy)]; auto.
Qed.

Lemma Cnorm2_0 a : Cnorm2 a = 0 -> a = C0.
Proof. intros H. apply Qc_sum_sq_0 in H. destruct H. now apply C_ext. Qed.

Lemma Cinv_l a : a <> C0 -> (Cinv a * a)%C = C1.
Proof.
  intros H. assert (Cnorm2 a <> 0) by (intros E; apply H, Cnorm2_0, E).
  unfold Cinv. apply C_ext; simpl; unfold Cnorm2 in *; field; auto.
Qed.

Lemma C1_neq_C0 : C1 <> C0.
Proof. intros H. inversion H. Qed.

Lemma C_field : field_theory C0 C1 Cadd Cmul Csub Copp Cdiv Cinv eq.
Proof. constructor; [apply C_ring | apply C1_neq_C0 | reflexivity | apply Cinv_l]. Qed.

Add Field C_field_inst : C_field.

Lemma Cconj_involutive a : Cconj (Cconj a) = a.
Proof. apply C_ext; simpl; ring. Qed.
Lemma Cconj_add a b : Cconj (a + b)%C = (Cconj a + Cconj b)%C.
Proof. apply C_ext; simpl; ring. Qed.
Lemma Cconj_mul a b : Cconj (a * b)%C = (Cconj a * Cconj b)%C.
Proof. apply C_ext; simpl; ring. Qed.
Lemma Cconj_0 : Cconj C0 = C0.
Proof. reflexivity. Qed.
Lemma Cconj_eq0 a : Cconj a = C0 <-> a = C0.
Proof.
  split; intros H; [|subst; reflexivity].
  rewrite <- (Cconj_involutive a), H. reflexivity.
Qed.
Lemma Cconj_scale x a : Cconj (Cscale x a) = Cscale x (Cconj a).
Proof. apply C_ext; simpl; ring. Qed.
Lemma Cmul_integral a b : (a * b)%C = C0 -> a = C0 \/ b = C0.
Proof.
  intros H. destruct (C_eq_dec a C0) as [|Ha]; auto. right.
  replace b with (Cinv a * (a * b))%C.
  - rewrite H. ring.
  - field. auto.
Qed.
Lemma Cinv_0 : Cinv C0 = C0.
Proof. apply C_ext; vm_compute; reflexivity. Qed.
Lemma Cinv_neq0 a : a <> C0 -> Cinv a <> C0.
Proof. intros H E. apply C1_neq_C0. rewrite <- (Cinv_l a H), E. ring. Qed.

(** Sum of a list of complex numbers: [np.sum]. *)
Definition Csum (l : list C) : C := fold_right Cadd C0 l.
Lemma Csum_app l1 l2 : Csum (l1 ++ l2) = (Csum l1 + Csum l2)%C.
Proof. induction l1 as [|a l IH]; simpl; [ring|]. rewrite IH. ring. Qed.

Definition Qcsum (l : list Qc) : Qc := fold_right Qcplus 0 l.
Lemma Qcsum_app l1 l2 : Qcsum (l1 ++ l2) = Qcsum l1 + Qcsum l2.
Proof. induction l1 as [|a l IH]; simpl; [ring|]. rewrite IH. ring. Qed.
