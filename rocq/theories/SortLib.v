(** [np.sort], [np.unique], [np.searchsorted]: contracts of the NumPy functions
    used by PyFHD, as executable definitions with their characterising lemmas.
    NumPy's sort is modelled by insertion sort: for a total order on values that
    are equal when mutually [<=] the sorted array is unique, so the algorithm is
    irrelevant. *)
From Coq Require Import Permutation Sorted.
From Coq Require Import ZifyBool ZifyNat.
From Verif Require Import Base.
Open Scope nat_scope.

Section Sort.
  Context {A : Type} (leb : A -> A -> bool).
  Fixpoint insert (x : A) (l : list A) : list A :=
    match l with
    | [] => [x]
    | y :: t => if leb x y then x :: l else y :: insert x t
    end.
  Fixpoint isort (l : list A) : list A :=
    match l with [] => [] | x :: t => insert x (isort t) end.

  Lemma insert_perm x l : Permutation (x :: l) (insert x l).
  Proof.
    induction l as [|y t IH]; simpl; auto. destruct (leb x y); auto.
    eapply perm_trans; [apply perm_swap|]. now constructor.
  Qed.
  Lemma isort_perm l : Permutation l (isort l).
  Proof.
    induction l as [|x t IH]; simpl; auto.
    eapply perm_trans; [apply perm_skip, IH|]. apply insert_perm.
  Qed.
  Lemma isort_length l : length (isort l) = length l.
  Proof. symmetry. apply Permutation_length, isort_perm. Qed.
  Lemma isort_In l x : In x (isort l) <-> In x l.
  Proof. split; apply Permutation_in; [apply Permutation_sym|]; apply isort_perm. Qed.

  Hypothesis total : forall x y, leb x y = true \/ leb y x = true.
  Hypothesis trans : forall x y z, leb x y = true -> leb y z = true -> leb x z = true.
  Definition le_ x y := leb x y = true.

  Lemma insert_sorted x l : StronglySorted le_ l -> StronglySorted le_ (insert x l).
  Proof.
    induction l as [|y t IH]; intros Hs; simpl.
    - repeat constructor.
    - inversion Hs as [|? ? Ht Hy]; subst. destruct (leb x y) eqn:E.
      + constructor; auto. constructor; auto.
        eapply Forall_impl; [|exact Hy]. intros z Hz. unfold le_ in *. eauto.
      + constructor; auto.
        assert (Hyx : le_ y x) by (destruct (total x y); unfold le_; congruence).
        eapply Permutation_Forall; [apply insert_perm|]. constructor; auto.
  Qed.
  Lemma isort_sorted l : StronglySorted le_ (isort l).
  Proof. induction l; simpl; [constructor|]. now apply insert_sorted. Qed.

  Lemma sorted_nth l d : StronglySorted le_ l ->
    forall i j, i < j -> j < length l -> le_ (nth i l d) (nth j l d).
  Proof.
    induction 1 as [|a l Hs IH Ha]; intros i j Hij Hj; simpl in *; [lia|].
    destruct j; [lia|]. destruct i.
    - rewrite Forall_forall in Ha. apply Ha, nth_In. lia.
    - apply IH; lia.
  Qed.
End Sort.

(** Sorted arrays of integers. *)
Definition sortedZ (l : list Z) : Prop :=
  forall i j, i < j -> j < length l -> (nth i l 0 <= nth j l 0)%Z.

Definition np_sort (l : list Z) : list Z := isort Z.leb l.

Lemma np_sort_sorted l : sortedZ (np_sort l).
Proof.
  intros i j H1 H2. apply Z.leb_le.
  apply sorted_nth with (leb := Z.leb); auto; try (intros; lia).
  apply isort_sorted; intros; lia.
Qed.

(** Remove adjacent repetitions. *)
Fixpoint dedup (l : list Z) : list Z :=
  match l with
  | [] => []
  | x :: t => match t with
              | [] => [x]
              | y :: _ => if (x =? y)%Z then dedup t else x :: dedup t
              end
  end.

(** [np.unique(arr)]: the sorted distinct values. *)
Definition np_unique (l : list Z) : list Z := dedup (np_sort l).

(** [np.searchsorted(arr, v, side="right")]: NumPy's binary search
    (numpy/core/src/npysort/binsearch.cpp): while min < max, mid = min + (max-min)/2,
    go right when arr[mid] <= v.  [fuel] bounds the number of halvings. *)
Fixpoint bsearch_right (fuel : nat) (arr : list Z) (v : Z) (mn mx : nat) : nat :=
  match fuel with
  | O => mn
  | S f => if mn <? mx then
             let mid := mn + (mx - mn) / 2 in
             if (nth mid arr 0 <=? v)%Z then bsearch_right f arr v (S mid) mx
             else bsearch_right f arr v mn mid
           else mn
  end.
Definition searchsorted_right (arr : list Z) (v : Z) : nat :=
  bsearch_right (S (length arr)) arr v 0 (length arr).

Lemma bsearch_right_spec arr v : sortedZ arr -> forall fuel mn mx,
  mx - mn < fuel -> mn <= mx -> mx <= length arr ->
  (forall i, i < mn -> (nth i arr 0 <= v)%Z) ->
  (forall i, mx <= i -> i < length arr -> (v < nth i arr 0)%Z) ->
  let r := bsearch_right fuel arr v mn mx in
  r <= length arr /\ (forall i, i < r -> (nth i arr 0 <= v)%Z)
  /\ (forall i, r <= i -> i < length arr -> (v < nth i arr 0)%Z).
Proof.
  intros Hs. induction fuel as [|f IH]; intros mn mx Hf Hle Hmx HL HR; [lia|].
  cbn [bsearch_right]. destruct (Nat.ltb_spec mn mx) as [Hlt|Hge].
  - set (mid := mn + (mx - mn) / 2).
    assert (Hm1 : mn <= mid) by (unfold mid; lia).
    assert (Hm2 : mid < mx).
    { unfold mid. assert ((mx - mn) / 2 < mx - mn) by (apply Nat.div_lt; lia). lia. }
    destruct (Z.leb_spec (nth mid arr 0%Z) v) as [Hv|Hv].
    + apply IH; auto; try lia. intros i Hi.
      destruct (Nat.eq_dec i mid) as [->|Hn]; auto.
      destruct (Nat.lt_ge_cases i mn); auto.
      specialize (Hs i mid ltac:(lia) ltac:(lia)). lia.
    + apply IH; auto; try lia. intros i Hi Hl.
      destruct (Nat.eq_dec i mid) as [->|Hn]; auto.
      specialize (Hs mid i ltac:(lia) Hl). lia.
  - assert (mn = mx) by lia. subst. simpl. split; [lia|]. auto.
Qed.

Lemma searchsorted_right_spec arr v : sortedZ arr ->
  let r := searchsorted_right arr v in
  r <= length arr /\ (forall i, i < r -> (nth i arr 0 <= v)%Z)
  /\ (forall i, r <= i -> i < length arr -> (v < nth i arr 0)%Z).
Proof. intros Hs. apply bsearch_right_spec; auto; try lia. Qed.

(** A sorted permutation of a sorted list is that list. *)
Lemma sortedZ_cons a l : sortedZ (a :: l) <-> sortedZ l /\ forall x, In x l -> (a <= x)%Z.
Proof.
  split.
  - intros H. split.
    + intros i j Hi Hj. apply (H (S i) (S j)); simpl; lia.
    + intros x Hx. destruct (In_nth _ _ 0%Z Hx) as (k & Hk & <-).
      apply (H 0 (S k)); simpl; lia.
  - intros [H1 H2] [|i] [|j] Hij Hj; simpl in *; try lia.
    + apply H2, nth_In. lia.
    + apply H1; lia.
Qed.

Lemma sorted_perm_eq l1 : forall l2, sortedZ l1 -> sortedZ l2 -> Permutation l1 l2 -> l1 = l2.
Proof.
  induction l1 as [|a l1 IH]; intros l2 H1 H2 HP.
  - now apply Permutation_nil in HP.
  - destruct l2 as [|b l2]; [apply Permutation_sym, Permutation_nil in HP; discriminate|].
    apply sortedZ_cons in H1. apply sortedZ_cons in H2.
    destruct H1 as [S1 L1], H2 as [S2 L2].
    assert (a = b).
    { assert (Ha : In a (b :: l2)) by (eapply Permutation_in; [exact HP|now left]).
      assert (Hb : In b (a :: l1)) by (eapply Permutation_in; [apply Permutation_sym, HP|now left]).
      destruct Ha as [->|Ha]; auto. destruct Hb as [->|Hb]; auto.
      specialize (L1 _ Hb). specialize (L2 _ Ha). lia. }
    subst b. f_equal. apply IH; auto. eapply Permutation_cons_inv; eauto.
Qed.

Lemma np_sort_id l : sortedZ l -> np_sort l = l.
Proof.
  intros H. apply sorted_perm_eq; auto using np_sort_sorted.
  apply Permutation_sym, isort_perm.
Qed.
