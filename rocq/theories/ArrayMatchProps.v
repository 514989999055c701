(** C04: property theorems about array_match. *)
From Coq Require Import ZifyBool ZifyNat.
From Verif Require Import Base SortLib Histogram HistogramSpec HistogramProofs ArrayMatch ArrayMatchProofs Utils1Proofs.
Open Scope nat_scope.

(** Position [k] holds one of the wanted values in either array. *)
Definition wanted (a1 a2 vm : list Z) (k : nat) : Prop :=
  In (nth k a1 0%Z) vm \/ In (nth k a2 0%Z) vm.

Lemma selected_wanted a1 a2 vm k : NoDup vm -> selected a1 a2 vm k = true <-> wanted a1 a2 vm k.
Proof.
  intros Hn. unfold selected, memb, wanted.
  rewrite orb_true_iff.
  assert (E : forall v, Nat.odd (z_count vm v) = true <-> In v vm).
  { intros v. destruct (in_dec Z.eq_dec v vm) as [Hi|Hi].
    - rewrite z_count_NoDup by auto.
      replace (existsb (Z.eqb v) vm) with true by (symmetry; apply existsb_exists; exists v; split; [auto|lia]).
      simpl. tauto.
    - rewrite (proj2 (z_count_0 vm v)) by auto. simpl. split; [discriminate|tauto]. }
  now rewrite !E.
Qed.

Lemma z_count_count_occ l v : z_count l v = count_occ Z.eq_dec l v.
Proof.
  unfold z_count. induction l as [|a l IH]; auto.
  cbn [count_occ filter]. destruct (Z.eq_dec a v) as [->|Hn].
  - rewrite Z.eqb_refl. simpl. f_equal. exact IH.
  - destruct (Z.eqb_spec v a), (Z.eqb_spec a v); try congruence; exact IH.
Qed.

(** C04 (for value lists without repeats): the result lists, in increasing order
    and without repetition, exactly the positions where either array holds one of the
    values; when no position qualifies the result is the scalar -1. *)
Theorem C04_array_match_partial : forall a1 a2 vm : list Z,
  length a1 = length a2 -> a1 <> [] -> NoDup vm ->
  exists r, array_match a1 (Some vm) (Some a2) = Ok r
    /\ match r with
       | Indices l =>
           l <> []
           /\ (forall i j, i < j -> j < length l -> nth i l 0 < nth j l 0)
           /\ (forall k, In k l <-> k < length a1 /\ wanted a1 a2 vm k)
       | MinusOne => forall k, k < length a1 -> ~ wanted a1 a2 vm k
       end.
Proof.
  intros a1 a2 vm HL Hne Hn. eexists. split; [now apply array_match_exact|].
  assert (HI : forall k, In k (filter (selected a1 a2 vm) (seq 0 (length a1)))
                 <-> k < length a1 /\ wanted a1 a2 vm k).
  { intros k. rewrite filter_In, in_seq, selected_wanted by auto. intuition lia. }
  destruct (filter (selected a1 a2 vm) (seq 0 (length a1))) as [|p l] eqn:E.
  - intros k Hk Hw. apply (proj2 (HI k)). auto.
  - split; [discriminate|]. split; auto.
    rewrite <- E. apply filter_seq_increasing.
Qed.
Print Assumptions C04_array_match_partial.

(** The full statement is false of the code: a value listed twice is ignored
    (the code takes the bitwise AND of the two histograms). *)
Theorem C04_array_match_duplicates_refuted :
  exists a1 a2 vm k, length a1 = length a2 /\ k < length a1 /\ wanted a1 a2 vm k
    /\ array_match a1 (Some vm) (Some a2) = Ok MinusOne.
Proof.
  exists [1;2;3]%Z, [2;3;3]%Z, [3;3]%Z, 1. split; [reflexivity|]. split; [simpl; lia|].
  split; [right; simpl; auto|]. vm_compute. reflexivity.
Qed.
Print Assumptions C04_array_match_duplicates_refuted.

(** Exactly: a position is selected iff one of its values is listed an odd number of times. *)
Theorem C04_array_match_exact : forall a1 a2 vm, length a1 = length a2 -> a1 <> [] ->
  let odd_in v := Nat.odd (count_occ Z.eq_dec vm v) in
  array_match a1 (Some vm) (Some a2)
  = Ok (match filter (fun k => odd_in (nth k a1 0%Z) || odd_in (nth k a2 0%Z)) (seq 0 (length a1)) with
        | [] => MinusOne
        | l => Indices l
        end).
Proof.
  intros a1 a2 vm HL Hne odd_in. rewrite array_match_exact by auto.
  assert (E : filter (selected a1 a2 vm) (seq 0 (length a1))
    = filter (fun k => odd_in (nth k a1 0%Z) || odd_in (nth k a2 0%Z)) (seq 0 (length a1))).
  { apply filter_ext. intros k. unfold selected, memb, odd_in. now rewrite !z_count_count_occ. }
  now rewrite E.
Qed.
Print Assumptions C04_array_match_exact.

(** Without the second array (documented as optional) any match fails. *)
Theorem C04_array_match_one_array_refuted :
  exists a1 vm, array_match a1 (Some vm) None = Err UnboundLocal.
Proof. exists [1;2;3]%Z, [2]%Z. vm_compute. reflexivity. Qed.
Print Assumptions C04_array_match_one_array_refuted.

Example C04_case :
  array_match [1;1;2;4]%Z (Some [4;2]%Z) (Some [2;3;3;5]%Z) = Ok (Indices [0;2;3]).
Proof. vm_compute. reflexivity. Qed.
