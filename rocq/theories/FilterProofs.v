From Coq Require Import Sorted ZifyBool ZifyNat.
From Verif Require Import Base SortLib Cplx NpArr PyIndex WeightInvert WeightInvertProofs VisGridBoxProofs Filter.
Open Scope nat_scope.

(** *** pieces *)
Lemma ceil_div_spec a b : (0 < b)%Z -> (b * (ceil_div a b - 1) < a <= b * ceil_div a b)%Z.
Proof.
  intros Hb. unfold ceil_div. pose proof (Z.div_mod (- a) b). pose proof (Z.mod_pos_bound (- a) b). lia.
Qed.

Lemma slice_empty {A} (l : list A) a b : b <= a -> slice l a b = [].
Proof. intros H. unfold slice. replace (b - a) with 0 by lia. reflexivity. Qed.
Lemma slice_full {A} (l : list A) : slice l 0 (length l) = l.
Proof. unfold slice. cbn [skipn]. rewrite Nat.sub_0_r. apply firstn_all. Qed.

Lemma pieces_concat {A} (inds : list A) per m : concat (map (fun k => fst (piece inds per k)) (seq 0 m)) = slice inds 0 (Nat.min (length inds) (per * m)).
Proof.
  induction m as [|m IH]; [cbn [seq map concat]; rewrite slice_empty; auto; lia|].
  rewrite seq_S, map_app, concat_app, IH. cbn [map concat Nat.add]. rewrite app_nil_r. unfold piece. cbn [fst].
  destruct (Nat.ltb_spec (length inds) (per * (m + 1))) as [H|H].
  - destruct (Nat.le_gt_cases (length inds) (per * m)) as [Q|Q].
    + rewrite (slice_empty inds (per * m)) by lia. rewrite app_nil_r. f_equal. lia.
    + replace (Nat.min (length inds) (per * m)) with (per * m) by lia. rewrite slice_app by lia. f_equal. lia.
  - replace (Nat.min (length inds) (per * m)) with (per * m) by lia. rewrite slice_app by lia. f_equal. lia.
Qed.

Lemma pieces_cover {A} (inds : list A) p t : (0 < p)%Z -> (0 < t)%Z -> concat (map fst (pieces inds p t)) = inds.
Proof.
  intros Hp Ht. unfold pieces. set (it := mem_iter _ _ _).
  destruct (Z.ltb_spec 1 it) as [H|H].
  - rewrite map_map. rewrite pieces_concat.
    pose proof (ceil_div_spec (Z.of_nat (length inds)) it ltac:(lia)) as Hc.
    rewrite Nat.min_l; [apply slice_full|]. nia.
  - pose proof (ceil_div_spec (8 * Z.of_nat (length inds) * p) t Ht) as Hc. fold (mem_iter (Z.of_nat (length inds)) p t) in Hc.
    fold it in Hc. destruct (Z.eqb_spec it 1) as [E|E]; [cbn [map fst concat]; apply app_nil_r|].
    destruct inds as [|a l]; [reflexivity|]. cbn [length] in Hc. exfalso. nia.
Qed.

(** *** bins *)
Lemma filter_seq_incr (p : nat -> bool) a n i j d : i < j < length (filter p (seq a n)) ->
  nth i (filter p (seq a n)) d < nth j (filter p (seq a n)) d.
Proof.
  revert a i j. induction n as [|n IH]; intros a i j; cbn [seq filter]; [simpl; lia|].
  destruct (p a) eqn:E; [|apply IH].
  cbn [length]. intros H. destruct j as [|j]; [lia|]. destruct i as [|i]; cbn [nth]; [|apply IH; lia].
  assert (Hin : In (nth j (filter p (seq (S a) n)) d) (filter p (seq (S a) n))) by (apply nth_In; lia).
  apply filter_In in Hin. destruct Hin as [Hin _]. apply in_seq in Hin. lia.
Qed.
Lemma filter_seq_between (p : nat -> bool) a n i c d :
  i + 1 < length (filter p (seq a n)) ->
  nth i (filter p (seq a n)) d < c < nth (i + 1) (filter p (seq a n)) d -> p c = false.
Proof.
  intros Hi Hc. destruct (p c) eqn:E; auto. exfalso.
  assert (H1 : In (nth i (filter p (seq a n)) d) (filter p (seq a n))) by (apply nth_In; lia).
  assert (H2 : In (nth (i + 1) (filter p (seq a n)) d) (filter p (seq a n))) by (apply nth_In; lia).
  apply filter_In in H1, H2. destruct H1 as [H1 _], H2 as [H2 _]. apply in_seq in H1, H2.
  assert (H3 : In c (filter p (seq a n))) by (apply filter_In; split; auto; apply in_seq; lia).
  apply (In_nth _ _ d) in H3. destruct H3 as (j & Hj & Ej).
  destruct (Nat.lt_trichotomy j i) as [H|[H|H]].
  - pose proof (filter_seq_incr p a n j i d ltac:(lia)). lia.
  - subst j. lia.
  - destruct (Nat.eq_dec j (i + 1)); [subst j; lia|].
    pose proof (filter_seq_incr p a n (i + 1) j d ltac:(lia)). lia.
Qed.
Lemma filter_seq_after (p : nat -> bool) a n i c d :
  i + 1 = length (filter p (seq a n)) ->
  nth i (filter p (seq a n)) d < c < a + n -> p c = false.
Proof.
  intros Hi Hc. destruct (p c) eqn:E; auto. exfalso.
  assert (H1 : In (nth i (filter p (seq a n)) d) (filter p (seq a n))) by (apply nth_In; lia).
  apply filter_In in H1. destruct H1 as [H1 _]. apply in_seq in H1.
  assert (H3 : In c (filter p (seq a n))) by (apply filter_In; split; auto; apply in_seq; lia).
  apply (In_nth _ _ d) in H3. destruct H3 as (j & Hj & Ej).
  destruct (Nat.eq_dec j i); [subst j; lia|]. pose proof (filter_seq_incr p a n j i d ltac:(lia)). lia.
Qed.

Lemma degrid_inds_slice (hist ri : list nat) i :
  (forall c, c < length hist -> nth (S c) ri 0 = nth c ri 0 + nth c hist 0) ->
  nth (length hist) ri 0 = length ri ->
  let bin_i := filter (fun c => negb (nth c hist 0 =? 0)) (seq 0 (length hist)) in
  i < length bin_i ->
  degrid_inds ri bin_i (length bin_i) i = slice ri (nth (nth i bin_i 0) ri 0) (nth (S (nth i bin_i 0)) ri 0).
Proof.
  intros Hs He bin_i Hi. unfold degrid_inds.
  assert (Hin : nth i bin_i 0 < length hist).
  { assert (H1 : In (nth i bin_i 0) bin_i) by (apply nth_In; auto). unfold bin_i in H1 at 2. apply filter_In in H1.
    destruct H1 as [H1 _]. apply in_seq in H1. lia. }
  assert (FLAT : forall d, nth i bin_i 0 < d -> d <= length hist ->
     (forall c, nth i bin_i 0 < c < d -> negb (nth c hist 0 =? 0) = false) -> nth d ri 0 = nth (S (nth i bin_i 0)) ri 0).
  { induction d as [|d IH]; intros H1 H2 H3; [lia|].
    destruct (Nat.eq_dec d (nth i bin_i 0)) as [->|Hne]; [reflexivity|].
    rewrite Hs by lia. rewrite IH; try lia; [|intros c Hc; apply H3; lia].
    specialize (H3 d ltac:(lia)). destruct (Nat.eqb_spec (nth d hist 0) 0); [lia|discriminate]. }
  destruct (Nat.eqb_spec i (length bin_i - 1)) as [E|E].
  - unfold slice. rewrite <- (FLAT (length hist)); auto.
    + rewrite He. symmetry. apply firstn_all2. rewrite skipn_length. lia.
    + intros c Hc. apply (filter_seq_after (fun c => negb (nth c hist 0 =? 0)) 0 (length hist) i c 0); [fold bin_i; lia|fold bin_i; lia].
  - f_equal.
    assert (H1 : In (nth (i + 1) bin_i 0) bin_i) by (apply nth_In; lia). unfold bin_i in H1 at 2. apply filter_In in H1.
    destruct H1 as [H1 _]. apply in_seq in H1.
    apply FLAT; try lia.
    + apply (filter_seq_incr _ 0 (length hist) i (i + 1) 0). fold bin_i. lia.
    + intros c Hc. apply (filter_seq_between (fun c => negb (nth c hist 0 =? 0)) 0 (length hist) i c 0); [fold bin_i; lia|exact Hc].
Qed.

(** *** filter *)
Open Scope Qc_scope.
Lemma inverted_one x : inverted (Some 1) x = if Qcleb 1 x then 1 / x else 0.
Proof.
  unfold inverted, invert_entry, assigned, used. cbn [option_map xge].
  destruct (Qcleb 1 x) eqn:E; cbn [clean_nan clean_inf is_nan is_inf]; [|reflexivity].
  apply Qcleb_true in E. unfold xdiv. destruct (Qc_eq_dec x 0); [|reflexivity]. subst x. now elim E.
Qed.
Lemma qc_nat_pos n : (0 < n)%nat -> 0 < Q2Qc (inject_Z (Z.of_nat n)).
Proof.
  intros H. unfold Qclt. cbn [this Q2Qc]. rewrite !Qred_correct. change 0%Q with (inject_Z 0). rewrite <- Zlt_Qlt. lia.
Qed.
Lemma Qc_pos_neq x : 0 < x -> x <> 0.
Proof. intros H E. rewrite E in H. now apply Qclt_not_eq in H. Qed.
Lemma Qcinv_pos x : 0 < x -> 0 < / x.
Proof.
  intros H. unfold Qclt in *. cbn [this Q2Qc Qcinv]. rewrite !Qred_correct. apply Qinv_lt_0_compat. exact H.
Qed.
Lemma Qcmult_pos x y : 0 < x -> 0 < y -> 0 < x * y.
Proof. intros Hx Hy. rewrite <- (Qcmult_0_l y). now apply Qcmult_lt_compat_r. Qed.
Lemma Qcsum_nonneg l : (forall x, In x l -> 0 <= x) -> 0 <= Qcsum l.
Proof.
  induction l as [|x l IH]; intros H; [apply Qcle_refl|].
  change (0 <= x + Qcsum l). rewrite <- (Qcplus_0_r 0). apply Qcplus_le_compat; [apply H; simpl; auto|].
  apply IH. intros; apply H; simpl; auto.
Qed.
Lemma Qcsum_pos l x : In x l -> 0 < x -> (forall x, In x l -> 0 <= x) -> 0 < Qcsum l.
Proof.
  induction l as [|y l IH]; intros Hin Hx H; [easy|]. change (0 < y + Qcsum l). destruct Hin as [->|Hin].
  - apply Qclt_le_trans with x; auto. rewrite <- (Qcplus_0_r x) at 1. apply Qcplus_le_compat; [apply Qcle_refl|].
    apply Qcsum_nonneg. intros; apply H; simpl; auto.
  - apply Qclt_le_trans with (Qcsum l); [apply IH; auto; intros; apply H; simpl; auto|].
    rewrite <- (Qcplus_0_l (Qcsum l)) at 1. apply Qcplus_le_compat; [apply H; simpl; auto|apply Qcle_refl].
Qed.
Lemma inverted_nonneg x : 0 <= inverted (Some 1) x.
Proof.
  rewrite inverted_one. destruct (Qcleb 1 x) eqn:E; [|apply Qcle_refl]. apply Qcleb_true in E.
  assert (0 < x) by (apply Qclt_le_trans with 1; auto; reflexivity).
  apply Qclt_le_weak. unfold Qcdiv. rewrite Qcmult_1_l. now apply Qcinv_pos.
Qed.
Lemma inverted_pos x : 1 <= x -> 0 < inverted (Some 1) x /\ inverted (Some 1) x = 1 / x.
Proof.
  intros H. rewrite inverted_one. rewrite (proj2 (Qcleb_true 1 x) H).
  assert (0 < x) by (apply Qclt_le_trans with 1; auto; reflexivity).
  split; [|reflexivity]. unfold Qcdiv. rewrite Qcmult_1_l. now apply Qcinv_pos.
Qed.
Lemma Qcsum_div l c : Qcsum (map (fun x => x / c) l) = Qcsum l / c.
Proof.
  induction l as [|x l IH]; [cbn; unfold Qcdiv; ring|]. cbn [map].
  change (x / c + Qcsum (map (fun x => x / c) l) = (x + Qcsum l) / c). rewrite IH. unfold Qcdiv. ring.
Qed.

(** The pixels the mean is taken over. *)
Definition weighted (weights : option (list Qc)) (count : list Qc) (k : nat) : Prop :=
  match weights with
  | Some w => nth k w 0 <> 0
  | None => 1 <= nth k count 0
  end.

Lemma filter_main image count weights (on : nat -> bool) :
  (forall w, weights = Some w -> length w = length image) ->
  length count = length image -> length image <> 1%nat ->
  (forall k, (k < length image)%nat -> on k = true <-> weighted weights count k) ->
  (exists k, (k < length image)%nat /\ weighted weights count k /\ 1 <= nth k count 0) ->
  exists c, 0 < c
  /\ filter_uv_uniform image (Some count) false weights
     = Ok (map (fun k => Some (Cscale (c * inverted (Some 1) (nth k count 0)) (nth k image C0))) (seq 0 (length image)),
           map (fun k => Fin (c * inverted (Some 1) (nth k count 0))) (seq 0 (length image)))
  /\ Qcsum (map (fun k => c * inverted (Some 1) (nth k count 0)) (filter on (seq 0 (length image))))
     = Q2Qc (inject_Z (Z.of_nat (length (filter on (seq 0 (length image)))))).
Proof.
  intros Hw Hc H1 Hon (k0 & Hk0 & Wk0 & Ck0). unfold filter_uv_uniform, filter_count. cbn [bind].
  rewrite Hc. rewrite (proj2 (Nat.eqb_neq _ _) H1).
  set (fu := map (inverted (Some 1)) count).
  assert (Lf : length fu = length image) by (unfold fu; rewrite map_length; auto).
  assert (Nf : forall k, (k < length image)%nat -> nth k fu 0 = inverted (Some 1) (nth k count 0)).
  { intros k Hk. unfold fu. apply nth_map_lt. lia. }
  set (sel := match weights with Some w => _ | None => fu end).
  assert (Ls : length sel = length image).
  { unfold sel. destruct weights as [w|]; auto. rewrite (Hw w eq_refl), Nat.eqb_refl. auto. }
  assert (Es : forall k, (k < length image)%nat -> negb (Qceqb (nth k sel 0) 0) = on k).
  { intros k Hk. apply eq_true_iff_eq. rewrite Hon by auto. rewrite negb_true_iff, Qceqb_false. unfold sel, weighted.
    destruct weights as [w|].
    - rewrite (Hw w eq_refl), Nat.eqb_refl. reflexivity.
    - rewrite Nf by auto. split.
      + rewrite inverted_one. destruct (Qcleb 1 (nth k count 0)) eqn:E; [now apply Qcleb_true in E|congruence].
      + intros H. apply Qc_pos_neq. now apply inverted_pos. }
  rewrite Ls, Lf.
  rewrite (filter_ext_in _ on (seq 0 (length image))) by (intros k Hk; apply in_seq in Hk; apply Es; lia).
  set (wi := filter on (seq 0 (length image))).
  assert (Iwi : forall k, In k wi <-> (k < length image)%nat /\ on k = true).
  { intros k. unfold wi. rewrite filter_In, in_seq. intuition lia. }
  assert (K0 : In k0 wi) by (apply Iwi; split; auto; now apply Hon).
  replace (forallb (fun k => k <? length image)%nat wi) with true.
  2:{ symmetry. apply forallb_forall. intros k Hk. apply Iwi in Hk. apply Nat.ltb_lt. tauto. }
  cbn [negb].
  assert (Lwi : (0 < length wi)%nat) by (destruct wi; [easy|simpl; lia]).
  rewrite (proj2 (Nat.ltb_lt _ _) Lwi).
  set (vals := map (fun k => nth k fu 0) wi).
  assert (Svals : 0 < Qcsum vals).
  { apply (Qcsum_pos _ (nth k0 fu 0)).
    - unfold vals. apply in_map_iff. eauto.
    - rewrite Nf by auto. now apply inverted_pos.
    - intros x Hx. unfold vals in Hx. apply in_map_iff in Hx. destruct Hx as (k & <- & Hk). apply Iwi in Hk.
      rewrite Nf by tauto. apply inverted_nonneg. }
  assert (Lv : length vals = length wi) by (unfold vals; now rewrite map_length).
  pose proof (qc_nat_pos _ Lwi) as Hn.
  unfold np_mean. rewrite Lv.
  cbn [xdiv]. destruct (Qc_eq_dec (Q2Qc (inject_Z (Z.of_nat (length wi)))) 0) as [E|_]; [now apply Qc_pos_neq in E|].
  set (mean := Qcsum vals / Q2Qc (inject_Z (Z.of_nat (length wi)))).
  assert (Hm : 0 < mean) by (unfold mean, Qcdiv; apply Qcmult_pos; auto; now apply Qcinv_pos).
  pose proof (Qc_pos_neq _ Hm) as Hm0.
  destruct (Qc_eq_dec mean 0) as [E|_]; [contradiction|].
  rewrite map_length, Lf, Nat.eqb_refl.
  assert (Efu : map (fun x => Fin (x / mean)) fu = map (fun k => Fin (/ mean * inverted (Some 1) (nth k count 0))) (seq 0 (length image))).
  { apply (nth_ext _ _ NaN NaN); [now rewrite !map_length, seq_length|]. rewrite map_length, Lf. intros k Hk.
    rewrite (nth_map_lt _ _ _ 0) by lia. rewrite nth_map_seq by auto. rewrite Nf by auto. f_equal. unfold Qcdiv. ring. }
  exists (/ mean). split; [now apply Qcinv_pos|]. split.
  - f_equal. f_equal; [|exact Efu]. rewrite Efu.
    apply (nth_ext _ _ None None); [rewrite !map_length, combine_length, map_length, seq_length; lia|].
    rewrite map_length, combine_length, map_length, seq_length, Nat.min_id. intros k Hk.
    rewrite (nth_map_lt _ _ _ (NaN, C0)) by (rewrite combine_length, map_length, seq_length; lia).
    rewrite combine_nth by (now rewrite map_length, seq_length). cbn [fst snd]. rewrite !nth_map_seq by auto. reflexivity.
  - transitivity (Qcsum (map (fun x => x / mean) vals)).
    + f_equal. unfold vals. rewrite map_map. apply map_ext_in. intros k Hk. apply Iwi in Hk. rewrite Nf by tauto. unfold Qcdiv. ring.
    + rewrite Qcsum_div. unfold mean. field. split; [now apply Qc_pos_neq|now apply Qc_pos_neq].
Qed.
