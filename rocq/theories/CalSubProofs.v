From Verif Require Import Base PyIndex Cplx WeightInvert Histogram HistogramProofs VisWeights Solver SolverSpec SolverProofs CalSub CalSubSpec
  AutoProofs CalAutoProofs CalibrateProofs HealpixCnvProofs.
From Coq Require Import Sorted Lqa.
Open Scope nat_scope.
Ltac Zify.zify_post_hook ::= idtac.

(** ** Weights *)
Lemma clip_unit w : clip w = unit_weight w.
Proof.
  unfold clip, unit_weight. destruct (Qcleb w 0) eqn:E.
  - apply Qcleb_spec in E. cbv zeta. replace (Qcleb 0 1) with true by (vm_compute; reflexivity).
    destruct (Qclt_le_dec 1 w) as [H|H].
    + exfalso. apply (Qclt_not_le _ _ H). apply Qcle_trans with 0%Qc; auto. discriminate.
    + destruct (Qclt_le_dec w 0); auto. now apply Qcle_antisym.
  - apply Qcleb_false in E. destruct (Qclt_le_dec 1 w) as [H|H].
    + destruct (Qcleb w 1) eqn:F; auto. apply Qcleb_spec in F. exfalso. now apply (Qclt_not_le _ _ H).
    + apply Qcleb_spec in H. rewrite H. destruct (Qclt_le_dec w 0) as [G|]; auto. exfalso.
      apply (Qclt_not_le _ _ G). now apply Qclt_le_weak.
Qed.
Lemma clip_nonneg w : (0 <= clip w)%Qc.
Proof.
  rewrite clip_unit. unfold unit_weight. destruct (Qclt_le_dec 1 w); [discriminate|]. destruct (Qclt_le_dec w 0); auto. discriminate.
Qed.
Lemma clip_zero w : (w <= 0)%Qc -> clip w = 0%Qc.
Proof. intros H. unfold clip. apply Qcleb_spec in H. rewrite H. reflexivity. Qed.

Lemma half_spec x y n : (qabs x * y <= half n)%Qc <-> (Q2Qc 2 * (magnitude x * y) <= Q2Qc (inject_Z n))%Qc.
Proof.
  assert (E : qabs x = magnitude x).
  { unfold qabs, magnitude, Qcleb. destruct (Qclt_le_dec x 0); reflexivity. }
  rewrite E. generalize (magnitude x * y)%Qc as z. intros z. unfold half, Qcle, Qcdiv, Qcmult, Qcinv. cbn [this Q2Qc]. rewrite !Qred_correct.
  change (/ 2)%Q with (1#2)%Q. split; intros; lra.
Qed.
Lemma cut_spec sqrt_ ci f b : cut sqrt_ ci f b = false <-> in_range sqrt_ ci f b.
Proof.
  unfold cut. rewrite !orb_false_iff, !negb_false_iff, !Qcleb_spec. unfold in_range, cal_min, cal_max.
  change (sqrt_ (ci_uu ci b / ci_kpix ci * (ci_uu ci b / ci_kpix ci) + ci_vv ci b / ci_kpix ci * (ci_vv ci b / ci_kpix ci)) * ci_freq ci f * ci_kpix ci)%Qc
    with (dist sqrt_ ci f b). change (ci_uu ci b / ci_kpix ci)%Qc with (kx ci b). change (ci_vv ci b / ci_kpix ci)%Qc with (ky ci b).
  cbv zeta. set (d := dist sqrt_ ci f b). clearbody d.
  assert (A : ((if Qc_eq_dec (ci_cal_min ci) 0 then ci_min ci else if Qcleb (ci_cal_min ci) (ci_min ci) then ci_min ci else ci_cal_min ci) <= d)%Qc
    <-> (ci_min ci <= d)%Qc /\ (ci_cal_min ci <> 0%Qc -> ci_cal_min ci <= d)%Qc).
  { destruct (Qc_eq_dec (ci_cal_min ci) 0) as [E|E]; [tauto|].
    destruct (Qcleb (ci_cal_min ci) (ci_min ci)) eqn:L.
    - apply Qcleb_spec in L. split; [|tauto]. intros H. split; auto. intros _. now apply Qcle_trans with (ci_min ci).
    - apply Qcleb_false in L. split; [|tauto]. intros H. split; auto. apply Qcle_trans with (ci_cal_min ci); auto. now apply Qclt_le_weak. }
  assert (B : (d <= (if Qc_eq_dec (ci_cal_max ci) 0 then ci_max ci else if Qcleb (ci_cal_max ci) (ci_max ci) then ci_cal_max ci else ci_max ci))%Qc
    <-> (d <= ci_max ci)%Qc /\ (ci_cal_max ci <> 0%Qc -> d <= ci_cal_max ci)%Qc).
  { destruct (Qc_eq_dec (ci_cal_max ci) 0) as [E|E]; [tauto|].
    destruct (Qcleb (ci_cal_max ci) (ci_max ci)) eqn:L.
    - apply Qcleb_spec in L. split; [|tauto]. intros H. split; auto. now apply Qcle_trans with (ci_cal_max ci).
    - apply Qcleb_false in L. split; [|tauto]. intros H. split; auto. intros _. apply Qcle_trans with (ci_max ci); auto. now apply Qclt_le_weak. }
  rewrite A, B. pose proof (half_spec (kx ci b) (ci_freq ci f) (ci_elements ci)). pose proof (half_spec (ky ci b) (ci_freq ci f) (ci_dimension ci)). tauto.
Qed.

Lemma weight_nonneg sqrt_ ci wts p f b : (0 <= weight sqrt_ ci wts p f b)%Qc.
Proof.
  unfold weight, weight0. destruct (cut _ _ _ _); [discriminate|]. destruct (ci_average ci); [|apply clip_nonneg].
  apply Qcsum_nonneg. intros x Hx. apply in_map_iff in Hx as (t & <- & _). apply clip_nonneg.
Qed.

Lemma weight_spec sqrt_ ci wts W p f b : total_weight sqrt_ ci wts W -> b < n_fitted ci -> weight sqrt_ ci wts p f b = W p f b.
Proof.
  intros HW Hb. destruct (HW p f b Hb) as [H1 H2]. unfold weight. destruct (cut sqrt_ ci f b) eqn:E.
  - symmetry. apply H2. intros R. apply cut_spec in R. congruence.
  - apply cut_spec in E. rewrite (H1 E). unfold weight0, samples. destruct (ci_average ci).
    + f_equal. rewrite map_map. apply map_ext. intros t. apply clip_unit.
    + cbn. rewrite clip_unit. symmetry. apply Qcplus_0_r.
Qed.

Lemma sum0_spec ci wts v p f b : sum0 ci wts v p f b = Csum (map (fun s => Cscale (unit_weight (wts p f s)) (v p f s)) (samples ci b)).
Proof.
  unfold sum0, samples. destruct (ci_average ci).
  - rewrite map_map. f_equal. apply map_ext. intros t. unfold sample. now rewrite clip_unit.
  - cbn [map]. rewrite clip_unit. rewrite Csum_cons. cbn [Csum fold_right]. ring.
Qed.

Lemma averaged_spec sqrt_ ci wts W v D p f b : total_weight sqrt_ ci wts W -> weighted_mean ci wts W v D -> b < n_fitted ci ->
  (0 < W p f b)%Qc -> averaged sqrt_ ci wts v p f b = D p f b.
Proof.
  intros HW HD Hb Hp. unfold averaged. rewrite (weight_spec _ _ _ _ _ _ _ HW Hb), sum0_spec, <- (HD p f b Hb Hp).
  apply Qc_pos_neq in Hp. generalize (W p f b) Hp. intros w Hw. apply C_ext; cbn [re im Cscale]; field; auto.
Qed.

(** ** Positions of the tiles *)
Lemma put_length {A} idx (v : A) : forall l, length (put l idx v) = length l.
Proof. induction idx as [|i idx IH]; intros l; cbn; auto. unfold put in *. rewrite IH. apply upd_length. Qed.

Lemma put_nth {A} idx (v d : A) : forall l k, k < length l -> nth k (put l idx v) d = if existsb (Nat.eqb k) idx then v else nth k l d.
Proof.
  induction idx as [|i idx IH]; intros l k Hk; [reflexivity|]. unfold put in *. cbn [fold_left existsb].
  rewrite IH by (rewrite upd_length; auto). destruct (existsb (Nat.eqb k) idx); [now rewrite orb_true_r|]. rewrite orb_false_r.
  destruct (Nat.eqb_spec k i) as [->|N]; [now apply upd_same|apply upd_other; congruence].
Qed.

Lemma find_pos_some l t k : NoDup l -> k < length l -> nth k l 0 = t -> find_pos l t = Some k.
Proof.
  intros N Hk E. unfold find_pos. destruct (find _ _) as [j|] eqn:F.
  - apply find_some in F as [Hj Ej]. apply in_seq in Hj. apply Nat.eqb_eq in Ej. f_equal.
    apply (proj1 (NoDup_nth l 0) N); [lia|auto|congruence].
  - exfalso. apply List.find_none with (x := k) in F; [|apply in_seq; lia]. apply Nat.eqb_neq in F. auto.
Qed.
Lemma find_pos_inv l t k : find_pos l t = Some k -> k < length l /\ nth k l 0 = t.
Proof. intros F. apply find_some in F as [Hj Ej]. apply in_seq in Hj. apply Nat.eqb_eq in Ej. split; auto; lia. Qed.
Lemma find_pos_none l t : ~ In t l -> find_pos l t = None.
Proof.
  intros H. destruct (find_pos l t) as [k|] eqn:E; auto. apply find_pos_inv in E as [Hk <-]. exfalso. apply H. now apply nth_In.
Qed.

Lemma positions_length ts h ri n : length (positions ts h ri n) = n.
Proof.
  unfold positions. generalize (seq 0 (length ts)). intros l.
  assert (G : forall l acc, length (fold_left (fun acc k =>
      let t := nth k ts 0 in if 0 <? nth t h 0 then put acc (slice ri (nth t ri 0) (nth (S t) ri 0)) k else acc) l acc) = length acc).
  { clear l. induction l as [|k l IH]; intros acc; cbn [fold_left]; auto. rewrite IH. cbv zeta. destruct (0 <? _); auto. apply put_length. }
  rewrite G. apply repeat_length.
Qed.

Lemma positions_nth zs n ts h bins ri k : 0 < n -> NoDup ts -> (forall t, In t ts -> t < n) ->
  histogram (map inject_Z zs) 1 None (Some 0%Q) (Some (inject_Z (Z.of_nat n - 1))) = Ok (h, bins, ri) ->
  k < length zs -> (0 <= nth k zs 0%Z)%Z ->
  nth k (positions ts h ri (length zs)) 0 = match find_pos ts (Z.to_nat (nth k zs 0%Z)) with Some j => j | None => 0 end.
Proof.
  intros Hn ND Hts E Hk Hz.
  destruct (histogram_Z zs 0 (Z.of_nat n - 1) ltac:(lia)) as (bins' & ri' & E' & _ & R & _ & _).
  change (inject_Z 0) with 0%Q in E'. rewrite E in E'. inversion E'. subst h bins' ri'. clear E' E.
  replace (Z.to_nat (Z.of_nat n - 1 - 0 + 1)) with n in * by lia. cbn [Z.add] in *.
  unfold positions. set (F := fun acc k0 => _).
  assert (G : forall m, m <= length ts -> nth k (fold_left F (seq 0 m) (repeat 0 (length zs))) 0
              = (match find_pos ts (Z.to_nat (nth k zs 0%Z)) with Some j => if j <? m then j else 0 | None => 0 end)
              /\ length (fold_left F (seq 0 m) (repeat 0 (length zs))) = length zs).
  { induction m as [|m IH]; intros Hm.
    - cbn. rewrite repeat_length. split; auto. rewrite nth_repeat. destruct (find_pos _ _); auto.
    - rewrite seq_S, fold_left_app. cbn [fold_left plus]. destruct IH as [IH1 IH2]; [lia|].
      unfold F at 1 3. cbv zeta. set (acc := fold_left F (seq 0 m) (repeat 0 (length zs))) in *. clearbody acc.
      assert (Ht : nth m ts 0 < n) by (apply Hts, nth_In; lia).
      rewrite nth_map_seq by auto. rewrite R by auto. rewrite z_count_positions.
      destruct (0 <? length (z_positions zs (Z.of_nat (nth m ts 0)))) eqn:P.
      + split; [|now rewrite put_length]. rewrite put_nth by lia. rewrite z_positions_has.
        replace (k <? length zs) with true by (symmetry; now apply Nat.ltb_lt). cbn [andb].
        destruct (Z.eqb_spec (nth k zs 0%Z) (Z.of_nat (nth m ts 0))) as [Eq|Ne].
        * rewrite (find_pos_some ts _ m); auto; [|lia]. now rewrite (proj2 (Nat.ltb_lt m (S m)) (Nat.lt_succ_diag_r m)).
        * rewrite IH1. destruct (find_pos ts _) as [j|] eqn:Fp; auto. apply find_pos_inv in Fp as [Hj Ej].
          assert (j <> m) by (intros ->; lia). destruct (Nat.ltb_spec j m), (Nat.ltb_spec j (S m)); auto; lia.
      + split; [|auto]. rewrite IH1. destruct (find_pos ts _) as [j|] eqn:Fp; auto. apply find_pos_inv in Fp as [Hj Ej].
        assert (j <> m).
        { intros ->. apply Nat.ltb_ge in P. assert (X : In k (z_positions zs (Z.of_nat (nth m ts 0)))).
          { apply filter_In. rewrite in_seq, Z.eqb_eq. lia. }
          destruct (z_positions zs _); [destruct X|cbn in P; lia]. }
        destruct (Nat.ltb_spec j m), (Nat.ltb_spec j (S m)); auto; lia. }
  destruct (G (length ts) (le_n _)) as [G1 _]. rewrite G1. destruct (find_pos ts _) as [j|] eqn:Fp; auto.
  apply find_pos_inv in Fp as [Hj _]. now rewrite (proj2 (Nat.ltb_lt _ _) Hj).
Qed.

(** ** Which frequencies, baselines and tiles are used *)
Lemma Qcsum_ex (l : list Qc) : (forall x, In x l -> (0 <= x)%Qc) -> Qcsum l <> 0%Qc <-> exists x, In x l /\ (0 < x)%Qc.
Proof.
  intros N. split.
  - intros H. induction l as [|a l IH]; [destruct H; reflexivity|].
    destruct (Qc_eq_dec a 0) as [->|Ha].
    + rewrite Qcsum_cons, Qcplus_0_l in H. destruct IH as (x & Hx & P); auto; [intros; apply N; now right|]. exists x. split; auto. now right.
    + exists a. split; [now left|]. destruct (Qcle_lt_or_eq 0 a) as [|E]; [apply N; now left| auto|]. congruence.
  - intros (x & Hx & P) E. pose proof (Qcsum_zero l N E x Hx) as Z. apply Qc_pos_neq in P. auto.
Qed.
Lemma Qcsum_pos_ex (l : list Qc) : (forall x, In x l -> (0 <= x)%Qc) -> Qcleb (Qcsum l) 0 = false <-> exists x, In x l /\ (0 < x)%Qc.
Proof.
  intros N. rewrite <- Qcsum_ex by auto. rewrite Qcleb_false. split.
  - intros H E. apply Qc_pos_neq in H. auto.
  - intros H. destruct (Qcle_lt_or_eq 0 (Qcsum l)) as [|E]; auto; [now apply Qcsum_nonneg|congruence].
Qed.

Lemma freqs_used_In sqrt_ ci wts W p f : total_weight sqrt_ ci wts W ->
  In f (freqs_used sqrt_ ci wts p) <-> good_freq ci W p f.
Proof.
  intros HW. unfold freqs_used, good_freq. rewrite filter_In, in_seq, andb_true_iff, negb_true_iff, Z.ltb_lt.
  rewrite Qcsum_pos_ex.
  - split.
    + intros [H1 [(x & Hx & P) H2]]. split; [lia|]. split; auto. apply in_map_iff in Hx as (b & <- & Hb). apply in_seq in Hb.
      exists b. change (columns ci) with (n_fitted ci) in Hb. split; [lia|]. rewrite <- (weight_spec _ _ _ _ p f b HW); auto. lia.
    + intros (H1 & H2 & b & Hb & P). split; [lia|]. split; auto. exists (weight sqrt_ ci wts p f b).
      split; [apply in_map, in_seq; change (columns ci) with (n_fitted ci); lia|]. now rewrite (weight_spec _ _ _ _ p f b HW).
  - intros x Hx. apply in_map_iff in Hx as (b & <- & _). apply weight_nonneg.
Qed.
Lemma bls_used_In sqrt_ ci wts W p b : total_weight sqrt_ ci wts W ->
  In b (bls_used sqrt_ ci wts p) <-> b < n_fitted ci /\ exists f, f < ci_freqs ci /\ (0 < W p f b)%Qc.
Proof.
  intros HW. unfold bls_used. rewrite filter_In, in_seq, negb_true_iff. change (columns ci) with (n_fitted ci).
  unfold Qceqb. split.
  - intros [Hb H]. split; [lia|]. match type of H with (if ?c then _ else _) = _ => destruct c as [|N]; [discriminate|] end.
    apply Qcsum_ex in N as (x & Hx & P); [|intros x Hx; apply in_map_iff in Hx as (f & <- & _); apply weight_nonneg].
    apply in_map_iff in Hx as (f & <- & Hf). apply in_seq in Hf. exists f. split; [lia|].
    rewrite <- (weight_spec _ _ _ _ p f b HW); auto. lia.
  - intros (Hb & f & Hf & P). split; [lia|]. match goal with |- (if ?c then _ else _) = _ => destruct c as [Z|]; [|reflexivity] end.
    exfalso. revert Z. apply Qcsum_ex; [intros x Hx; apply in_map_iff in Hx as (g & <- & _); apply weight_nonneg|].
    exists (weight sqrt_ ci wts p f b). split; [apply in_map_iff; exists f; split; auto; apply in_seq; lia|].
    now rewrite (weight_spec _ _ _ _ p f b HW).
Qed.

Lemma tiles_nth ci l b : length l = ci_times ci * ci_bls ci -> 0 < ci_times ci -> b < n_fitted ci ->
  b < length l /\ b < length (tiles_of ci l) /\ nth b (tiles_of ci l) 0%Z = (nth b l 0 - 1)%Z.
Proof.
  intros L Ht Hb. unfold n_fitted, tiles_of in *.
  assert (Hl : b < length l).
  { rewrite L. destruct (ci_average ci); auto. apply Nat.lt_le_trans with (ci_bls ci); auto. destruct (ci_times ci); [lia|]. cbn. lia. }
  split; auto.
  assert (E : nth b (map (fun z => (z - 1)%Z) l) 0%Z = (nth b l 0 - 1)%Z).
  { rewrite nth_indep with (d' := (0 - 1)%Z) by now rewrite map_length. apply (map_nth (fun z => (z - 1)%Z)). }
  destruct (ci_average ci).
  - rewrite firstn_length, map_length. split; [lia|]. rewrite <- E.
    rewrite <- (firstn_skipn (ci_bls ci) (map (fun z => (z - 1)%Z) l)) at 2. rewrite app_nth1; auto.
    rewrite firstn_length, map_length. lia.
  - rewrite map_length. auto.
Qed.

Lemma gather_inv l idx r : gather l idx = Ok r -> r = map (fun i => nth i l 0%Z) idx.
Proof. unfold gather. destruct (forallb _ _); intros H; now inversion H. Qed.

Definition rank_or0 (ts : list nat) (t : nat) : nat := match find_pos ts t with Some j => j | None => 0 end.

(** The tiles of the used baselines, and the positions computed from the histogram *)
Lemma tile_side ci l bls r h bins ri ts : 0 < ci_tiles ci -> 0 < ci_times ci -> length l = ci_times ci * ci_bls ci ->
  (forall z, In z l -> (1 <= z <= Z.of_nat (ci_tiles ci))%Z) -> (forall b, In b bls -> b < n_fitted ci) ->
  gather (tiles_of ci l) bls = Ok r -> tile_histogram ci r = Ok (h, bins, ri) ->
  (forall t, t < ci_tiles ci -> (0 < nth t h 0 <-> exists b, In b bls /\ Z.to_nat (nth b l 0%Z - 1) = t))
  /\ length h = ci_tiles ci
  /\ (NoDup ts -> (forall t, In t ts -> t < ci_tiles ci) -> forall k, k < length bls ->
        nth k (positions ts h ri (length bls)) 0 = rank_or0 ts (Z.to_nat (nth (nth k bls 0) l 0%Z - 1))).
Proof.
  intros Hn Ht L In1 Hb G Hh. apply gather_inv in G. subst r. unfold tile_histogram in Hh.
  set (zs := map (fun i => nth i (tiles_of ci l) 0%Z) bls) in *.
  assert (Lz : length zs = length bls) by (unfold zs; now rewrite map_length).
  assert (Nz : forall k, k < length bls -> nth k zs 0%Z = (nth (nth k bls 0%nat) l 0 - 1)%Z /\ (0 <= nth k zs 0%Z)%Z).
  { intros k Hk. assert (Hk' : In (nth k bls 0) bls) by now apply nth_In.
    destruct (tiles_nth ci l (nth k bls 0) L Ht (Hb _ Hk')) as (A & _ & B).
    assert (E : nth k zs 0%Z = (nth (nth k bls 0%nat) l 0 - 1)%Z).
    { unfold zs. rewrite nth_indep with (d' := nth 0 (tiles_of ci l) 0%Z) by (rewrite map_length; auto).
      rewrite (map_nth (fun i => nth i (tiles_of ci l) 0%Z)). exact B. }
    split; auto. rewrite E. specialize (In1 (nth (nth k bls 0) l 0%Z) (nth_In _ _ A)). lia. }
  split; [|split].
  - intros t Htn. destruct (histogram_Z zs 0 (Z.of_nat (ci_tiles ci) - 1) ltac:(lia)) as (bins' & ri' & E' & _).
    change (inject_Z 0) with 0%Q in E'. rewrite Hh in E'. inversion E'. subst h.
    replace (Z.to_nat (Z.of_nat (ci_tiles ci) - 1 - 0 + 1)) with (ci_tiles ci) by lia.
    rewrite nth_map_seq by auto. rewrite z_count_positions. cbn [Z.add]. split.
    + intros P. destruct (z_positions zs (Z.of_nat t)) as [|k ks] eqn:E; [cbn in P; lia|].
      assert (X : In k (z_positions zs (Z.of_nat t))) by (rewrite E; now left).
      apply filter_In in X as [X1 X2]. apply in_seq in X1. apply Z.eqb_eq in X2. exists (nth k bls 0). split; [apply nth_In; lia|].
      destruct (Nz k ltac:(lia)) as [<- _]. lia.
    + intros (b & Hbb & E). destruct (In_nth _ _ 0 Hbb) as (k & Hk & Ek). subst b. destruct (Nz k Hk) as [N1 N2].
      assert (X : In k (z_positions zs (Z.of_nat t))) by (apply filter_In; rewrite in_seq, Z.eqb_eq; lia).
      destruct (z_positions zs _); [destruct X|cbn; lia].
  - destruct (histogram_Z zs 0 (Z.of_nat (ci_tiles ci) - 1) ltac:(lia)) as (bins' & ri' & E' & _).
    change (inject_Z 0) with 0%Q in E'. rewrite Hh in E'. inversion E'. rewrite map_length, seq_length. lia.
  - intros ND Hts k Hk. rewrite <- Lz. destruct (Nz k Hk) as [N1 N2]. rewrite <- N1.
    apply (positions_nth zs (ci_tiles ci) ts h bins ri); auto. lia.
Qed.

Lemma sorted_NoDup (l : list nat) : StronglySorted lt l -> NoDup l.
Proof.
  intros S'. induction S' as [|a l S' IH F]; constructor; auto. intros H. rewrite Forall_forall in F. specialize (F a H). lia.
Qed.

Lemma rank_pos ts t : StronglySorted lt ts -> In t ts -> find_pos ts t = Some (rank ts t).
Proof.
  intros S' H. destruct (In_nth _ _ 0 H) as (k & Hk & E). rewrite (find_pos_some ts t k); auto using sorted_NoDup. f_equal. unfold rank.
  revert k Hk E H. induction S' as [|a l S' IH F]; intros k Hk E H; [cbn in Hk; lia|].
  rewrite Forall_forall in F. destruct k as [|k]; cbn in E, Hk.
  - subst a. cbn [filter]. rewrite Nat.ltb_irrefl. rewrite filter_none; [reflexivity|]. intros x Hx. apply Nat.ltb_ge. specialize (F x Hx). lia.
  - assert (In t l) by (subst t; apply nth_In; lia). specialize (F t H0). cbn [filter]. rewrite (proj2 (Nat.ltb_lt a t) F). cbn. f_equal.
    apply IH; auto; lia.
Qed.

Definition flagged_tile (ci : cal_in) (W : nat -> nat -> nat -> Qc) (p t : nat) : Prop :=
  nth t (ci_tile_use ci) 0%Z = 0%Z /\ ~ has_data ci W p t.

Lemma cal_pol_inv cabs sqrt_ ci vis model wts start W ts p prev o c w :
  consistent ci -> total_weight sqrt_ ci wts W -> lists_tiles ci W p ts ->
  cal_pol cabs sqrt_ ci vis model wts start p prev = Ok (o, c, w) ->
  exists pa pb outs curr rows flagged,
    (forall k, k < length (bls_used sqrt_ ci wts p) ->
       nth k pa 0 = rank_or0 ts (tile1 ci (nth k (bls_used sqrt_ ci wts p) 0))
       /\ nth k pb 0 = rank_or0 ts (tile2 ci (nth k (bls_used sqrt_ ci wts p) 0)))
    /\ ts <> [] /\ (0 <= ci_max_iter ci)%Z
    /\ map_res (fun f =>
              r <- solve cabs (settings ci ts) (equations (freq_data sqrt_ ci vis model wts p f (bls_used sqrt_ ci wts p) pa pb))
                     (length ts) (map (start p f) ts) ;;
              Ok (f, r)) (freqs_used sqrt_ ci wts p) = Ok outs
    /\ c = Some curr
    /\ match outs with [] => prev | _ => Some (curr_of (length ts) (snd (last outs (0, Build_sout None [] 0 false)))) end = Some curr
    /\ nan_rows (ci_freqs ci) (ci_times ci * ci_bls ci) (columns ci) curr = Ok (rows, po_zeroed o)
    /\ (forall t, t < ci_tiles ci -> flagged t = true <-> flagged_tile ci W p t)
    /\ (forall f t, t < ci_tiles ci -> po_gain o f t =
               if (flagged t : bool) then None
               else if memn f rows then Some C0
               else match assoc outs f, find_pos ts t with
                    | Some r, Some k => nth k (curr_of (length ts) r) None
                    | _, _ => Some (start p f t)
                    end)
    /\ (forall f t, po_conv o f t = match assoc outs f, find_pos ts t with
                                   | Some r, Some k => nth k (r_conv r) None
                                   | _, _ => Some 0%Qc
                                   end)
    /\ po_nconv o = length (filter (fun x => r_converged (snd x)) outs)
    /\ w = fun f b => if memn b (po_zeroed o) then 0%Qc else weight sqrt_ ci wts p f b.
Proof.
  intros Cs HW [St Lt] H. pose proof Cs as [Ct Cm La Lb Lf Lu Ia Ib]. unfold cal_pol in H.
  rewrite Lf, Lu, !Nat.eqb_refl in H. cbn [andb negb] in H.
  set (bls := bls_used sqrt_ ci wts p) in *.
  assert (Hb : forall b, In b bls -> b < n_fitted ci) by (intros b B; unfold bls in B; rewrite (bls_used_In _ _ _ W) in B; tauto).
  apply bind_ok in H as (ta & Ga & H). apply bind_ok in H as (tb & Gb & H).
  apply bind_ok in H as ([[ha ba] ria] & Ha & H). apply bind_ok in H as ([[hb bb] rib] & Hbb & H).
  destruct (tile_side ci _ bls ta ha ba ria ts Ct Cm La Ia Hb Ga Ha) as (A1 & A2 & A3).
  destruct (tile_side ci _ bls tb hb bb rib ts Ct Cm Lb Ib Hb Gb Hbb) as (B1 & B2 & B3).
  assert (Cnt : forall t, t < ci_tiles ci -> (0 < nth t ha 0 + nth t hb 0 <-> has_data ci W p t)).
  { intros t Htn. specialize (A1 t Htn). specialize (B1 t Htn). split.
    - intros Z. assert (X : 0 < nth t ha 0 \/ 0 < nth t hb 0) by lia.
      destruct X as [X|X]; [apply A1 in X|apply B1 in X]; destruct X as (b & Bi & Bt); unfold bls in Bi;
        rewrite (bls_used_In _ _ _ W) in Bi by auto; destruct Bi as (Bn & f & Hf & P); exists f, b; auto 6.
    - intros (f & b & Hf & Hbn & P & E).
      assert (Bi : In b bls) by (unfold bls; rewrite (bls_used_In _ _ _ W) by auto; eauto).
      destruct E as [E|E]; [enough (0 < nth t ha 0) by lia; apply A1|enough (0 < nth t hb 0) by lia; apply B1]; exists b; auto. }
  cbv zeta in H.
  match type of H with context [filter ?q (seq 0 (ci_tiles ci))] =>
    assert (Ets : filter (fun t => (0 <? nth t ha 0 + nth t hb 0) && (0 <? nth t (ci_tile_use ci) 0)%Z) (seq 0 (ci_tiles ci)) = ts) end.
  { apply sorted_lt_ext; auto.
    - apply filter_sorted, seq_sorted.
    - intros t. rewrite filter_In, in_seq, andb_true_iff, Nat.ltb_lt, Z.ltb_lt, Lt. unfold good_tile. split.
      + intros (Z & X & Y). split; [lia|]. split; auto. apply Cnt; auto. lia.
      + intros (Z & X & Y). split; [lia|]. split; auto. now apply Cnt. }
  rewrite Ets in H. clear Ets.
  set (flg := filter (fun t => (nth t ha 0 + nth t hb 0 =? 0) && (nth t (ci_tile_use ci) 0 =? 0)%Z) (seq 0 (ci_tiles ci))) in *.
  assert (Tlt : forall t, In t ts -> t < ci_tiles ci) by (intros t Hti; apply Lt in Hti; apply Hti).
  specialize (A3 (sorted_NoDup _ St) Tlt). specialize (B3 (sorted_NoDup _ St) Tlt).
  set (pa := positions ts ha ria (length bls)) in *. set (pb := positions ts hb rib (length bls)) in *.
  apply bind_ok in H as ([ref moved] & Hr & H).
  assert (R : ref = (if existsb (Nat.eqb 1) ts then rank ts 1 else 0) /\ ts <> []).
  { destruct (existsb (Nat.eqb 1) ts) eqn:E.
    - apply existsb_exists in E as (x & Hx & E). apply Nat.eqb_eq in E. subst x.
      rewrite (rank_pos ts 1 St Hx) in Hr. inversion Hr. split; auto. intros ->. destruct Hx.
    - rewrite find_pos_none in Hr.
      + destruct ts; inversion Hr. split; auto. discriminate.
      + intros X. assert (existsb (Nat.eqb 1) ts = true) by (apply existsb_exists; exists 1; auto). congruence. }
  destruct R as [R Tne]. clear Hr. destruct (ci_max_iter ci <? 0)%Z eqn:Mx; [discriminate|]. apply Z.ltb_ge in Mx.
  change (config ci ref) with {| s_max := ci_max_iter ci; s_phase := phase_iter ci; s_base := ci_base ci; s_thr := ci_thr ci;
    s_adapt := ci_adapt ci; s_ref := ref; s_noref := ci_noref ci |} in H.
  rewrite R in H. change ({| s_max := ci_max_iter ci; s_phase := phase_iter ci; s_base := ci_base ci; s_thr := ci_thr ci;
    s_adapt := ci_adapt ci; s_ref := if existsb (Nat.eqb 1) ts then rank ts 1 else 0; s_noref := ci_noref ci |}) with (settings ci ts) in H.
  apply bind_ok in H as (outs & Ho & H).
  match type of H with match ?m with _ => _ end = _ => destruct m as [curr|] eqn:El; [|discriminate] end.
  apply bind_ok in H as ([rows cols] & Hn & H). inversion H. subst o c w. clear H.
  exists pa, pb, outs, curr, rows, (fun t => memn t flg).
  split; [intros k Hk; split; [now apply A3|now apply B3]|]. split; [exact Tne|]. split; [exact Mx|]. split; [exact Ho|]. split; [reflexivity|].
  split; [exact El|]. split; [exact Hn|]. split; [|split; [reflexivity|split; [reflexivity|split; reflexivity]]].
  intros t Htn. unfold flagged_tile. rewrite <- (Cnt t Htn). unfold memn. split.
  - intros X. apply existsb_exists in X as (x & Hx & E). apply Nat.eqb_eq in E. subst x. unfold flg in Hx.
    rewrite filter_In, andb_true_iff, Nat.eqb_eq, Z.eqb_eq in Hx. lia.
  - intros [X Y]. apply existsb_exists. exists t. split; [|apply Nat.eqb_refl]. unfold flg.
    rewrite filter_In, in_seq, andb_true_iff, Nat.eqb_eq, Z.eqb_eq. lia.
Qed.

Lemma consistent_nth_range ci l b : length l = ci_times ci * ci_bls ci -> 0 < ci_times ci ->
  (forall z, In z l -> (1 <= z <= Z.of_nat (ci_tiles ci))%Z) -> b < n_fitted ci -> Z.to_nat (nth b l 0%Z - 1) < ci_tiles ci.
Proof.
  intros L Ht In1 Hb. destruct (tiles_nth ci l b L Ht Hb) as (A & _). specialize (In1 _ (nth_In l 0%Z A)). lia.
Qed.

(** ** The equations of one frequency *)
Lemma filter_positive_map (F : nat -> baseline) l : filter positive (map F l) = map F (filter (fun b => positive (F b)) l).
Proof. apply filter_map_comm. Qed.

Lemma equations_ext l l' : filter positive l = filter positive l' -> equations l = equations l'.
Proof. unfold equations. now intros ->. Qed.

Lemma map_nth_all {A} (F : nat -> A) (l : list nat) : map (fun k => F (nth k l 0)) (seq 0 (length l)) = map F l.
Proof. rewrite <- (map_map (fun k => nth k l 0) F). now rewrite map_nth_seq. Qed.

Lemma filter_filter {A} (p q : A -> bool) l : filter p (filter q l) = filter (fun x => p x && q x) l.
Proof. induction l as [|a l IH]; cbn; auto. destruct (q a) eqn:Q; cbn; rewrite ?IH, ?andb_false_r; auto. destruct (p a); reflexivity. Qed.

Lemma equations_problem sqrt_ ci vis model wts W D M ts p f pa pb :
  consistent ci -> total_weight sqrt_ ci wts W -> weighted_mean ci wts W vis D -> weighted_mean ci wts W model M ->
  lists_tiles ci W p ts -> flags_agree ci W p -> f < ci_freqs ci ->
  (forall k, k < length (bls_used sqrt_ ci wts p) ->
       nth k pa 0 = rank_or0 ts (tile1 ci (nth k (bls_used sqrt_ ci wts p) 0))
       /\ nth k pb 0 = rank_or0 ts (tile2 ci (nth k (bls_used sqrt_ ci wts p) 0))) ->
  equations (freq_data sqrt_ ci vis model wts p f (bls_used sqrt_ ci wts p) pa pb) = equations (problem ci W D M ts p f).
Proof.
  intros Cs HW HD HM [St Lt] Fl Hf Hp. apply equations_ext. unfold freq_data, problem. pose proof Cs as [Ct Cm La Lb Lf Lu Ia Ib].
  set (bls := bls_used sqrt_ ci wts p) in *.
  set (F := fun b => {| b_a := rank_or0 ts (tile1 ci b); b_b := rank_or0 ts (tile2 ci b);
     b_data := averaged sqrt_ ci wts vis p f b; b_model := averaged sqrt_ ci wts model p f b; b_weight := weight sqrt_ ci wts p f b |}).
  rewrite (map_ext_in _ (fun k => F (nth k bls 0))).
  2:{ intros k Hk. apply in_seq in Hk. destruct (Hp k ltac:(lia)) as [E1 E2]. cbv zeta. rewrite E1, E2. reflexivity. }
  rewrite map_nth_all, !filter_positive_map. unfold bls at 1, bls_used. rewrite filter_filter.
  change (columns ci) with (n_fitted ci).
  assert (Pos : forall b w (G : nat -> baseline), b_weight (G b) = w -> positive (G b) = negb (Qcleb w 0)) by (intros b w G <-; reflexivity).
  rewrite (filter_ext_in _ (fun b => negb (Qcleb (W p f b) 0))).
  2:{ intros b Hb. apply in_seq in Hb. unfold positive, F. cbn [b_weight]. rewrite (weight_spec _ _ _ W) by (auto; lia).
      destruct (Qcleb (W p f b) 0) eqn:E; [reflexivity|]. cbn [negb andb]. apply Qcleb_false in E.
      assert (X : In b bls) by (unfold bls; rewrite (bls_used_In _ _ _ W) by auto; split; [lia|eauto]).
      unfold bls, bls_used in X. apply filter_In in X. apply X. }
  transitivity (map F (filter (fun b => negb (Qcleb (W p f b) 0)) (seq 0 (n_fitted ci)))); [reflexivity|].
  cbn [b_weight positive]. unfold positive. cbn [b_weight].
  apply map_ext_in. intros b Hb. apply filter_In in Hb as [Hb P]. apply in_seq in Hb. apply negb_true_iff, Qcleb_false in P.
  assert (Hb' : b < n_fitted ci) by lia. destruct (Fl f b Hf Hb' P) as [U1 U2].
  assert (T1 : In (tile1 ci b) ts).
  { apply Lt. split; [|split; [exact U1|exists f, b; auto]]. unfold tile1. eapply consistent_nth_range; eauto. }
  assert (T2 : In (tile2 ci b) ts).
  { apply Lt. split; [|split; [exact U2|exists f, b; auto 6]]. unfold tile2. eapply consistent_nth_range; eauto. }
  unfold F, rank_or0. rewrite (rank_pos ts _ St T1), (rank_pos ts _ St T2), (weight_spec _ _ _ W) by auto.
  rewrite (averaged_spec _ _ _ W vis D), (averaged_spec _ _ _ W model M) by auto. reflexivity.
Qed.

(** ** The results *)
Lemma assoc_map_res {A B} (g : nat -> result B) (k : nat -> B -> A) (l : list nat) outs f :
  map_res (fun f => r <- g f ;; Ok (f, k f r)) l = Ok outs ->
  (In f l -> exists r, g f = Ok r /\ assoc outs f = Some (k f r)) /\ (~ In f l -> assoc outs f = None).
Proof.
  revert outs. induction l as [|a l IH]; intros outs H; cbn [map_res] in H.
  - inversion H. split; [intros []|reflexivity].
  - apply bind_ok in H as (x & Hx & H). apply bind_ok in Hx as (r & Hr & Hx). inversion Hx. subst x. clear Hx.
    apply bind_ok in H as (xs & Hxs & H). inversion H. subst outs. clear H. destruct (IH xs Hxs) as [I1 I2].
    unfold assoc in *. cbn [find fst]. destruct (Nat.eqb_spec a f) as [->|N].
    + split; [intros _; eauto|]. intros X. exfalso. apply X. now left.
    + split; [|intros X; apply I2; intros Y; apply X; now right]. intros [X|X]; [congruence|auto].
Qed.

Lemma curr_nth n r k : nth k (curr_of n r) None = match r_gain r with Some g => nth_error g k | None => None end.
Proof.
  unfold curr_of. destruct (r_gain r) as [g|].
  - revert k. induction g as [|a g IH]; intros [|k]; cbn; auto.
  - revert n. induction k as [|k IH]; intros [|n]; cbn; auto.
Qed.

Lemma nan_rows_nil nf ns nc curr rows : 0 < nf -> nan_rows nf ns nc curr = Ok (rows, []) -> rows = [].
Proof.
  intros Hn H. unfold nan_rows in H. destruct (where_ _ curr) as [|k l] eqn:E; [now inversion H|].
  destruct (negb _); [discriminate|]. destruct (negb _); [discriminate|]. inversion H as [[H1 H2]].
  exfalso. apply map_eq_nil in H2.
  apply (@in_nil nat (k mod nf)). rewrite <- H2. apply filter_In. split; [apply in_seq; split; [lia|]; apply Nat.mod_upper_bound; lia|].
  rewrite Nat.eqb_refl. reflexivity.
Qed.

(** Polarisation by polarisation *)
Lemma cal_pols_nth cabs sqrt_ ci vis model wts start : forall ps prev os w k o,
  cal_pols cabs sqrt_ ci vis model wts start ps prev = Ok (os, w) -> nth_error os k = Some o ->
  exists p prev' c w', nth_error ps k = Some p /\ cal_pol cabs sqrt_ ci vis model wts start p prev' = Ok (o, c, w').
Proof.
  induction ps as [|p ps IH]; intros prev os w k o H Hk; cbn [cal_pols] in H.
  - inversion H. subst os. destruct k; discriminate.
  - apply bind_ok in H as ([[o1 pv] w1] & H1 & H). apply bind_ok in H as ([os' wl] & H2 & H). inversion H. subst os w. clear H.
    destruct k as [|k]; cbn [nth_error] in *.
    + inversion Hk. subst o1. eauto 6.
    + eapply IH; eauto.
Qed.
Lemma sub_nth cabs sqrt_ ci vis model wts start out p o :
  vis_calibrate_subroutine cabs sqrt_ ci vis model wts start = Ok out -> nth_error (so_pols out) p = Some o ->
  exists prev c w, cal_pol cabs sqrt_ ci vis model wts start p prev = Ok (o, c, w).
Proof.
  intros H Ho. unfold vis_calibrate_subroutine in H. apply bind_ok in H as ([os w] & H1 & H). destruct w as [w|]; [|discriminate].
  inversion H. subst out. clear H. cbn [so_pols] in Ho. destruct (cal_pols_nth _ _ _ _ _ _ _ _ _ _ _ _ _ H1 Ho) as (q & prev & c & w' & Hq & Hc).
  rewrite nth_error_nth' with (d := 0) in Hq.
  - assert (Hp : p < ci_pols ci).
    { destruct (Nat.lt_ge_cases p (ci_pols ci)); auto. exfalso. 
      assert (L : length os = ci_pols ci).
      { clear Ho Hq Hc. rewrite <- (seq_length (ci_pols ci) 0). revert H1. generalize (seq 0 (ci_pols ci)), (@None (list (option C))), (Some w), os.
        clear. induction l as [|a l IH]; intros pv w os H; cbn [cal_pols] in H; [now inversion H|].
        apply bind_ok in H as ([[o1 pv1] w1] & _ & H). apply bind_ok in H as ([os' wl] & H2 & H). inversion H. cbn. f_equal. eapply IH; eauto. }
      assert (nth_error os p = None) by (apply nth_error_None; lia). congruence. }
    rewrite seq_nth in Hq by auto. inversion Hq. subst q. eauto.
  - destruct (Nat.lt_ge_cases p (length (seq 0 (ci_pols ci)))); auto. apply nth_error_None in H. congruence.
Qed.

(** ** Data without weight does not matter *)
Lemma sample_mod ci t b : b < ci_bls ci -> sample ci t b mod ci_bls ci = b.
Proof. intros H. unfold sample. rewrite Nat.add_comm, Nat.mod_add by lia. now apply Nat.mod_small. Qed.
Lemma sample_lt ci t b : t < ci_times ci -> b < ci_bls ci -> sample ci t b < ci_times ci * ci_bls ci.
Proof. intros H1 H2. unfold sample. nia. Qed.

Definition same_usable sqrt_ ci (vis model vis' model' : nat -> nat -> nat -> C) (wts wts' : nat -> nat -> nat -> Qc) : Prop :=
  forall p f s, s < ci_times ci * ci_bls ci ->
    (wts p f s = wts' p f s /\ vis p f s = vis' p f s /\ model p f s = model' p f s)
    \/ (~ usable_sample sqrt_ ci wts p f s /\ ~ usable_sample sqrt_ ci wts' p f s).

Lemma same_weighted sqrt_ ci vis model vis' model' wts wts' p f b : same_usable sqrt_ ci vis model vis' model' wts wts' ->
  b < columns ci ->
  weight sqrt_ ci wts p f b = weight sqrt_ ci wts' p f b
  /\ averaged sqrt_ ci wts vis p f b = averaged sqrt_ ci wts' vis' p f b
  /\ averaged sqrt_ ci wts model p f b = averaged sqrt_ ci wts' model' p f b.
Proof.
  intros Sm Hb. unfold averaged, weight. destruct (cut sqrt_ ci f b) eqn:Ct.
  - split; [reflexivity|]. split; apply C_ext; cbn [re im Cscale]; change (/ 0)%Qc with 0%Qc; ring.
  - assert (K : forall s, s < ci_times ci * ci_bls ci -> (if ci_average ci then s mod ci_bls ci else s) = b ->
        clip (wts p f s) = clip (wts' p f s)
        /\ Cscale (clip (wts p f s)) (vis p f s) = Cscale (clip (wts' p f s)) (vis' p f s)
        /\ Cscale (clip (wts p f s)) (model p f s) = Cscale (clip (wts' p f s)) (model' p f s)).
    { intros s Hs E. destruct (Sm p f s Hs) as [(-> & -> & ->)|[N1 N2]]; [auto|].
      apply cut_spec in Ct. unfold usable_sample in N1, N2. rewrite E in N1, N2.
      assert (Z1 : clip (wts p f s) = 0%Qc) by (apply clip_zero; destruct (Qclt_le_dec 0 (wts p f s)); auto; exfalso; apply N1; auto).
      assert (Z2 : clip (wts' p f s) = 0%Qc) by (apply clip_zero; destruct (Qclt_le_dec 0 (wts' p f s)); auto; exfalso; apply N2; auto).
      rewrite Z1, Z2. split; [reflexivity|]. split; apply C_ext; cbn [re im Cscale]; ring. }
    assert (W0 : weight0 ci wts p f b = weight0 ci wts' p f b /\ sum0 ci wts vis p f b = sum0 ci wts' vis' p f b
                 /\ sum0 ci wts model p f b = sum0 ci wts' model' p f b).
    { unfold weight0, sum0, columns in *. destruct (ci_average ci).
      - repeat split; f_equal; apply map_ext_in; intros t Ht; apply in_seq in Ht;
          (destruct (K (sample ci t b)) as (A1 & A2 & A3); [apply sample_lt; auto; lia|now apply sample_mod|assumption]).
      - destruct (K b Hb eq_refl) as (A1 & A2 & A3). auto. }
    destruct W0 as (-> & -> & ->). auto.
Qed.

Lemma map_res_ext {A B} (f g : A -> result B) l : (forall x, In x l -> f x = g x) -> map_res f l = map_res g l.
Proof.
  intros H. induction l as [|a l IH]; cbn; auto. rewrite H by now left. destruct (g a); cbn; auto. rewrite IH; auto. intros; apply H; now right.
Qed.

Lemma cal_pol_same cabs sqrt_ ci vis model vis' model' wts wts' start p prev : same_usable sqrt_ ci vis model vis' model' wts wts' ->
  match cal_pol cabs sqrt_ ci vis model wts start p prev, cal_pol cabs sqrt_ ci vis' model' wts' start p prev with
  | Ok (o, c, w), Ok (o', c', w') => o = o' /\ c = c' /\ forall f b, f < ci_freqs ci -> b < columns ci -> w f b = w' f b
  | Err e, Err e' => e = e'
  | _, _ => False
  end.
Proof.
  intros Sm.
  assert (F : freqs_used sqrt_ ci wts' p = freqs_used sqrt_ ci wts p).
  { unfold freqs_used. apply filter_ext_in. intros f _. do 4 f_equal. apply map_ext_in. intros b Hb. apply in_seq in Hb.
    symmetry. apply (same_weighted _ _ _ _ _ _ _ _ p f b Sm). lia. }
  assert (B : bls_used sqrt_ ci wts' p = bls_used sqrt_ ci wts p).
  { unfold bls_used. apply filter_ext_in. intros b Hb. apply in_seq in Hb. do 3 f_equal. apply map_ext. intros f.
    symmetry. apply (same_weighted _ _ _ _ _ _ _ _ p f b Sm). lia. }
  assert (Bl : forall k, k < length (bls_used sqrt_ ci wts p) -> nth k (bls_used sqrt_ ci wts p) 0 < columns ci).
  { intros k Hk. pose proof (nth_In _ 0 Hk) as X. unfold bls_used in X at 2. apply filter_In in X as [X _]. apply in_seq in X. lia. }
  assert (Q : forall f pa pb, freq_data sqrt_ ci vis' model' wts' p f (bls_used sqrt_ ci wts p) pa pb
              = freq_data sqrt_ ci vis model wts p f (bls_used sqrt_ ci wts p) pa pb).
  { intros f pa pb. unfold freq_data. apply map_ext_in. intros k Hk. apply in_seq in Hk. cbv zeta.
    destruct (same_weighted _ _ _ _ _ _ _ _ p f (nth k (bls_used sqrt_ ci wts p) 0) Sm) as (-> & -> & ->); [apply Bl; lia|reflexivity]. }
  unfold cal_pol. rewrite F, B. destruct (negb _); [reflexivity|]. cbv zeta.
  destruct (gather _ _) as [ta|]; cbn [bind]; [|reflexivity]. destruct (gather (tiles_of ci (ci_tile_b ci)) _) as [tb|]; cbn [bind]; [|reflexivity].
  destruct (tile_histogram ci ta) as [[[ha ba] ria]|]; cbn [bind]; [|reflexivity].
  destruct (tile_histogram ci tb) as [[[hb bb] rib]|]; cbn [bind]; [|reflexivity].
  match goal with |- match bind ?e _ with _ => _ end => destruct e as [[ref moved]|]; cbn [bind]; [|reflexivity] end.
  destruct (ci_max_iter ci <? 0)%Z; [reflexivity|].
  match goal with |- match bind (map_res ?g ?l) _ with _ => _ end =>
    match goal with |- context [bind (map_res ?h l) _] => rewrite (map_res_ext h g l) by (intros f _; now rewrite Q) end;
    destruct (map_res g l) as [outs|]; cbn [bind]; [|reflexivity] end.
  match goal with |- match match ?m with _ => _ end with _ => _ end => destruct m as [curr|]; [|reflexivity] end.
  destruct (nan_rows _ _ _ curr) as [[rows cols]|]; cbn [bind]; [|reflexivity].
  split; [reflexivity|]. split; [reflexivity|]. intros f b Hf Hb. destruct (memn b cols); auto.
  apply (same_weighted _ _ _ _ _ _ _ _ p f b Sm Hb).
Qed.

Lemma cal_pols_same cabs sqrt_ ci vis model vis' model' wts wts' start : same_usable sqrt_ ci vis model vis' model' wts wts' ->
  forall ps prev,
  match cal_pols cabs sqrt_ ci vis model wts start ps prev, cal_pols cabs sqrt_ ci vis' model' wts' start ps prev with
  | Ok (os, w), Ok (os', w') => os = os' /\ match w, w' with
      | Some w, Some w' => forall f b, f < ci_freqs ci -> b < columns ci -> w f b = w' f b
      | None, None => True | _, _ => False end
  | Err e, Err e' => e = e'
  | _, _ => False
  end.
Proof.
  intros Sm. induction ps as [|p ps IH]; intros prev; cbn [cal_pols]; [auto|].
  pose proof (cal_pol_same cabs sqrt_ ci vis model vis' model' wts wts' start p prev Sm) as H.
  destruct (cal_pol cabs sqrt_ ci vis model wts start p prev) as [[[o c] w]|], (cal_pol cabs sqrt_ ci vis' model' wts' start p prev) as [[[o' c'] w']|];
    cbn [bind]; try (contradiction || exact H).
  destruct H as (-> & -> & Hw). specialize (IH c').
  destruct (cal_pols cabs sqrt_ ci vis model wts start ps c') as [[os wl]|], (cal_pols cabs sqrt_ ci vis' model' wts' start ps c') as [[os' wl']|];
    cbn [bind]; try (contradiction || exact IH).
  destruct IH as [-> IH]. split; [reflexivity|]. destruct wl, wl'; auto; contradiction.
Qed.

(** ** Success *)
Lemma gather_ok ci l bls : length l = ci_times ci * ci_bls ci -> 0 < ci_times ci -> (forall b, In b bls -> b < n_fitted ci) ->
  exists r, gather (tiles_of ci l) bls = Ok r.
Proof.
  intros L Ht Hb. unfold gather. replace (forallb _ _) with true; [eauto|]. symmetry. apply forallb_forall. intros b B.
  apply Nat.ltb_lt. now apply (tiles_nth ci l b L Ht (Hb b B)).
Qed.
Lemma tile_histogram_ok ci r : 0 < ci_tiles ci -> exists h b ri, tile_histogram ci r = Ok (h, b, ri).
Proof.
  intros H. destruct (histogram_Z r 0 (Z.of_nat (ci_tiles ci) - 1) ltac:(lia)) as (bins & ri & E & _). unfold tile_histogram.
  change (inject_Z 0) with 0%Q in E. rewrite E. eauto.
Qed.

Lemma map_res_pairs_ok {B} (g : nat -> result B) l : (forall f, In f l -> exists r, g f = Ok r) ->
  exists outs, map_res (fun f => r <- g f ;; Ok (f, r)) l = Ok outs /\ length outs = length l
    /\ forall x, In x outs -> In (fst x) l /\ g (fst x) = Ok (snd x).
Proof.
  induction l as [|a l IH]; intros H; cbn [map_res].
  - exists []. split; [reflexivity|]. split; [reflexivity|]. intros x [].
  - destruct (H a (or_introl eq_refl)) as (r & Hr). rewrite Hr. cbn [bind].
    destruct IH as (outs & E & L & P); [intros; apply H; now right|]. rewrite E. cbn [bind].
    exists ((a, r) :: outs). split; [reflexivity|]. split; [cbn; now rewrite L|]. intros x [<-|X]; cbn; [auto|].
    destruct (P x X). auto.
Qed.

Lemma last_In_ {A} (l : list A) d : l <> [] -> In (last l d) l.
Proof.
  induction l as [|a l IH]; [congruence|]. intros _. destruct l as [|b l]; [now left|]. right. apply IH. discriminate.
Qed.

Lemma where_no {A} (q : A -> bool) l : (forall x, In x l -> q x = false) -> where_ q l = [].
Proof.
  intros H. destruct l as [|a l]; [reflexivity|]. apply (where_nil q (a :: l) a H).
Qed.

Lemma cal_pol_ok cabs sqrt_ ci vis model wts start W D M ts p prev :
  consistent ci -> total_weight sqrt_ ci wts W -> weighted_mean ci wts W vis D -> weighted_mean ci wts W model M ->
  lists_tiles ci W p ts -> flags_agree ci W p -> (0 <= ci_max_iter ci)%Z -> ts <> [] -> (exists f, good_freq ci W p f) ->
  (forall f, good_freq ci W p f -> exists r g,
     solve cabs (settings ci ts) (equations (problem ci W D M ts p f)) (length ts) (map (start p f) ts) = Ok r /\ r_gain r = Some g) ->
  exists o c w, cal_pol cabs sqrt_ ci vis model wts start p prev = Ok (o, c, w) /\ po_zeroed o = [].
Proof.
  intros Cs HW HD HM Hts Fl Mx Tne [f0 Hf0] Sol. pose proof Hts as [St Lt]. pose proof Cs as [Ct Cm La Lb Lf Lu Ia Ib]. unfold cal_pol.
  rewrite Lf, Lu, !Nat.eqb_refl. cbn [andb negb].
  set (bls := bls_used sqrt_ ci wts p) in *.
  assert (Hb : forall b, In b bls -> b < n_fitted ci) by (intros b B; unfold bls in B; rewrite (bls_used_In _ _ _ W) in B; tauto).
  destruct (gather_ok ci _ bls La Cm Hb) as (ta & Ga). destruct (gather_ok ci _ bls Lb Cm Hb) as (tb & Gb).
  destruct (tile_histogram_ok ci ta Ct) as (ha & ba & ria & Ha). destruct (tile_histogram_ok ci tb Ct) as (hb & bb & rib & Hbb).
  cbv zeta. rewrite Ga. cbn [bind]. rewrite Gb. cbn [bind]. rewrite Ha. cbn [bind]. rewrite Hbb. cbn [bind].
  destruct (tile_side ci _ bls ta ha ba ria ts Ct Cm La Ia Hb Ga Ha) as (A1 & A2 & A3).
  destruct (tile_side ci _ bls tb hb bb rib ts Ct Cm Lb Ib Hb Gb Hbb) as (B1 & B2 & B3).
  assert (Cnt : forall t, t < ci_tiles ci -> (0 < nth t ha 0 + nth t hb 0 <-> has_data ci W p t)).
  { intros t Htn. specialize (A1 t Htn). specialize (B1 t Htn). split.
    - intros Z. assert (X : 0 < nth t ha 0 \/ 0 < nth t hb 0) by lia.
      destruct X as [X|X]; [apply A1 in X|apply B1 in X]; destruct X as (b & Bi & Bt); unfold bls in Bi;
        rewrite (bls_used_In _ _ _ W) in Bi by auto; destruct Bi as (Bn & f & Hf & P); exists f, b; auto 6.
    - intros (f & b & Hf & Hbn & P & E).
      assert (Bi : In b bls) by (unfold bls; rewrite (bls_used_In _ _ _ W) by auto; eauto).
      destruct E as [E|E]; [enough (0 < nth t ha 0) by lia; apply A1|enough (0 < nth t hb 0) by lia; apply B1]; exists b; auto. }
  assert (Ets : filter (fun t => (0 <? nth t ha 0 + nth t hb 0) && (0 <? nth t (ci_tile_use ci) 0)%Z) (seq 0 (ci_tiles ci)) = ts).
  { apply sorted_lt_ext; auto.
    - apply filter_sorted, seq_sorted.
    - intros t. rewrite filter_In, in_seq, andb_true_iff, Nat.ltb_lt, Z.ltb_lt, Lt. unfold good_tile. split.
      + intros (Z & X & Y). split; [lia|]. split; auto. apply Cnt; auto. lia.
      + intros (Z & X & Y). split; [lia|]. split; auto. now apply Cnt. }
  rewrite Ets.
  assert (Tlt : forall t, In t ts -> t < ci_tiles ci) by (intros t Hti; apply Lt in Hti; apply Hti).
  specialize (A3 (sorted_NoDup _ St) Tlt). specialize (B3 (sorted_NoDup _ St) Tlt).
  set (pa := positions ts ha ria (length bls)) in *. set (pb := positions ts hb rib (length bls)) in *.
  assert (R : exists moved, match find_pos ts 1 with Some k => Ok (k, None)
              | None => match ts with [] => Err IndexError | t :: _ => Ok (0, Some t) end end
              = Ok (if existsb (Nat.eqb 1) ts then rank ts 1 else 0, moved)).
  { destruct (existsb (Nat.eqb 1) ts) eqn:E.
    - apply existsb_exists in E as (x & Hx & E). apply Nat.eqb_eq in E. subst x. rewrite (rank_pos ts 1 St Hx). eauto.
    - rewrite find_pos_none; [destruct ts; [congruence|eauto]|].
      intros X. assert (existsb (Nat.eqb 1) ts = true) by (apply existsb_exists; exists 1; auto). congruence. }
  destruct R as (moved & R). rewrite R. cbn [bind]. clear R.
  replace (ci_max_iter ci <? 0)%Z with false by (symmetry; now apply Z.ltb_ge).
  change (config ci (if existsb (Nat.eqb 1) ts then rank ts 1 else 0)) with (settings ci ts).
  assert (PQ : forall f, f < ci_freqs ci -> equations (freq_data sqrt_ ci vis model wts p f bls pa pb) = equations (problem ci W D M ts p f)).
  { intros f Hf. apply equations_problem; auto. intros k Hk. split; [now apply A3|now apply B3]. }
  destruct (map_res_pairs_ok (fun f => solve cabs (settings ci ts) (equations (freq_data sqrt_ ci vis model wts p f bls pa pb)) (length ts)
     (map (start p f) ts)) (freqs_used sqrt_ ci wts p)) as (outs & Eo & Lo & Po).
  { intros f Hf. apply (freqs_used_In _ _ _ W) in Hf; auto. destruct (Sol f Hf) as (r & g & E & _). exists r. rewrite PQ; auto. apply Hf. }
  rewrite Eo. cbn [bind].
  assert (One : outs <> []).
  { intros ->. cbn in Lo. apply (freqs_used_In sqrt_ ci wts W) in Hf0; auto. destruct (freqs_used sqrt_ ci wts p); [destruct Hf0|discriminate]. }
  assert (Lst : In (last outs (0, Build_sout None [] 0 false)) outs) by now apply last_In_.
  assert (El : match outs with [] => prev | _ :: _ => Some (curr_of (length ts) (snd (last outs (0, Build_sout None [] 0 false)))) end
               = Some (curr_of (length ts) (snd (last outs (0, Build_sout None [] 0 false))))) by (destruct outs; [congruence|reflexivity]).
  rewrite El. destruct (last outs _) as [fl rl]. destruct (Po _ Lst) as [P1 P2]. cbn [fst snd] in *.
  apply (freqs_used_In _ _ _ W) in P1; auto. destruct (Sol fl P1) as (r & g & E & Eg).
  rewrite PQ in P2 by apply P1. assert (rl = r) by congruence. subst rl.
  unfold curr_of, nan_rows. rewrite Eg. rewrite where_no; [cbn [bind]; eauto 8|].
  intros x Hx. apply in_map_iff in Hx as (y & <- & _). reflexivity.
Qed.

Lemma cal_pols_ok cabs sqrt_ ci vis model wts start : forall ps prev,
  (forall p prev, In p ps -> exists o c w, cal_pol cabs sqrt_ ci vis model wts start p prev = Ok (o, c, w) /\ po_zeroed o = []) ->
  ps <> [] ->
  exists os w, cal_pols cabs sqrt_ ci vis model wts start ps prev = Ok (os, Some w) /\ length os = length ps
    /\ forall o, In o os -> po_zeroed o = [].
Proof.
  induction ps as [|p ps IH]; intros prev H Ne; [congruence|]. cbn [cal_pols].
  destruct (H p prev (or_introl eq_refl)) as (o & c & w & E & Z). rewrite E. cbn [bind].
  destruct ps as [|q ps].
  - cbn [cal_pols bind]. exists [o], w. repeat split; auto. intros x [<-|[]]; auto.
  - destruct (IH c) as (os & w' & E' & L & P); [intros; apply H; now right|discriminate|]. rewrite E'. cbn [bind].
    exists (o :: os), w'. repeat split; [cbn in *; congruence|]. intros x [<-|X]; auto.
Qed.

(** ** Exact data *)
Lemma mean_exact ci wts W vis model D M (ga gb : C) p f b : b < n_fitted ci -> (0 < W p f b)%Qc ->
  weighted_mean ci wts W vis D -> weighted_mean ci wts W model M ->
  (forall s, In s (samples ci b) -> (0 < wts p f s)%Qc -> vis p f s = (ga * Cconj gb * model p f s)%C) ->
  D p f b = (ga * Cconj gb * M p f b)%C.
Proof.
  intros Hb Hp HD HM Ex. specialize (HD p f b Hb Hp). specialize (HM p f b Hb Hp).
  assert (E : Csum (map (fun s => Cscale (unit_weight (wts p f s)) (vis p f s)) (samples ci b))
              = (ga * Cconj gb * Csum (map (fun s => Cscale (unit_weight (wts p f s)) (model p f s)) (samples ci b)))%C).
  { revert Ex. generalize (samples ci b). induction l as [|s l IH]; intros Ex; cbn [map].
    - cbn. ring.
    - rewrite !Csum_cons, IH by (intros; apply Ex; auto; now right).
      destruct (Qclt_le_dec 0 (wts p f s)) as [P|P].
      + rewrite (Ex s (or_introl eq_refl) P). generalize (unit_weight (wts p f s)) (model p f s) (Csum (map (fun s => Cscale (unit_weight (wts p f s)) (model p f s)) l)).
        intros u m c. apply C_ext; cbn [re im Cscale Cadd Cmul Cconj]; ring.
      + rewrite <- clip_unit, (clip_zero _ P). generalize (vis p f s) (model p f s) (Csum (map (fun s => Cscale (unit_weight (wts p f s)) (model p f s)) l)).
        intros v m c. apply C_ext; cbn [re im Cscale Cadd Cmul Cconj]; ring. }
  rewrite E, <- HM in HD. apply Qc_pos_neq in Hp. revert HD Hp. generalize (W p f b) (D p f b) (M p f b). intros w d m HD Hp.
  assert (X : forall x y, Cscale w x = Cscale w y -> x = y).
  { intros x y H. replace x with (Cscale (/ w) (Cscale w x)) by (apply C_ext; cbn [re im Cscale]; field; auto). rewrite H.
    apply C_ext; cbn [re im Cscale]; field; auto. }
  apply X. rewrite HD. apply C_ext; cbn [re im Cscale Cmul Cconj]; ring.
Qed.
