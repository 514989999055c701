(** C70: what the gain calibration does with the visibilities. *)
From Verif Require Import Base PyIndex Cplx WeightInvert VisWeights VisWeightsProps Solver SolverSpec SolverProofs SolverProps CalSub CalSubSpec
  CalSubProofs AutoProofs CalAutoProofs CalibrateProofs.
From Coq Require Import Sorted.
Open Scope nat_scope.
Ltac Zify.zify_post_hook ::= idtac.

(** Total weights and means exist for every input. *)
Lemma spec_weight sqrt_ ci wts : total_weight sqrt_ ci wts (weight sqrt_ ci wts).
Proof.
  intros p f b Hb. unfold weight. destruct (cut sqrt_ ci f b) eqn:E.
  - split; [|reflexivity]. intros R. apply cut_spec in R. congruence.
  - split; [|intros N; exfalso; apply N; now apply cut_spec]. intros _. unfold weight0, samples. destruct (ci_average ci).
    + rewrite map_map. f_equal. apply map_ext. intros t. apply clip_unit.
    + cbn. rewrite clip_unit. symmetry. apply Qcplus_0_r.
Qed.
Lemma spec_mean sqrt_ ci wts v : weighted_mean ci wts (weight sqrt_ ci wts) v (averaged sqrt_ ci wts v).
Proof.
  intros p f b Hb Hp. unfold averaged. rewrite <- sum0_spec. apply Qc_pos_neq in Hp. generalize dependent (weight sqrt_ ci wts p f b).
  intros w Hw. apply C_ext; cbn [re im Cscale]; field; auto.
Qed.

(** The gains of the good tiles at a good frequency are those the solver finds for exactly the baselines between good
    tiles, with the weighted means of their unflagged data, as long as flagged tiles have no weight. *)
Theorem C70_solution_partial : forall cabs sqrt_ ci vis model wts start W D M p ts out o f,
  consistent ci -> total_weight sqrt_ ci wts W -> weighted_mean ci wts W vis D -> weighted_mean ci wts W model M ->
  lists_tiles ci W p ts -> flags_agree ci W p ->
  vis_calibrate_subroutine cabs sqrt_ ci vis model wts start = Ok out -> nth_error (so_pols out) p = Some o ->
  po_zeroed o = [] -> good_freq ci W p f ->
  exists r, solve cabs (settings ci ts) (equations (problem ci W D M ts p f)) (length ts) (map (start p f) ts) = Ok r
    /\ forall k, k < length ts ->
         po_gain o f (nth k ts 0) = match r_gain r with Some g => nth_error g k | None => None end
         /\ po_conv o f (nth k ts 0) = nth k (r_conv r) None.
Proof.
  intros cabs sqrt_ ci vis model wts start W D M p ts out o f Cs HW HD HM Hts Fl Run Ho Zr Gf.
  destruct (sub_nth _ _ _ _ _ _ _ _ _ _ Run Ho) as (prev & c & w & Hc).
  destruct (cal_pol_inv _ _ _ _ _ _ _ W ts _ _ _ _ _ Cs HW Hts Hc)
    as (pa & pb & outs & curr & rows & fl & Pp & Tne & Mx & Eo & _ & _ & Hn & Hfl & Hg & Hcv & _).
  destruct (assoc_map_res _ (fun _ r => r) _ _ f Eo) as [A _].
  destruct A as (r & Er & As); [now apply (freqs_used_In _ _ _ W)|].
  rewrite (equations_problem sqrt_ ci vis model wts W D M ts p f pa pb) in Er by (auto; apply Gf).
  exists r. split; [exact Er|]. intros k Hk. pose proof Hts as [St Lt].
  assert (Hi : In (nth k ts 0) ts) by now apply nth_In.
  assert (Gt : good_tile ci W p (nth k ts 0)) by now apply Lt.
  assert (F : find_pos ts (nth k ts 0) = Some k) by (apply find_pos_some; auto using sorted_NoDup).
  split; [|now rewrite Hcv, As, F]. rewrite Hg by apply Gt.
  destruct (fl (nth k ts 0)) eqn:E.
  - exfalso. apply Hfl in E; [|apply Gt]. destruct E as [_ E]. apply E, Gt.
  - rewrite Zr in Hn. apply nan_rows_nil in Hn; [|destruct Gf; lia]. subst rows. cbn [memn existsb]. rewrite As, F. apply curr_nth.
Qed.
Print Assumptions C70_solution_partial.

(** Nothing else is calibrated: other tiles and frequencies keep their starting gain, even if they have no data, and only
    tiles that are flagged and have no data are marked NaN. *)
Theorem C70_kept : forall cabs sqrt_ ci vis model wts start W p out o f t,
  consistent ci -> total_weight sqrt_ ci wts W ->
  vis_calibrate_subroutine cabs sqrt_ ci vis model wts start = Ok out -> nth_error (so_pols out) p = Some o ->
  f < ci_freqs ci -> t < ci_tiles ci ->
  let marked := nth t (ci_tile_use ci) 0%Z = 0%Z /\ ~ has_data ci W p t in
  (marked -> po_gain o f t = None)
  /\ (~ marked -> po_zeroed o = [] -> ~ good_freq ci W p f \/ ~ good_tile ci W p t -> po_gain o f t = Some (start p f t)).
Proof.
  intros cabs sqrt_ ci vis model wts start W p out o f t Cs HW Run Ho Hf Ht.
  destruct (sub_nth _ _ _ _ _ _ _ _ _ _ Run Ho) as (prev & c & w & Hc).
  assert (Ex : exists ts, lists_tiles ci W p ts).
  { exists (filter (fun t => (0 <? nth t (ci_tile_use ci) 0)%Z && existsb (fun f => existsb (fun b =>
        negb (Qcleb (W p f b) 0) && ((tile1 ci b =? t) || (tile2 ci b =? t))) (seq 0 (n_fitted ci))) (seq 0 (ci_freqs ci))) (seq 0 (ci_tiles ci))).
    split; [apply filter_sorted, seq_sorted|]. intros u. rewrite filter_In, in_seq, andb_true_iff, Z.ltb_lt, existsb_exists. unfold good_tile, has_data. split.
    - intros (H1 & H2 & g & Hg & H3). apply existsb_exists in H3 as (b & Hb & H3). apply in_seq in Hg, Hb.
      apply andb_true_iff in H3 as [H3 H4]. apply negb_true_iff, Qcleb_false in H3. apply orb_true_iff in H4. rewrite !Nat.eqb_eq in H4.
      split; [lia|]. split; auto. exists g, b. repeat split; auto; lia.
    - intros (H1 & H2 & g & b & Hg & Hb & P & E). split; [lia|]. split; auto. exists g. split; [apply in_seq; lia|].
      apply existsb_exists. exists b. split; [apply in_seq; lia|]. apply andb_true_iff. split; [now apply negb_true_iff, Qcleb_false|].
      apply orb_true_iff. now rewrite !Nat.eqb_eq. }
  destruct Ex as (ts & Hts).
  destruct (cal_pol_inv _ _ _ _ _ _ _ W ts _ _ _ _ _ Cs HW Hts Hc)
    as (pa & pb & outs & curr & rows & fl & Pp & Tne & Mx & Eo & _ & _ & Hn & Hfl & Hg & Hcv & _).
  cbv zeta. specialize (Hfl t Ht). unfold flagged_tile in Hfl. rewrite Hg by auto. split.
  - intros E. apply Hfl in E. now rewrite E.
  - intros E Zr H. destruct (fl t); [exfalso; now apply E, Hfl|].
    rewrite Zr in Hn. apply nan_rows_nil in Hn; [|lia]. subst rows. cbn [memn existsb].
    destruct H as [H|H].
    + destruct (assoc_map_res _ (fun _ r => r) _ _ f Eo) as [_ A]. rewrite A; [reflexivity|]. intros X. now apply (freqs_used_In _ _ _ W) in X.
    + rewrite find_pos_none; [now destruct (assoc outs f)|]. intros X. now apply Hts in X.
Qed.
Print Assumptions C70_kept.

(** Visibilities without positive weight, or of baselines outside the calibration range, have no influence on the result or
    on whether there is one. *)
Theorem C70_flagged_data : forall cabs sqrt_ ci vis model wts vis' model' wts' start,
  (forall p f s, s < ci_times ci * ci_bls ci ->
    (wts p f s = wts' p f s /\ vis p f s = vis' p f s /\ model p f s = model' p f s)
    \/ (~ usable_sample sqrt_ ci wts p f s /\ ~ usable_sample sqrt_ ci wts' p f s)) ->
  vis_calibrate_subroutine cabs sqrt_ ci vis model wts start = vis_calibrate_subroutine cabs sqrt_ ci vis' model' wts' start.
Proof.
  intros cabs sqrt_ ci vis model wts vis' model' wts' start Sm. unfold vis_calibrate_subroutine.
  pose proof (cal_pols_same cabs sqrt_ ci vis model vis' model' wts wts' start Sm (seq 0 (ci_pols ci)) None) as H.
  destruct (cal_pols cabs sqrt_ ci vis model wts start _ None) as [[os w]|], (cal_pols cabs sqrt_ ci vis' model' wts' start _ None) as [[os' w']|];
    cbn [bind]; try contradiction; [|now rewrite H].
  destruct H as [-> H]. destruct w as [w|], w' as [w'|]; try contradiction; [|reflexivity].
  rewrite (flat2_ext _ _ w w' H). reflexivity.
Qed.
Print Assumptions C70_flagged_data.

(** If the unflagged data are the model times the gains of the two tiles, and calibration starts from these gains, it
    succeeds and returns them with no change reported, averaged over time or not. *)
Theorem C70_recovers : forall cabs sqrt_ ci vis model wts start W M ts,
  modulus_like cabs -> (0 < ci_base ci)%Qc -> (0 <= ci_thr ci)%Qc -> (1 <= ci_max_iter ci)%Z -> 0 < ci_pols ci ->
  consistent ci -> total_weight sqrt_ ci wts W -> weighted_mean ci wts W model M ->
  (forall p, p < ci_pols ci -> lists_tiles ci W p (ts p) /\ flags_agree ci W p /\ ts p <> [] /\ exists f, good_freq ci W p f) ->
  (forall p f b s, p < ci_pols ci -> good_freq ci W p f -> b < n_fitted ci -> In s (samples ci b) ->
     usable_sample sqrt_ ci wts p f s ->
     vis p f s = (start p f (tile1 ci b) * Cconj (start p f (tile2 ci b)) * model p f s)%C) ->
  (forall p f t, p < ci_pols ci -> good_freq ci W p f -> good_tile ci W p t ->
     start p f t <> C0
     /\ (ci_noref ci = false -> nth (s_ref (settings ci (ts p))) (ts p) 0 = t -> im (start p f t) = 0%Qc /\ cabs (start p f t) = re (start p f t))
     /\ (let good b := negb (Qcleb (W p f b) 0) in
         5 <= length (filter (fun b => good b && (tile1 ci b =? t)) (seq 0 (n_fitted ci)))
              + length (filter (fun b => good b && (tile2 ci b =? t)) (seq 0 (n_fitted ci))))
     /\ exists b, b < n_fitted ci /\ (0 < W p f b)%Qc /\ M p f b <> C0 /\ (tile1 ci b = t \/ tile2 ci b = t)) ->
  exists out, vis_calibrate_subroutine cabs sqrt_ ci vis model wts start = Ok out
    /\ forall p, p < ci_pols ci -> exists o, nth_error (so_pols out) p = Some o
         /\ forall f t, good_freq ci W p f -> good_tile ci W p t ->
              po_gain o f t = Some (start p f t) /\ po_conv o f t = Some 0%Qc.
Proof.
  intros cabs sqrt_ ci vis model wts start W M ts Ml Hb Ht Hm Np Cs HW HM Hp Ex Tl.
  assert (HD : weighted_mean ci wts W vis (averaged sqrt_ ci wts vis)).
  { intros p f b Hbn P. pose proof (spec_mean sqrt_ ci wts vis p f b Hbn) as X. rewrite (weight_spec _ _ _ W) in X by auto. auto. }
  set (D := averaged sqrt_ ci wts vis) in *.
  assert (Sol : forall p f, p < ci_pols ci -> good_freq ci W p f -> exists r,
     solve cabs (settings ci (ts p)) (equations (problem ci W D M (ts p) p f)) (length (ts p)) (map (start p f) (ts p)) = Ok r
     /\ r_gain r = Some (map (start p f) (ts p)) /\ r_conv r = repeat (Some 0%Qc) (length (ts p))).
  { intros p f Hpn Gf. destruct (Hp p Hpn) as ((St & Lt) & Fl & Tne & _).
    pose proof Cs as [Ct Cm La Lb Lf Lu Ia Ib].
    assert (Mem : forall b, b < n_fitted ci -> (0 < W p f b)%Qc -> In (tile1 ci b) (ts p) /\ In (tile2 ci b) (ts p)).
    { intros b Hbn P. destruct (Fl f b (proj1 Gf) Hbn P) as [U1 U2]. split; apply Lt; (split; [|split; [assumption|exists f, b; destruct Gf; auto 6]]).
      - unfold tile1. eapply consistent_nth_range; eauto.
      - unfold tile2. eapply consistent_nth_range; eauto. }
    assert (Rk : forall t, In t (ts p) -> rank (ts p) t < length (ts p) /\ nth (rank (ts p) t) (ts p) 0 = t)
      by (intros t Hti; apply find_pos_inv; now apply rank_pos).
    assert (Atr : forall t, In t (ts p) -> at_ (map (start p f) (ts p)) (rank (ts p) t) = start p f t).
    { intros t Hti. destruct (Rk t Hti) as [R1 R2]. unfold at_. rewrite nth_indep with (d' := start p f 0) by now rewrite map_length.
      rewrite map_nth. now rewrite R2. }
    assert (Tk : forall k, k < length (ts p) -> exists t, In t (ts p) /\ rank (ts p) t = k /\ nth k (ts p) 0 = t).
    { intros k Hk. exists (nth k (ts p) 0). split; [now apply nth_In|]. split; auto.
      assert (X : find_pos (ts p) (nth k (ts p) 0) = Some k) by (apply find_pos_some; auto using sorted_NoDup).
      rewrite (rank_pos _ _ St) in X by (now apply nth_In). congruence. }
    destruct (C59_fixed_point cabs (settings ci (ts p)) (problem ci W D M (ts p) p f) positive (length (ts p)) (map (start p f) (ts p)))
      as (r & Er & Gr & Cr & _); auto.
    - intros b. apply positive_usable.
    - now rewrite map_length.
    - destruct (ts p); [congruence|cbn; lia].
    - intros k Hk. destruct (Tk k Hk) as (t & Hti & <- & _). rewrite Atr by auto. apply (Tl p f t); auto. now apply Lt.
    - intros Nr. set (k := s_ref (settings ci (ts p))) in *. assert (Hk : k < length (ts p)).
      { unfold k, settings. cbn [s_ref]. destruct (existsb (Nat.eqb 1) (ts p)) eqn:E.
        - apply existsb_exists in E as (x & Hx & E). apply Nat.eqb_eq in E. subst x. now apply Rk.
        - destruct (ts p); [congruence|cbn; lia]. }
      split; [exact Hk|]. destruct (Tk k Hk) as (t & Hti & Rt & Nt). rewrite <- Rt, Atr by auto. apply (Tl p f t); auto. now apply Lt.
    - intros x Hx U. unfold problem in Hx. apply in_map_iff in Hx as (b & <- & Hbn). apply in_seq in Hbn. cbn [b_data b_a b_b b_model].
      unfold usable in U. cbn [b_weight] in U. destruct (Mem b) as [M1 M2]; auto; [lia|]. rewrite !Atr by auto.
      apply (mean_exact ci wts W vis model D M); auto; [lia|]. intros s Hs P. apply (Ex p f b s); auto; [lia|]. split; auto.
      assert (R : in_range sqrt_ ci f b).
      { apply cut_spec. destruct (cut sqrt_ ci f b) eqn:E; auto. exfalso. destruct (HW p f b) as [_ Z]; [lia|].
        rewrite Z in U; [discriminate|]. intros R. apply cut_spec in R. congruence. }
      unfold samples in Hs. unfold n_fitted in Hbn. destruct (ci_average ci).
      + apply in_map_iff in Hs as (t & <- & _). fold (sample ci t b). rewrite sample_mod by lia. exact R.
      + destruct Hs as [<-|[]]. exact R.
    - intros k Hk. destruct (Tk k Hk) as (t & Hti & Rt & Nt). assert (Gt : good_tile ci W p t) by now apply Lt.
      destruct (Tl p f t Hpn Gf Gt) as (_ & _ & N5 & b & Hbn & P & Mz & Et). destruct (Mem b Hbn P) as [M1 M2]. split.
      + assert (Inj : forall u, In u (ts p) -> rank (ts p) u =? k = (u =? t)).
        { intros u Hu. destruct (Nat.eqb_spec u t) as [->|N]; [now apply Nat.eqb_eq|]. apply Nat.eqb_neq. intros E. apply N.
          destruct (Rk u Hu) as [_ <-]. rewrite E. exact Nt. }
        unfold n_eq, problem. rewrite filter_positive_map. rewrite !filter_map_comm, !map_length.
        unfold positive. cbn [b_a b_b b_weight]. rewrite !filter_filter. cbv zeta in N5. eapply Nat.le_trans; [exact N5|]. apply Nat.eq_le_incl.
        f_equal; f_equal; apply filter_ext_in; intros x Hx; apply in_seq in Hx; (destruct (Qcleb (W p f x) 0) eqn:Q; cbn [negb andb]; [now rewrite andb_false_r|]);
          apply Qcleb_false in Q; (destruct (Mem x ltac:(lia) Q) as [X1 X2]); rewrite andb_true_r; symmetry; now apply Inj.
      + exists {| b_a := rank (ts p) (tile1 ci b); b_b := rank (ts p) (tile2 ci b); b_data := D p f b; b_model := M p f b; b_weight := W p f b |}.
        cbn [b_data b_model b_a b_b]. split; [unfold problem; apply in_map_iff; exists b; split; auto; apply in_seq; lia|].
        split; [exact P|]. split; [exact Mz|]. split; [now apply Rk|]. split; [now apply Rk|]. rewrite <- Rt. destruct Et as [<-|<-]; auto.
    - exists r. auto. }
  assert (Each : forall p prev, In p (seq 0 (ci_pols ci)) -> exists o c w,
            cal_pol cabs sqrt_ ci vis model wts start p prev = Ok (o, c, w) /\ po_zeroed o = []).
  { intros p prev Hpn. apply in_seq in Hpn. destruct (Hp p) as (Hts & Fl & Tne & Gf); [lia|].
    apply (cal_pol_ok cabs sqrt_ ci vis model wts start W D M (ts p)); auto; [lia|]. intros f Hf. destruct (Sol p f) as (r & E & G & _); [lia|auto|]. eauto. }
  destruct (cal_pols_ok cabs sqrt_ ci vis model wts start (seq 0 (ci_pols ci)) None Each) as (os & w & E & L & Z).
  { destruct (ci_pols ci); [lia|discriminate]. }
  eexists. split; [unfold vis_calibrate_subroutine; rewrite E; cbn [bind]; reflexivity|]. cbn [so_pols]. rewrite seq_length in L.
  intros p Hpn. destruct (nth_error os p) as [o|] eqn:Ho; [|apply nth_error_None in Ho; lia]. exists o. split; [reflexivity|].
  intros f t Gf Gt. destruct (Hp p Hpn) as (Hts & Fl & Tne & _).
  assert (Run : exists out, vis_calibrate_subroutine cabs sqrt_ ci vis model wts start = Ok out /\ so_pols out = os)
    by (unfold vis_calibrate_subroutine; rewrite E; cbn [bind]; eauto).
  destruct Run as (out & Run & Eos). rewrite <- Eos in Ho.
  destruct (C70_solution_partial _ _ _ _ _ _ _ W D M p (ts p) out o f Cs HW HD HM Hts Fl Run Ho) as (r & Er & Pr); auto.
  { apply Z. rewrite <- Eos. eapply nth_error_In; eauto. }
  destruct (Sol p f Hpn Gf) as (r' & Er' & Gr & Cr). assert (r' = r) by congruence. subst r'.
  assert (Hti : In t (ts p)) by now apply Hts. destruct (In_nth _ _ 0 Hti) as (k & Hk & <-). destruct (Pr k Hk) as [G1 G2]. rewrite G1, G2, Gr, Cr. split.
  - rewrite nth_error_map. rewrite (nth_error_nth' _ 0) by auto. reflexivity.
  - rewrite nth_indep with (d' := Some 0%Qc) by now rewrite repeat_length. now rewrite nth_repeat.
Qed.
Print Assumptions C70_recovers.

(** With a single time, averaging over the times changes nothing. *)
Definition with_average (ci : cal_in) (a : bool) : cal_in :=
  {| ci_pols := ci_pols ci; ci_freqs := ci_freqs ci; ci_tiles := ci_tiles ci; ci_times := ci_times ci; ci_bls := ci_bls ci;
     ci_tile_a := ci_tile_a ci; ci_tile_b := ci_tile_b ci; ci_tile_use := ci_tile_use ci; ci_freq_use := ci_freq_use ci;
     ci_freq := ci_freq ci; ci_uu := ci_uu ci; ci_vv := ci_vv ci; ci_kpix := ci_kpix ci; ci_dimension := ci_dimension ci; ci_elements := ci_elements ci;
     ci_min := ci_min ci; ci_max := ci_max ci; ci_cal_min := ci_cal_min ci; ci_cal_max := ci_cal_max ci; ci_average := a;
     ci_max_iter := ci_max_iter ci; ci_phase := ci_phase ci; ci_base := ci_base ci; ci_thr := ci_thr ci; ci_adapt := ci_adapt ci; ci_noref := ci_noref ci |}.

Lemma single_weight sqrt_ ci wts v p f b : ci_times ci = 1 ->
  weight sqrt_ (with_average ci true) wts p f b = weight sqrt_ (with_average ci false) wts p f b
  /\ averaged sqrt_ (with_average ci true) wts v p f b = averaged sqrt_ (with_average ci false) wts v p f b.
Proof.
  intros H1.
  assert (E : weight sqrt_ (with_average ci true) wts p f b = weight sqrt_ (with_average ci false) wts p f b).
  { unfold weight. change (cut sqrt_ (with_average ci true) f b) with (cut sqrt_ (with_average ci false) f b). destruct (cut _ _ _ _); [reflexivity|].
    unfold weight0. cbn [ci_average with_average ci_times]. rewrite H1. cbn [seq map sample with_average ci_bls Nat.mul Nat.add Qcsum fold_right]. apply Qcplus_0_r. }
  split; [exact E|]. unfold averaged. rewrite E. f_equal.
  unfold sum0. cbn [ci_average with_average ci_times]. rewrite H1. cbn [seq map sample with_average ci_bls Nat.mul Nat.add].
  rewrite Csum_cons. cbn [Csum fold_right]. ring.
Qed.

Lemma single_pol cabs sqrt_ ci vis model wts start p prev : ci_times ci = 1 -> length (ci_tile_a ci) = ci_bls ci -> length (ci_tile_b ci) = ci_bls ci ->
  match cal_pol cabs sqrt_ (with_average ci true) vis model wts start p prev, cal_pol cabs sqrt_ (with_average ci false) vis model wts start p prev with
  | Ok (o, c, w), Ok (o', c', w') => o = o' /\ c = c' /\ forall f b, w f b = w' f b
  | Err e, Err e' => e = e'
  | _, _ => False
  end.
Proof.
  intros H1 La Lb. set (A := with_average ci true). set (B := with_average ci false).
  assert (Cl : columns A = columns B) by (cbn [columns A B with_average ci_average ci_bls ci_times]; rewrite H1; lia).
  assert (F : freqs_used sqrt_ A wts p = freqs_used sqrt_ B wts p).
  { unfold freqs_used. rewrite Cl. apply filter_ext. intros f. change (ci_freq_use A) with (ci_freq_use B). do 4 f_equal.
    apply map_ext. intros b. now apply single_weight. }
  assert (Bl : bls_used sqrt_ A wts p = bls_used sqrt_ B wts p).
  { unfold bls_used. rewrite Cl. apply filter_ext. intros b. change (ci_freqs A) with (ci_freqs B). do 3 f_equal. apply map_ext. intros f. now apply single_weight. }
  assert (T : forall l, length l = ci_bls ci -> tiles_of A l = tiles_of B l).
  { intros l L. cbn [tiles_of A B with_average ci_average ci_bls]. apply firstn_all2. rewrite map_length. lia. }
  assert (Q : forall f bls pa pb, freq_data sqrt_ A vis model wts p f bls pa pb = freq_data sqrt_ B vis model wts p f bls pa pb).
  { intros f bls pa pb. unfold freq_data. apply map_ext. intros k. cbv zeta.
    destruct (single_weight sqrt_ ci wts vis p f (nth k bls 0) H1) as [E1 E2]. destruct (single_weight sqrt_ ci wts model p f (nth k bls 0) H1) as [_ E3].
    fold A B in E1, E2, E3. now rewrite E1, E2, E3. }
  unfold cal_pol. rewrite F, Bl, Cl.
  change (ci_tile_a A) with (ci_tile_a ci). change (ci_tile_b A) with (ci_tile_b ci). change (ci_tile_a B) with (ci_tile_a ci). change (ci_tile_b B) with (ci_tile_b ci).
  rewrite !T by auto. change (ci_freq_use A) with (ci_freq_use B). change (ci_tile_use A) with (ci_tile_use B). change (ci_freqs A) with (ci_freqs B).
  change (ci_tiles A) with (ci_tiles B). change (ci_max_iter A) with (ci_max_iter B). change (tile_histogram A) with (tile_histogram B).
  change (config A) with (config B). change (ci_times A) with (ci_times B). change (ci_bls A) with (ci_bls B).
  destruct (negb _); [reflexivity|]. cbv zeta.
  destruct (gather _ _) as [ta|]; cbn [bind]; [|reflexivity]. destruct (gather (tiles_of B (ci_tile_b ci)) _) as [tb|]; cbn [bind]; [|reflexivity].
  destruct (tile_histogram B ta) as [[[ha ba] ria]|]; cbn [bind]; [|reflexivity].
  destruct (tile_histogram B tb) as [[[hb bb] rib]|]; cbn [bind]; [|reflexivity].
  match goal with |- match bind ?e _ with _ => _ end => destruct e as [[ref moved]|]; cbn [bind]; [|reflexivity] end.
  destruct (ci_max_iter B <? 0)%Z; [reflexivity|].
  match goal with |- match bind (map_res ?g ?l) _ with _ => _ end =>
    match goal with |- context [bind (map_res ?h l) _] => rewrite (map_res_ext h g l) by (intros f _; now rewrite Q) end;
    destruct (map_res g l) as [outs|]; cbn [bind]; [|reflexivity] end.
  match goal with |- match match ?m with _ => _ end with _ => _ end => destruct m as [curr|]; [|reflexivity] end.
  destruct (nan_rows _ _ _ curr) as [[rows cols]|]; cbn [bind]; [|reflexivity].
  split; [reflexivity|]. split; [reflexivity|]. intros f b. destruct (memn b cols); auto. now apply single_weight.
Qed.

Theorem C70_single_time : forall cabs sqrt_ ci vis model wts start,
  ci_times ci = 1 -> length (ci_tile_a ci) = ci_bls ci -> length (ci_tile_b ci) = ci_bls ci ->
  vis_calibrate_subroutine cabs sqrt_ (with_average ci true) vis model wts start
  = vis_calibrate_subroutine cabs sqrt_ (with_average ci false) vis model wts start.
Proof.
  intros cabs sqrt_ ci vis model wts start H1 La Lb. unfold vis_calibrate_subroutine.
  assert (H : forall ps prev,
    match cal_pols cabs sqrt_ (with_average ci true) vis model wts start ps prev, cal_pols cabs sqrt_ (with_average ci false) vis model wts start ps prev with
    | Ok (os, w), Ok (os', w') => os = os' /\ match w, w' with
        | Some w, Some w' => forall f b, w f b = w' f b
        | None, None => True | _, _ => False end
    | Err e, Err e' => e = e'
    | _, _ => False
    end).
  { induction ps as [|p ps IH]; intros prev; cbn [cal_pols]; [auto|].
    pose proof (single_pol cabs sqrt_ ci vis model wts start p prev H1 La Lb) as H.
    destruct (cal_pol cabs sqrt_ (with_average ci true) vis model wts start p prev) as [[[o c] w]|],
      (cal_pol cabs sqrt_ (with_average ci false) vis model wts start p prev) as [[[o' c'] w']|]; cbn [bind]; try (contradiction || exact H).
    destruct H as (-> & -> & Hw). specialize (IH c').
    destruct (cal_pols cabs sqrt_ (with_average ci true) vis model wts start ps c') as [[os wl]|],
      (cal_pols cabs sqrt_ (with_average ci false) vis model wts start ps c') as [[os' wl']|]; cbn [bind]; try (contradiction || exact IH).
    destruct IH as [-> IH]. split; [reflexivity|]. destruct wl, wl'; auto; contradiction. }
  specialize (H (seq 0 (ci_pols ci)) None). change (ci_pols (with_average ci true)) with (ci_pols ci). change (ci_pols (with_average ci false)) with (ci_pols ci).
  destruct (cal_pols cabs sqrt_ (with_average ci true) vis model wts start _ None) as [[os w]|],
    (cal_pols cabs sqrt_ (with_average ci false) vis model wts start _ None) as [[os' w']|]; cbn [bind]; try contradiction; [|now rewrite H].
  destruct H as [-> H]. destruct w as [w|], w' as [w'|]; try contradiction; [|reflexivity].
  replace (columns (with_average ci true)) with (columns (with_average ci false)) by (cbn [columns with_average ci_average ci_bls ci_times]; rewrite H1; lia).
  change (ci_freqs (with_average ci true)) with (ci_freqs (with_average ci false)).
  rewrite (flat2_ext _ _ w w') by (intros; apply H). reflexivity.
Qed.
Print Assumptions C70_single_time.

(** The reported number of calibrated visibilities counts the last polarisation only. *)
Definition n_weighted (ci : cal_in) (W : nat -> nat -> nat -> Qc) (p : nat) : nat :=
  length (filter (fun w => negb (Qcleb w 0)) (flat2 (ci_freqs ci) (n_fitted ci) (W p))).

Lemma cal_pols_last cabs sqrt_ ci vis model wts start : forall n s prev os w,
  cal_pols cabs sqrt_ ci vis model wts start (seq s (S n)) prev = Ok (os, w) ->
  exists prev' o c w', cal_pol cabs sqrt_ ci vis model wts start (s + n) prev' = Ok (o, c, w') /\ nth_error os n = Some o /\ w = Some w'.
Proof.
  induction n as [|n IH]; intros s prev os w H; cbn [cal_pols seq] in H.
  - apply bind_ok in H as ([[o c] w1] & H1 & H). cbn [bind] in H. inversion H. subst os w. rewrite Nat.add_0_r. eauto 8.
  - apply bind_ok in H as ([[o c] w1] & H1 & H). apply bind_ok in H as ([os' wl] & H2 & H). inversion H. subst os w. clear H.
    change (S s :: seq (S (S s)) n) with (seq (S s) (S n)) in H2. apply IH in H2 as (pv & o' & c' & w' & H3 & H4 & ->).
    replace (s + S n) with (S s + n) by lia. eauto 8.
Qed.

Theorem C70_count_partial : forall cabs sqrt_ ci vis model wts start W out o,
  consistent ci -> total_weight sqrt_ ci wts W ->
  vis_calibrate_subroutine cabs sqrt_ ci vis model wts start = Ok out ->
  nth_error (so_pols out) (ci_pols ci - 1) = Some o -> po_zeroed o = [] ->
  so_nvis out = n_weighted ci W (ci_pols ci - 1).
Proof.
  intros cabs sqrt_ ci vis model wts start W out o Cs HW Run Ho Zr. unfold vis_calibrate_subroutine in Run.
  apply bind_ok in Run as ([os w] & H & Run). destruct w as [w|]; [|discriminate]. inversion Run. subst out. clear Run. cbn [so_pols so_nvis] in *.
  destruct (ci_pols ci) as [|n] eqn:En; [cbn in H; inversion H|]. replace (S n - 1) with n in * by lia.
  apply cal_pols_last in H as (prev & o' & c & w' & Hc & Hn & Ew). inversion Ew. subst w'. clear Ew. rewrite Ho in Hn. inversion Hn. subst o'. clear Hn.
  cbn [Nat.add] in Hc. unfold n_weighted. change (columns ci) with (n_fitted ci).
  assert (E : w = fun f b => if memn b (po_zeroed o) then 0%Qc else weight sqrt_ ci wts n f b).
  { unfold cal_pol in Hc. destruct (negb _); [discriminate|]. cbv zeta in Hc.
    do 2 (apply bind_ok in Hc as (? & _ & Hc)). do 2 (apply bind_ok in Hc as ([[? ?] ?] & _ & Hc)).
    apply bind_ok in Hc as ([? ?] & _ & Hc). destruct (ci_max_iter ci <? 0)%Z; [discriminate|].
    apply bind_ok in Hc as (? & _ & Hc). match type of Hc with match ?m with _ => _ end = _ => destruct m; [|discriminate] end.
    apply bind_ok in Hc as ([? ?] & _ & Hc). inversion Hc. reflexivity. }
  rewrite Zr in E. cbn [memn existsb] in E. subst w.
  rewrite (flat2_ext _ _ _ (W n)) by (intros f b Hf Hb; now apply weight_spec).
  f_equal. apply filter_ext_in. intros x Hx. apply flat2_In in Hx as (f & b & Hf & Hb & <-).
  rewrite <- (weight_spec sqrt_ ci wts W n f b HW Hb). pose proof (weight_nonneg sqrt_ ci wts n f b) as N. f_equal. unfold Qceqb.
  destruct (Qc_eq_dec (weight sqrt_ ci wts n f b) 0) as [Z|Z]; symmetry.
  - rewrite Z. vm_compute. reflexivity.
  - apply Qcleb_false. destruct (Qcle_lt_or_eq _ _ N) as [|X]; auto. exfalso. apply Z. now symmetry.
Qed.
Print Assumptions C70_count_partial.

(** ** Concrete inputs: all baselines between [n] tiles, one time; the weights depend on polarisation, frequency and the two
    tiles *)
Definition pairs (n : nat) : list (nat * nat) := flat_map (fun a => map (fun b => (a, b)) (seq (S a) (n - S a))) (seq 0 n).
Definition demo_in (pols freqs n : nat) (max_iter : Z) (flagged : nat -> bool) (avg : bool) : cal_in :=
  {| ci_pols := pols; ci_freqs := freqs; ci_tiles := n; ci_times := 1; ci_bls := length (pairs n);
     ci_tile_a := map (fun x => Z.of_nat (S (fst x))) (pairs n); ci_tile_b := map (fun x => Z.of_nat (S (snd x))) (pairs n);
     ci_tile_use := map (fun t => if flagged t then 0%Z else 1%Z) (seq 0 n); ci_freq_use := repeat 1%Z freqs;
     ci_freq := fun _ => 1%Qc; ci_uu := fun _ => 1%Qc; ci_vv := fun _ => 1%Qc; ci_kpix := 1%Qc; ci_dimension := 10; ci_elements := 10;
     ci_min := 0%Qc; ci_max := Q2Qc 5; ci_cal_min := 0%Qc; ci_cal_max := 0%Qc; ci_average := avg;
     ci_max_iter := max_iter; ci_phase := 1; ci_base := 1%Qc; ci_thr := Q2Qc (1#100); ci_adapt := false; ci_noref := false |}.
Definition demo_sqrt (x : Qc) : Qc := x.
Definition per_tiles {A} (n : nat) (x : nat -> nat -> nat -> nat -> A) : nat -> nat -> nat -> A :=
  fun p f b => let ab := nth b (pairs n) (0, 0) in x p f (fst ab) (snd ab).
Definition ones : nat -> nat -> nat -> C := fun _ _ _ => C1.
Notation run_demo ci n v w := (vis_calibrate_subroutine demo_abs demo_sqrt ci (per_tiles n v) ones (per_tiles n w) ones).
Definition gain_is (out : sub_out) (p f t : nat) (chk : option C -> bool) : bool :=
  match nth_error (so_pols out) p with Some o => chk (po_gain o f t) | None => false end.
Definition is_val (c : C) (g : option C) : bool := match g with Some x => Ceqb x c | None => false end.

(** Data of baselines with a flagged tile are not ignored when their weights are positive: they are attributed to the first
    good tile. Here only the visibilities of baselines with the flagged tile 5 differ. *)
Theorem C70_flagged_tile_refuted : exists ci vis vis' wts out out' o o',
  consistent ci
  /\ (forall p f s, tile1 ci s <> 5 -> tile2 ci s <> 5 -> vis p f s = vis' p f s)
  /\ nth 5 (ci_tile_use ci) 0%Z = 0%Z
  /\ vis_calibrate_subroutine demo_abs demo_sqrt ci vis ones wts ones = Ok out /\ nth_error (so_pols out) 0 = Some o
  /\ vis_calibrate_subroutine demo_abs demo_sqrt ci vis' ones wts ones = Ok out' /\ nth_error (so_pols out') 0 = Some o'
  /\ po_gain o 0 0 <> po_gain o' 0 0.
Proof.
  set (ci := demo_in 1 1 6 2 (fun t => t =? 5) false).
  set (v := fun (p f a b : nat) => C1). set (v' := fun (p f a b : nat) => if (b =? 5) then RtoC (Q2Qc 9) else C1).
  set (w := fun (p f a b : nat) => 1%Qc).
  assert (R : exists out, run_demo ci 6 v w = Ok out /\ gain_is out 0 0 0 (is_val C1) = true) by (apply run_check; vm_compute; reflexivity).
  assert (R' : exists out, run_demo ci 6 v' w = Ok out /\ gain_is out 0 0 0 (fun g => match g with Some _ => negb (is_val C1 g) | None => false end) = true)
    by (apply run_check; vm_compute; reflexivity).
  destruct R as (out & R & G). destruct R' as (out' & R' & G'). unfold gain_is in G, G'.
  destruct (nth_error (so_pols out) 0) as [o|] eqn:Eo; [|discriminate G]. destruct (nth_error (so_pols out') 0) as [o'|] eqn:Eo'; [|discriminate G'].
  exists ci, (per_tiles 6 v), (per_tiles 6 v'), (per_tiles 6 w), out, out', o, o'.
  split; [constructor; try reflexivity; cbn; try lia; intros z Hz; repeat (destruct Hz as [<-|Hz]; [lia|]); destruct Hz|].
  split.
  { intros p f s _ H2. unfold per_tiles, v, v'. destruct (Nat.eqb_spec (snd (nth s (pairs 6) (0, 0))) 5) as [E|]; [|reflexivity]. exfalso. apply H2.
    destruct (Nat.lt_ge_cases s 15) as [L|L].
    - unfold tile2. do 15 (destruct s as [|s]; [revert E; vm_compute; congruence|]). lia.
    - rewrite nth_overflow in E by (cbn; lia). cbn in E. discriminate E. }
  split; [reflexivity|]. split; [exact R|]. split; [exact Eo|]. split; [exact R'|]. split; [exact Eo'|]. intros X. rewrite X in G. destruct (po_gain o' 0 0) as [x|]; [|discriminate G]. cbn [is_val] in G, G'. rewrite G in G'. discriminate G'.
Qed.
Print Assumptions C70_flagged_tile_refuted.

(** NaN gains at the last frequency set the gains of other frequencies to 0: here the inputs only differ in the weights of
    frequency 7, where the reference tile is without data in one of them. *)
Theorem C70_nan_rows_refuted : exists ci vis wts wts' out out' o o',
  (forall p f s, f <> 7 -> wts p f s = wts' p f s)
  /\ vis_calibrate_subroutine demo_abs demo_sqrt ci vis ones wts ones = Ok out /\ nth_error (so_pols out) 0 = Some o
  /\ vis_calibrate_subroutine demo_abs demo_sqrt ci vis ones wts' ones = Ok out' /\ nth_error (so_pols out') 0 = Some o'
  /\ (forall t, t < 7 -> po_gain o 0 t = Some C1) /\ (forall f t, f < 7 -> t < 7 -> po_gain o' f t = Some C0).
Proof.
  set (ci := demo_in 1 8 7 1 (fun _ => false) false). set (v := fun (p f a b : nat) => C1). set (w := fun (p f a b : nat) => 1%Qc).
  set (w' := fun (p f a b : nat) => if (f =? 7) && ((a =? 1) || (b =? 1)) then 0%Qc else 1%Qc).
  assert (R : exists out, run_demo ci 7 v w = Ok out /\ forallb (fun t => gain_is out 0 0 t (is_val C1)) (seq 0 7) = true) by (apply run_check; vm_compute; reflexivity).
  assert (R' : exists out, run_demo ci 7 v w' = Ok out /\ forallb (fun f => forallb (fun t => gain_is out 0 f t (is_val C0)) (seq 0 7)) (seq 0 7) = true)
    by (apply run_check; vm_compute; reflexivity).
  destruct R as (out & R & G). destruct R' as (out' & R' & G').
  assert (V : forall c g, is_val c g = true -> g = Some c).
  { intros c [x|] H; [|discriminate]. cbn in H. unfold Ceqb in H. destruct (C_eq_dec x c); congruence. }
  destruct (nth_error (so_pols out) 0) as [o|] eqn:Eo.
  2:{ exfalso. rewrite forallb_forall in G. specialize (G 0 ltac:(apply in_seq; lia)). unfold gain_is in G. rewrite Eo in G. discriminate G. }
  destruct (nth_error (so_pols out') 0) as [o'|] eqn:Eo'.
  2:{ exfalso. rewrite forallb_forall in G'. specialize (G' 0 ltac:(apply in_seq; lia)). rewrite forallb_forall in G'. specialize (G' 0 ltac:(apply in_seq; lia)).
      unfold gain_is in G'. rewrite Eo' in G'. discriminate G'. }
  exists ci, (per_tiles 7 v), (per_tiles 7 w), (per_tiles 7 w'), out, out', o, o'.
  split; [intros p f s Nf; unfold per_tiles, w, w'; apply Nat.eqb_neq in Nf; now rewrite Nf|].
  split; [exact R|]. split; [exact Eo|]. split; [exact R'|]. split; [exact Eo'|]. split.
  - intros t Ht. rewrite forallb_forall in G. specialize (G t ltac:(apply in_seq; lia)). unfold gain_is in G. rewrite Eo in G. now apply V.
  - intros f t Hf Ht. rewrite forallb_forall in G'. specialize (G' f ltac:(apply in_seq; lia)). rewrite forallb_forall in G'. specialize (G' t ltac:(apply in_seq; lia)).
    unfold gain_is in G'. rewrite Eo' in G'. now apply V.
Qed.
Print Assumptions C70_nan_rows_refuted.

(** With more than one iteration allowed, one frequency without data of the reference tile makes the whole call fail. *)
Theorem C70_reference_refuted : exists ci vis wts wts' out,
  (forall p f s, f <> 1 -> wts p f s = wts' p f s) /\ ci_freqs ci = 3
  /\ vis_calibrate_subroutine demo_abs demo_sqrt ci vis ones wts ones = Ok out
  /\ vis_calibrate_subroutine demo_abs demo_sqrt ci vis ones wts' ones = Err ValueError.
Proof.
  set (ci := demo_in 1 3 7 9 (fun _ => false) false). set (v := fun (p f a b : nat) => C1). set (w := fun (p f a b : nat) => 1%Qc).
  set (w' := fun (p f a b : nat) => if (f =? 1) && ((a =? 1) || (b =? 1)) then 0%Qc else 1%Qc).
  assert (R : exists out, run_demo ci 7 v w = Ok out /\ true = true) by (apply (run_check _ (fun _ => true)); vm_compute; reflexivity).
  destruct R as (out & R & _). exists ci, (per_tiles 7 v), (per_tiles 7 w), (per_tiles 7 w'), out.
  split; [intros p f s Nf; unfold per_tiles, w, w'; apply Nat.eqb_neq in Nf; now rewrite Nf|].
  split; [reflexivity|]. split; [exact R|]. vm_compute. reflexivity.
Qed.
Print Assumptions C70_reference_refuted.

(** Two polarisations, half of the first one flagged: only the second one is counted. *)
Theorem C70_count_refuted : exists ci vis wts W out,
  consistent ci /\ total_weight demo_sqrt ci wts W
  /\ vis_calibrate_subroutine demo_abs demo_sqrt ci vis ones wts ones = Ok out
  /\ so_nvis out <> sum_nat (map (n_weighted ci W) (seq 0 (ci_pols ci))).
Proof.
  set (ci := demo_in 2 2 6 5 (fun _ => false) false). set (v := fun (p f a b : nat) => C1).
  set (w := fun (p f a b : nat) => if (p =? 0) && (f =? 0) then 0%Qc else 1%Qc).
  assert (R : exists out, run_demo ci 6 v w = Ok out /\ (so_nvis out =? 30) = true) by (apply (run_check _ (fun o => so_nvis o =? 30)); vm_compute; reflexivity).
  destruct R as (out & R & G). exists ci, (per_tiles 6 v), (per_tiles 6 w), (weight demo_sqrt ci (per_tiles 6 w)), out.
  split; [constructor; try reflexivity; cbn; try lia; intros z Hz; repeat (destruct Hz as [<-|Hz]; [lia|]); destruct Hz|].
  split; [apply spec_weight|]. split; [exact R|]. apply Nat.eqb_eq in G. rewrite G. vm_compute. discriminate.
Qed.
Print Assumptions C70_count_refuted.

(** The hypotheses of the theorems are met: six tiles whose data are the products of their gains, one of them flagged. *)
Definition demo_start : nat -> nat -> nat -> C := fun _ _ t => nth t [Ci; RtoC (Q2Qc 3); C1; RtoC (Q2Qc 2); RtoC (-(1))%Qc; mkC 1 1; C1] C0.
Example C70_demo :
  exists out, vis_calibrate_subroutine demo_abs demo_sqrt (demo_in 1 2 7 6 (fun t => t =? 6) true)
      (per_tiles 7 (fun p f a b => demo_start p f a * Cconj (demo_start p f b))%C) ones
      (per_tiles 7 (fun p f a b => if (b =? 6) then 0%Qc else 1%Qc)) demo_start = Ok out
    /\ (forallb (fun f => forallb (fun t => gain_is out 0 f t (if t =? 6 then (fun g => match g with None => true | _ => false end)
                                                               else is_val (demo_start 0 f t))) (seq 0 7)) (seq 0 2)
        && (so_nvis out =? 30))%bool = true.
Proof. apply (run_check _ (fun out => (forallb _ _ && (so_nvis out =? 30))%bool)). vm_compute. reflexivity. Qed.
