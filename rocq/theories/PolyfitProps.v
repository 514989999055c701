(** C68: property theorems about the polynomial fits of the gains (vis_cal_polyfit). *)
From Coq Require Import ZifyBool ZifyNat.
From Verif Require Import Base Cplx NpArr PyIndex VisWeights VisWeightsProps GridLoc AutoProofs CalFlag CalFlagSpec CalFlagProofs CalAutoProofs
  CalibrateProofs Polyfit PolyfitSpec PolyfitProofs.
Open Scope nat_scope.
Ltac Zify.zify_post_hook ::= idtac.

(** Without cable reflections, over the full band: the gain of every channel is an amplitude with the phase of the
    fitted phase polynomial, and the amplitude is the fitted amplitude polynomial but for its highest term. *)
Theorem C68_value_partial : forall abs_ arg_ expi unwrap fit turn hyper dm cfg below freq_use tile_use light span table auto gain out
    freqs p f t ca cp,
  vis_cal_polyfit abs_ arg_ expi unwrap fit turn hyper dm cfg below freq_use tile_use light span table auto gain = Ok out ->
  no_reflections cfg -> c_jump cfg = false -> in_use freq_use freqs -> p < d_pol gain -> t < d_bl gain ->
  fit freqs (amps abs_ gain p t freqs) (amp_degree cfg) = map Some ca -> length ca = amp_degree cfg + 1 ->
  fit freqs (unwrap (phases arg_ gain p t freqs)) (phase_degree cfg) = map Some cp ->
  exists a, at3 out p f t = Some (Cscale a (expi (poly cp (qc_nat f))))
    /\ (a + last ca 0 * Qcpower (qc_nat f) (amp_degree cfg))%Qc = poly ca (qc_nat f).
Proof.
  intros abs_ arg_ expi unwrap fit turn hyper dm cfg below fu tu light span table auto gain out freqs p f t ca cp E NR J F Hp Ht Ea La Ep.
  rewrite plain_run in E by auto. rewrite <- (in_use_unique _ _ F) in E.
  destruct (fit_all_at _ _ _ _ _ _ _ _ _ _ p t E Hp Ht) as (h & T & V). rewrite V.
  apply tile_inv in T as (a & ph & A & P & Hh). rewrite J in A. apply amp_full_inv in A as [_ A]. pose proof (phase_full_inv _ _ _ _ _ _ P) as Q.
  unfold amps in Ea. unfold phases in Ep. cbv zeta in Q. rewrite Ep in Q. rewrite Ea in A.
  rewrite Hh, A, Q, map_length, (poly_firstn ca) by lia. rewrite (poly_all cp) by auto. eexists; split; [reflexivity|].
  assert (X : ca = firstn (amp_degree cfg) ca ++ [last ca 0%Qc]).
  { clear -La. rewrite (app_removelast_last 0%Qc) at 1 by (destruct ca; [cbn in La; lia|discriminate]). f_equal.
    rewrite removelast_firstn_len. f_equal. lia. }
  rewrite X at 3. rewrite poly_app, firstn_length, Nat.min_l by lia. reflexivity.
Qed.
Print Assumptions C68_value_partial.

(** REFUTED: the amplitude is not the value of the fitted polynomial. Whenever a fit of degree two or more succeeds,
    every channel but number 0 gets a different amplitude. *)
Theorem C68_top_term_refuted : forall abs_ arg_ expi unwrap fit turn hyper dm cfg below freq_use tile_use light span table auto gain out
    freqs p f t ca cp,
  vis_cal_polyfit abs_ arg_ expi unwrap fit turn hyper dm cfg below freq_use tile_use light span table auto gain = Ok out ->
  no_reflections cfg -> c_jump cfg = false -> 2 <= amp_degree cfg -> in_use freq_use freqs -> p < d_pol gain -> t < d_bl gain ->
  fit freqs (amps abs_ gain p t freqs) (amp_degree cfg) = map Some ca -> trimmed ca ->
  fit freqs (unwrap (phases arg_ gain p t freqs)) (phase_degree cfg) = map Some cp ->
  1 <= f -> exists a, at3 out p f t = Some (Cscale a (expi (poly cp (qc_nat f)))) /\ a <> poly ca (qc_nat f).
Proof.
  intros abs_ arg_ expi unwrap fit turn hyper dm cfg below fu tu light span table auto gain out freqs p f t ca cp E NR J D F Hp Ht Ea [_ Tr] Ep Hf.
  assert (L : length ca = amp_degree cfg + 1).
  { pose proof E as E'. rewrite plain_run in E' by auto. rewrite <- (in_use_unique _ _ F) in E'.
    destruct (fit_all_at _ _ _ _ _ _ _ _ _ _ p t E' Hp Ht) as (h & T & _). apply tile_inv in T as (a & ph & A & _).
    rewrite J in A. apply amp_full_inv in A as [A _]. unfold amps in Ea. rewrite Ea, map_length in A. lia. }
  destruct (C68_value_partial _ _ _ _ _ _ _ _ _ _ _ _ _ _ _ _ _ _ freqs p f t ca cp E NR J F Hp Ht Ea L Ep) as (a & V & H).
  exists a. split; auto. intros ->. destruct Tr as [Tr|Tr]; [lia|].
  assert (X : (last ca 0 * Qcpower (qc_nat f) (amp_degree cfg))%Qc = 0%Qc).
  { transitivity (poly ca (qc_nat f) + last ca 0 * Qcpower (qc_nat f) (amp_degree cfg) - poly ca (qc_nat f))%Qc; [ring|]. rewrite H. ring. }
  apply Qcmult_integral in X as [X|X]; [contradiction|].
  pose proof (Qc_pos_neq _ (qc_nat_pos f ltac:(lia))) as N. clear -X N. induction (amp_degree cfg) as [|n IH]; cbn [Qcpower] in X; [discriminate|].
  apply Qcmult_integral in X as [X|X]; auto.
Qed.
Print Assumptions C68_top_term_refuted.

(** REFUTED: and when NumPy returns fewer coefficients (the amplitudes of some tile lie on a polynomial of lower degree
    and the highest coefficient comes out as zero) there is no result at all. *)
Theorem C68_low_degree_refuted : forall abs_ arg_ expi unwrap fit turn hyper dm cfg below freq_use tile_use light span table auto gain
    freqs p t,
  c_jump cfg = false -> 2 <= amp_degree cfg -> in_use freq_use freqs -> p < d_pol gain -> t < d_bl gain ->
  length (fit freqs (amps abs_ gain p t freqs) (amp_degree cfg)) <= amp_degree cfg ->
  forall out, vis_cal_polyfit abs_ arg_ expi unwrap fit turn hyper dm cfg below freq_use tile_use light span table auto gain <> Ok out.
Proof.
  intros abs_ arg_ expi unwrap fit turn hyper dm cfg below fu tu light span table auto gain freqs p t J D F Hp Ht L out E.
  unfold vis_cal_polyfit in E. apply bind_ok in E as (g & E & _). rewrite <- (in_use_unique _ _ F) in E.
  destruct (fit_all_at _ _ _ _ _ _ _ _ _ _ p t E Hp Ht) as (h & T & _). apply tile_inv in T as (a & ph & A & _).
  rewrite J in A. apply amp_full_inv in A as [A _]. unfold amps in L. lia.
Qed.
Print Assumptions C68_low_degree_refuted.

(** REFUTED: separate fits below and above the digital gain jump. With [k] the first channel above the jump, used
    channels on both sides, and the first used channel not number 1 (nor the last one below the jump), no run succeeds. *)
Theorem C68_jump_refuted : forall abs_ arg_ expi unwrap fit turn hyper dm cfg k freq_use tile_use light span table auto gain freqs f0 fl,
  c_jump cfg = true -> in_use freq_use freqs -> 0 < d_pol gain -> 0 < d_bl gain -> (forall x y d, fit x y d <> []) ->
  (exists h, In h freqs /\ k <= h) ->
  In f0 freqs -> (forall x, In x freqs -> f0 <= x) -> f0 < k -> f0 <> 1 ->
  In fl freqs -> fl < k -> (forall x, In x freqs -> x < k -> x <= fl) -> fl <> 1 ->
  (forall out, vis_cal_polyfit abs_ arg_ expi unwrap fit turn hyper dm cfg (fun f => f <? k) freq_use tile_use light span table auto gain <> Ok out)
  /\ ((forall x, In x freqs -> x < d_freq gain) ->
      vis_cal_polyfit abs_ arg_ expi unwrap fit turn hyper dm cfg (fun f => f <? k) freq_use tile_use light span table auto gain = Err ValueError).
Proof.
  intros abs_ arg_ expi unwrap fit turn hyper dm cfg k fu tu light span table auto gain freqs f0 fl J F Hp Ht Nf (h & Ih & Hk) I0 M0 L0 N0 Il Ll Ml Nl.
  assert (St : StronglySorted lt freqs) by apply F.
  assert (X : forall g, fit_tile abs_ arg_ expi unwrap fit cfg (fun f => f <? k) freqs g = Err ValueError).
  { intros g. unfold fit_tile. rewrite J, degree_a.
    set (lo := filter (fun f => f <? k) freqs). set (hi := filter (fun f => negb (f <? k)) freqs).
    assert (Ilo : forall x, In x lo <-> In x freqs /\ x < k) by (intros x; unfold lo; rewrite filter_In, Nat.ltb_lt; tauto).
    assert (Nlo : lo <> []) by (intros Z; assert (In f0 lo) by (apply Ilo; auto); rewrite Z in *; auto).
    assert (Nhi : hi <> []).
    { intros Z. assert (In h hi) by (unfold hi; apply filter_In; split; auto; apply negb_true_iff, Nat.ltb_ge; auto). rewrite Z in *; auto. }
    assert (Slo : StronglySorted lt lo) by (apply filter_sorted; auto).
    rewrite amp_jump_split; auto. 2:{ unfold amp_degree. now destruct (c_amp_degree cfg). }
    fold lo hi. assert (E0 : hd 0 lo = f0).
    { apply Nat.le_antisymm; [apply sorted_hd; auto; now apply Ilo|]. apply M0. now apply Ilo, hd_In. }
    assert (El : last lo 0 = fl).
    { apply Nat.le_antisymm; [|apply sorted_last; auto; now apply Ilo].
      pose proof (last_In lo 0 Nlo) as I. apply Ilo in I as [I1 I2]. now apply Ml. }
    cbv zeta. rewrite E0, El. assert (f0 <= fl) by auto.
    replace (fl - f0 + 1 =? fl) with false by (symmetry; apply Nat.eqb_neq; lia).
    replace (fl =? 1) with false by (symmetry; apply Nat.eqb_neq; lia). reflexivity. }
  assert (Y : fit_all abs_ arg_ expi unwrap fit cfg (fun f => f <? k) (nonzero fu) gain
              = if forallb (fun f => f <? d_freq gain) freqs then Err ValueError else Err IndexError).
  { rewrite <- (in_use_unique _ _ F). unfold fit_all. destruct (forallb _ _); [|reflexivity]. cbn [negb].
    destruct (d_pol gain) as [|n]; [lia|]. cbn [seq map_res]. destruct (d_bl gain) as [|m]; [lia|]. cbn [seq map_res].
    rewrite X. reflexivity. }
  unfold vis_cal_polyfit. rewrite Y. split.
  - intros out. destruct (forallb _ _); discriminate.
  - intros B. replace (forallb _ _) with true; [reflexivity|]. symmetry. apply forallb_forall. intros x Hx. apply Nat.ltb_lt; auto.
Qed.
Print Assumptions C68_jump_refuted.

(** REFUTED: with the first used channel at number 1 the run succeeds, but below the jump each channel gets the
    amplitude the polynomial has at the channel before it. *)
Theorem C68_jump_shift_refuted : forall abs_ arg_ expi unwrap fit turn hyper dm cfg k freq_use tile_use light span table auto gain out
    freqs p f t c1 c2 cp,
  let lo := filter (fun f => f <? k) freqs in let hi := filter (fun f => negb (f <? k)) freqs in
  vis_cal_polyfit abs_ arg_ expi unwrap fit turn hyper dm cfg (fun f => f <? k) freq_use tile_use light span table auto gain = Ok out ->
  no_reflections cfg -> c_jump cfg = true -> in_use freq_use freqs -> p < d_pol gain -> t < d_bl gain ->
  lo <> [] -> hi <> [] -> hd 0 freqs = 1 ->
  fit lo (amps abs_ gain p t lo) (amp_degree cfg - 1) = map Some c1 -> c1 <> [] ->
  fit hi (amps abs_ gain p t hi) (amp_degree cfg - 1) = map Some c2 ->
  fit freqs (unwrap (phases arg_ gain p t freqs)) (phase_degree cfg) = map Some cp ->
  (In f lo -> at3 out p f t = Some (Cscale (poly c1 (qc_nat (f - 1))) (expi (poly cp (qc_nat f)))))
  /\ (In f hi -> at3 out p f t = Some (Cscale (poly c2 (qc_nat f)) (expi (poly cp (qc_nat f))))).
Proof.
  intros abs_ arg_ expi unwrap fit turn hyper dm cfg k fu tu light span table auto gain out freqs p f t c1 c2 cp lo hi E NR J F Hp Ht Nlo Nhi H1 E1 N1 E2 Ep.
  rewrite plain_run in E by auto. rewrite <- (in_use_unique _ _ F) in E. assert (St : StronglySorted lt freqs) by apply F.
  destruct (fit_all_at _ _ _ _ _ _ _ _ _ _ p t E Hp Ht) as (h & T & V). rewrite V.
  apply tile_inv in T as (a & ph & A & P & Hh). rewrite J in A. pose proof (phase_full_inv _ _ _ _ _ _ P) as Q. cbv zeta in Q.
  unfold amps in E1, E2. unfold phases in Ep. rewrite Ep in Q.
  assert (Nd : amp_degree cfg <> 0) by (unfold amp_degree; now destruct (c_amp_degree cfg)).
  assert (Nc : fit lo (map (fun f => option_map abs_ (at3 gain p f t)) lo) (amp_degree cfg - 1) <> []).
  { rewrite E1. destruct c1; [contradiction|discriminate]. }
  rewrite (amp_jump_split fit k freqs (amp_degree cfg) _ St Nlo Nhi Nd Nc) in A. fold lo in A. fold hi in A. cbv zeta in A.
  rewrite E1, E2 in A.
  destruct (filter_below_firstn k freqs St) as [F1 F2]. fold lo in F1, F2. fold hi in F2.
  assert (Fq : freqs = lo ++ hi) by (rewrite F1, F2 at 1; now rewrite firstn_skipn).
  assert (H0 : hd 0 lo = 1) by (rewrite Fq in H1; destruct lo; [contradiction|exact H1]).
  rewrite H0 in A. destruct (negb _); [discriminate|]. destruct (_ || _) eqn:L1; [discriminate|]. destruct (negb _) eqn:L2; [discriminate|].
  injection A as <-. rewrite !map_length in *.
  assert (Slo : StronglySorted lt lo) by (apply filter_sorted; auto). assert (Shi : StronglySorted lt hi) by (apply filter_sorted; auto).
  assert (Blo : forall x, In x lo -> x < k) by (intros x Hx; unfold lo in Hx; apply filter_In in Hx; lia).
  assert (Bhi : forall x, In x hi -> k <= x) by (intros x Hx; unfold hi in Hx; apply filter_In in Hx; lia).
  rewrite Hh, Q, !poly_all by lia. split; intros I.
  - pose proof (sorted_hd lo f 0 Slo I). pose proof (sorted_last lo f 0 Slo I). pose proof (Bhi _ (hd_In hi 0 Nhi)). pose proof (Blo f I).
    replace (match f with 0 => false | S _ => true end && (f <=? last lo 0)) with true by (destruct f; lia). replace ((hd 0 hi <=? f) && (f <=? last hi 0)) with false by lia.
    cbn [oadd]. replace (if last lo 0 =? 1 then 0 else f - 1) with (f - 1) by (destruct (last lo 0 =? 1) eqn:X; lia).
    do 2 f_equal. ring.
  - pose proof (sorted_hd hi f 0 Shi I). pose proof (sorted_last hi f 0 Shi I). pose proof (Blo _ (last_In lo 0 Nlo)). pose proof (Bhi f I).
    replace (match f with 0 => false | S _ => true end && (f <=? last lo 0)) with false by (destruct f; lia). replace ((hd 0 hi <=? f) && (f <=? last hi 0)) with true by lia.
    cbn [oadd]. do 2 f_equal. ring.
Qed.
Print Assumptions C68_jump_shift_refuted.

(** REFUTED: with the option for the gain jump and all used channels above it, every gain becomes 0, although the
    message promises a fit over the full band. *)
Theorem C68_no_jump_refuted : forall abs_ arg_ expi unwrap fit turn hyper dm cfg below freq_use tile_use light span table auto gain out freqs p f t cp,
  vis_cal_polyfit abs_ arg_ expi unwrap fit turn hyper dm cfg below freq_use tile_use light span table auto gain = Ok out ->
  no_reflections cfg -> c_jump cfg = true -> in_use freq_use freqs -> (forall x, In x freqs -> below x = false) ->
  p < d_pol gain -> t < d_bl gain ->
  fit freqs (unwrap (phases arg_ gain p t freqs)) (phase_degree cfg) = map Some cp ->
  at3 out p f t = Some C0.
Proof.
  intros abs_ arg_ expi unwrap fit turn hyper dm cfg below fu tu light span table auto gain out freqs p f t cp E NR J F B Hp Ht Ep.
  rewrite plain_run in E by auto. rewrite <- (in_use_unique _ _ F) in E.
  destruct (fit_all_at _ _ _ _ _ _ _ _ _ _ p t E Hp Ht) as (h & T & V). rewrite V.
  apply tile_inv in T as (a & ph & A & P & Hh). rewrite J, amp_jump_none in A by auto. injection A as <-.
  pose proof (phase_full_inv _ _ _ _ _ _ P) as Q. cbv zeta in Q. unfold phases in Ep. rewrite Ep in Q.
  rewrite Hh, Q, map_length, poly_all by auto. f_equal. apply C_ext; cbn [re im Cscale C0]; ring.
Qed.
Print Assumptions C68_no_jump_refuted.

(** REFUTED: three of the four ways to fit cable reflections cannot succeed: reflections from the file never; the
    hyperresolved fit without another mode never; modes from the delay spectrum not when there are more than twice as
    many channels as tiles, as with the MWA (384 channels, 128 tiles). *)
Theorem C68_reflection_modes_refuted : forall abs_ arg_ expi unwrap fit turn hyper dm cfg below freq_use tile_use light span table auto gain out,
  (c_file cfg = true
   \/ (c_hyper cfg = true /\ c_file cfg = false /\ c_theory cfg = 0%Qc /\ c_delay cfg = false)
   \/ (c_delay cfg = true /\ c_file cfg = false /\ c_theory cfg = 0%Qc
       /\ 0 < d_pol gain /\ d_bl gain < d_freq gain / 2 /\ exists t, In t (nonzero tile_use))) ->
  vis_cal_polyfit abs_ arg_ expi unwrap fit turn hyper dm cfg below freq_use tile_use light span table auto gain <> Ok out.
Proof.
  intros abs_ arg_ expi unwrap fit turn hyper dm cfg below fu tu light span table auto gain out H E.
  unfold vis_cal_polyfit in E. apply bind_ok in E as (g & _ & E). unfold modes in E.
  destruct H as [F|[(Hy & F & T & D)|(D & F & T & Hp & Hb & (t & It))]]; rewrite F, ?Hy, ?D, ?(theory_off _ T) in E; cbn [orb negb andb] in E.
  - destruct (_ <? 2); [discriminate|]. destruct (negb _); discriminate.
  - discriminate.
  - replace (1 <=? d_pol gain) with true in E by lia. cbn [andb] in E. destruct (negb _); [discriminate|].
    replace (1 <=? length (nonzero tu)) with true in E by (destruct (nonzero tu); [destruct It|cbn; lia]).
    replace (d_bl gain <? d_freq gain / 2) with true in E by (symmetry; apply Nat.ltb_lt; auto). discriminate.
Qed.
Print Assumptions C68_reflection_modes_refuted.

(** Tiles not in use, and tiles of another cable length than the chosen one, keep the polynomial gains. *)
Theorem C68_other_tiles : forall abs_ arg_ expi unwrap fit turn hyper dm cfg below freq_use tile_use light span table auto gain out,
  vis_cal_polyfit abs_ arg_ expi unwrap fit turn hyper dm cfg below freq_use tile_use light span table auto gain = Ok out ->
  exists g, vis_cal_polyfit abs_ arg_ expi unwrap fit turn hyper dm
      {| c_amp_degree := c_amp_degree cfg; c_phase_degree := c_phase_degree cfg; c_jump := c_jump cfg; c_file := false;
         c_theory := 0; c_delay := false; c_hyper := false |} below freq_use tile_use light span table auto gain = Ok g
    /\ forall p f t, p < d_pol gain -> t < d_bl gain ->
         (nth t tile_use 0%Z = 0%Z
          \/ (auto = false /\ exists row, nth_error table t = Some row
              /\ ((1 < c_theory cfg)%Qc /\ k_length row <> c_theory cfg
                  \/ (c_theory cfg < - (1))%Qc /\ k_length row = (- c_theory cfg)%Qc))) ->
         at3 out p f t = at3 g p f t.
Proof.
  intros abs_ arg_ expi unwrap fit turn hyper dm cfg below fu tu light span table auto gain out E.
  set (cfg0 := {| c_amp_degree := _ |}). rewrite (plain_run abs_ arg_ expi unwrap fit turn hyper dm cfg0) by (now repeat split).
  unfold vis_cal_polyfit in E. apply bind_ok in E as (g & Eg & E). exists g. split; [exact Eg|].
  destruct (negb (_ || _)) eqn:Rf. { injection E as <-. reflexivity. }
  apply bind_ok in E as (m & Em & E). destruct (_ && _); [discriminate|]. apply bind_ok in E as (fits & Ef & E). injection E as <-.
  intros p f t Hp Ht H. cbn [at3].
  pose proof (map_res_nth _ _ _ 0 [] p Ef ltac:(rewrite seq_length; auto)) as R. rewrite seq_nth in R by auto. cbn [Nat.add] in R.
  pose proof (map_res_nth _ _ _ 0 None t R ltac:(rewrite seq_length; auto)) as T. rewrite seq_nth in T by auto. cbn [Nat.add] in T.
  clear R Ef. destruct H as [H|(-> & row & Er & H)].
  - replace (existsb (Nat.eqb t) (nonzero tu)) with false in T.
    + cbn [negb orb] in T. injection T as T. rewrite <- T. reflexivity.
    + symmetry. apply Bool.not_true_iff_false. rewrite existsb_exists. intros (x & Ix & Ex). apply Nat.eqb_eq in Ex. subst x.
      apply (proj1 (nonzero_in_use tu)) in Ix. tauto.
  - assert (Nz : c_theory cfg <> 0%Qc) by (intros Z; rewrite Z in H; destruct H as [[H _]|[H _]]; discriminate H).
    assert (K : kept_cable (c_theory cfg) (k_length row) = false).
    { unfold kept_cable. destruct H as [[H1 H2]|[H1 H2]].
      - destruct (Qclt_le_dec 1 (c_theory cfg)) as [_|X]; [|now apply Qcle_not_lt in X].
        now destruct (Qc_eq_dec (k_length row) (c_theory cfg)).
      - destruct (Qclt_le_dec 1 (c_theory cfg)) as [X|_].
        { exfalso. pose proof (Qclt_trans _ _ _ X H1) as Y. discriminate Y. }
        destruct (Qclt_le_dec (c_theory cfg) (- (1))) as [_|X]; [|now apply Qcle_not_lt in X].
        now destruct (Qc_eq_dec (k_length row) (- c_theory cfg)). }
    rewrite (theory_on _ Nz), Er, K in T. cbn [negb andb] in T. destruct (Qc_eq_dec 0 0) as [_|X]; [|now contradiction X].
    rewrite orb_true_r in T. injection T as T. rewrite <- T. reflexivity.
Qed.
Print Assumptions C68_other_tiles.

(** So do tiles whose cable is marked in the table (flag 0 or less) as having no reflection to fit. *)
Theorem C68_marked_cables : forall abs_ arg_ expi unwrap fit turn hyper dm cfg below freq_use tile_use light span table auto gain out,
  vis_cal_polyfit abs_ arg_ expi unwrap fit turn hyper dm cfg below freq_use tile_use light span table auto gain = Ok out ->
  c_theory cfg <> 0%Qc ->
  exists g, vis_cal_polyfit abs_ arg_ expi unwrap fit turn hyper dm
      {| c_amp_degree := c_amp_degree cfg; c_phase_degree := c_phase_degree cfg; c_jump := c_jump cfg; c_file := false;
         c_theory := 0; c_delay := false; c_hyper := false |} below freq_use tile_use light span table auto gain = Ok g
    /\ forall p f t row, p < d_pol gain -> t < d_bl gain -> nth_error table t = Some row -> (k_flag row <= 0)%Qc ->
         at3 out p f t = at3 g p f t.
Proof.
  intros abs_ arg_ expi unwrap fit turn hyper dm cfg below fu tu light span table auto gain out E Nz.
  set (cfg0 := {| c_amp_degree := _ |}). rewrite (plain_run abs_ arg_ expi unwrap fit turn hyper dm cfg0) by (now repeat split).
  unfold vis_cal_polyfit in E. apply bind_ok in E as (g & Eg & E). exists g. split; [exact Eg|].
  destruct (negb (_ || _)) eqn:Rf. { injection E as <-. reflexivity. }
  apply bind_ok in E as (m & Em & E). destruct (_ && _); [discriminate|]. apply bind_ok in E as (fits & Ef & E). injection E as <-.
  intros p f t row Hp Ht Er Fl. cbn [at3].
  pose proof (map_res_nth _ _ _ 0 [] p Ef ltac:(rewrite seq_length; auto)) as R. rewrite seq_nth in R by auto. cbn [Nat.add] in R.
  pose proof (map_res_nth _ _ _ 0 None t R ltac:(rewrite seq_length; auto)) as T. rewrite seq_nth in T by auto. cbn [Nat.add] in T.
  clear R Ef. unfold modes in Em. destruct (c_file cfg).
  { exfalso. destruct (_ <? 2) in Em; [discriminate Em|]. destruct (negb _) in Em; discriminate Em. }
  rewrite (theory_on _ Nz) in Em. match type of Em with (if ?b then _ else _) = _ => destruct b; [discriminate Em|] end. injection Em as <-.
  rewrite Er in T. rewrite (theory_marked _ _ _ _ Fl) in T.
  match type of T with context [if ?b then 0%Qc else 0%Qc] => replace (if b then 0%Qc else 0%Qc) with 0%Qc in T by (destruct b; reflexivity) end.
  destruct (Qc_eq_dec 0 0) as [_|X]; [|now contradiction X].
  rewrite orb_true_r in T. injection T as T. rewrite <- T. reflexivity.
Qed.
Print Assumptions C68_marked_cables.

(** REFUTED: the nominal fit of a reflection. If the gains of a tile divided by the fitted polynomial are, at the used
    channels, a reflection of complex strength [b] at the tile's mode, the gain is multiplied by one plus the reflection
    times the NUMBER OF USED CHANNELS. *)
Theorem C68_reflection_size_refuted : forall abs_ arg_ expi unwrap fit turn hyper dm cfg below freq_use tile_use light span table gain out
    g freqs p f t row b,
  let n := d_freq gain in
  let mode := reflection_periods light span n row in
  let ripple (f : nat) := turn (- (mode * (qc_nat f / qc_nat n)))%Qc in
  vis_cal_polyfit abs_ arg_ expi unwrap fit turn hyper dm cfg below freq_use tile_use light span table false gain = Ok out ->
  c_theory cfg = 1%Qc -> c_file cfg = false -> c_hyper cfg = false ->
  fit_all abs_ arg_ expi unwrap fit cfg below freqs gain = Ok g ->
  in_use freq_use freqs -> p < d_pol gain -> t < d_bl gain -> nth t tile_use 0%Z <> 0%Z -> nth_error table t = Some row -> (1 <= k_flag row)%Qc -> mode <> 0%Qc ->
  (forall x, (turn (- x)%Qc * turn x)%C = C1) ->
  (let z := Cscale (qc_nat (length freqs)) b in Cscale (abs_ z) (expi (arg_ z)) = z) ->
  (forall f, In f freqs -> exists gf gp, at3 gain p f t = Some gf /\ at3 g p f t = Some gp /\ gp <> C0 /\ gf = (gp * (b * ripple f))%C) ->
  forall gp, at3 g p f t = Some gp ->
  at3 out p f t = Some (gp * (C1 + Cscale (qc_nat (length freqs)) (b * ripple f)))%C.
Proof.
  intros abs_ arg_ expi unwrap fit turn hyper dm cfg below fu tu light span table gain out g freqs p f t row b n mode ripple E T F Hy Eg Fr Hp Ht Ut Er Fl Nm Ht1 Hz Hg gp Gp.
  assert (Em : theory_mode light span n row = mode) by (apply theory_periods; exact Fl).
  assert (Nz : c_theory cfg <> 0%Qc) by (rewrite T; discriminate).
  unfold vis_cal_polyfit in E. rewrite <- (in_use_unique _ _ Fr), Eg in E. cbn [bind] in E.
  rewrite (theory_on _ Nz), F, Hy in E. cbn [orb negb andb] in E. unfold modes in E. rewrite F, (theory_on _ Nz) in E.
  destruct (_ || _) eqn:O1; [discriminate|]. cbn [bind] in E. match type of E with (if ?b then _ else _) = _ => destruct b; [discriminate|] end.
  apply bind_ok in E as (fits & Ef & E). injection E as <-. cbn [at3].
  pose proof (map_res_nth _ _ _ 0 [] p Ef ltac:(rewrite seq_length; auto)) as R. rewrite seq_nth in R by auto. cbn [Nat.add] in R.
  pose proof (map_res_nth _ _ _ 0 None t R ltac:(rewrite seq_length; auto)) as X. rewrite seq_nth in X by auto. cbn [Nat.add] in X.
  clear R Ef. rewrite Er in X.
  assert (K : kept_cable (c_theory cfg) (k_length row) = true).
  { unfold kept_cable. rewrite T. destruct (Qclt_le_dec 1 1) as [Y|_]; [discriminate Y|]. destruct (Qclt_le_dec 1 (- (1))) as [Y|_]; [discriminate Y|reflexivity]. }
  rewrite K in X. cbn [negb andb] in X. fold n in X. rewrite Em in X.
  replace (existsb (Nat.eqb t) (nonzero tu)) with true in X.
  2:{ symmetry. apply existsb_exists. exists t. split; [|apply Nat.eqb_refl]. apply (proj1 (nonzero_in_use tu)). split; auto.
      destruct (Nat.lt_ge_cases t (length tu)); auto. rewrite nth_overflow in Ut by auto. now contradiction Ut. }
  cbn [negb orb] in X. destruct (Qc_eq_dec mode 0) as [Y|_]; [contradiction|]. injection X as X. rewrite <- X. clear X fits.
  unfold nominal_fit.
  assert (S1 : csum_o (map (fun f => cmul_o (Some (turn (mode * qc_nat f / qc_nat n)%Qc)) (ratio_o (at3 gain p f t) (at3 g p f t))) freqs)
               = Some (Cscale (qc_nat (length freqs)) b)).
  { clear -Hg Ht1. induction freqs as [|x l IH].
    - cbn [map csum_o fold_right length]. f_equal. replace (qc_nat 0) with 0%Qc by (apply Qc_is_canon; reflexivity).
      apply C_ext; cbn [re im Cscale C0]; ring.
    - cbn [map csum_o fold_right]. unfold csum_o in IH. rewrite IH by (intros; apply Hg; now right). clear IH.
      destruct (Hg x (or_introl eq_refl)) as (gf & gp & E1 & E2 & Ng & E3). rewrite E1, E2. unfold ratio_o.
      destruct (C_eq_dec gp C0); [contradiction|]. cbn [cmul_o]. f_equal.
      assert (E4 : (gf / gp)%C = (b * ripple x)%C) by (rewrite E3; field; auto). rewrite E4. unfold ripple.
      replace (mode * qc_nat x / qc_nat n)%Qc with (mode * (qc_nat x / qc_nat n))%Qc by (unfold Qcdiv; ring).
      transitivity (b * (turn (- (mode * (qc_nat x / qc_nat n)))%Qc * turn (mode * (qc_nat x / qc_nat n))%Qc) + Cscale (qc_nat (length l)) b)%C; [ring|].
      rewrite Ht1. replace (qc_nat (length (x :: l))) with (1 + qc_nat (length l))%Qc; [apply C_ext; cbn; ring|].
      cbn [length]. unfold qc_nat. rewrite Nat2Z.inj_succ. apply Qc_is_canon. cbn [this Qcplus Q2Qc]. rewrite !Qred_correct.
      change (this 1%Qc) with 1%Q. unfold Z.succ. rewrite inject_Z_plus. ring. }
  rewrite S1. cbn [reflection]. rewrite Gp. cbn [cmul_o]. f_equal. f_equal. f_equal. fold n.
  transitivity (turn (- (mode * (qc_nat f / qc_nat n)))%Qc * Cscale (abs_ (Cscale (qc_nat (length freqs)) b)) (expi (arg_ (Cscale (qc_nat (length freqs)) b))))%C.
  { generalize (abs_ (Cscale (qc_nat (length freqs)) b)) (expi (arg_ (Cscale (qc_nat (length freqs)) b))) (turn (- (mode * (qc_nat f / qc_nat n)))%Qc).
    intros x y z. apply C_ext; cbn [re im Cscale Cmul]; ring. }
  cbv zeta in Hz. rewrite Hz. unfold ripple. generalize (qc_nat (length freqs)) (turn (- (mode * (qc_nat f / qc_nat n)))%Qc).
  intros x y. apply C_ext; cbn [re im Cscale Cmul]; ring.
Qed.
Print Assumptions C68_reflection_size_refuted.

(** ** Cases *)
Definition q_ (n : Z) : Qc := Q2Qc (inject_Z n).
(** four channels whose amplitudes are (f+1)^2, one tile, and the fit of exactly these *)
Definition c68_gain (scale : Z) : arr3 (option C) := Arr3 1 4 1 (fun _ f _ => Some (mkC (q_ scale * qc_nat ((f + 1) * (f + 1))) 0)%Qc).
Definition c68_fit (x : list nat) (y : list (option Qc)) (d : nat) : list (option Qc) :=
  match d with 2 => map Some [q_ 1; q_ 2; q_ 1] | 1 => map Some [q_ 5; q_ 7] | _ => [Some 0%Qc] end.
Definition c68_phase (x : list nat) (y : list (option Qc)) (d : nat) : list (option Qc) :=
  match d with 2 => map Some [q_ 1; q_ 2; q_ 1] | _ => [Some 0%Qc] end.
Definition c68_cfg (jump : bool) (th : Qc) := {| c_amp_degree := 0; c_phase_degree := 0; c_jump := jump; c_file := false;
  c_theory := th; c_delay := false; c_hyper := false |}.
Definition c68_run fit cfg below fu table gain :=
  vis_cal_polyfit re (fun _ => 0%Qc) (fun _ => C1) (fun l => l) fit (fun _ => C1) (fun _ _ _ _ => Err ValueError) (fun _ => 0%Qc)
    cfg below fu [1%Z] 1%Qc 1%Qc table false gain.
Definition is_z (x : option C) (a : Z) : bool := match x with Some c => Ceqb c (mkC (q_ a) 0) | None => false end.

(** Fitting (f+1)^2 with degree 2: channel 1 gets 3 instead of 4, channel 3 gets 7 instead of 16. *)
Example C68_case_value : in_use [1; 1; 1; 1]%Z [0; 1; 2; 3] /\ no_reflections (c68_cfg false 0) /\ trimmed [q_ 1; q_ 2; q_ 1]
  /\ (forall f, poly [q_ 1; q_ 2; q_ 1] f = (f + 1) * (f + 1))%Qc
  /\ exists r, c68_run c68_phase (c68_cfg false 0) (fun _ => false) [1; 1; 1; 1]%Z [] (c68_gain 1) = Ok r
     /\ is_z (at3 r 0 0 0) 1 && is_z (at3 r 0 1 0) 3 && is_z (at3 r 0 3 0) 7 = true.
Proof.
  split; [apply nonzero_in_use|]. split; [now repeat split|]. split; [split; [discriminate|now right]|].
  split; [intros f; cbn [poly]; replace (q_ 1) with 1%Qc by reflexivity; replace (q_ 2) with (1 + 1)%Qc by (now apply Qc_is_canon); ring|].
  apply (run_check _ (fun r => _)). vm_compute. reflexivity.
Qed.
(** The gain jump: fails from channel 0 on; from channel 1 on the fit 5 + 7 f is shifted by one channel. *)
Example C68_case_jump :
  c68_run c68_fit (c68_cfg true 0) (fun f => f <? 3) [1; 0; 1; 1]%Z [] (c68_gain 1) = Err ValueError
  /\ in_use [0; 1; 1; 1]%Z [1; 2; 3]
  /\ exists r, c68_run c68_fit (c68_cfg true 0) (fun f => f <? 3) [0; 1; 1; 1]%Z [] (c68_gain 1) = Ok r
     /\ is_z (at3 r 0 1 0) 5 && is_z (at3 r 0 2 0) 12 && is_z (at3 r 0 3 0) 26 = true.
Proof.
  split; [vm_compute; reflexivity|]. split; [apply nonzero_in_use|]. apply (run_check _ (fun r => _)). vm_compute. reflexivity.
Qed.
(** A reflection twice as strong as the fitted gain is applied eight-fold with four channels. *)
Definition c68_row := {| k_length := 1; k_vf := 1; k_flag := 1 |}.
Definition c68_gain2 : arr3 (option C) := Arr3 1 4 1 (fun _ f _ => Some (mkC (q_ 2 * qc_nat (1 + 2 * f)) 0)%Qc).
Example C68_case_reflection :
  let z := Cscale (qc_nat 4) (mkC (q_ 2) 0) in Cscale (re z) C1 = z
  /\ reflection_periods 1 1 4 c68_row <> 0%Qc /\ (1 <= k_flag c68_row)%Qc
  /\ (exists g, fit_all re (fun _ => 0%Qc) (fun _ => C1) (fun l => l) c68_phase (c68_cfg false 1) (fun _ => false) [0; 1; 2; 3] c68_gain2 = Ok g
        /\ is_z (at3 g 0 1 0) 3 = true)
  /\ exists r, c68_run c68_phase (c68_cfg false 1) (fun _ => false) [1; 1; 1; 1]%Z [c68_row] c68_gain2 = Ok r
     /\ is_z (at3 r 0 1 0) (3 * (1 + 4 * 2)) = true.
Proof.
  split; [apply C_ext; cbn; apply Qc_is_canon; reflexivity|]. split; [intros E; apply (f_equal this) in E; discriminate E|]. split; [discriminate|].
  split; apply (run_check _ (fun r => _)); vm_compute; reflexivity.
Qed.
