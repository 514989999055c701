(** C67: property theorems about the calibration as a whole (calibrate). *)
From Coq Require Import ZifyBool ZifyNat.
From Verif Require Import Base Cplx NpArr VisWeights VisWeightsProps CalApply CalApplySpec CalApplyProofs CalApplyProps CalFlag CalFlagSpec
  Bandpass BandpassSpec BandpassProofs BandpassProps CalAuto CalAutoProofs Calibrate CalibrateSpec CalibrateProofs.
Open Scope nat_scope.
Ltac Zify.zify_post_hook ::= idtac.

(** Whatever the steps do: the visibilities and the histogram returned are those of the gains returned, and
    these gains plus the residuals returned are the gains the solver found. *)
Theorem C67_consistent : forall A R H abs_ (st : cal_stages A R H) o n_pol n_freq n_tile names use r,
  calibrate abs_ st o n_pol n_freq n_tile names use = Ok r ->
  s_apply st (r_gain r) = Ok (r_vis r) /\ s_hist st (r_vis r) = Ok (r_hist r)
  /\ exists start base, s_solve st start = Ok base
     /\ shape (r_gain r) (d_pol base) (d_freq base) (d_bl base)
     /\ shape (r_residual r) (d_pol base) (d_freq base) (d_bl base)
     /\ forall p f t, difference (at3 base p f t) (at3 (r_gain r) p f t) (at3 (r_residual r) p f t).
Proof.
  intros A R H abs_ st o np nf nt nn use r E.
  apply calibrate_inv in E as (a & g0 & base & fit & _ & _ & E3 & _ & _ & _ & E7 & E8 & E9 & _).
  split; auto. split; auto. exists g0, base. split; auto. apply gzip_inv in E7 as ((D1 & D2 & D3) & (D4 & D5 & D6) & V).
  split; [repeat split; congruence|]. split; [repeat split; congruence|]. intros p f t. rewrite V. unfold difference.
  destruct (at3 base p f t), (at3 (r_gain r) p f t); auto. eexists; split; [reflexivity|]. ring.
Qed.
Print Assumptions C67_consistent.

(** The statistics: the mean amplitude of the gains and of the residuals over the frequencies and tiles in use
    after the flagging of this very run. *)
Theorem C67_statistics : forall A R H abs_ (st : cal_stages A R H) o n_pol n_freq n_tile names use r p freqs tiles,
  calibrate abs_ st o n_pol n_freq n_tile names use = Ok r -> p < n_pol -> p < 2 ->
  in_use (u_freq (r_use r)) freqs -> in_use (u_tile (r_use r)) tiles ->
  let amplitudes g := flat_map (fun f => map (fun t => option_map abs_ (at3 g p f t)) tiles) freqs in
  (o_flag o = false -> r_use r = use)
  /\ (exists m, nth_error (r_mean_gain r) p = Some m /\ mean_of (amplitudes (r_gain r)) m)
  /\ (exists m, nth_error (r_mean_residual r) p = Some m /\ mean_of (amplitudes (r_residual r)) m)
  /\ (amplitudes (r_residual r) <> [] ->
        nth_error (r_restrict r) p = Some (s_rmean st (amplitudes (r_residual r)))
        /\ nth_error (r_stddev r) p = Some (s_std st (amplitudes (r_residual r)))).
Proof.
  intros A R H abs_ st o np nf nt nn use r p fs ts E Hp Hp2 F T amp.
  apply calibrate_inv in E as (a & g0 & base & fit & _ & _ & _ & E4 & _ & _ & _ & _ & _ & M1 & M2 & M3 & M4).
  assert (X : forall fn g, nth_error (map (stat abs_ fn (r_use r) g) (seq 0 (Nat.min np 2))) p = Some (stat abs_ fn (r_use r) g p)).
  { intros fn g. apply map_nth_error. rewrite nth_error_nth' with (d := 0) by (rewrite seq_length; lia).
    now rewrite seq_nth by lia. }
  rewrite M1, M2, M3, M4, !X, !(stat_used abs_ _ _ _ p fs ts F T). clear X.
  split. { intros F0. rewrite F0 in E4. congruence. }
  assert (Y : forall g, exists m, Some match ts, fs with [], _ | _, [] => Some 0%Qc | _, _ => omean (amp g) end = Some m /\ mean_of (amp g) m).
  { intros g. eexists; split; [reflexivity|]. unfold amp. destruct ts as [|t ts].
    - left. split; auto. clear. induction fs; auto.
    - destruct fs as [|f fs]; [now left|]. apply omean_spec. discriminate. }
  split; [apply Y|]. split; [apply Y|]. intros N. unfold amp in *. destruct ts as [|t ts].
  - contradiction N. clear. induction fs; auto.
  - destruct fs; [now contradiction N|]. auto.
Qed.
Print Assumptions C67_statistics.

(** With the bandpass, or without the polynomial: a calibration whose steps succeed ends with a result. *)
Theorem C67_completes_partial : forall A R H abs_ (st : cal_stages A R H) o n_pol n_freq n_tile names use,
  steps_succeed st (Nat.min n_pol 2) n_freq n_tile ->
  2 <= names -> fits use n_freq n_tile ->
  o_bandpass o = true \/ o_polyfit o = false ->
  exists r, calibrate abs_ st o n_pol n_freq n_tile names use = Ok r.
Proof. intros. now apply calibrate_ok. Qed.
Print Assumptions C67_completes_partial.

(** A polynomial fit without the bandpass never works, whatever the data. *)
Theorem C67_polyfit_refuted : forall A R H abs_ (st : cal_stages A R H) o n_pol n_freq n_tile names use,
  o_polyfit o = true -> o_bandpass o = false ->
  (forall r, calibrate abs_ st o n_pol n_freq n_tile names use <> Ok r)
  /\ (steps_succeed st (Nat.min n_pol 2) n_freq n_tile -> 2 <= names -> fits use n_freq n_tile ->
        calibrate abs_ st o n_pol n_freq n_tile names use = Err KeyError).
Proof.
  intros A R H abs_ st o np nf nt nn use P B. split.
  - intros r E. apply calibrate_inv in E as (a & g0 & base & fit & _ & _ & _ & _ & E5 & _).
    unfold fit_gains in E5. rewrite B, P in E5. discriminate.
  - intros W Hn Fu. unfold calibrate. replace (nn <? 2) with false by (symmetry; apply Nat.ltb_ge; lia).
    set (n := Nat.min np 2) in *. destruct (w_autos st n nf nt W) as (a & ->). cbn [bind].
    assert (exists g0, (if o_auto_initialize o then s_auto_init st a
        else Ok (Arr3 n nf nt (fun _ _ _ => Some (o_gain_init o)))) = Ok g0 /\ shape g0 n nf nt) as (g0 & -> & S0).
    { destruct (o_auto_initialize o); [apply (w_init st n nf nt W)|]. eexists; split; [reflexivity|repeat split]. }
    cbn [bind]. destruct (w_solve st n nf nt W g0 S0) as (b & -> & Sb). cbn [bind].
    assert (exists u, (if o_flag o then s_flag st b use else Ok use) = Ok u) as (u & ->).
    { destruct (o_flag o); [|eauto]. destruct (w_flag st n nf nt W b use Fu Sb) as (u & E & _). eauto. }
    cbn [bind]. unfold fit_gains. now rewrite B, P.
Qed.
Print Assumptions C67_polyfit_refuted.

(** The data is the model corrupted by the gains [true_gain]: at every visibility, the product of the gain of its
    first tile, the conjugate of that of its second, and the model. *)
Definition corrupted (vis model : arr3 C) (tile_a tile_b : list Z) (true_gain : gains) : Prop :=
  forall p f b, p < d_pol vis -> f < d_freq vis -> b < d_bl vis ->
    exists ga gb, gain_a true_gain tile_a p f b = Some ga /\ gain_b true_gain tile_b p f b = Some gb
      /\ ga <> C0 /\ gb <> C0 /\ at3 vis p f b = (ga * Cconj gb * at3 model p f b)%C.

(** If the solver finds the true gains and no fit replaces them, the calibrated visibilities are the model and
    the residuals vanish. *)
Theorem C67_recovers : forall A R H abs_ (st : cal_stages A R H) o n_freq n_tile names use vis model tile_a tile_b g r,
  calibrate abs_ st o (d_pol vis) n_freq n_tile names use = Ok r ->
  d_freq vis = n_freq -> d_pol vis <= 2 ->
  (forall x, s_apply st x = vis_calibration_apply vis n_freq tile_a tile_b x true) ->
  (forall x, s_solve st x = Ok g) -> matching vis tile_a tile_b g -> corrupted vis model tile_a tile_b g ->
  o_bandpass o = false -> o_auto_fit o = false ->
  (forall p f b, p < d_pol vis -> f < d_freq vis -> b < d_bl vis -> at3 (r_vis r) p f b = at3 model p f b)
  /\ (forall p f t, at3 (r_gain r) p f t = at3 g p f t)
  /\ (forall p f t, at3 (r_residual r) p f t = match at3 g p f t with Some _ => Some C0 | None => None end).
Proof.
  intros A R H abs_ st o nf nt nn use vis model ta tb g r E Hf Hp2 Ha Hs M Co B Af.
  apply calibrate_inv in E as (a & g0 & base & fit & _ & _ & E3 & _ & E5 & E6 & E7 & E8 & _).
  rewrite Hs in E3. injection E3 as <-. unfold fit_gains in E5. rewrite B in E5. rewrite Af in E6.
  destruct (o_polyfit o); [discriminate|]. injection E5 as <-. injection E6 as E6. rewrite <- E6 in *. clear E6.
  rewrite Ha, <- Hf in E8. destruct (C26_apply_partial vis ta tb g true M ltac:(lia)) as (out & E & _ & _ & _ & V).
  rewrite E in E8. injection E8 as <-. split.
  - intros p f b Hp Hff Hb. destruct (Co p f b Hp Hff Hb) as (ga & gb & Ga & Gb & Na & Nb & Ev).
    now apply (proj1 (V p f b Hp Hff Hb) ga gb).
  - split; [reflexivity|]. apply gzip_inv in E7 as (_ & _ & W). intros p f t. rewrite W.
    destruct (at3 g p f t); auto. f_equal. ring.
Qed.
Print Assumptions C67_recovers.

(** With the bandpass and a polynomial that reproduces what it is given: at the used frequencies the gains are
    still the solver's wherever the bandpass does not vanish, and at the other frequencies every gain is 0 or NaN, so
    that the calibrated visibilities are 0 there. *)
Theorem C67_exact_fit : forall A R H abs_ cabs avg cable (st : cal_stages A R H) o n_freq n_tile names use vis tile_a tile_b g r,
  calibrate abs_ st o (d_pol vis) n_freq n_tile names use = Ok r ->
  d_freq vis = n_freq -> d_pol vis <= 2 -> 0 < d_pol g ->
  (forall x, s_apply st x = vis_calibration_apply vis n_freq tile_a tile_b x true) ->
  (forall u x, s_bandpass st u x = vis_cal_bandpass cabs avg x (u_freq u) (u_tile u) cable false) ->
  (forall u x k, s_polyfit st u x k = Ok x) ->
  (forall x, s_solve st x = Ok g) -> matching vis tile_a tile_b g ->
  o_bandpass o = true -> o_polyfit o = true -> o_auto_ratio o = false -> o_auto_fit o = false ->
  exists bp rem, vis_cal_bandpass cabs avg g (u_freq (r_use r)) (u_tile (r_use r)) cable false = Ok (bp, rem)
  /\ (forall p f t b, p < d_pol g -> used (u_freq (r_use r)) f -> at3 bp p f t = Some b -> b <> C0 ->
        at3 (r_gain r) p f t = at3 g p f t)
  /\ (forall p f b, p < d_pol vis -> f < d_freq vis -> b < d_bl vis -> ~ used (u_freq (r_use r)) f -> at3 (r_vis r) p f b = C0).
Proof.
  intros A R H abs_ cabs avg cable st o nf nt nn use vis ta tb g r E Hf Hp2 Hg Ha Hb Hpf Hs M B P Ar Af.
  assert (Ng : d_pol g <> 0) by lia.
  apply calibrate_inv in E as (a & g0 & base & fit & _ & _ & E3 & _ & E5 & E6 & E7 & E8 & _).
  rewrite Hs in E3. injection E3 as <-. unfold fit_gains in E5. rewrite B, Ar, P in E5. rewrite Af in E6. injection E6 as E6.
  cbn [bind] in E5. rewrite Hb in E5.
  destruct (vis_cal_bandpass _ _ _ _ _ _ _) as [[bp rem]|] eqn:Eb; [|discriminate]. cbn [bind] in E5.
  rewrite Hpf in E5. cbn [bind] in E5. destruct (gzip Cmul rem bp) as [fg|] eqn:Eg; [|discriminate]. cbn [bind] in E5.
  injection E5 as ->. rewrite <- E6 in *. clear E6. exists bp, rem. split; auto.
  apply gzip_inv in Eg as ((S1 & S2 & S3) & (S4 & S5 & S6) & V). split.
  - intros p f t b Hp U Bv Nb. rewrite V, Bv. destruct (at3 g p f t) as [x|] eqn:Gx.
    + destruct (C28_factors _ _ _ _ _ _ _ _ _ p f t b x Eb Hp U Gx Bv Nb) as (q & -> & <-). f_equal. ring.
    + destruct (bandpass_at _ _ _ _ _ _ _ _ _ Ng Eb) as (_ & _ & _ & _ & _ & _ & _ & bb & Q1 & Q2 & _).
      rewrite (Q2 p f t U), Gx. rewrite Q1 in Bv. destruct (bb p f t) as [v|]; [|discriminate]. injection Bv as <-.
      unfold over. destruct (Qc_eq_dec v 0) as [->|_]; [now contradiction Nb|auto].
  - intros p f b Hp Hff Hbb U. rewrite Ha, <- Hf in E8. 
    assert (M' : matching vis ta tb fit).
    { destruct (bandpass_at _ _ _ _ _ _ _ _ _ Ng Eb) as (_ & D1 & D2 & D3 & _).
      destruct M as [m1 m2 m3 m4 m5]. constructor; try congruence. intros q Hq. rewrite S4, D1. auto. }
    destruct (C26_apply_partial vis ta tb fit true M' ltac:(lia)) as (out & E & _ & _ & _ & W).
    rewrite E in E8. injection E8 as <-. apply (proj2 (W p f b Hp Hff Hbb)). left. unfold gain_a, unusable. rewrite V.
    set (p1 := fst (feeds p)). set (t1 := Z.to_nat _).
    assert (Hp1 : p1 < d_pol g) by apply (m_feed _ _ _ _ M p Hp).
    destruct (proj1 (C28_unused _ _ _ _ _ _ _ _ _ p1 f t1 Eb Hp1) U) as [-> _].
    destruct (at3 rem p1 f t1); [right|now left]. f_equal. ring.
Qed.
Print Assumptions C67_exact_fit.

(** With the bandpass alone the gains are real: every calibrated visibility is a real multiple of the raw one, so
    that phases are left as they were. *)
Theorem C67_phases_refuted : forall A R H abs_ cabs avg cable (st : cal_stages A R H) o n_freq n_tile names use vis tile_a tile_b g r,
  calibrate abs_ st o (d_pol vis) n_freq n_tile names use = Ok r ->
  d_freq vis = n_freq -> d_pol vis <= 2 -> 0 < d_pol g ->
  (forall x, s_apply st x = vis_calibration_apply vis n_freq tile_a tile_b x true) ->
  (forall u x, s_bandpass st u x = vis_cal_bandpass cabs avg x (u_freq u) (u_tile u) cable false) ->
  (forall x, s_solve st x = Ok g) -> matching vis tile_a tile_b g ->
  o_bandpass o = true -> o_polyfit o = false -> o_auto_ratio o = false -> o_auto_fit o = false ->
  forall p f b, p < d_pol vis -> f < d_freq vis -> b < d_bl vis ->
    exists q : Qc, at3 (r_vis r) p f b = Cscale q (at3 vis p f b).
Proof.
  intros A R H abs_ cabs avg cable st o nf nt nn use vis ta tb g r E Hf Hp2 Hg Ha Hb Hs M B P Ar Af p f b Hp Hff Hbb.
  assert (Ng : d_pol g <> 0) by lia.
  apply calibrate_inv in E as (a & g0 & base & fit & _ & _ & E3 & _ & E5 & E6 & E7 & E8 & _).
  rewrite Hs in E3. injection E3 as <-. unfold fit_gains in E5. rewrite B, Ar, P in E5. rewrite Af in E6. injection E6 as E6.
  cbn [bind] in E5. rewrite Hb in E5.
  destruct (vis_cal_bandpass _ _ _ _ _ _ _) as [[bp rem]|] eqn:Eb; [|discriminate]. cbn [bind] in E5.
  injection E5 as ->. rewrite <- E6 in *. clear E6.
  destruct (bandpass_at _ _ _ _ _ _ _ _ _ Ng Eb) as (_ & D1 & D2 & D3 & _ & _ & _ & bb & Q1 & _).
  assert (M' : matching vis ta tb fit).
  { destruct M as [m1 m2 m3 m4 m5]. constructor; try congruence. intros q Hq. rewrite D1. auto. }
  rewrite Ha, <- Hf in E8.
  destruct (C26_apply_partial vis ta tb fit true M' ltac:(lia)) as (out & E & _ & _ & _ & W).
  rewrite E in E8. injection E8 as <-. destruct (W p f b Hp Hff Hbb) as [W1 W2].
  assert (X : forall x, at3 fit (fst (feeds p)) f x = None \/ exists q, at3 fit (fst (feeds p)) f x = Some (RtoC q)).
  { intros x. rewrite Q1. destruct (bb (fst (feeds p)) f x); cbn [option_map]; eauto. }
  assert (Y : forall x, at3 fit (snd (feeds p)) f x = None \/ exists q, at3 fit (snd (feeds p)) f x = Some (RtoC q)).
  { intros x. rewrite Q1. destruct (bb (snd (feeds p)) f x); cbn [option_map]; eauto. }
  assert (Z : forall v : C, C0 = Cscale 0%Qc v) by (intros v; apply C_ext; cbn [re im Cscale C0]; ring).
  destruct (X (Z.to_nat (nth b ta 0%Z - 1))) as [E1|(q1 & E1)].
  { exists 0%Qc. rewrite W2; auto. left. now left. }
  destruct (Y (Z.to_nat (nth b tb 0%Z - 1))) as [E2|(q2 & E2)].
  { exists 0%Qc. rewrite W2; auto. right. now left. }
  destruct (Qc_eq_dec q1 0) as [->|N1].
  { exists 0%Qc. rewrite W2; auto. left. right. exact E1. }
  destruct (Qc_eq_dec q2 0) as [->|N2].
  { exists 0%Qc. rewrite W2; auto. right. right. exact E2. }
  exists (/ (q1 * q2))%Qc. apply (W1 (RtoC q1) (RtoC q2)); auto.
  - intros K. apply N1. now injection K.
  - intros K. apply N2. now injection K.
  - apply C_ext; cbn; field; auto.
Qed.
Print Assumptions C67_phases_refuted.

(** With four polarisations and a model no calibration succeeds. *)
Theorem C67_four_pols_refuted : forall A R H abs_ (st : cal_stages A R H) o n_freq n_tile names use vis tile_a tile_b,
  d_pol vis = 4 -> (forall x, s_apply st x = vis_calibration_apply vis n_freq tile_a tile_b x true) ->
  forall r, calibrate abs_ st o (d_pol vis) n_freq n_tile names use <> Ok r.
Proof.
  intros A R H abs_ st o nf nt nn use vis ta tb H4 Ha r E.
  apply calibrate_inv in E as (a & g0 & base & fit & _ & _ & _ & _ & _ & _ & _ & E8 & _).
  rewrite Ha in E8. destruct (C26_four_pols_refuted vis nf ta tb (r_gain r) H4) as (e & E'). congruence.
Qed.
Print Assumptions C67_four_pols_refuted.

(** ** A case: two channels of which the second is not used, two tiles, one baseline *)
Definition zc (a b : Z) : C := mkC (Q2Qc (inject_Z a)) (Q2Qc (inject_Z b)).
Definition c67_g : gains := Arr3 1 2 2 (fun _ f t => Some (if t =? 0 then zc 2 0 else zc 0 4)).
Definition c67_model : arr3 C := Arr3 1 2 1 (fun _ f _ => if f =? 0 then zc 1 1 else zc 3 0).
Definition c67_vis : arr3 C := Arr3 1 2 1 (fun _ f _ => (zc 2 0 * Cconj (zc 0 4) * at3 c67_model 0 f 0)%C).
(** amplitude of a number on one of the axes *)
Definition c67_abs (c : C) : Qc := (Qcabs0 (re c) + Qcabs0 (im c))%Qc.
Definition c67_first (l : list (option Qc)) : option Qc := match l with x :: _ => x | [] => None end.
Definition c67_stages : cal_stages unit unit unit := {|
  s_autos := Ok tt; s_auto_init := fun _ => Ok c67_g; s_solve := fun _ => Ok c67_g; s_flag := fun _ u => Ok u;
  s_divide := fun _ g _ => Ok (g, tt);
  s_bandpass := fun u g => vis_cal_bandpass c67_abs c67_first g (u_freq u) (u_tile u) None false;
  s_polyfit := fun _ g _ => Ok g; s_remultiply := fun g _ _ => Ok g; s_auto_fit := fun _ g _ => Ok g;
  s_apply := fun g => vis_calibration_apply c67_vis 2 [1%Z] [2%Z] g true; s_hist := fun _ => Ok tt;
  s_rmean := c67_first; s_std := c67_first; s_plots := fun _ _ => Ok tt |}.
Definition c67_use := {| u_tile := [1; 1]%Z; u_freq := [1; 0]%Z |}.
Definition c67_opt (b p : bool) := {| o_auto_initialize := false; o_flag := true; o_bandpass := b; o_auto_ratio := false;
  o_polyfit := p; o_auto_fit := false; o_plots := true; o_gain_init := C1 |}.

(** [c] is the array entry and [q] the statistic, decided *)
Definition is_c (c : C) (a b : Z) : bool := Ceqb c (zc a b).
Definition is_q (l : list (option Qc)) (a : Z) : bool := match l with [Some q] => if Qc_eq_dec q (Q2Qc (inject_Z a)) then true else false | _ => false end.

Example C67_example :
  matching c67_vis [1%Z] [2%Z] c67_g /\ corrupted c67_vis c67_model [1%Z] [2%Z] c67_g
  /\ (exists r, calibrate c67_abs c67_stages (c67_opt false false) 1 2 2 2 c67_use = Ok r
        /\ is_q (r_mean_gain r) 3 && is_q (r_mean_residual r) 0
           && is_c (at3 (r_vis r) 0 0 0) 1 1 && is_c (at3 (r_vis r) 0 1 0) 3 0 = true)
  /\ (exists r, calibrate c67_abs c67_stages (c67_opt true true) 1 2 2 2 c67_use = Ok r
        /\ is_c (at3 (r_vis r) 0 0 0) 1 1 && is_c (at3 (r_vis r) 0 1 0) 0 0 = true)
  /\ (exists r, calibrate c67_abs c67_stages (c67_opt true false) 1 2 2 2 c67_use = Ok r
        /\ is_c (at3 c67_vis 0 0 0) 8 (-8) && is_c (at3 (r_vis r) 0 0 0) 8 (-8) = true)
  /\ calibrate c67_abs c67_stages (c67_opt false true) 1 2 2 2 c67_use = Err KeyError
  /\ steps_succeed c67_stages 1 2 2.
Proof.
  split. { constructor; try reflexivity; cbn; try lia. all: intros; try (split; auto; intros b Hb; destruct b; [cbn; lia|lia]).
    all: try (destruct p; [cbn; auto|lia]). }
  split. { intros p f b Hp Hf Hb. assert (p = 0 /\ b = 0) as [-> ->] by (cbn in *; lia).
    exists (zc 2 0), (zc 0 4). repeat split; try (intros K; discriminate K). }
  do 3 (split; [apply (run_check _ (fun r => _)); vm_compute; reflexivity|]).
  split; [vm_compute; reflexivity|].
  constructor; try (cbn; intros; eauto; fail).
  - intros a. exists c67_g. repeat split.
  - intros g _. exists c67_g. repeat split.
  - intros u g [Ft Ff] (G1 & G2 & G3). cbn [s_bandpass c67_stages]. unfold vis_cal_bandpass. rewrite G1, G2, G3. cbn [Nat.eqb].
    replace (forallb _ _) with true; [replace (forallb _ _) with true|].
    + cbn [negb orb]. unfold bandpass_global. eexists _, _. split; [reflexivity|]. now repeat split.
    + symmetry. apply forallb_forall. intros t Ht. apply in_use_lt in Ht. apply Nat.ltb_lt. lia.
    + symmetry. apply forallb_forall. intros t Ht. apply in_use_lt in Ht. apply Nat.ltb_lt. lia.
  - intros g (G1 & G2 & G3). cbn [s_apply c67_stages].
    destruct (C26_apply_partial c67_vis [1%Z] [2%Z] g true) as (out & E & _); [|discriminate|eauto].
    constructor; cbn; try lia.
    + intros p Hp. assert (p = 0) as -> by lia. cbn. lia.
    + split; auto. intros [|b] Hb; cbn; lia.
    + split; auto. intros [|b] Hb; cbn; lia.
Qed.
