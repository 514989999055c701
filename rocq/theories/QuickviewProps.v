(** C76: the images, FITS files and observation quickview leaves. *)
From Coq Require Import String Reals Lra.
From Verif Require Import Base NpArr PyIndex Obs Sky Utils1 Utils1Proofs DirtyImage DirtyImageSpec DirtyImageProofs DirtyImageProps Quickview QuickviewSpec QuickviewProofs.
Import ListNotations.
Open Scope R_scope.
Ltac Zify.zify_post_hook ::= idtac.

Section Statements.
  Variable uniform : arr2 cx -> arr2 cx -> result (arr2 cx * arr2 R).
  Variable beam_image : qobs -> nat -> result (arr2 R).
  Variable horizon : qobs -> arr2 R.
  Local Notation quickview := (Quickview.quickview uniform beam_image horizon).
  Local Notation setting := (QuickviewSpec.setting uniform beam_image horizon).

  Lemma setting_run cfg n f o o' image weights model : setting n f o o' image weights model -> unpadded cfg n ->
    exists out files, quickview cfg o image weights model = Ok out
    /\ out_files out = List.concat files /\ List.length files = q_npol o
    /\ List.length (out_image out) = q_npol o /\ List.length (out_model out) = q_npol o /\ List.length (out_weights out) = q_npol o
    /\ (exists names c, (if (4 <=? q_npol o)%nat then split_names (q_names o) else Ok (q_names o)) = Ok names
        /\ out_obs out = {| q_npol := q_npol o'; q_dimension := q_dimension o'; q_elements := q_elements o'; q_obsx := q_obsx o'; q_obsy := q_obsy o';
             q_kpix := q_kpix o'; q_degpix := q_degpix o'; q_max := q_max o'; q_nvis := q_nvis o'; q_names := names;
             q_naxis := q_naxis o'; q_cdelt := q_cdelt o'; q_crpix := q_crpix o'; q_cd := c;
             q_nfreq := q_nfreq o'; q_freq := q_freq o'; q_freq_res := q_freq_res o'; q_fbin := q_fbin o' |}
        /\ out_header out = {| h_cd := c; h_crpix := (py_int (fst (q_crpix o')), py_int (snd (q_crpix o'))) |}
        /\ c = let '((c11, c12), (c21, c22)) := q_cd o in let t := q_degpix o' in ((c11 * t, c12 * t), (c21 * t, c22 * t)))
    /\ forall pol, (pol < q_npol o)%nat ->
       exists bi b x d m r i' m' w', beam_image o' pol = Ok bi /\ sized n b
       /\ (forall y x, (y < n)%nat -> (x < n)%nat -> at2 b y x = at2 bi y x * at2 (horizon o') y x)
       /\ nth_error (q_names (out_obs out)) pol = Some x
       /\ nth_error files pol = Some (five x b d m r (map (amap (fun z => cx_abs z * q_nvis o)) (out_weights out)))
       /\ sized n d /\ sized n m /\ sized n r
       /\ (forall y x, (y < n)%nat -> (x < n)%nat ->
             let zero v := if lost (q_npol o) pol then 0 else v in
             let sh := shown cfg n (q_degpix o') b (f (plane_of weights pol)) (plane_of weights pol) in
             at2 d y x = zero (sh (plane_of image pol) y x) * inverse (at2 b y x)
             /\ at2 m y x = zero (sh (plane_of model pol) y x) * inverse (at2 b y x)
             /\ at2 r y x = zero (sh (plane_of image pol) y x - sh (plane_of model pol) y x) * inverse (at2 b y x))
       /\ nth_error (out_image out) pol = Some i' /\ arr_eq i' (plane_of image pol)
       /\ nth_error (out_model out) pol = Some m' /\ arr_eq m' (weighted (at2 (f (plane_of weights pol))) (plane_of model pol))
       /\ nth_error (out_weights out) pol = Some w' /\ sized n w'
       /\ (forall y x, (y < n)%nat -> (x < n)%nat ->
             at2 w' y x = split_weight (q_npol o) pol (cscale (at2 (f (plane_of weights pol)) y x) (at2 (plane_of weights pol) y x))).
  Proof. intros [] U. now apply quickview_ok. Qed.
  Lemma names_bound cfg n f o o' image weights model out : setting n f o o' image weights model -> unpadded cfg n ->
    quickview cfg o image weights model = Ok out -> (q_npol o <= List.length (q_names (out_obs out)))%nat.
  Proof.
    intros ST U H. destruct (setting_run _ _ _ _ _ _ _ _ ST U) as (out' & fs & H' & _ & _ & _ & _ & _ & (names & c & SN & OO & _) & _).
    assert (out' = out) as -> by congruence. rewrite OO. cbn [q_names]. destruct ST.
    destruct (names_split (q_names o) (q_npol o) s_names) as (l & SL & LL & _). assert (names = l) as -> by congruence. lia.
  Qed.
  (** The files of one polarisation. *)
  Lemma files_run cfg n f o o' image weights model : setting n f o o' image weights model -> unpadded cfg n ->
    exists out, quickview cfg o image weights model = Ok out
    /\ forall pol, (pol < q_npol o)%nat -> NoDup (firstn (q_npol o) (q_names (out_obs out))) ->
       exists b d m r, is_beam beam_image horizon n o' pol b
       /\ on_disk (out_files out) KDirty (nth pol (q_names (out_obs out)) EmptyString) = Some [d]
       /\ on_disk (out_files out) KModel (nth pol (q_names (out_obs out)) EmptyString) = Some [m]
       /\ on_disk (out_files out) KResidual (nth pol (q_names (out_obs out)) EmptyString) = Some [r]
       /\ on_disk (out_files out) KBeam (nth pol (q_names (out_obs out)) EmptyString) = Some [b]
       /\ on_disk (out_files out) KWeights (nth pol (q_names (out_obs out)) EmptyString) = Some (map (amap (fun z => cx_abs z * q_nvis o)) (out_weights out))
       /\ sized n d /\ sized n m /\ sized n r
       /\ (forall y x, (y < n)%nat -> (x < n)%nat ->
             let zero v := if lost (q_npol o) pol then 0 else v in
             let sh := shown cfg n (q_degpix o') b (f (plane_of weights pol)) (plane_of weights pol) in
             at2 d y x = zero (sh (plane_of image pol) y x) * inverse (at2 b y x)
             /\ at2 m y x = zero (sh (plane_of model pol) y x) * inverse (at2 b y x)
             /\ at2 r y x = zero (sh (plane_of image pol) y x - sh (plane_of model pol) y x) * inverse (at2 b y x)).
  Proof.
    intros ST U. destruct (setting_run _ _ _ _ _ _ _ _ ST U) as (out & fs & H & OF & LF & _ & _ & _ & _ & P).
    exists out. split; [exact H|]. intros pol HP ND. destruct (P pol HP) as (bi & b & x & d & m & r & i' & m' & w' & EB & SB & VB & NX & NF & SD & SM & SR & V & _).
    exists b, d, m, r. split; [split; [exact SB|]; exists bi; auto|].
    rewrite (nth_error_nth _ _ EmptyString NX), OF.
    destruct (five_on_disk (q_names (out_obs out)) fs (q_npol o) pol x b d m r (map (amap (fun z => cx_abs z * q_nvis o)) (out_weights out)) LF (names_bound _ _ _ _ _ _ _ _ _ ST U H)) as (F1 & F2 & F3 & F4 & F5); auto.
    { intros k K. destruct (P k K) as (bi1 & b1 & x1 & d1 & m1 & r1 & _ & _ & _ & _ & _ & _ & NX1 & NF1 & _). do 6 eexists. eauto. }
    repeat (split; [assumption|]). exact V.
  Qed.
  Lemma shown_flux cfg n f o o' image weights model b w uv y x : setting n f o o' image weights model -> unpadded cfg n -> normalizable cfg n f w b ->
    shown cfg n (q_degpix o') b (f w) w uv y x
    = flux (f w) w uv n y x * optimal_factor cfg b n y x * at2 b (n / 2) (n / 2) ^ 2 / solid_angle (q_degpix o').
  Proof.
    intros ST (P1 & _) (NZ & OB). destruct ST.
    destruct (update_fields _ _ _ _ s_updated) as (_ & _ & _ & _ & _ & _ & DG & _).
    assert (IN : 0 < INR n) by (apply lt_0_INR; exact s_size). pose proof PI_RGT_0.
    assert (DP : 0 < q_degpix o').
    { rewrite DG. apply Rdiv_lt_0_compat; [apply Rdiv_lt_0_compat; lra|]. now apply Rmult_lt_0_compat. }
    assert (SC : scale_of cfg (q_degpix o') <> 0).
    { unfold scale_of, per_steradian. apply Rmult_integral_contrapositive_currified.
      - apply Rinv_neq_0_compat. apply pow_nonzero. unfold radians. apply Rgt_not_eq. apply Rdiv_lt_0_compat; [apply Rmult_lt_0_compat|]; lra.
      - apply pow_nonzero. apply Rgt_not_eq. apply Rlt_le_trans with 1; [lra|]. change 1 with (IZR 1). rewrite <- P1.
        assert (Q2R (inject_Z (Qround.Qfloor (c_pad cfg))) <= Q2R (c_pad cfg)) by (apply Qreals.Qle_Rle, Qround.Qfloor_le).
        unfold Q2R at 1 in H0. cbn [inject_Z Qnum Qden] in H0. lra. }
    assert (SA : solid_angle (q_degpix o') <> 0).
    { unfold solid_angle. apply pow_nonzero. apply Rgt_not_eq. apply Rmult_lt_0_compat; [exact DP|]. lra. }
    unfold shown, raw, flux, optimal_factor. destruct (c_optimal cfg).
    - specialize (OB eq_refl). field. auto.
    - field. auto.
  Qed.

  (** Dirty and model images are, for every polarisation but the fourth, the Fourier transforms of the filtered planes in
      janskys per steradian: fluxes in units of the weights, times the square of the beam in the middle, per solid angle of a
      pixel, divided by the beam (0 where it is below a thousandth). *)
Theorem C76_images_partial : forall cfg n f o o' image weights model, setting n f o o' image weights model -> unpadded cfg n ->
    exists out, quickview cfg o image weights model = Ok out
    /\ (NoDup (firstn (q_npol o) (q_names (out_obs out))) -> forall pol, (pol < q_npol o)%nat -> (q_npol o < 4)%nat \/ pol <> 3%nat ->
        exists b d m r, is_beam beam_image horizon n o' pol b
        /\ on_disk (out_files out) KBeam (nth pol (q_names (out_obs out)) EmptyString) = Some [b]
        /\ on_disk (out_files out) KDirty (nth pol (q_names (out_obs out)) EmptyString) = Some [d]
        /\ on_disk (out_files out) KModel (nth pol (q_names (out_obs out)) EmptyString) = Some [m]
        /\ on_disk (out_files out) KResidual (nth pol (q_names (out_obs out)) EmptyString) = Some [r]
        /\ sized n d /\ sized n m /\ sized n r
        /\ (normalizable cfg n f (plane_of weights pol) b -> forall y x, (y < n)%nat -> (x < n)%nat ->
              let factor := optimal_factor cfg b n y x * at2 b (n / 2) (n / 2) ^ 2 / solid_angle (q_degpix o') * inverse (at2 b y x) in
              at2 d y x = flux (f (plane_of weights pol)) (plane_of weights pol) (plane_of image pol) n y x * factor
              /\ at2 m y x = flux (f (plane_of weights pol)) (plane_of weights pol) (plane_of model pol) n y x * factor)
        /\ forall y x, (y < n)%nat -> (x < n)%nat -> at2 r y x = at2 d y x - at2 m y x).
  Proof.
    intros cfg n f o o' image weights model ST U. destruct (files_run _ _ _ _ _ _ _ _ ST U) as (out & H & P).
    exists out. split; [exact H|]. intros ND pol HP NL. destruct (P pol HP ND) as (b & d & m & r & B & D1 & D2 & D3 & D4 & _ & S1 & S2 & S3 & V).
    assert (NL' : lost (q_npol o) pol = false).
    { unfold lost. destruct (Nat.leb_spec 4 (q_npol o)); [|reflexivity]. destruct (Nat.eqb_spec pol 3); [|reflexivity]. lia. }
    exists b, d, m, r. repeat (split; [assumption|]). split.
    - intros NZ y x Y X. cbv zeta. destruct (V y x Y X) as (V1 & V2 & _). rewrite V1, V2, NL'.
      rewrite !(shown_flux _ _ _ _ _ _ _ _ _ _ _ _ _ ST U NZ). unfold Rdiv. split; ring.
    - intros y x Y X. destruct (V y x Y X) as (V1 & V2 & V3). rewrite V1, V2, V3, NL'. ring.
  Qed.

  (** A source of flux S in the middle of the field, for which the image plane is S times the weights, has S times the beam per
      solid angle of a pixel in the middle, whatever weights and filter. *)
Theorem C76_source : forall cfg n f o o' image weights model out pol flx, setting n f o o' image weights model -> unpadded cfg n ->
    quickview cfg o image weights model = Ok out -> NoDup (firstn (q_npol o) (q_names (out_obs out))) ->
    (pol < q_npol o)%nat -> (q_npol o < 4)%nat \/ pol <> 3%nat ->
    arr_eq (plane_of image pol) (amap (cscale flx) (plane_of weights pol)) ->
    exists b d, on_disk (out_files out) KBeam (nth pol (q_names (out_obs out)) EmptyString) = Some [b]
    /\ on_disk (out_files out) KDirty (nth pol (q_names (out_obs out)) EmptyString) = Some [d]
    /\ (normalizable cfg n f (plane_of weights pol) b -> 1 / 1000 <= at2 b (n / 2) (n / 2) ->
        at2 d (n / 2) (n / 2) = flx * at2 b (n / 2) (n / 2) / solid_angle (q_degpix o')).
  Proof.
    intros cfg n f o o' image weights model out pol flx ST U H ND HP NL EQ.
    destruct (C76_images_partial cfg n f o o' image weights model ST U) as (out' & H' & P). assert (out' = out) as -> by congruence.
    destruct (P ND pol HP NL) as (b & d & m & r & _ & D1 & D2 & _ & _ & _ & _ & _ & V & _).
    exists b, d. split; [exact D1|]. split; [exact D2|]. intros NZ BM. pose proof ST as [].
    assert (L : (n / 2 < n)%nat) by (apply Nat.div_lt; lia).
    destruct (V NZ _ _ L L) as (-> & _). destruct NZ as (NZ & OB).
    assert (FL : flux (f (plane_of weights pol)) (plane_of weights pol) (plane_of image pol) n (n / 2) (n / 2) = flx).
    { unfold flux. assert (EW : arr_eq (weighted (at2 (f (plane_of weights pol))) (plane_of image pol)) (amap (cscale flx) (weighted (at2 (f (plane_of weights pol))) (plane_of weights pol)))).
      { destruct EQ as (R0 & C0 & VV). split; [exact R0|]. split; [exact C0|]. cbn [weighted amap rows cols at2]. intros i j I J. rewrite VV by assumption.
        cbn [amap at2]. rewrite !cscale_scale. f_equal. ring. }
      rewrite (fourier_ext _ _ _ _ EW), fourier_scale. cbn [cscale fst]. field. exact NZ. }
    rewrite FL. assert (BP : at2 b (n / 2) (n / 2) <> 0) by lra.
    unfold optimal_factor, inverse. destruct (Rle_dec (1 / 1000) (at2 b (n / 2) (n / 2))); [|contradiction].
    assert (SA : solid_angle (q_degpix o') <> 0).
    { destruct (update_fields _ _ _ _ s_updated) as (_ & _ & _ & _ & _ & _ & DG & _). pose proof PI_RGT_0. assert (IN : 0 < INR n) by (apply lt_0_INR; exact s_size).
      unfold solid_angle. apply pow_nonzero. apply Rgt_not_eq. apply Rmult_lt_0_compat; [|lra]. rewrite DG.
      apply Rdiv_lt_0_compat; [apply Rdiv_lt_0_compat; lra|]. now apply Rmult_lt_0_compat. }
    destruct (c_optimal cfg); field; auto.
  Qed.

  (** Multiplying the image plane and the weights by one number, as for more visibilities of the same sky, changes no image. *)
Theorem C76_scale : forall cfg n f o o' image weights model image2 weights2 model2 out out2 pol c,
    setting n f o o' image weights model -> setting n f o o' image2 weights2 model2 -> unpadded cfg n ->
    quickview cfg o image weights model = Ok out -> quickview cfg o image2 weights2 model2 = Ok out2 ->
    NoDup (firstn (q_npol o) (q_names (out_obs out))) -> NoDup (firstn (q_npol o) (q_names (out_obs out2))) ->
    (pol < q_npol o)%nat -> (q_npol o < 4)%nat \/ pol <> 3%nat -> c <> 0 ->
    arr_eq (plane_of image2 pol) (amap (cscale c) (plane_of image pol)) -> arr_eq (plane_of weights2 pol) (amap (cscale c) (plane_of weights pol)) ->
    arr_eq (f (plane_of weights2 pol)) (f (plane_of weights pol)) ->
    exists b d d2, on_disk (out_files out) KDirty (nth pol (q_names (out_obs out)) EmptyString) = Some [d]
    /\ on_disk (out_files out2) KDirty (nth pol (q_names (out_obs out2)) EmptyString) = Some [d2]
    /\ is_beam beam_image horizon n o' pol b
    /\ (normalizable cfg n f (plane_of weights pol) b -> arr_eq d d2).
  Proof.
    intros cfg n f o o' image weights model image2 weights2 model2 out out2 pol c ST ST2 U H H2 ND ND2 HP NL CZ EI EW EF.
    destruct (C76_images_partial cfg n f o o' image weights model ST U) as (out' & H' & P). assert (out' = out) as -> by congruence.
    destruct (C76_images_partial cfg n f o o' image2 weights2 model2 ST2 U) as (out' & H2' & P2). assert (out' = out2) as -> by congruence.
    destruct (P ND pol HP NL) as (b & d & m & r & B & D1 & D2 & _ & _ & S1 & _ & _ & V & _).
    destruct (P2 ND2 pol HP NL) as (b2 & d2 & m2 & r2 & B2 & E1 & E2 & _ & _ & S2 & _ & _ & V2 & _).
    exists b, d, d2. split; [exact D2|]. split; [exact E2|]. split; [exact B|]. intros NZ.
    assert (BB : forall y x, (y < n)%nat -> (x < n)%nat -> at2 b2 y x = at2 b y x).
    { intros y x Y X. destruct B as (_ & bi & Q1 & Q2). destruct B2 as (_ & bj & Q3 & Q4). rewrite Q2, Q4 by assumption. congruence. }
    pose proof ST as []. assert (L : (n / 2 < n)%nat) by (apply Nat.div_lt; lia).
    destruct (planes_nth _ _ _ _ s_weights HP) as (_ & SW). destruct (s_filters _ _ SW SW) as ((RF & CF) & _).
    assert (SC : forall a a2, arr_eq a2 (amap (cscale c) a) -> sized n a -> forall y x,
       fst (fourier (weighted (at2 (f (plane_of weights2 pol))) a2) y x) = c * fst (fourier (weighted (at2 (f (plane_of weights pol))) a) y x)).
    { intros a a2 EA (RA & CA) y x.
      assert (K : arr_eq (weighted (at2 (f (plane_of weights2 pol))) a2) (amap (cscale c) (weighted (at2 (f (plane_of weights pol))) a))).
      { destruct EA as (R0 & C0 & VA). cbn [amap rows cols] in R0, C0. split; [exact R0|]. split; [exact C0|]. cbn [weighted amap rows cols at2]. intros i j I J.
        rewrite VA by assumption. cbn [amap at2]. destruct EF as (R1 & C1 & VF). rewrite VF by lia. rewrite !cscale_scale. f_equal. ring. }
      rewrite (fourier_ext _ _ _ _ K), fourier_scale. reflexivity. }
    destruct (planes_nth _ _ _ _ s_image HP) as (_ & SI).
    assert (NZ2 : normalizable cfg n f (plane_of weights2 pol) b2).
    { destruct NZ as (NZ & OB). split; [|intros O; rewrite BB by assumption; auto]. rewrite (SC _ _ EW SW). now apply Rmult_integral_contrapositive_currified. }
    destruct S1 as (R1 & C1). destruct S2 as (R2 & C2). split; [congruence|]. split; [congruence|]. intros y x Y X. rewrite R1 in Y. rewrite C1 in X.
    destruct (V NZ y x Y X) as (-> & _). destruct (V2 NZ2 y x Y X) as (-> & _).
    unfold optimal_factor. rewrite !BB by assumption. f_equal. unfold flux. rewrite (SC _ _ EI SI), (SC _ _ EW SW). destruct NZ as (NZ & _). field. auto.
  Qed.

  (** With four polarisations the imaginary part of the cross polarisation is lost: its dirty, model and residual images and its
      weights are 0 for every input.  The names in the observation of the caller are changed as well. *)
Theorem C76_crosspol_refuted : forall cfg n f o o' image weights model, setting n f o o' image weights model -> unpadded cfg n -> (4 <= q_npol o)%nat ->
    exists out name, quickview cfg o image weights model = Ok out /\ nth_error (q_names o) 2 = Some name
    /\ nth_error (q_names (out_obs out)) 2 = Some (name ++ "_real")%string /\ nth_error (q_names (out_obs out)) 3 = Some (name ++ "_imag")%string
    /\ (NoDup (firstn (q_npol o) (q_names (out_obs out))) ->
        exists d m r w, on_disk (out_files out) KDirty (name ++ "_imag") = Some [d] /\ on_disk (out_files out) KModel (name ++ "_imag") = Some [m]
        /\ on_disk (out_files out) KResidual (name ++ "_imag") = Some [r] /\ on_disk (out_files out) KWeights (name ++ "_imag") = Some w
        /\ forall y x, (y < n)%nat -> (x < n)%nat -> at2 d y x = 0 /\ at2 m y x = 0 /\ at2 r y x = 0
           /\ exists wi, nth_error w 3 = Some wi /\ at2 wi y x = 0).
  Proof.
    intros cfg n f o o' image weights model ST U F. destruct (setting_run _ _ _ _ _ _ _ _ ST U) as (out & fs & H & OF & LF & _ & _ & LW & (names & c & SN & OO & _) & P).
    pose proof ST as []. destruct (names_split (q_names o) (q_npol o) s_names) as (l & SL & _ & _ & _ & NN). assert (names = l) as -> by congruence.
    destruct (NN F) as (name & N2 & N3 & N4). exists out, name. split; [exact H|]. split; [exact N2|].
    assert (QN : q_names (out_obs out) = l) by (rewrite OO; reflexivity). rewrite QN. split; [exact N3|]. split; [exact N4|].
    intros ND. destruct (files_run _ _ _ _ _ _ _ _ ST U) as (out' & H' & P'). assert (out' = out) as -> by congruence. rewrite QN in P'.
    destruct (P' 3%nat ltac:(lia) ND) as (b & d & m & r & _ & D1 & D2 & D3 & _ & D5 & _ & _ & _ & V). rewrite (nth_error_nth _ _ EmptyString N4) in *.
    exists d, m, r. eexists. split; [exact D1|]. split; [exact D2|]. split; [exact D3|]. split; [exact D5|]. intros y x Y X. destruct (V y x Y X) as (V1 & V2 & V3).
    assert (LO : lost (q_npol o) 3 = true) by (unfold lost; destruct (Nat.leb_spec 4 (q_npol o)); [reflexivity|lia]).
    rewrite V1, V2, V3, LO. repeat split; try ring.
    destruct (P 3%nat ltac:(lia)) as (_ & _ & _ & _ & _ & _ & _ & _ & w' & _ & _ & _ & _ & _ & _ & _ & _ & _ & _ & _ & _ & _ & NW & _ & VW).
    exists (amap (fun z => cx_abs z * q_nvis o) w'). split; [rewrite nth_error_map, NW; reflexivity|]. cbn [amap at2]. rewrite VW by assumption.
    unfold split_weight. destruct (Nat.leb_spec 4 (q_npol o)); [|lia]. cbn [Nat.eqb]. unfold cx_abs. cbn [fst snd].
    replace (0 ^ 2 + 0 ^ 2) with 0 by ring. rewrite sqrt_0. ring.
  Qed.

  (** The weights file of a polarisation holds the weights of all polarisations, and multiplied by the filter. *)
Theorem C76_weights_refuted : forall cfg n f o o' image weights model, setting n f o o' image weights model -> unpadded cfg n -> (q_npol o < 4)%nat ->
    exists out, quickview cfg o image weights model = Ok out
    /\ (NoDup (firstn (q_npol o) (q_names o)) -> forall pol, (pol < q_npol o)%nat ->
        exists w, on_disk (out_files out) KWeights (nth pol (q_names o) EmptyString) = Some w /\ List.length w = q_npol o
        /\ forall k y x, (k < q_npol o)%nat -> (y < n)%nat -> (x < n)%nat -> exists wk, nth_error w k = Some wk
           /\ at2 wk y x = cx_abs (cscale (at2 (f (plane_of weights k)) y x) (at2 (plane_of weights k) y x)) * q_nvis o).
  Proof.
    intros cfg n f o o' image weights model ST U F. destruct (setting_run _ _ _ _ _ _ _ _ ST U) as (out & fs & H & OF & LF & _ & _ & LW & (names & c & SN & OO & _) & P).
    exists out. split; [exact H|]. destruct (Nat.leb_spec 4 (q_npol o)); [lia|]. assert (names = q_names o) as -> by congruence.
    assert (QN : q_names (out_obs out) = q_names o) by (rewrite OO; reflexivity).
    destruct (files_run _ _ _ _ _ _ _ _ ST U) as (out' & H' & P'). assert (out' = out) as -> by congruence. rewrite QN in P'.
    intros ND pol HP. destruct (P' pol HP ND) as (b & d & m & r & _ & _ & _ & _ & _ & D5 & _). eexists. split; [exact D5|]. split; [rewrite map_length; exact LW|].
    intros k y x K Y X. destruct (P k K) as (_ & _ & _ & _ & _ & _ & _ & _ & w' & _ & _ & _ & _ & _ & _ & _ & _ & _ & _ & _ & _ & _ & NW & _ & VW).
    exists (amap (fun z => cx_abs z * q_nvis o) w'). split; [rewrite nth_error_map, NW; reflexivity|]. cbn [amap at2]. rewrite VW by assumption.
    unfold split_weight. destruct (Nat.leb_spec 4 (q_npol o)); [lia|]. reflexivity.
  Qed.

  (** The image planes of the caller are kept; the model planes and the weights are multiplied by the filter in place. *)
Theorem C76_image_kept : forall cfg n f o o' image weights model, setting n f o o' image weights model -> unpadded cfg n ->
    exists out, quickview cfg o image weights model = Ok out /\ List.length (out_image out) = q_npol o
    /\ forall pol, (pol < q_npol o)%nat -> arr_eq (plane_of (out_image out) pol) (plane_of image pol).
  Proof.
    intros cfg n f o o' image weights model ST U. destruct (setting_run _ _ _ _ _ _ _ _ ST U) as (out & fs & H & _ & _ & LI & _ & _ & _ & P).
    exists out. split; [exact H|]. split; [exact LI|]. intros pol HP.
    destruct (P pol HP) as (_ & _ & _ & _ & _ & _ & i' & _ & _ & _ & _ & _ & _ & _ & _ & _ & _ & _ & NI & EI & _).
    unfold plane_of at 1. rewrite (nth_error_nth _ _ _ NI). exact EI.
  Qed.
Theorem C76_caller_refuted : forall cfg n f o o' image weights model, setting n f o o' image weights model -> unpadded cfg n ->
    exists out, quickview cfg o image weights model = Ok out
    /\ forall pol y x, (pol < q_npol o)%nat -> (y < n)%nat -> (x < n)%nat ->
       at2 (plane_of (out_model out) pol) y x = cscale (at2 (f (plane_of weights pol)) y x) (at2 (plane_of model pol) y x)
       /\ ((q_npol o < 4)%nat -> at2 (plane_of (out_weights out) pol) y x = cscale (at2 (f (plane_of weights pol)) y x) (at2 (plane_of weights pol) y x)).
  Proof.
    intros cfg n f o o' image weights model ST U. destruct (setting_run _ _ _ _ _ _ _ _ ST U) as (out & fs & H & _ & _ & _ & _ & _ & _ & P).
    exists out. split; [exact H|]. intros pol y x HP Y X. pose proof ST as [].
    destruct (P pol HP) as (_ & _ & _ & _ & _ & _ & _ & m' & w' & _ & _ & _ & _ & _ & _ & _ & _ & _ & _ & _ & NM & EM & NW & _ & VW).
    replace (plane_of (out_model out) pol) with m' by (symmetry; unfold plane_of; exact (nth_error_nth _ _ _ NM)).
    replace (plane_of (out_weights out) pol) with w' by (symmetry; unfold plane_of; exact (nth_error_nth _ _ _ NW)). split.
    - destruct EM as (R0 & C0 & VM). destruct (planes_nth _ _ _ _ s_model HP) as (_ & (RM & CM)). cbn [weighted rows cols] in R0, C0. rewrite VM by lia. reflexivity.
    - intros F. rewrite VW by assumption. unfold split_weight. destruct (Nat.leb_spec 4 (q_npol o)); [lia|]. reflexivity.
  Qed.

  (** The observation of the caller: a square grid keeps its size, pixel sizes and centre if they were consistent; the numbers of
      the frequency bins are computed anew (wrongly for the last bin, see C39). *)
Theorem C76_obs_partial : forall cfg n f o o' image weights model, setting n f o o' image weights model -> unpadded cfg n -> (q_npol o < 4)%nat ->
    exists out, quickview cfg o image weights model = Ok out
    /\ let p := out_obs out in
       q_dimension p = n /\ q_elements p = n /\ q_kpix p = q_kpix o /\ q_degpix p = 180 / PI / (q_kpix o * INR n)
       /\ q_obsx p = (natQ n / 2)%Q /\ q_obsy p = (natQ n / 2)%Q /\ q_names p = q_names o /\ q_nvis p = q_nvis o /\ q_npol p = q_npol o
       /\ q_max p = Rmin (q_max o) (INR n * q_kpix o / sqrt 2) /\ q_fbin p = q_fbin o'.
  Proof.
    intros cfg n f o o' image weights model ST U F. destruct (setting_run _ _ _ _ _ _ _ _ ST U) as (out & fs & H & _ & _ & _ & _ & _ & (names & c & SN & OO & _) & _).
    exists out. split; [exact H|]. destruct (Nat.leb_spec 4 (q_npol o)); [lia|]. assert (names = q_names o) as -> by congruence. pose proof ST as [].
    destruct (update_fields _ _ _ _ s_updated) as (EN & ED & EE & EX & EY & EK & EDG & EMX & EV & ENM & _).
    rewrite OO. cbv zeta. cbn. repeat (split; [assumption|]). split; [reflexivity|]. repeat (split; [assumption|]). reflexivity.
  Qed.
  (** The header: square pixels of degpix degrees and the reference pixel (counted from 1) in the middle. *)
Theorem C76_header : forall cfg n f o o' image weights model c11 c12 c21 c22, setting n f o o' image weights model -> unpadded cfg n -> q_cd o = ((c11, c12), (c21, c22)) ->
    exists out, quickview cfg o image weights model = Ok out
    /\ (let d := q_degpix (out_obs out) in h_cd (out_header out) = ((c11 * d, c12 * d), (c21 * d, c22 * d)))
    /\ h_crpix (out_header out) = (Z.of_nat (n / 2) + 1, Z.of_nat (n / 2) + 1)%Z.
  Proof.
    intros cfg n f o o' image weights model c11 c12 c21 c22 ST U CD. destruct (setting_run _ _ _ _ _ _ _ _ ST U) as (out & fs & H & _ & _ & _ & _ & _ & (names & c & SN & OO & HH & CC) & _).
    exists out. split; [exact H|]. rewrite HH, OO. cbn [h_cd h_crpix q_degpix]. rewrite CC, CD. cbv zeta. split; [repeat f_equal; ring|]. pose proof ST as [].
    destruct (update_fields _ _ _ _ s_updated) as (_ & _ & _ & _ & _ & _ & _ & _ & _ & _ & _ & _ & ECR & _). rewrite ECR. cbn [fst snd].
    assert (K : py_int (natQ n / 2 + 1) = (Z.of_nat (n / 2) + 1)%Z); [|rewrite K; reflexivity].
    destruct s_even as (h & ->). assert (2 * h / 2 = h)%nat as -> by (rewrite Nat.mul_comm; apply Nat.div_mul; lia).
    assert (QE : (natQ (2 * h) / 2 + 1 == inject_Z (Z.of_nat h + 1))%Q).
    { unfold natQ. rewrite Nat2Z.inj_mul, inject_Z_mult, inject_Z_plus. change (inject_Z (Z.of_nat 2)) with 2%Q. change (inject_Z 1) with 1%Q. field. }
    rewrite py_int_floor.
    - rewrite (Qround.Qfloor_comp _ _ QE). apply Qround.Qfloor_Z.
    - rewrite QE. change 0%Q with (inject_Z 0). rewrite <- Zle_Qle. lia.
  Qed.
  (** Padding does not work: whenever the padded size differs from the size of the planes, nothing is written. *)
Theorem C76_padding_refuted : forall cfg n f o o' image weights model, (2 <= n)%nat -> filters uniform n f -> q_dimension o = n -> (1 <= q_npol o)%nat ->
    let padded := Z.to_nat (py_int (natQ n * c_pad cfg)%Q) in
    update_obs o padded (q_kpix o) None None = Ok o' -> padded <> n ->
    planes n (q_npol o) image -> planes n (q_npol o) weights -> planes n (q_npol o) model ->
    (forall pol, (pol < q_npol o)%nat -> exists b, beam_image o' pol = Ok b /\ sized padded b) -> sized padded (horizon o') ->
    quickview cfg o image weights model = Err ValueError.
  Proof.
    intros cfg n f o o' image weights model N FI DI NP padded UO NE PI PW PM BE HO. unfold Quickview.quickview. rewrite DI. fold padded. rewrite UO. cbn [bind]. cbv zeta.
    destruct (update_fields _ _ _ _ UO) as (EN & ED & EE & _). rewrite EN.
    destruct (map_res_build (beam_base beam_image horizon o') (fun _ _ => True) (q_npol o)) as (beams & -> & LB & VB).
    { intros k K. destruct (BE k K) as (b & B & SB). unfold beam_base. rewrite B. cbn [bind]. destruct (azip_same padded Rmult b _ SB HO) as (p & -> & SP & _). cbn [bind].
      rewrite ED, EE. destruct (assign_same padded p SP) as (q & Q & _). exists q. auto. }
    cbn [bind]. destruct (q_npol o) as [|k] eqn:EK; [lia|]. cbn [seq map_res].
    destruct (VB 0%nat ltac:(lia)) as (b & B & _). rewrite (get_plane_some _ _ _ B). cbn [bind].
    destruct (planes_nth _ _ _ 0%nat PI ltac:(lia)) as (I1 & S1). destruct (planes_nth _ _ _ 0%nat PM ltac:(lia)) as (I2 & _). destruct (planes_nth _ _ _ 0%nat PW ltac:(lia)) as (I3 & S3).
    rewrite (get_plane_some _ _ _ I1), (get_plane_some _ _ _ I2), (get_plane_some _ _ _ I3). cbn [bind].
    rewrite (pol_images_err uniform cfg n f o' 0 b _ (plane_of model 0) _); try assumption; try lia. reflexivity.
  Qed.
  (** So are planes that are not square. *)
Theorem C76_non_square_refuted : forall cfg o o' image weights model p ps beams, image = p :: ps -> (2 <= rows p)%nat -> (2 <= cols p)%nat -> rows p <> cols p ->
    List.length weights = q_npol o -> List.length model = q_npol o -> (1 <= q_npol o)%nat ->
    update_obs o (Z.to_nat (py_int (natQ (q_dimension o) * c_pad cfg)%Q)) (q_kpix o) None None = Ok o' ->
    map_res (beam_base beam_image horizon o') (seq 0 (q_npol o)) = Ok beams ->
    quickview cfg o image weights model = Err ValueError.
  Proof.
    intros cfg o o' image weights model p ps beams -> R0 C0 NE LW LM NP UO MB. unfold Quickview.quickview. rewrite UO. cbn [bind]. cbv zeta.
    destruct (update_fields _ _ _ _ UO) as (EN & _). rewrite EN, MB. cbn [bind]. apply map_res_length in MB. rewrite seq_length in MB.
    destruct (q_npol o) as [|k]; [lia|]. destruct beams as [|b beams]; [discriminate|]. destruct weights as [|w weights]; [discriminate|]. destruct model as [|m model]; [discriminate|].
    cbn [seq map_res get_plane nth_error bind]. unfold pol_images, generate.
    rewrite (C75_non_square_refuted _ _ (call_options _ _ _ _ _) _ 0 eq_refl R0 C0 NE). reflexivity.
  Qed.
End Statements.
Print Assumptions C76_images_partial.
Print Assumptions C76_source.
Print Assumptions C76_scale.
Print Assumptions C76_crosspol_refuted.
Print Assumptions C76_weights_refuted.
Print Assumptions C76_image_kept.
Print Assumptions C76_caller_refuted.
Print Assumptions C76_obs_partial.
Print Assumptions C76_header.
Print Assumptions C76_padding_refuted.
Print Assumptions C76_non_square_refuted.

(** ** A concrete run: two polarisations of 2 by 2 planes, a filter that halves everything, a source of 3 Jy in the middle *)
Definition ex_obs : qobs :=
  {| q_npol := 2; q_dimension := 2; q_elements := 2; q_obsx := 1; q_obsy := 1; q_kpix := 1 / 2; q_degpix := 1; q_max := 100; q_nvis := 7;
     q_names := ["XX"; "YY"]%string; q_naxis := (2%nat, 2%nat); q_cdelt := (1, 1); q_crpix := (2, 2)%Q; q_cd := ((1, 0), (0, 1));
     q_nfreq := 4; q_freq := [0; 1; 2; 3]%Q; q_freq_res := 1%Q; q_fbin := [0; 1; 2; 3]%nat |}.
Definition ex_cfg : config := {| c_pad := 1; c_optimal := true |}.
Definition ex_filter (w : arr2 cx) : arr2 R := Arr2 2 2 (fun _ _ => 1 / 2).
Definition ex_uniform (w uv : arr2 cx) : result (arr2 cx * arr2 R) := Ok (amap (cscale (1 / 2)) uv, ex_filter w).
Definition ex_beam (o : qobs) (pol : nat) : result (arr2 R) := Ok (Arr2 2 2 (fun y x => if (y =? 1)%nat && (x =? 1)%nat then 1 else 1 / 4)).
Definition ex_horizon (o : qobs) : arr2 R := Arr2 2 2 (fun _ _ => 1).
Definition ex_weights : arr2 cx := Arr2 2 2 (fun y x => (INR (1 + y), 0)).
Definition ex_image : arr2 cx := amap (cscale 3) ex_weights.

Lemma ex_setting : exists o', setting ex_uniform ex_beam ex_horizon 2 ex_filter ex_obs o' [ex_image; ex_image] [ex_weights; ex_weights] [ex_weights; ex_image].
Proof.
  assert (UF : exists fb, update_fbin [0; 1; 2; 3]%Q 4 (inject_Z (np_round (natQ 4 / natQ 4)) * 1)%Q = Ok fb) by (eexists; vm_compute; reflexivity).
  destruct UF as (fb & UF). assert (UO : exists o', update_obs ex_obs 2 (q_kpix ex_obs) None None = Ok o').
  { unfold update_obs. cbn [q_fbin ex_obs q_nfreq q_freq q_freq_res fold_right Nat.max Nat.add bind]. rewrite UF. cbn [bind]. eexists. reflexivity. }
  destruct UO as (o' & UO). exists o'. constructor; try exact UO.
  - lia.
  - exists 1%nat. reflexivity.
  - intros w uv _ (R0 & C0). split; [split; reflexivity|]. eexists. split; [reflexivity|]. split; [reflexivity|]. split; [reflexivity|]. intros i j _ _. reflexivity.
  - reflexivity.
  - cbn. lra.
  - split; [reflexivity|]. repeat constructor.
  - split; [reflexivity|]. repeat constructor.
  - split; [reflexivity|]. repeat constructor.
  - cbn. lia.
  - intros pol _. eexists. split; [reflexivity|]. split; reflexivity.
  - split; reflexivity.
Qed.
Lemma ex_unpadded : unpadded ex_cfg 2.
Proof. split; reflexivity. Qed.
Lemma ex_middle : fst (fourier (weighted (at2 (ex_filter ex_weights)) ex_weights) 1 1) = 3 / 4.
Proof.
  unfold fourier. cbn [weighted ex_weights ex_filter rows cols at2].
  rewrite (csum_ext 2 _ (fun e => csum 2 (fun d => (1 / 2 * INR (1 + e), 0)))).
  - cbn. lra.
  - intros e _. apply csum_ext. intros d _. unfold half. cbn [INR].
    replace (- _) with 0 by field. rewrite cexp_0. apply cx_eq; cbn [fst snd cmul cscale]; ring.
Qed.
Example C76_demo : exists o' out b d, setting ex_uniform ex_beam ex_horizon 2 ex_filter ex_obs o' [ex_image; ex_image] [ex_weights; ex_weights] [ex_weights; ex_image]
  /\ quickview ex_uniform ex_beam ex_horizon ex_cfg ex_obs [ex_image; ex_image] [ex_weights; ex_weights] [ex_weights; ex_image] = Ok out
  /\ on_disk (out_files out) KBeam "YY" = Some [b] /\ on_disk (out_files out) KDirty "YY" = Some [d]
  /\ normalizable ex_cfg 2 ex_filter ex_weights b /\ at2 d 1 1 = 3 / solid_angle (q_degpix o').
Proof.
  destruct ex_setting as (o' & ST). exists o'.
  destruct (C76_images_partial _ _ _ ex_cfg _ _ _ _ _ _ _ ST ex_unpadded) as (out & H & P).
  destruct (C76_obs_partial _ _ _ ex_cfg _ _ _ _ _ _ _ ST ex_unpadded) as (out' & H' & OB); [cbn; lia|]. assert (out' = out) as -> by congruence. cbv zeta in OB.
  destruct OB as (_ & _ & _ & _ & _ & _ & NA & _).
  assert (ND : NoDup (firstn (q_npol ex_obs) (q_names (out_obs out)))).
  { rewrite NA. cbn. constructor; [intros [E|[]]; discriminate|]. constructor; [intros []|constructor]. }
  destruct (P ND 1%nat ltac:(cbn; lia) ltac:(right; lia)) as (b & d & _ & _ & (_ & bi & BI & BV) & B & D & _).
  destruct (C76_source _ _ _ ex_cfg _ _ _ _ _ _ _ out 1%nat 3 ST ex_unpadded H ND) as (b' & d' & B' & D' & V); [cbn; lia|right; lia|apply arr_eq_refl|].
  assert (b' = b) as -> by congruence. assert (d' = d) as -> by congruence. rewrite NA in B, D. exists out, b, d.
  assert (BM : at2 b 1 1 = 1).
  { rewrite BV by lia. assert (EB : bi = Arr2 2 2 (fun y x => if (y =? 1)%nat && (x =? 1)%nat then 1 else 1 / 4)) by (unfold ex_beam in BI; congruence). rewrite EB. cbn. ring. }
  assert (NZ : normalizable ex_cfg 2 ex_filter ex_weights b).
  { split; [change (2 / 2)%nat with 1%nat; rewrite ex_middle; lra|]. intros _. change (2 / 2)%nat with 1%nat. lra. }
  repeat (split; [assumption|]). change (2 / 2)%nat with 1%nat in V. rewrite V; [|exact NZ|lra]. rewrite BM. now rewrite Rmult_1_r.
Qed.
