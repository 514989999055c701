(** C78: rephasing of the uv planes of the export. C79: the pixel sizes of the export. C80: their defaults. Model: ExportSize.v; vocabulary:
    ExportSizeSpec.v. *)
From Coq Require Import String Reals Lra.
From Verif Require Import Base NpArr Sky DirtyImage DirtyImageSpec DirtyImageProofs DirtyImageProps Obs ObsSpec ObsProps Quickview ExportSize ExportSizeSpec ExportSizeProofs.
Import ListNotations.
Open Scope R_scope.
Ltac Zify.zify_post_hook ::= idtac.

(** ** C78 *)
(** The image of the rephased plane is the image of the plane moved so that what was in the middle is at the pixel of the
    original phase centre. *)
Theorem C78_shift : forall pixel t n x0 y0 a, t_dimension t = n -> t_elements t = n -> (0 < n)%nat -> t_phase t <> t_orig t -> pixel (t_orig t) = (x0, y0) ->
  rows a = n -> cols a = n ->
  exists f q, phase_shift_uv_image pixel t = Ok f /\ rephased a f = Ok q /\ rows q = n /\ cols q = n
  /\ (forall y x, fourier_at q y x = fourier_at a (y - (y0 - INR n / 2)) (x - (x0 - INR n / 2)))
  /\ fourier_at q y0 x0 = fourier_at a (INR n / 2) (INR n / 2).
Proof.
  intros pixel t n x0 y0 a TD TE N NE PX RA CA. destruct (factors_ok pixel t n n x0 y0 TD TE N N NE PX) as (f & EF & RF & CF & VF).
  destruct (rephased_ok a f) as (q & EQ & RQ & CQ & VQ); [congruence|congruence|]. exists f, q. split; [exact EF|]. split; [exact EQ|]. split; [congruence|]. split; [congruence|].
  assert (NN : INR n <> 0) by (apply not_0_INR; lia).
  assert (SH : forall y x, fourier_at q y x = fourier_at a (y - (y0 - INR n / 2)) (x - (x0 - INR n / 2))).
  { apply shift_ok; try congruence; try lia. intros i j I J. rewrite VQ, VF by congruence. f_equal. f_equal. rewrite RA, CA. unfold half. field. exact NN. }
  split; [exact SH|]. rewrite SH. f_equal; lra.
Qed.
Print Assumptions C78_shift.
(** In the images of the export: for planes of even size the pixel (y, x) of the image of the rephased plane has the value of the
    plane's image there, per steradian, and the pixel of the original phase centre has that of the middle. *)
Theorem C78_image : forall uniform rebin pixel t n x0 y0 a degpix, t_dimension t = n -> t_elements t = n -> (0 < n)%nat -> Nat.Even n ->
  t_phase t <> t_orig t -> pixel (t_orig t) = (x0, y0) -> rows a = n -> cols a = n ->
  exists f q img after, phase_shift_uv_image pixel t = Ok f /\ rephased a f = Ok q
  /\ dirty_image_generate uniform rebin (plain None None None (Some degpix) false) q = Ok (img, None, after)
  /\ (forall y x, (y < n)%nat -> (x < n)%nat ->
      at2 img y x = (/ (radians degpix ^ 2) * fst (fourier_at a (INR y - (y0 - INR n / 2)) (INR x - (x0 - INR n / 2))), 0))
  /\ (forall y x, (y < n)%nat -> (x < n)%nat -> INR y = y0 -> INR x = x0 -> at2 img y x = (/ (radians degpix ^ 2) * fst (fourier a (n / 2) (n / 2)), 0)).
Proof.
  intros uniform rebin pixel t n x0 y0 a degpix TD TE N EN NE PX RA CA. destruct (C78_shift pixel t n x0 y0 a TD TE N NE PX RA CA) as (f & q & EF & EQ & RQ & CQ & SH & _).
  destruct (C75_fourier_partial uniform rebin (plain None None None (Some degpix) false) q) as (img & after & E & RI & CI & V).
  { unfold even_sizes. rewrite RQ, CQ. auto. }
  { split; [now left|]. split; [intros ? HH; discriminate HH|]. split; [intros ? HH; discriminate HH|]. auto. }
  assert (V' : forall y x, (y < n)%nat -> (x < n)%nat -> at2 img y x = (/ (radians degpix ^ 2) * fst (fourier_at a (INR y - (y0 - INR n / 2)) (INR x - (x0 - INR n / 2))), 0)).
  { intros y x Y X. rewrite V by (cbn [used weighted rows cols]; congruence). cbn [plain o_not_real]. f_equal. rewrite <- SH. unfold used.
    assert (W : fourier (weighted (fun i j => per_steradian (o_degpix (plain None None None (Some degpix) false)) * (factor (o_filter (plain None None None (Some degpix) false)) i j * factor (o_mask (plain None None None (Some degpix) false)) i j)) q) y x
        = fourier (weighted (fun _ _ => / (radians degpix ^ 2)) q) y x).
    { apply fourier_ext. apply weighted_ext; [apply arr_eq_refl|]. intros i j _ _. cbn. ring. }
    rewrite W, fourier_weighted. reflexivity. }
  exists f, q, img, after. split; [exact EF|]. split; [exact EQ|]. split; [exact E|]. split; [exact V'|].
  intros y x Y X <- <-. rewrite (V' y x Y X). replace (INR y - (INR y - INR n / 2)) with (INR (n / 2)). 1: replace (INR x - (INR x - INR n / 2)) with (INR (n / 2)); [reflexivity|].
  all: destruct EN as (h & ->); rewrite (Nat.mul_comm 2 h), Nat.div_mul by lia; rewrite mult_INR; cbn [INR]; lra.
Qed.
Print Assumptions C78_image.
(** No factor changes the size of an entry; without a change of phase centre every factor is 1. *)
Theorem C78_factors : forall pixel t, (0 < t_dimension t)%nat -> (0 < t_elements t)%nat ->
  exists f, phase_shift_uv_image pixel t = Ok f
  /\ (t_phase t = t_orig t -> rows f = t_dimension t /\ cols f = t_elements t /\ forall i j, at2 f i j = (1, 0))
  /\ (t_phase t <> t_orig t -> rows f = t_elements t /\ cols f = t_dimension t /\ forall i j, (i < t_elements t)%nat -> (j < t_dimension t)%nat -> cx_abs (at2 f i j) = 1).
Proof.
  intros pixel t N M. destruct (Req_EM_T (fst (t_phase t)) (fst (t_orig t))) as [E1|E1]; [destruct (Req_EM_T (snd (t_phase t)) (snd (t_orig t))) as [E2|E2]|].
  - assert (PE : t_phase t = t_orig t) by (destruct (t_phase t), (t_orig t); cbn in *; congruence). unfold phase_shift_uv_image. cbv zeta. rewrite PE.
    destruct (Req_EM_T _ _); [|congruence]. destruct (Req_EM_T _ _); [|congruence]. cbn [andb]. eexists. split; [reflexivity|]. split; [auto|]. intros C. congruence.
  - assert (PE : t_phase t <> t_orig t) by congruence. destruct (pixel (t_orig t)) as [x0 y0] eqn:PX. destruct (factors_ok pixel t _ _ x0 y0 eq_refl eq_refl N M PE PX) as (f & E & R0 & C0 & V).
    exists f. split; [exact E|]. split; [congruence|]. intros _. split; [exact R0|]. split; [exact C0|]. intros i j I J. rewrite V by assumption. unfold cx_abs, cexp_i. cbn [fst snd].
    rewrite <- !Rsqr_pow2, Rplus_comm, sin2_cos2. apply sqrt_1.
  - assert (PE : t_phase t <> t_orig t) by congruence. destruct (pixel (t_orig t)) as [x0 y0] eqn:PX. destruct (factors_ok pixel t _ _ x0 y0 eq_refl eq_refl N M PE PX) as (f & E & R0 & C0 & V).
    exists f. split; [exact E|]. split; [congruence|]. intros _. split; [exact R0|]. split; [exact C0|]. intros i j I J. rewrite V by assumption. unfold cx_abs, cexp_i. cbn [fst snd].
    rewrite <- !Rsqr_pow2, Rplus_comm, sin2_cos2. apply sqrt_1.
Qed.
Print Assumptions C78_factors.
(** Planes of m rows and n columns with m <> n are moved by m/n of the rows they should be, and without a change of phase centre
    the factors have n rows and m columns. *)
Theorem C78_rectangle_refuted : forall pixel t n m x0 y0 a, t_dimension t = n -> t_elements t = m -> (0 < n)%nat -> (0 < m)%nat -> pixel (t_orig t) = (x0, y0) ->
  rows a = m -> cols a = n ->
  (t_phase t <> t_orig t -> exists f q, phase_shift_uv_image pixel t = Ok f /\ rephased a f = Ok q
     /\ forall y x, fourier_at q y x = fourier_at a (y - (y0 - INR m / 2) * (INR m / INR n)) (x - (x0 - INR n / 2)))
  /\ (t_phase t = t_orig t -> n <> m -> n <> 1%nat -> m <> 1%nat -> exists f, phase_shift_uv_image pixel t = Ok f /\ rephased a f = Err ValueError).
Proof.
  intros pixel t n m x0 y0 a TD TE N M PX RA CA. split.
  - intros NE. destruct (factors_ok pixel t n m x0 y0 TD TE N M NE PX) as (f & EF & RF & CF & VF).
    destruct (rephased_ok a f) as (q & EQ & RQ & CQ & VQ); [congruence|congruence|]. exists f, q. split; [exact EF|]. split; [exact EQ|].
    assert (NN : INR n <> 0) by (apply not_0_INR; lia). assert (MN : INR m <> 0) by (apply not_0_INR; lia).
    apply shift_ok; try congruence; try lia. intros i j I J. rewrite VQ, VF by congruence. f_equal. f_equal. rewrite RA, CA. unfold half. field. auto.
  - intros PE NM N1 M1. destruct (C78_factors pixel t) as (f & E & S1 & _); [lia|lia|]. exists f. split; [exact E|]. destruct (S1 PE) as (R0 & C0 & _).
    unfold rephased, azip. rewrite R0, C0, RA, CA, TD, TE. unfold bdim. destruct (Nat.eqb_spec m n); [congruence|]. destruct (Nat.eqb_spec m 1); [congruence|]. destruct (Nat.eqb_spec n 1); [congruence|]. reflexivity.
Qed.
Print Assumptions C78_rectangle_refuted.

(** ** C79 *)
(** Whatever the options, the sizes in use fit together, the new observation has them and the disc of HEALPix pixels reaches the
    corners of the square field of view. *)
Theorem C79_consistent : forall c l o z, export_sizes c l o = Ok z ->
  (0 < z_dimension z)%nat /\ consistent z /\ z_radius z ^ 2 = (z_fov z / 2) ^ 2 + (z_fov z / 2) ^ 2.
Proof.
  intros c l o z H. destruct (sizes_ok c l o z H) as (d & K0 & ED & EF & ER & EDP & _ & (avg & EU & _)). apply update_keeps in EU as (U1 & U2 & U3 & U4 & U5 & U6).
  assert (Z0 : INR (z_dimension z) <> 0) by (apply not_0_INR; lia). pose proof PI_RGT_0 as PP.
  assert (KN : z_kbinsize z <> 0) by tauto. split; [lia|]. split.
  - repeat split; try assumption.
    + rewrite EF. field. lra.
    + rewrite EDP. field. exact Z0.
    + rewrite U1, EF. field. repeat split; lra.
    + rewrite U2, EDP, EF. field. repeat split; lra.
  - rewrite ER. unfold Rdiv. rewrite !Rpow_mult_distr, pow_inv, <- !Rsqr_pow2, Rsqr_sqrt by lra. unfold Rsqr. field.
Qed.
Print Assumptions C79_consistent.
(** The HEALPix resolution is the coarsest power of two whose pixels are no larger than the new ones. *)
Theorem C79_resolution : forall c l o z, export_sizes c l o = Ok z ->
  exists k, z_nside z = powerRZ 2 k /\ (forall j, healpix_area (powerRZ 2 j) <= z_degpix z ^ 2 <-> (k <= j)%Z).
Proof.
  intros c l o z H. destruct (sizes_ok c l o z H) as (d & (KN & DP) & ED & EF & ER & EDP & (EN & _) & _). apply nside_ok; [|exact EN].
  rewrite EDP, EF. pose proof PI_RGT_0 as PP. assert (Z0 : INR (z_dimension z) <> 0) by (apply not_0_INR; lia).
  unfold Rdiv. repeat apply Rmult_integral_contrapositive_currified; try apply Rinv_neq_0_compat; lra.
Qed.
Print Assumptions C79_resolution.
(** The size of a pixel of the uv plane: --ps-kbinsize if set, else that of the field of view --ps-fov, else that of the
    observation. *)
Theorem C79_field : forall c l o z, export_sizes c l o = Ok z ->
  (forall k, s_kbinsize c = Some k -> z_kbinsize z = k)
  /\ (forall f, s_kbinsize c = None -> s_fov c = Some f -> z_fov z = f)
  /\ (s_kbinsize c = None -> s_fov c = None -> z_kbinsize z = q_kpix o).
Proof.
  intros c l o z H. destruct (sizes_ok c l o z H) as (d & (KN & DP) & ED & EF & ER & EDP & (EN & CK & CD) & _). pose proof PI_RGT_0 as PP. repeat split.
  - intros k K. now rewrite K in CK.
  - intros f K F. rewrite K, F in CK. destruct CK as (F0 & CK). rewrite EF, CK. field. repeat split; lra.
  - intros K F. now rewrite K, F in CK.
Qed.
Print Assumptions C79_field.
(** The number of pixels: the most that fit in --ps-kspan if set, else --ps-dimension, else the most of at least --ps-degpix
    degrees that fit in the field of view, else the same with the pixels of the observation. *)
Theorem C79_pixels : forall c l o z, export_sizes c l o = Ok z -> 0 < z_kbinsize z ->
  (forall s, s_kspan c = Some s -> INR (z_dimension z) * z_kbinsize z <= s < (INR (z_dimension z) + 1) * z_kbinsize z)
  /\ (forall n, s_kspan c = None -> s_dimension c = Some (INR n) -> z_dimension z = n)
  /\ (forall p, s_kspan c = None -> s_dimension c = None -> s_degpix c = Some p \/ ((s_degpix c = None \/ s_degpix c = Some 0) /\ p = q_degpix o) -> 0 < p ->
      INR (z_dimension z) * p <= z_fov z < (INR (z_dimension z) + 1) * p /\ p <= z_degpix z).
Proof.
  intros c l o z H K0. destruct (sizes_ok c l o z H) as (d & (KN & DP) & ED & EF & ER & EDP & (EN & CK & CD) & _). pose proof PI_RGT_0 as PP.
  assert (D0 := negative_none _ _ ED DP). assert (FL : INR (z_dimension z) <= d < INR (z_dimension z) + 1) by (apply span_floor; [lra|exact ED]).
  assert (ZP : 0 < INR (z_dimension z)) by (now apply lt_0_INR).
  split; [|split].
  - intros s S1. rewrite S1 in CD. assert (s = d * z_kbinsize z) by (rewrite CD; field; exact KN). subst s.
    split; [apply Rmult_le_compat_r; lra|apply Rmult_lt_compat_r; lra].
  - intros n S1 S2. rewrite S1, S2 in CD. rewrite CD, int_nat in ED. lia.
  - intros p S1 S2 S3 PP0. rewrite S1, S2 in CD. assert (ED' : d = z_fov z / p).
    { destruct S3 as [S3|([S3|S3] & ->)]; rewrite S3 in CD; [destruct (Req_EM_T p 0); [lra|exact CD]|exact CD|]. destruct (Req_EM_T 0 0); [exact CD|lra]. }
    assert (E : z_fov z = d * p) by (rewrite ED'; field; lra). rewrite EDP, E. split; [split; [apply Rmult_le_compat_r; lra|apply Rmult_lt_compat_r; lra]|].
    apply (Rmult_le_reg_r (INR (z_dimension z))); [exact ZP|]. replace (d * p / INR (z_dimension z) * INR (z_dimension z)) with (p * d) by (field; lra).
    apply Rmult_le_compat_l; lra.
Qed.
Print Assumptions C79_pixels.
(** With no option set, an observation with square pixels of its own keeps its sizes. *)
Theorem C79_unset : forall c l o z n, export_sizes c l o = Ok z ->
  s_kbinsize c = None -> s_fov c = None -> s_kspan c = None -> s_dimension c = None -> s_degpix c = None ->
  0 < q_kpix o -> (0 < n)%nat -> q_degpix o = 180 / PI / (q_kpix o * INR n) ->
  z_dimension z = n /\ z_kbinsize z = q_kpix o /\ z_degpix z = q_degpix o.
Proof.
  intros c l o z n H A1 A2 A3 A4 A5 K0 N DQ. destruct (sizes_ok c l o z H) as (d & (KN & DP) & ED & EF & ER & EDP & (EN & CK & CD) & _). pose proof PI_RGT_0 as PP.
  rewrite A1, A2 in CK. rewrite A3, A4, A5 in CD. assert (NP : 0 < INR n) by (now apply lt_0_INR).
  assert (D : d = INR n) by (rewrite CD, EF, CK, DQ; field; repeat split; lra). rewrite D, int_nat in ED. assert (E : z_dimension z = n) by lia.
  split; [exact E|]. split; [exact CK|]. rewrite EDP, E, EF, CK, DQ. field. repeat split; lra.
Qed.
Print Assumptions C79_unset.
(** The sizes are found for every observation with frequencies, and for options under which a pixel fits. *)
Theorem C79_completes : forall c l o, length (q_freq o) = q_nfreq o -> q_freq o <> [] -> (0 < q_freq_res o)%Q ->
  (forall k, s_kbinsize c = Some k -> 0 < k) -> (forall f, s_fov c = Some f -> 0 < f) -> 0 < q_kpix o -> 0 < q_degpix o ->
  (match s_nfreq_avg c with Some a => 0 < a | None => l <> [] /\ 0 < inject_Z (np_round (natQ (q_nfreq o) / natQ (fold_right Nat.max 0%nat l + 1))) end)%Q ->
  (let k := match s_kbinsize c with Some k => k | None => match s_fov c with Some f => 180 / PI / f | None => q_kpix o end end in
   match s_kspan c with
   | Some s => k <= s
   | None => match s_dimension c with
             | Some d => 1 <= d
             | None => match s_degpix c with Some p => 0 < p <= 180 / PI / k | None => q_degpix o <= 180 / PI / k end
             end
   end) -> exists z, export_sizes c l o = Ok z.
Proof.
  intros c l o LF NF FR HK HF K0 D0 HA HD. cbv zeta in HD. pose proof PI_RGT_0 as PP. assert (T : 0 < 180 / PI) by (apply Rdiv_lt_0_compat; lra).
  unfold export_sizes. set (kb := match s_kbinsize c with Some k => k | None => match s_fov c with Some f => 180 / PI / f | None => q_kpix o end end) in HD.
  assert (KP : 0 < kb).
  { unfold kb. destruct (s_kbinsize c); [auto|]. destruct (s_fov c) as [f|]; [|assumption]. apply Rdiv_lt_0_compat; auto. }
  assert (EK : (match s_kbinsize c with Some k => Ok k | None => match s_fov c with Some f => if Req_EM_T f 0 then Err ZeroDivision else Ok (180 / PI / f) | None => Ok (q_kpix o) end end) = Ok kb).
  { unfold kb. destruct (s_kbinsize c); [reflexivity|]. destruct (s_fov c) as [f|]; [|reflexivity]. destruct (Req_EM_T f 0); [|reflexivity]. specialize (HF f eq_refl). lra. }
  rewrite EK. cbn [bind]. destruct (Req_EM_T kb 0); [lra|]. cbn [bind]. set (fov := 180 / PI / kb) in *. cbv zeta.
  assert (FP : 0 < fov) by (apply Rdiv_lt_0_compat; lra). destruct (Req_EM_T (q_degpix o) 0); [lra|].
  set (pick := match s_kspan c with Some s => Ok (s / kb) | None => _ end).
  assert (ED : exists d, pick = Ok d /\ 1 <= d).
  { assert (DIV : forall p, 0 < p <= fov -> 1 <= fov / p). { intros p (P1 & P2). apply (Rmult_le_reg_r p); [exact P1|]. replace (fov / p * p) with fov by (field; lra). lra. }
    unfold pick. destruct (s_kspan c) as [s|].
    - eexists. split; [reflexivity|]. apply (Rmult_le_reg_r kb); [exact KP|]. replace (s / kb * kb) with s by (field; lra). lra.
    - destruct (s_dimension c) as [d|]; [eauto|]. destruct (s_degpix c) as [p|]; [destruct (Req_EM_T p 0); [lra|]|]; eexists; (split; [reflexivity|]); apply DIV; lra. }
  destruct ED as (d & -> & D1). cbn [bind].
  assert (EA : exists avg, (match s_nfreq_avg c with Some a => Ok a | None => match l with [] => Err ValueError | _ => Ok (inject_Z (np_round (natQ (q_nfreq o) / natQ (fold_right Nat.max 0%nat l + 1)))) end end) = Ok avg /\ (0 < avg)%Q).
  { destruct (s_nfreq_avg c); [eauto|]. destruct HA as (HL & HA). destruct l; [congruence|]. eauto. }
  destruct EA as (avg & -> & AP). cbn [bind]. destruct (int_floor d) as (I0 & I1 & I2); [lra|].
  assert (I3 : (1 <= int_R d)%Z). { assert (H : (0 < int_R d)%Z) by (apply lt_IZR; lra). lia. }
  destruct (Z.eqb_spec (int_R d) 0); [lia|]. destruct (Z.ltb_spec (int_R d) 0); [lia|].
  destruct (C39_update_partial (q_freq o) (avg * q_freq_res o)%Q) as (fb & lo & la & UF & _); [now apply Qmult_lt_0_compat|assumption|].
  unfold update_obs. rewrite <- LF. cbn [bind]. rewrite UF. cbn [bind]. eauto.
Qed.
Print Assumptions C79_completes.
(** ** C80 *)
(** The default of --ps-kspan is 0 and not unset: with the other options at their defaults or not, the export stops; and the
    default of --ps-kbinsize leaves --ps-fov without effect. *)
Theorem C80_span_refuted : forall c l o, s_kspan c = Some 0 -> forall z, export_sizes c l o <> Ok z.
Proof.
  intros c l o S1 z H. destruct (sizes_ok c l o z H) as (d & (KN & DP) & ED & EF & ER & EDP & (EN & CK & CD) & _). rewrite S1 in CD.
  assert (D0 := negative_none _ _ ED DP). rewrite CD in D0. unfold Rdiv in D0. rewrite Rmult_0_l in D0. lra.
Qed.
Print Assumptions C80_span_refuted.
Theorem C80_field_refuted : forall c f g l o, s_kbinsize c = Some (1 / 2) ->
  let set v := {| s_kbinsize := s_kbinsize c; s_fov := Some v; s_kspan := s_kspan c; s_dimension := s_dimension c; s_degpix := s_degpix c; s_nfreq_avg := s_nfreq_avg c |} in
  export_sizes (set f) l o = export_sizes (set g) l o /\ forall z, export_sizes (set f) l o = Ok z -> z_fov z = 360 / PI.
Proof.
  intros c f g l o K set. split; [unfold export_sizes, set; cbn [s_kbinsize s_fov s_kspan s_dimension s_degpix s_nfreq_avg]; rewrite K; reflexivity|].
  intros z H. destruct (sizes_ok _ l o z H) as (d & (KN & DP) & ED & EF & ER & EDP & (EN & CK & CD) & _). cbn [set s_kbinsize] in CK. rewrite K in CK. rewrite EF, CK.
  pose proof PI_RGT_0. field. lra.
Qed.
Print Assumptions C80_field_refuted.

(** ** Concrete cases *)
Definition ex_pointing : pointing := {| t_dimension := 2; t_elements := 2; t_phase := (0, 0); t_orig := (10, -20) |}.
Definition ex_pixel (p : R * R) : R * R := (0, 1).
Definition ex_plane : arr2 cx := Arr2 2 2 (fun i j => (INR (i + 2 * j), 1)).
Lemma ex_moved : t_phase ex_pointing <> t_orig ex_pointing.
Proof. intros H. cbn [ex_pointing t_phase t_orig] in H. injection H as H1 H2. lra. Qed.
(** One pixel to the left. *)
Example C78_demo : exists f q, phase_shift_uv_image ex_pixel ex_pointing = Ok f /\ rephased ex_plane f = Ok q
  /\ forall y x, fourier_at q y x = fourier_at ex_plane y (x + 1).
Proof.
  destruct (C78_shift ex_pixel ex_pointing 2 0 1 ex_plane eq_refl eq_refl (ltac:(lia)) ex_moved eq_refl eq_refl eq_refl) as (f & q & E1 & E2 & _ & _ & SH & _).
  exists f, q. split; [exact E1|]. split; [exact E2|]. intros y x. rewrite SH. replace (INR 2) with 2 by reflexivity. f_equal; lra.
Qed.
(** The template's half wavelength pixels in a plane of 600 wavelengths. *)
Definition ex_out : qobs :=
  {| q_npol := 2; q_dimension := 2; q_elements := 2; q_obsx := 1; q_obsy := 1; q_kpix := 1 / 2; q_degpix := 1; q_max := 100; q_nvis := 7;
     q_names := ["XX"; "YY"]%string; q_naxis := (2%nat, 2%nat); q_cdelt := (1, 1); q_crpix := (2, 2)%Q; q_cd := ((1, 0), (0, 1));
     q_nfreq := 4; q_freq := [0; 1; 2; 3]%Q; q_freq_res := 1%Q; q_fbin := [0; 1; 2; 3]%nat |}.
Definition ex_ps : ps := {| s_kbinsize := Some (1 / 2); s_fov := None; s_kspan := Some 600; s_dimension := None; s_degpix := None; s_nfreq_avg := None |}.
Example C79_demo : exists z, export_sizes ex_ps [0; 0; 1; 1]%nat ex_out = Ok z /\ z_dimension z = 1200%nat /\ z_fov z = 360 / PI /\ q_dimension (z_obs z) = 1200%nat.
Proof.
  destruct (C79_completes ex_ps [0; 0; 1; 1]%nat ex_out) as (z & E); cbn [ex_ps ex_out q_freq q_nfreq q_freq_res s_kbinsize s_fov s_kspan s_nfreq_avg q_kpix q_degpix]; try lra.
  - exact eq_refl.
  - discriminate.
  - exact eq_refl.
  - intros k K. injection K as <-. lra.
  - intros f F. discriminate F.
  - split; [discriminate|]. vm_compute. reflexivity.
  - exists z. split; [exact E|]. destruct (C79_field _ _ _ _ E) as (K & _). specialize (K (1 / 2) eq_refl). destruct (C79_consistent _ _ _ _ E) as (_ & (C1 & _ & _ & _ & C5 & _) & _).
    destruct (C79_pixels _ _ _ _ E) as (P & _); [rewrite K; lra|]. specialize (P 600 eq_refl). rewrite K in P, C1.
    assert (D : z_dimension z = 1200%nat).
    { destruct P as (P1 & P2). assert (A : INR (z_dimension z) <= 1200) by lra. assert (B : 1199 < INR (z_dimension z)) by lra. rewrite INR_IZR_INZ in A, B. apply le_IZR in A. apply lt_IZR in B. lia. }
    split; [exact D|]. split; [|congruence]. pose proof PI_RGT_0. apply (Rmult_eq_reg_r (1 / 2)); [|lra]. rewrite C1. field. lra.
Qed.
