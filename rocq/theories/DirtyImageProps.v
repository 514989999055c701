(** C75: dirty images are the Fourier transforms of the uv planes. *)
From Coq Require Import String Reals Lra Lia ZifyNat.
From Verif Require Import Base NpArr Utils1 Utils1Spec Utils1Proofs Sky DirtyImage DirtyImageSpec DirtyImageProofs.
Import ListNotations.
Open Scope nat_scope.
Open Scope list_scope.
Open Scope R_scope.
Ltac Zify.zify_post_hook ::= idtac.

(** The image of a plane with even sizes is its transform about the middle, after the mask and the filter, per steradian. *)
Theorem C75_fourier_partial : forall uniform rebin o uv, even_sizes uv -> simple o uv ->
  exists img after, dirty_image_generate uniform rebin o uv = Ok (img, o_filter o, after) /\ is_image (o_not_real o) (used o uv) img.
Proof.
  intros uniform rebin o uv EV SI. destruct (simple_run uniform rebin o uv EV SI) as (img & after & E & I & _). eauto.
Qed.
Print Assumptions C75_fourier_partial.

(** It is linear in the plane. *)
Theorem C75_linear : forall uniform rebin o u v r s i1 i2 i3 f1 f2 f3 a1 a2 a3,
  even_sizes u -> same_shape u v -> simple o u ->
  let uv := Arr2 (rows u) (cols u) (fun i j => cadd (cscale r (at2 u i j)) (cscale s (at2 v i j))) in
  dirty_image_generate uniform rebin o u = Ok (i1, f1, a1) -> dirty_image_generate uniform rebin o v = Ok (i2, f2, a2) ->
  dirty_image_generate uniform rebin o uv = Ok (i3, f3, a3) ->
  forall y x, (y < rows u)%nat -> (x < cols u)%nat -> at2 i3 y x = cadd (cscale r (at2 i1 y x)) (cscale s (at2 i2 y x)).
Proof.
  intros uniform rebin o u v r s i1 i2 i3 f1 f2 f3 a1 a2 a3 EV (SR & SC) SI uv E1 E2 E3 y x Y X.
  assert (EV2 : even_sizes v) by (unfold even_sizes in *; now rewrite <- SR, <- SC).
  assert (SI2 : simple o v) by (unfold simple, same_shape in *; now rewrite <- SR, <- SC).
  assert (EV3 : even_sizes uv) by exact EV. assert (SI3 : simple o uv) by exact SI.
  destruct (simple_run uniform rebin o u EV SI) as (j1 & b1 & H1 & (_ & _ & V1) & _). rewrite H1 in E1. assert (j1 = i1) as -> by congruence.
  destruct (simple_run uniform rebin o v EV2 SI2) as (j2 & b2 & H2 & (_ & _ & V2) & _). rewrite H2 in E2. assert (j2 = i2) as -> by congruence.
  destruct (simple_run uniform rebin o uv EV3 SI3) as (j3 & b3 & H3 & (_ & _ & V3) & _). rewrite H3 in E3. assert (j3 = i3) as -> by congruence.
  rewrite (V1 y x Y X), (V3 y x Y X). rewrite SR in Y. rewrite SC in X. rewrite (V2 y x Y X). clear - SR SC.
  assert (L : fourier (used o uv) y x = cadd (cscale r (fourier (used o u) y x)) (cscale s (fourier (used o v) y x))).
  { unfold fourier. cbn [used weighted uv rows cols at2]. rewrite <- SR, <- SC. rewrite !cscale_scale, (Rmult_comm r), (Rmult_comm s), <- !cscale_scale, <- cscale_add.
    f_equal. rewrite <- !csum_scale, <- csum_add. apply csum_ext. intros e E. rewrite <- !csum_scale, <- csum_add. apply csum_ext. intros d D. cx. }
  rewrite L. destruct (o_not_real o); [reflexivity|]. apply cx_eq; cbn [cadd cscale fst snd]; ring.
Qed.
Print Assumptions C75_linear.

(** The image of a Hermitian plane is real, so that nothing is lost by taking the real part. *)
Theorem C75_hermitian : forall uniform rebin o uv img f after, even_sizes uv -> simple o uv -> o_not_real o = true -> hermitian (used o uv) ->
  dirty_image_generate uniform rebin o uv = Ok (img, f, after) ->
  forall y x, (y < rows uv)%nat -> (x < cols uv)%nat -> snd (at2 img y x) = 0.
Proof.
  intros uniform rebin o uv img f after EV SI NR H E y x Y X. destruct (simple_run uniform rebin o uv EV SI) as (j & b & H1 & (_ & _ & V) & _).
  rewrite H1 in E. assert (j = img) as -> by congruence. rewrite V by assumption. rewrite NR. now apply fourier_real.
Qed.
Print Assumptions C75_hermitian.

(** The middle pixel is the mean of the plane. *)
Theorem C75_centre : forall uniform rebin o uv img f after, even_sizes uv -> simple o uv ->
  dirty_image_generate uniform rebin o uv = Ok (img, f, after) ->
  let mean := cscale (/ (INR (rows uv) * INR (cols uv))) (csum (rows uv) (fun e => csum (cols uv) (fun d => at2 (used o uv) e d))) in
  at2 img (rows uv / 2) (cols uv / 2) = if o_not_real o then mean else (fst mean, 0).
Proof.
  intros uniform rebin o uv img f after EV SI E mean. destruct (simple_run uniform rebin o uv EV SI) as (j & b & H1 & (_ & _ & V) & _).
  rewrite H1 in E. assert (j = img) as -> by congruence. destruct EV as (R0 & C0 & (r & HR) & (c & HC)).
  assert (H2 : forall k, (2 * k / 2 = k)%nat) by (intros k; rewrite Nat.mul_comm; apply Nat.div_mul; lia).
  rewrite (V (rows uv / 2)%nat (cols uv / 2)%nat) by (cbn [used weighted rows cols]; rewrite ?HR, ?HC, H2; lia).
  assert (FM : fourier (used o uv) (rows uv / 2) (cols uv / 2) = mean); [|now rewrite FM].
  unfold fourier, mean. cbn [used weighted rows cols at2]. f_equal. apply csum_ext. intros e HE. apply csum_ext. intros d HD.
  rewrite HR, HC, !H2. unfold half. rewrite !mult_INR. change (INR 2) with 2.
  match goal with |- cmul _ (cexp_i ?t) = _ => replace t with 0 end.
  - rewrite cexp_0. cx.
  - field. split; apply not_0_INR; lia.
Qed.
Print Assumptions C75_centre.

(** A normalisation by a number multiplies the image. *)
Theorem C75_normalization : forall uniform rebin o uv r img f after, dirty_image_generate uniform rebin (with_norm o None) uv = Ok (img, f, after) ->
  dirty_image_generate uniform rebin (with_norm o (Some (NNum r))) uv = Ok (amap (cscale r) img, f, after).
Proof.
  intros uniform rebin o uv r img f after H. unfold dirty_image_generate in *.
  apply bind_ok in H as (w1 & E1 & H). change (step_threshold (with_norm o (Some (NNum r)))) with (step_threshold (with_norm o None)). rewrite E1. cbn [bind].
  apply bind_ok in H as (w2 & E2 & H). change (step_mask (with_norm o (Some (NNum r)))) with (step_mask (with_norm o None)). rewrite E2. cbn [bind].
  apply bind_ok in H as ([w3 f3] & E3 & H). change (step_filter uniform (with_norm o (Some (NNum r)))) with (step_filter uniform (with_norm o None)). rewrite E3. cbn [bind].
  apply bind_ok in H as ([w4 d4] & E4 & H). change (step_resize rebin (with_norm o (Some (NNum r)))) with (step_resize rebin (with_norm o None)). rewrite E4. cbn [bind].
  apply bind_ok in H as (w5 & E5 & H). change (step_pad (with_norm o (Some (NNum r)))) with (step_pad (with_norm o None)). rewrite E5. cbn [bind].
  change (step_degpix (with_norm o (Some (NNum r)))) with (step_degpix (with_norm o None)). set (w6 := step_degpix (with_norm o None) w5) in *.
  apply bind_ok in H as (i & E6 & H). assert (i = img /\ f3 = f /\ caller w6 = after) as (-> & -> & <-) by (repeat split; congruence). clear H.
  unfold step_image in *. cbn [with_norm o_not_real o_beam o_optimal o_norm] in *.
  apply bind_ok in E6 as (g & E6 & H). rewrite E6. cbn [bind]. apply bind_ok in H as (k & E7 & H). rewrite E7. cbn [bind].
  assert (k = img) as -> by congruence. reflexivity.
Qed.
Print Assumptions C75_normalization.

(** Padding by a whole number refines the image: the pixels in between are new, the others are those of the image
    without padding. The caller's plane is not divided by the size of the pixels then. *)
Theorem C75_padding_partial : forall uniform rebin o uv h p, rows uv = (2 * h)%nat -> cols uv = (2 * h)%nat -> (0 < h)%nat -> (1 <= p)%nat ->
  o_pad o = Some (inject_Z (Z.of_nat p)) -> o_threshold o = None \/ (o_threshold o = Some 0 /\ o_width o = None) ->
  o_mask o = None -> o_filter o = None -> o_resize o = None -> o_beam o = None -> o_norm o = None ->
  exists img after, dirty_image_generate uniform rebin o uv = Ok (img, None, after) /\ arr_eq after uv
  /\ rows img = (p * (2 * h))%nat /\ cols img = (p * (2 * h))%nat
  /\ forall y x, (y < 2 * h)%nat -> (x < 2 * h)%nat ->
     at2 img (p * y) (p * x) = let z := cscale (per_steradian (o_degpix o)) (fourier uv y x) in if o_not_real o then z else (fst z, 0).
Proof.
  intros uniform rebin o uv h p R0 C0 H P PD T M F RS B N.
  assert (EV : even_sizes uv) by (unfold even_sizes; rewrite R0, C0; repeat split; try lia; now exists h).
  pose (a := weighted (fun i j => factor (o_filter o) i j * factor (o_mask o) i j) uv).
  assert (K : (Z.of_nat (Nat.max (rows uv) (cols uv) / 2) * (py_int (inject_Z (Z.of_nat p)) - 1) = Z.of_nat (h * (p - 1)))%Z).
  { rewrite py_int_Z, R0, C0, Nat.max_id. assert (2 * h / 2 = h)%nat as -> by (rewrite Nat.mul_comm; apply Nat.div_mul; lia). rewrite Nat2Z.inj_mul, Nat2Z.inj_sub by lia. reflexivity. }
  assert (EX : exists b, np_pad a (Z.of_nat (h * (p - 1))) = Ok b).
  { unfold np_pad. rewrite (proj2 (Z.ltb_ge _ _) (Nat2Z.is_nonneg _)). eauto. }
  destruct EX as (b & EB).
  assert (FP : forall y x, rows b = (p * (2 * h))%nat /\ cols b = (p * (2 * h))%nat /\ fourier b (p * y) (p * x) = cscale (/ (INR p ^ 2)) (fourier a y x)).
  { intros y x. apply (fourier_pad a b h p y x R0 C0 H P EB). }
  destruct (FP 0%nat 0%nat) as (RB & CB & _).
  assert (AU : arr_eq a uv). { unfold a. rewrite M, F. apply weighted_one. intros; cbn [factor]; ring. }
  destruct (padded_run uniform rebin o uv (inject_Z (Z.of_nat p)) b EV) as (img & after & E & (RI & CI & V) & A); auto.
  { destruct T as [T|(T & W)]; [now left|right]. split; [exact T|]. split; [congruence|]. rewrite W, R0, C0. apply kernel_default. lia. }
  { rewrite M. discriminate. } { rewrite F. discriminate. }
  { fold a. rewrite K. exact EB. }
  { unfold even_sizes. rewrite RB, CB. repeat split; try nia; exists (p * h)%nat; lia. }
  rewrite F in E. exists img, after. split; [exact E|]. fold a in A. split; [eapply arr_eq_trans; eassumption|].
  cbn [weighted rows cols] in RI, CI, V. split; [congruence|]. split; [congruence|]. intros y x Y X. rewrite V by nia. cbv zeta.
  rewrite fourier_weighted. destruct (FP y x) as (_ & _ & ->). rewrite (fourier_ext a uv y x AU).
  assert (Q2R (inject_Z (Z.of_nat p)) = INR p) as -> by (unfold Q2R, inject_Z; cbn [Qnum Qden]; rewrite <- INR_IZR_INZ; field).
  rewrite cscale_scale. replace (per_steradian (o_degpix o) * INR p ^ 2 * / INR p ^ 2) with (per_steradian (o_degpix o)) by (field; apply not_0_INR; lia).
  reflexivity.
Qed.
Print Assumptions C75_padding_partial.

(** A padding factor between 1 and 2 does not pad, but multiplies the image by its square. *)
Theorem C75_padding_refuted : forall uniform rebin o uv q, even_sizes uv -> (1 <= q)%Q -> (q < 2)%Q ->
  o_pad o = Some q -> o_threshold o = None ->
  o_mask o = None -> o_filter o = None -> o_resize o = None -> o_beam o = None -> o_norm o = None ->
  exists img after, dirty_image_generate uniform rebin o uv = Ok (img, None, after)
  /\ is_image (o_not_real o) (weighted (fun _ _ => per_steradian (o_degpix o) * Q2R q ^ 2) uv) img.
Proof.
  intros uniform rebin o uv q EV L U PD T M F RS B N.
  pose (a := weighted (fun i j => factor (o_filter o) i j * factor (o_mask o) i j) uv).
  assert (AU : arr_eq a uv). { unfold a. rewrite M, F. apply weighted_one. intros; cbn [factor]; ring. }
  assert (EX : exists b, np_pad a 0 = Ok b /\ arr_eq b uv).
  { unfold np_pad. cbn [Z.ltb Z.compare]. eexists. split; [reflexivity|]. cbn [Z.to_nat Nat.mul].
    destruct AU as (R0 & C0 & V). split; [cbn [rows] in *; lia|]. split; [cbn [cols] in *; lia|]. cbn [rows cols at2]. intros i j I J.
    destruct (Nat.ltb_spec i (0 + rows a)); [|lia]. destruct (Nat.ltb_spec j (0 + cols a)); [|lia]. cbn [Nat.leb andb]. rewrite !Nat.sub_0_r. apply V; lia. }
  destruct EX as (b & EB & BU).
  destruct (padded_run uniform rebin o uv q b EV) as (img & after & E & I & _); auto.
  { rewrite M. discriminate. } { rewrite F. discriminate. }
  { fold a. rewrite (py_int_one q L U), Z.mul_0_r. exact EB. }
  { eapply even_ext; [apply arr_eq_sym; exact BU|exact EV]. }
  rewrite F in E. exists img, after. split; [exact E|]. eapply is_image_ext; [|exact I]. apply weighted_ext; [exact BU|reflexivity].
Qed.
Print Assumptions C75_padding_refuted.

(** Resizing by [r]: the image is that of the plane whose real and imaginary parts were rebinned to [r] times as many rows
    and [r] times as many columns; the caller keeps their plane. *)
Theorem C75_resize_partial : forall uniform rebin o uv r re im, even_sizes uv -> (0 < r)%nat ->
  o_resize o = Some r -> o_threshold o = None -> o_mask o = None -> o_filter o = None -> o_pad o = None ->
  o_beam o = None -> o_norm o = None ->
  let part (f : cx -> R) := Arr2 (rows uv) (cols uv) (fun i j => f (at2 uv i j)) in
  rebin (part fst) (rows uv * r, cols uv * r)%nat = Ok re -> rebin (part snd) (rows uv * r, cols uv * r)%nat = Ok im ->
  rows re = (rows uv * r)%nat -> cols re = (cols uv * r)%nat -> rows im = (rows uv * r)%nat -> cols im = (cols uv * r)%nat ->
  exists img, dirty_image_generate uniform rebin o uv = Ok (img, None, uv)
  /\ is_image (o_not_real o) (weighted (fun _ _ => per_steradian (o_degpix o))
       (Arr2 (rows uv * r) (cols uv * r) (fun i j => (at2 re i j, at2 im i j)))) img.
Proof.
  intros uniform rebin o uv r re im EV R0 RS T M F P B N part E1 E2 L1 L2 L3 L4.
  unfold dirty_image_generate, step_threshold, step_mask, step_filter, step_resize, step_pad.
  rewrite T, M, F, RS, P. cbn [bind plane current caller fst snd].
  change (amap fst uv) with (part fst). change (amap snd uv) with (part snd). rewrite E1. cbn [bind]. rewrite E2. cbn [bind].
  unfold azip, bdim. rewrite L1, L2, L3, L4, !Nat.eqb_refl. cbn [bind].
  set (p := Arr2 _ _ _). set (b := Arr2 (rows uv * r) (cols uv * r) (fun i j => (at2 re i j, at2 im i j))).
  assert (EP : arr_eq p b).
  { split; [reflexivity|]. split; [reflexivity|]. intros i j I J. cbn [p b rows cols at2] in *. unfold bidx.
    destruct (Nat.eqb_spec (rows uv * r) 1), (Nat.eqb_spec (cols uv * r) 1); repeat f_equal; lia. }
  destruct (degpix_copy o (copied {| caller := uv; current := None |} p) p eq_refl) as (w & -> & EW). cbn [copied caller].
  destruct (image_plain o {| caller := uv; current := Some w |}) as (img & -> & I); auto.
  { cbn [plane current]. eapply even_ext; [apply arr_eq_sym; exact EW|]. destruct EV as (A & D & (h & H) & (k & K)).
    unfold even_sizes. cbn [weighted rows cols p]. repeat split; try nia; [exists (h * r)%nat|exists (k * r)%nat]; lia. }
  cbn [bind copied caller plane current] in *. exists img. split; [reflexivity|]. eapply is_image_ext; [|exact I].
  eapply arr_eq_trans; [exact EW|]. apply weighted_ext; [exact EP|reflexivity].
Qed.
Print Assumptions C75_resize_partial.
(** A plane of 2 by 4 entries doubled by repeating them. *)
Example C75_resize_case : let double (a : arr2 R) (d : nat * nat) :=
    Ok (Arr2 (fst d) (snd d) (fun i j => at2 a (i * rows a / fst d) (j * cols a / snd d))) : result (arr2 R) in
  even_sizes (Arr2 2 4 (fun i j => (INR i, INR j)))
  /\ exists re, double (Arr2 2 4 (fun i _ => INR i)) (2 * 2, 4 * 2)%nat = Ok re /\ rows re = 4%nat /\ cols re = 8%nat.
Proof.
  split; [|eexists; repeat split]. unfold even_sizes. cbn [rows cols]. repeat split; try lia; [exists 1%nat|exists 2%nat]; reflexivity.
Qed.

(** Without padding the caller's plane is changed: it becomes the plane the image was made of, and a second call with
    the same arguments gives another image. *)
Theorem C75_caller_refuted : forall uniform rebin o uv, even_sizes uv -> simple o uv ->
  exists img after, dirty_image_generate uniform rebin o uv = Ok (img, o_filter o, after) /\ arr_eq after (used o uv)
  /\ exists img2 after2, dirty_image_generate uniform rebin o after = Ok (img2, o_filter o, after2)
     /\ is_image (o_not_real o) (used o (used o uv)) img2.
Proof.
  intros uniform rebin o uv EV SI. destruct (simple_run uniform rebin o uv EV SI) as (img & after & E & I & A).
  exists img, after. split; [exact E|]. split; [exact A|]. destruct A as (RA & CA & VA).
  destruct (simple_run uniform rebin o after) as (img2 & after2 & E2 & I2 & _).
  { eapply even_ext; [apply arr_eq_sym; exact (conj RA (conj CA VA))|exact EV]. }
  { cbn [used weighted rows cols] in RA, CA. unfold simple, same_shape in *. rewrite RA, CA. exact SI. }
  exists img2, after2. split; [exact E2|]. eapply is_image_ext; [|exact I2]. apply weighted_ext; [exact (conj RA (conj CA VA))|reflexivity].
Qed.
Print Assumptions C75_caller_refuted.

(** A threshold removes what lies closer to the middle when it is positive, and what lies farther when it is negative;
    smoothing by a window of 2h+1 entries changes only entries whose window is partly removed. *)
Theorem C75_threshold : forall uniform rebin t w dp nr uv, even_sizes uv -> rows uv = cols uv -> (kernel_width (rows uv) (cols uv) w <= rows uv)%nat ->
  exists img after h wt, dirty_image_generate uniform rebin (plain (Some t) w None dp nr) uv = Ok (img, None, after)
  /\ kernel_width (rows uv) (cols uv) w = (2 * h + 1)%nat
  /\ is_image nr (weighted (fun i j => per_steradian dp * wt i j) uv) img
  /\ forall e d, (e < rows uv)%nat -> (d < cols uv)%nat -> 0 <= wt e d <= 1
     /\ ((forall e' d', (e' < rows uv)%nat -> (d' < cols uv)%nat -> (e' <= e + h)%nat -> (e <= e' + h)%nat -> (d' <= d + h)%nat -> (d <= d' + h)%nat -> removed t uv e' d') -> wt e d = 0)
     /\ ((forall e' d', (e' < rows uv)%nat -> (d' < cols uv)%nat -> (e' <= e + h)%nat -> (e <= e' + h)%nat -> (d' <= d + h)%nat -> (d <= d' + h)%nat -> ~ removed t uv e' d') -> wt e d = 1).
Proof.
  intros uniform rebin t w dp nr uv EV RC K. set (n := rows uv) in *. rewrite <- RC in *.
  destruct (threshold_square n t w) as (m & h & EM & RM & CM & HK & V); [apply EV|exact K|].
  unfold dirty_image_generate, step_threshold. cbn [plain o_threshold o_width plane current caller]. fold n. rewrite <- RC. rewrite EM. cbn [bind].
  destruct (mul_same uv m) as (p & EP & E); [split; [exact RM|congruence]|]. cbn [plane current caller]. rewrite EP. cbn [bind in_place current].
  unfold step_mask, step_filter, step_resize, step_pad. cbn [plain o_mask o_filter o_resize o_pad bind].
  set (o := plain (Some t) w None dp nr). destruct (degpix_step o {| caller := p; current := None |} eq_refl) as (CN & ED).
  cbn [plane current caller] in ED.
  assert (EU : arr_eq (plane (step_degpix o {| caller := p; current := None |})) (weighted (fun i j => per_steradian dp * at2 m i j) uv)).
  { eapply arr_eq_trans; [exact ED|]. eapply arr_eq_trans; [|apply weighted_twice]. apply weighted_ext; [exact E|reflexivity]. }
  destruct (image_plain o (step_degpix o {| caller := p; current := None |})) as (img & -> & I); [|reflexivity|reflexivity|].
  { eapply even_ext; [apply arr_eq_sym; exact EU|]. exact EV. }
  cbn [bind]. eexists _, _, h, (at2 m). split; [reflexivity|]. split; [exact HK|]. split; [eapply is_image_ext; [exact EU|exact I]|].
  intros e d HE HD.
  assert (KR : forall i j, kept n t i j = 0 /\ removed t uv i j \/ kept n t i j = 1 /\ ~ removed t uv i j).
  { intros i j. unfold kept, cut, removed, radius. rewrite <- RC. fold n. destruct (Rle_dec 0 t) as [T|T].
    - match goal with |- context [Rlt_dec ?a ?b] => destruct (Rlt_dec a b) end; [left|right]; (split; [reflexivity|]); lra.
    - rewrite Rabs_left by lra. match goal with |- context [Rlt_dec ?a ?b] => destruct (Rlt_dec a b) end; [left|right]; (split; [reflexivity|]); lra. }
  rewrite V by assumption. split; [|split].
  - match goal with |- context [if ?b then _ else _] => destruct b end.
    + assert (P0 : 0 < / (INR (2 * h + 1) * INR (2 * h + 1))). { apply Rinv_0_lt_compat. apply Rmult_lt_0_compat; apply lt_0_INR; lia. }
      assert (N0 : INR (2 * h + 1) <> 0) by (apply not_0_INR; lia).
      pose proof (rsum_bounds (2 * h + 1) (fun a => rsum (2 * h + 1) (fun b => kept n t (e - h + a) (d - h + b) * / (INR (2 * h + 1) * INR (2 * h + 1))))
        (INR (2 * h + 1) * 0) (INR (2 * h + 1) * / (INR (2 * h + 1) * INR (2 * h + 1)))) as Q0.
      match type of Q0 with ?A -> _ => assert (A) as A1 end.
      { intros i I0. apply (rsum_bounds (2 * h + 1)). intros j J0. destruct (KR (e - h + i)%nat (d - h + j)%nat) as [(-> & _)|(-> & _)]; lra. }
      specialize (Q0 A1). replace (INR (2 * h + 1) * (INR (2 * h + 1) * / (INR (2 * h + 1) * INR (2 * h + 1)))) with 1 in Q0 by (field; exact N0). lra.
    + destruct (KR e d) as [(-> & _)|(-> & _)]; lra.
  - intros ALL. match goal with |- context [if ?b then _ else _] => destruct b eqn:W end.
    + apply andb_prop in W as (W & W4). apply andb_prop in W as (W & W3). apply andb_prop in W as (W1 & W2).
      apply Nat.leb_le in W1, W3. apply Nat.ltb_lt in W2, W4. apply window_const. intros a b HA HB.
      destruct (KR (e - h + a)%nat (d - h + b)%nat) as [(X & _)|(_ & X)]; [exact X|]. exfalso. apply X. apply ALL; lia.
    + destruct (KR e d) as [(X & _)|(_ & X)]; [exact X|]. exfalso. apply X. apply ALL; lia.
  - intros ALL. match goal with |- context [if ?b then _ else _] => destruct b eqn:W end.
    + apply andb_prop in W as (W & W4). apply andb_prop in W as (W & W3). apply andb_prop in W as (W1 & W2).
      apply Nat.leb_le in W1, W3. apply Nat.ltb_lt in W2, W4. apply window_const. intros a b HA HB.
      destruct (KR (e - h + a)%nat (d - h + b)%nat) as [(_ & X)|(X & _)]; [|exact X]. exfalso. revert X. apply ALL; lia.
    + destruct (KR e d) as [(_ & X)|(X & _)]; [|exact X]. exfalso. revert X. apply ALL; lia.
Qed.
Print Assumptions C75_threshold.

(** Planes that are not square are rejected, unless the threshold is switched off. *)
Theorem C75_non_square_refuted : forall uniform rebin o uv t, o_threshold o = Some t -> (2 <= rows uv)%nat -> (2 <= cols uv)%nat -> rows uv <> cols uv ->
  dirty_image_generate uniform rebin o uv = Err ValueError.
Proof.
  intros uniform rebin o uv t T R0 C0 NE. unfold dirty_image_generate, step_threshold. rewrite T. cbn [plane current caller].
  unfold threshold_mask, rarray. rewrite !meshgrid_square.
  destruct (meshgrid_axis (cols uv) (cols uv) 1 ltac:(lia)) as (mx & -> & (LX & CX) & _). destruct (meshgrid_axis (rows uv) (rows uv) 2 ltac:(lia)) as (my & -> & (LY & CY) & _).
  cbn [bind]. unfold azip, of_lists. cbn [rows cols]. rewrite LX, LY. unfold bdim at 1.
  destruct (Nat.eqb_spec (cols uv) (rows uv)); [lia|]. destruct (Nat.eqb_spec (cols uv) 1); [lia|]. destruct (Nat.eqb_spec (rows uv) 1); [lia|]. reflexivity.
Qed.
Print Assumptions C75_non_square_refuted.

(** With odd sizes the image is not the transform about the middle: a single entry in the middle does not give a flat
    image. *)
Definition middle (h : nat) : arr2 cx := Arr2 (2 * h + 1) (2 * h + 1) (fun e d => if (e =? h)%nat && (d =? h)%nat then (1, 0) else (0, 0)).
Theorem C75_odd_refuted : forall uniform rebin h, (1 <= h)%nat ->
  exists img after, dirty_image_generate uniform rebin (plain None None None None false) (middle h) = Ok (img, None, after)
  /\ fst (at2 img h h) = / (INR (2 * h + 1) * INR (2 * h + 1)) /\ fst (at2 img (h + 1) h) < / (INR (2 * h + 1) * INR (2 * h + 1)).
Proof.
  intros uniform rebin h H. unfold dirty_image_generate, step_threshold, step_mask, step_filter, step_resize, step_pad, step_degpix, step_image.
  cbn [plain o_threshold o_mask o_filter o_resize o_pad o_degpix o_not_real o_beam o_norm bind plane current caller].
  destruct (fft_ok (middle h)) as (f & F); [cbn [middle rows]; lia|cbn [middle cols]; lia|]. rewrite F. cbn [bind].
  eexists _, _. split; [reflexivity|]. cbn [real_part amap at2 fst]. set (n := (2 * h + 1)%nat) in *.
  assert (HH : (n / 2 = h)%nat) by (symmetry; apply (Nat.div_unique _ 2 h 1); lia).
  assert (VF : forall y x, at2 f y x = cscale (/ (INR n * INR n)) (cexp_i (- (2 * PI * (INR (2 * h * y) / INR n + INR (2 * h * x) / INR n))))).
  { unfold fft2 in F. cbn [fftshift middle rows cols] in F. fold n in F. destruct (Nat.eqb_spec n 0); [lia|]. cbn [orb] in F.
    match type of F with Ok ?v = Ok _ => assert (EF : f = v) by congruence; rewrite EF end. cbn [at2]. intros y x. f_equal.
    cbn [fftshift middle rows cols at2]. fold n. rewrite HH.
    assert (SH : forall i, (i < n)%nat -> ((i + (n - h)) mod n =? h)%nat = (i =? 2 * h)%nat).
    { intros i I. apply Bool.eq_true_iff_eq. rewrite !Nat.eqb_eq. destruct (Nat.le_gt_cases h i) as [L|L].
      - replace (i + (n - h))%nat with ((i - h) + 1 * n)%nat by lia. rewrite Nat.mod_add by lia. rewrite Nat.mod_small by lia. lia.
      - rewrite Nat.mod_small by lia. lia. }
    rewrite (csum_single n (2 * h)%nat); [|lia|].
    - rewrite (csum_single n (2 * h)%nat); [|lia|].
      + rewrite !SH by lia. rewrite Nat.eqb_refl. cbn [andb]. cx.
      + intros d L D. rewrite !SH by lia. rewrite (proj2 (Nat.eqb_neq d (2 * h))) by exact D. rewrite andb_false_r. cx.
    - intros e L D. apply csum_zero. intros d LD. rewrite !SH by lia. rewrite (proj2 (Nat.eqb_neq e (2 * h))) by exact D. cbn [andb]. cx. }
  assert (RF : rows f = n /\ cols f = n).
  { unfold fft2 in F. match type of F with (if ?b then _ else _) = _ => destruct b end; [discriminate F|].
    match type of F with Ok ?v = Ok _ => assert (EF : f = v) by congruence; rewrite EF end. split; reflexivity. }
  destruct RF as (RF & CF). cbn [fftshift at2]. rewrite RF, CF, HH.
  assert (M0 : ((h + (n - h)) mod n = 0)%nat) by (replace (h + (n - h))%nat with n by lia; apply Nat.mod_same; lia).
  assert (M1 : ((h + 1 + (n - h)) mod n = 1)%nat) by (replace (h + 1 + (n - h))%nat with (1 + 1 * n)%nat by lia; rewrite Nat.mod_add by lia; apply Nat.mod_small; lia).
  rewrite M0, M1, !VF. rewrite !Nat.mul_0_r, Nat.mul_1_r. change (INR 0) with 0.
  assert (N0 : INR n <> 0) by (apply not_0_INR; lia). assert (NP : 0 < INR n) by (apply lt_0_INR; lia).
  assert (IP : 0 < / (INR n * INR n)) by (apply Rinv_0_lt_compat, Rmult_lt_0_compat; exact NP).
  split.
  - replace (- (2 * PI * (0 / INR n + 0 / INR n))) with 0 by (field; exact N0). rewrite cexp_0. cbn [cscale fst]. ring.
  - cbn [cscale cexp_i fst]. rewrite cos_neg. replace (2 * PI * (INR (2 * h) / INR n + 0 / INR n)) with (2 * (PI * (INR (2 * h) / INR n))) by (field; exact N0).
    rewrite cos_2a_sin. set (t := PI * (INR (2 * h) / INR n)).
    assert (FR : 0 < INR (2 * h) / INR n < 1).
    { split; [apply Rdiv_lt_0_compat; [apply lt_0_INR; lia|exact NP]|]. apply (Rmult_lt_reg_r (INR n)); [exact NP|].
      unfold Rdiv. rewrite Rmult_assoc, Rinv_l, Rmult_1_r, Rmult_1_l by exact N0. apply lt_INR. lia. }
    assert (SP : 0 < sin t). { pose proof PI_RGT_0. apply sin_gt_0; unfold t; nra. }
    assert (0 < / (INR n * INR n) * (sin t * sin t)) by (apply Rmult_lt_0_compat; [exact IP|apply Rmult_lt_0_compat; exact SP]).
    replace (/ (INR n * INR n) * (1 - 2 * sin t * sin t)) with (/ (INR n * INR n) - 2 * (/ (INR n * INR n) * (sin t * sin t))) by ring. lra.
Qed.
Print Assumptions C75_odd_refuted.

(** A Hermitian plane of two by four entries with a filter, and the middle of its image. *)
Definition demo_plane : arr2 cx := of_lists (0, 0) [[(1, 0); (2, 1); (3, 0); (2, - 1)]; [(4, 0); (5, 2); (6, 0); (5, - 2)]].
Definition demo_options : options := {|
  o_mask := None; o_threshold := None; o_width := None; o_filter := Some (of_lists 0 [[1; 1; 1; 1]; [2; 2; 2; 2]]);
  o_resize := None; o_pad := None; o_degpix := None; o_not_real := true; o_beam := None; o_norm := None; o_optimal := false |}.
Example C75_demo : even_sizes demo_plane /\ simple demo_options demo_plane /\ hermitian (used demo_options demo_plane)
  /\ forall uniform rebin, exists img f after, dirty_image_generate uniform rebin demo_options demo_plane = Ok (img, f, after) /\ at2 img 1 2 = (6, 0).
Proof.
  assert (EV : even_sizes demo_plane). { unfold even_sizes. cbn. repeat split; try lia; [exists 1%nat|exists 2%nat]; lia. }
  assert (SI : simple demo_options demo_plane).
  { unfold simple. cbn. split; [now left|]. split; [discriminate|]. split; [|repeat split]. intros f E.
    assert (f = of_lists 0 [[1; 1; 1; 1]; [2; 2; 2; 2]]) as -> by congruence. split; reflexivity. }
  split; [exact EV|]. split; [exact SI|]. split.
  - unfold hermitian. cbn [used weighted demo_plane of_lists rows cols List.length hd].
    intros e d HE HD. assert (HE' : e = 0%nat \/ e = 1%nat) by lia. assert (HD' : d = 0%nat \/ d = 1%nat \/ d = 2%nat \/ d = 3%nat) by lia.
    destruct HE' as [->| ->], HD' as [->|[->|[->| ->]]]; cbn; apply cx_eq; cbn; ring.
  - intros uniform rebin. destruct (simple_run uniform rebin demo_options demo_plane EV SI) as (img & after & E & _).
    exists img, (o_filter demo_options), after. split; [exact E|].
    refine (eq_trans (C75_centre uniform rebin demo_options demo_plane img _ after EV SI E) _). cbn. apply cx_eq; cbn; field.
Qed.
