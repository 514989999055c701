From Coq Require Import Reals Lra.
From Verif Require Import Base HealpixSel HealpixSelProofs Slant SlantSpec.
Open Scope R_scope.

Lemma rad_deg x : rad (deg x) = x.
Proof. unfold rad, deg. field. apply PI_neq0. Qed.
Lemma rad_minus x y : rad (x - y) = rad x - rad y.
Proof. unfold rad. field. Qed.

(** The hour angle is that of the phase centre, up to a turn. *)
Lemma turn_plus x : sin (x + 2 * PI) = sin x /\ cos (x + 2 * PI) = cos x.
Proof. split; [rewrite sin_plus, sin_2PI, cos_2PI|rewrite cos_plus, sin_2PI, cos_2PI]; ring. Qed.
Lemma turn_minus x : sin (x - 2 * PI) = sin x /\ cos (x - 2 * PI) = cos x.
Proof. split; [rewrite sin_minus, sin_2PI, cos_2PI|rewrite cos_minus, sin_2PI, cos_2PI]; ring. Qed.
Lemma offset_turn m : sin (rad (lon_offset m)) = - sin (rad (s_zenra m - s_phasera m)) /\ cos (rad (lon_offset m)) = cos (rad (s_zenra m - s_phasera m)).
Proof.
  rewrite <- sin_neg, <- (cos_neg (rad (s_zenra m - s_phasera m))).
  replace (- rad (s_zenra m - s_phasera m)) with (rad (s_phasera m - s_zenra m)) by (unfold rad; field).
  unfold lon_offset. destruct (Rlt_dec _ _); [|split; reflexivity]. destruct (Rlt_dec _ _).
  - replace (rad (s_phasera m - 360 - s_zenra m)) with (rad (s_phasera m - s_zenra m) - 2 * PI) by (unfold rad; field). apply turn_minus.
  - replace (rad (s_phasera m - -360 - s_zenra m)) with (rad (s_phasera m - s_zenra m) + 2 * PI) by (unfold rad; field). apply turn_plus.
Qed.

Lemma atan_sin t : sin (atan t) = t / sqrt (1 + t * t) /\ cos (atan t) = 1 / sqrt (1 + t * t).
Proof. split; [rewrite sin_atan|rewrite cos_atan]; unfold Rsqr; reflexivity. Qed.
Lemma polar x y : x <> 0 -> let q := atan (y / x) in let s := if Rlt_dec 0 x then 1 else -1 in
  sin q = s * y / sqrt (x * x + y * y) /\ cos q = s * x / sqrt (x * x + y * y).
Proof.
  intros NX q s. destruct (atan_sin (y / x)) as [A B]. fold q in A, B.
  assert (P : 0 < x * x + y * y) by nra. assert (SP : 0 < sqrt (x * x + y * y)) by now apply sqrt_lt_R0.
  assert (E : sqrt (1 + y / x * (y / x)) = sqrt (x * x + y * y) / (s * x)).
  { assert (SX : 0 < s * x) by (unfold s; destruct (Rlt_dec 0 x); lra).
    apply Rsqr_inj; [apply sqrt_pos|left; now apply Rdiv_lt_0_compat|]. rewrite Rsqr_sqrt by (pose proof (Rle_0_sqr (y / x)); unfold Rsqr in *; lra).
    unfold Rsqr. replace (sqrt (x * x + y * y) / (s * x) * (sqrt (x * x + y * y) / (s * x))) with (sqrt (x * x + y * y) * sqrt (x * x + y * y) / (s * x * (s * x))) by (field; unfold s; destruct (Rlt_dec 0 x); split; lra).
    rewrite sqrt_sqrt by lra. assert (SS : s * s = 1) by (unfold s; destruct (Rlt_dec 0 x); lra).
    replace (s * x * (s * x)) with (s * s * (x * x)) by ring. rewrite SS. field. exact NX. }
  rewrite E in A, B. rewrite A, B.
  assert (NS : s <> 0) by (unfold s; destruct (Rlt_dec 0 x); lra). split; field; repeat split; lra.
Qed.

Section Projection.
  Variable m : smeta.
  Hypothesis (Dec : -90 <= s_phasedec m <= 90) (Zen : -90 < s_zendec m < 90).
  Local Notation z := (cosines (s_phasera m) (s_phasedec m) (s_zenra m) (s_zendec m)).
  Local Notation lz := (fst (fst z)).
  Local Notation mz := (snd (fst z)).
  Local Notation nz := (snd z).

  Lemma cos_zen : 0 < cos (rad (s_zendec m)).
  Proof. pose proof PI_RGT_0. apply cos_gt_0; unfold rad; nra. Qed.
  Lemma unit_zen : lz * lz + mz * mz + nz * nz = 1.
  Proof.
    unfold cosines. cbn [fst snd]. set (d := s_zendec m * PI / 180). set (e := s_phasedec m * PI / 180). set (h := (s_zenra m - s_phasera m) * PI / 180).
    pose proof (sin2_cos2 d) as D. pose proof (sin2_cos2 e) as E. pose proof (sin2_cos2 h) as H0. unfold Rsqr in *.
    set (sd := sin d) in *. set (cd := cos d) in *. set (se := sin e) in *. set (ce := cos e) in *. set (sh := sin h) in *. set (ch := cos h) in *.
    replace (cd * sh * (cd * sh) + (sd * ce - cd * se * ch) * (sd * ce - cd * se * ch) + (sd * se + cd * ce * ch) * (sd * se + cd * ce * ch))
      with (cd * cd * (sh * sh) + (se * se + ce * ce) * (sd * sd + cd * cd * (ch * ch))) by ring.
    rewrite E. replace (cd * cd * (sh * sh) + 1 * (sd * sd + cd * cd * (ch * ch))) with (cd * cd * (sh * sh + ch * ch) + sd * sd) by ring.
    rewrite H0. lra.
  Qed.
  Lemma zenith_angle : angle_difference (s_phasera m) (s_phasedec m) (s_zenra m) (s_zendec m) true false = Ok (deg (acos nz)).
  Proof.
    unfold angle_difference. rewrite !beyond_false by lra. cbn [orb]. unfold separation. f_equal. f_equal. f_equal.
    unfold cosines. cbn [snd]. fold (rad (s_phasedec m)) (rad (s_zendec m)) (rad (s_zenra m - s_phasera m)).
    replace (rad (s_phasera m) - rad (s_zenra m)) with (- rad (s_zenra m - s_phasera m)) by (unfold rad; field). rewrite cos_neg. ring.
  Qed.
  Lemma y_term : sin (rad (lon_offset m)) = - lz / cos (rad (s_zendec m)).
  Proof.
    rewrite (proj1 (offset_turn m)). unfold cosines. cbn [fst]. fold (rad (s_zendec m)) (rad (s_zenra m - s_phasera m)).
    pose proof cos_zen. field. lra.
  Qed.
  Lemma x_term : cos (rad (s_phasedec m)) * tan (rad (s_zendec m)) - sin (rad (s_phasedec m)) * cos (rad (lon_offset m)) = mz / cos (rad (s_zendec m)).
  Proof.
    rewrite (proj2 (offset_turn m)). unfold cosines. cbn [fst snd]. fold (rad (s_phasedec m)) (rad (s_zendec m)) (rad (s_zenra m - s_phasera m)).
    unfold tan. pose proof cos_zen. field. lra.
  Qed.
  Lemma tan_zenith : nz <> 0 -> tan (acos nz) = sqrt (lz * lz + mz * mz) / nz.
  Proof.
    intros N. pose proof unit_zen as U. assert (R0 : -1 <= nz <= 1) by nra.
    unfold tan. rewrite sin_acos, cos_acos by exact R0. f_equal. f_equal. unfold Rsqr. lra.
  Qed.

  Lemma slant_nan : lz = 0 -> mz = 0 -> slant m = Ok None.
  Proof.
    intros A B. unfold slant. rewrite zenith_angle. cbn [bind]. unfold parallactic_angle. rewrite x_term, y_term, A, B.
    pose proof cos_zen. replace (0 / cos (rad (s_zendec m))) with 0 by (field; lra). replace (- 0 / cos (rad (s_zendec m))) with 0 by (field; lra).
    destruct (Req_EM_T 0 0); [reflexivity|congruence].
  Qed.
  Lemma slant_value : ~ (lz = 0 /\ mz = 0) -> nz <> 0 ->
    slant m = Ok (Some (let s := if Rle_dec 0 mz then 1 else -1 in (s * (lz / nz), s * (mz / nz)))).
  Proof.
    intros NZ N. unfold slant. rewrite zenith_angle. cbn [bind]. rewrite rad_deg, (tan_zenith N). unfold parallactic_angle. rewrite x_term, y_term.
    pose proof cos_zen as C0. set (k := cos (rad (s_zendec m))) in *.
    assert (P : 0 < lz * lz + mz * mz). { destruct (Req_dec lz 0) as [E|E]; [|nra]. destruct (Req_dec mz 0) as [F|F]; [|nra]. exfalso. now apply NZ. }
    set (r := sqrt (lz * lz + mz * mz)). assert (RP : 0 < r) by now apply sqrt_lt_R0.
    assert (RR : r * r = lz * lz + mz * mz) by (apply sqrt_sqrt; lra).
    destruct (Req_EM_T (mz / k) 0) as [E|E].
    - assert (M0 : mz = 0). { apply (Rmult_eq_compat_r k) in E. replace (mz / k * k) with mz in E by (field; lra). lra. }
      assert (L0 : lz <> 0) by (intros F; now apply NZ).
      destruct (Req_EM_T (- lz / k) 0) as [F|F].
      { exfalso. apply L0. apply (Rmult_eq_compat_r k) in F. replace (- lz / k * k) with (- lz) in F by (field; lra). lra. }
      cbn [fst snd]. rewrite rad_deg. rewrite M0 in *. destruct (Rle_dec 0 0) as [_|G]; [|exfalso; apply G; lra].
      assert (RL : r = Rabs lz). { unfold r. rewrite M0. replace (lz * lz + 0 * 0) with (Rsqr lz) by (unfold Rsqr; ring). apply sqrt_Rsqr_abs. }
      rewrite RL. destruct (Rlt_dec 0 (- lz / k)) as [G|G].
      + assert (lz < 0). { apply Rnot_le_lt. intros K. assert (- lz / k <= 0); [|lra]. unfold Rdiv. assert (0 < / k) by now apply Rinv_0_lt_compat. nra. }
        rewrite Rabs_left by assumption. rewrite sin_PI2, cos_PI2. f_equal. f_equal. f_equal; field; exact N.
      + assert (0 < lz). { apply Rnot_le_lt. intros K. apply G. apply Rdiv_lt_0_compat; lra. }
        rewrite Rabs_right by lra. rewrite sin_neg, cos_neg, sin_PI2, cos_PI2. f_equal. f_equal. f_equal; field; exact N.
    - cbn [fst snd]. rewrite rad_deg. destruct (polar (mz / k) (- lz / k) E) as [A B]. cbn beta zeta in A, B. rewrite A, B.
      assert (SQ : sqrt (mz / k * (mz / k) + - lz / k * (- lz / k)) = r / k).
      { apply Rsqr_inj; [apply sqrt_pos|left; now apply Rdiv_lt_0_compat|]. rewrite Rsqr_sqrt.
        - unfold Rsqr. replace (r / k * (r / k)) with (r * r / (k * k)) by (field; lra). rewrite RR. field. lra.
        - pose proof (Rle_0_sqr (mz / k)). pose proof (Rle_0_sqr (- lz / k)). unfold Rsqr in *. lra. }
      rewrite SQ. assert (M0 : mz <> 0) by (intros F; apply E; rewrite F; field; lra).
      assert (SG : (if Rlt_dec 0 (mz / k) then 1 else -1) = (if Rle_dec 0 mz then 1 else -1)).
      { destruct (Rlt_dec 0 (mz / k)) as [G|G], (Rle_dec 0 mz) as [G'|G']; try reflexivity; exfalso.
        - apply G'. left. replace mz with (mz / k * k) by (field; lra). now apply Rmult_lt_0_compat.
        - apply G. apply Rdiv_lt_0_compat; [|exact C0]. destruct G'; [assumption|congruence]. }
      rewrite SG. f_equal. f_equal. f_equal; field; repeat split; lra.
  Qed.
End Projection.
