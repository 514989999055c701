(** C101, C102: the slant of the projection. *)
From Coq Require Import Reals Lra.
From Verif Require Import Base HealpixSel HealpixSelProofs Slant SlantSpec SlantProofs.
Open Scope R_scope.

(** The zenith seen from the phase centre. *)
Definition zenith_of (m : smeta) : R * R * R := cosines (s_phasera m) (s_phasedec m) (s_zenra m) (s_zendec m).
Definition on_sphere (m : smeta) : Prop := -90 <= s_phasedec m <= 90 /\ -90 < s_zendec m < 90.

(** ** C101 *)
(** Zenith above the horizon plane of the phase centre and not south of it: positions in the image carry the whole phase. *)
Theorem C101_no_w_term : forall m uvw lmn, on_sphere m ->
  let '(lz, mz, nz) := zenith_of m in
  nz <> 0 -> 0 <= mz -> ~ (lz = 0 /\ mz = 0) -> flat (lz, mz, nz) uvw ->
  exists pv, slant m = Ok (Some pv)
    /\ let '(u, v, w) := uvw in let '(x, y) := projected pv lmn in u * x + v * y = fringe uvw lmn.
Proof.
  intros m [[u v] w] [[l mm] n] [D Z0]. destruct (zenith_of m) as [[lz mz] nz] eqn:E. intros N M NZ F.
  pose proof (slant_value m D Z0) as S. unfold zenith_of in E. rewrite E in S. cbn [fst snd] in S. specialize (S NZ N). cbn beta zeta in S.
  destruct (Rle_dec 0 mz) as [_|G]; [|contradiction]. eexists. split; [exact S|]. cbn [projected fst snd]. unfold fringe. unfold flat in F.
  assert (w = - (u * lz + v * mz) / nz) as -> by (apply (Rmult_eq_reg_r nz); [field_simplify; [lra|exact N]|exact N]). field. exact N.
Qed.
Print Assumptions C101_no_w_term.

(** The parameters are those of the standard: the zenith's direction cosines over its height. *)
Theorem C101_parameters : forall m, on_sphere m ->
  let '(lz, mz, nz) := zenith_of m in
  nz <> 0 -> 0 <= mz -> ~ (lz = 0 /\ mz = 0) -> slant m = Ok (Some (lz / nz, mz / nz)).
Proof.
  intros m [D Z0]. destruct (zenith_of m) as [[lz mz] nz] eqn:E. intros N M NZ.
  pose proof (slant_value m D Z0) as S. unfold zenith_of in E. rewrite E in S. cbn [fst snd] in S. rewrite (S NZ N). cbn zeta.
  destruct (Rle_dec 0 mz) as [_|G]; [|contradiction]. now rewrite !Rmult_1_l.
Qed.
Print Assumptions C101_parameters.
Lemma whole_turns x k : sin (x + 2 * IZR k * PI) = sin x /\ cos (x + 2 * IZR k * PI) = cos x.
Proof.
  destruct (Z_le_gt_dec 0 k) as [K|K].
  - rewrite <- (Z2Nat.id k K), <- INR_IZR_INZ. split; [apply sin_period|apply cos_period].
  - replace k with (- Z.of_nat (Z.to_nat (- k)))%Z by (rewrite Z2Nat.id; lia). rewrite opp_IZR, <- INR_IZR_INZ. set (n := Z.to_nat (- k)).
    rewrite <- (sin_period (x + 2 * - INR n * PI) n), <- (cos_period (x + 2 * - INR n * PI) n).
    replace (x + 2 * - INR n * PI + 2 * INR n * PI) with x by ring. split; reflexivity.
Qed.
(** Right ascensions count modulo a turn. *)
Theorem C101_turn : forall m k, on_sphere m -> let m' := {| s_phasera := s_phasera m; s_phasedec := s_phasedec m; s_zenra := s_zenra m + 360 * IZR k; s_zendec := s_zendec m |} in
  snd (zenith_of m) <> 0 -> slant m' = slant m.
Proof.
  intros m k [D Z0] m' N.
  assert (E : zenith_of m' = zenith_of m).
  { unfold zenith_of, cosines. cbn [s_phasera s_phasedec s_zenra s_zendec m'].
    replace ((s_zenra m + 360 * IZR k - s_phasera m) * PI / 180) with ((s_zenra m - s_phasera m) * PI / 180 + 2 * IZR k * PI) by field.
    now rewrite (proj1 (whole_turns _ k)), (proj2 (whole_turns _ k)). }
  pose proof (slant_value m D Z0) as S. pose proof (slant_value m' D Z0) as S'. pose proof (slant_nan m D Z0) as S2. pose proof (slant_nan m' D Z0) as S2'.
  unfold zenith_of in E, N. rewrite E in S', S2'. destruct (cosines (s_phasera m) _ _ _) as [[lz mz] nz]. cbn [fst snd] in *.
  destruct (Req_dec lz 0) as [A|A]; [destruct (Req_dec mz 0) as [B|B]|].
  - now rewrite S2, S2'.
  - rewrite S, S'; tauto.
  - rewrite S, S'; tauto.
Qed.
Print Assumptions C101_turn.

(** ** C102 *)
(** Full statement: C101 wherever the zenith is. South of the phase centre both parameters have the wrong sign, and the w term
    is taken off instead of added. *)
Theorem C102_south_refuted : forall m uvw lmn, on_sphere m ->
  let '(lz, mz, nz) := zenith_of m in
  nz <> 0 -> mz < 0 -> flat (lz, mz, nz) uvw ->
  exists pv, slant m = Ok (Some pv) /\ pv = (- (lz / nz), - (mz / nz))
    /\ let '(u, v, w) := uvw in let '(x, y) := projected pv lmn in
       u * x + v * y = fringe uvw lmn - 2 * w * (snd lmn - 1).
Proof.
  intros m [[u v] w] [[l mm] n] [D Z0]. destruct (zenith_of m) as [[lz mz] nz] eqn:E. intros N M F.
  pose proof (slant_value m D Z0) as S. unfold zenith_of in E. rewrite E in S. cbn [fst snd] in S.
  assert (NZ : ~ (lz = 0 /\ mz = 0)) by lra. specialize (S NZ N). cbn beta zeta in S.
  destruct (Rle_dec 0 mz) as [G|_]; [lra|]. eexists. split; [exact S|]. split; [f_equal; ring|]. cbn [projected fst snd]. unfold fringe. unfold flat in F.
  assert (w = - (u * lz + v * mz) / nz) as -> by (apply (Rmult_eq_reg_r nz); [field_simplify; [lra|exact N]|exact N]). field. exact N.
Qed.
Print Assumptions C102_south_refuted.
(** At the zenith the parameters are NaN. *)
Theorem C102_zenith_refuted : forall ra dec, -90 < dec < 90 ->
  slant {| s_phasera := ra; s_phasedec := dec; s_zenra := ra; s_zendec := dec |} = Ok None.
Proof.
  intros ra dec D. apply slant_nan; cbn [s_phasedec s_zendec s_phasera s_zenra]; try lra; unfold cosines; cbn [fst snd];
    replace ((ra - ra) * PI / 180) with 0 by field; rewrite ?sin_0, ?cos_0; ring.
Qed.
Print Assumptions C102_zenith_refuted.

(** ** Cases: at latitude -30 degrees, a phase centre 30 degrees south of the zenith and one 30 degrees north *)
Example demo_north : let m := {| s_phasera := 10; s_phasedec := -60; s_zenra := 10; s_zendec := -30 |} in
  on_sphere m /\ snd (zenith_of m) <> 0 /\ 0 < snd (fst (zenith_of m)) /\ flat (zenith_of m) (3, 0, 0).
Proof.
  cbn zeta. unfold on_sphere, zenith_of, cosines, flat. cbn [fst snd s_phasedec s_zendec s_phasera s_zenra].
  replace ((10 - 10) * PI / 180) with 0 by field. replace (-60 * PI / 180) with (- (PI / 3)) by field. replace (-30 * PI / 180) with (- (PI / 6)) by field.
  rewrite !sin_neg, !cos_neg, sin_0, cos_0, sin_PI3, cos_PI3, sin_PI6, cos_PI6.
  assert (S3 : sqrt 3 * sqrt 3 = 3) by (apply sqrt_sqrt; lra). assert (0 < sqrt 3) by (apply sqrt_lt_R0; lra).
  split; [lra|]. split; [nra|]. split; [nra|]. ring.
Qed.
Example demo_south : let m := {| s_phasera := 10; s_phasedec := 0; s_zenra := 10; s_zendec := -30 |} in
  on_sphere m /\ snd (zenith_of m) <> 0 /\ snd (fst (zenith_of m)) < 0 /\ flat (zenith_of m) (3, sqrt 3, 1).
Proof.
  cbn zeta. unfold on_sphere, zenith_of, cosines, flat. cbn [fst snd s_phasedec s_zendec s_phasera s_zenra].
  replace ((10 - 10) * PI / 180) with 0 by field. replace (0 * PI / 180) with 0 by field. replace (-30 * PI / 180) with (- (PI / 6)) by field.
  rewrite !sin_neg, !cos_neg, sin_0, cos_0, sin_PI6, cos_PI6.
  assert (S3 : sqrt 3 * sqrt 3 = 3) by (apply sqrt_sqrt; lra). assert (0 < sqrt 3) by (apply sqrt_lt_R0; lra).
  split; [lra|]. split; [nra|]. split; [nra|]. nra.
Qed.
