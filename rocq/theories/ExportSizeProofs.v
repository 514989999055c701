(** Lemmas about rephasing and the sizes of the export. *)
From Coq Require Import String Reals Lra.
From Verif Require Import Base NpArr Utils1 Utils1Spec Utils1Proofs Sky DirtyImage DirtyImageSpec DirtyImageProofs Quickview ExportSize ExportSizeSpec.
Import ListNotations.
Open Scope R_scope.
Ltac Zify.zify_post_hook ::= idtac.

Lemma factors_ok pixel t n m x y : t_dimension t = n -> t_elements t = m -> (0 < n)%nat -> (0 < m)%nat -> t_phase t <> t_orig t -> pixel (t_orig t) = (x, y) ->
  exists f, phase_shift_uv_image pixel t = Ok f /\ rows f = m /\ cols f = n
  /\ forall i j, (i < m)%nat -> (j < n)%nat ->
     at2 f i j = cexp_i ((INR j - half n) * ((x - half n) * (2 * PI / INR n)) + (INR i - half m) * ((y - half m) * (2 * PI / INR n))).
Proof.
  intros <- <- N M NE PX. unfold phase_shift_uv_image. cbv zeta.
  match goal with |- context [if ?b then Ok (Arr2 _ _ _) else _] => assert (B : b = false) end.
  { destruct (Req_EM_T _ _) as [E1|]; [|reflexivity]. destruct (Req_EM_T _ _) as [E2|]; [|reflexivity]. exfalso. apply NE. destruct (t_phase t), (t_orig t). cbn in *. congruence. }
  rewrite B, PX. set (n := t_dimension t) in *. set (m := t_elements t) in *.
  destruct (meshgrid_axis n m 1 N) as (mx & -> & (LX & CX) & VX). destruct (meshgrid_axis n m 2 N) as (my & -> & (LY & CY) & VY).
  cbn [bind]. unfold azip, of_lists. cbn [rows cols at2].
  assert (HX : List.length (hd [] mx) = n) by (rewrite <- (CX 0%nat M); destruct mx; reflexivity).
  assert (HY : List.length (hd [] my) = n) by (rewrite <- (CY 0%nat M); destruct my; reflexivity).
  rewrite LX, LY, HX, HY. unfold bdim. rewrite !Nat.eqb_refl. eexists. split; [reflexivity|]. cbn [rows cols at2].
  split; [reflexivity|]. split; [reflexivity|]. intros i j I J.
  assert (B1 : forall k, (k < n)%nat -> bidx n k = k) by (intros k K; unfold bidx; destruct (Nat.eqb_spec n 1); lia).
  assert (B2 : forall k, (k < m)%nat -> bidx m k = k) by (intros k K; unfold bidx; destruct (Nat.eqb_spec m 1); lia).
  rewrite !B1, !B2 by assumption. unfold nth2 in VX, VY. rewrite (VX i j I J), (VY i j I J). reflexivity.
Qed.
Lemma rephased_ok a f : rows f = rows a -> cols f = cols a -> exists q, rephased a f = Ok q /\ rows q = rows a /\ cols q = cols a
  /\ forall i j, (i < rows a)%nat -> (j < cols a)%nat -> at2 q i j = cmul (at2 a i j) (at2 f i j).
Proof.
  intros R0 C0. unfold rephased, azip. rewrite R0, C0. unfold bdim. rewrite !Nat.eqb_refl. eexists. split; [reflexivity|]. cbn [rows cols at2].
  split; [reflexivity|]. split; [reflexivity|]. intros i j I J. unfold bidx. destruct (Nat.eqb_spec (rows a) 1), (Nat.eqb_spec (cols a) 1); repeat (f_equal; try lia).
Qed.
Lemma cmul_assoc a b c : cmul (cmul a b) c = cmul a (cmul b c).
Proof. apply cx_eq; unfold cmul; cbn [fst snd]; ring. Qed.
Lemma shift_ok a q sy sx : rows q = rows a -> cols q = cols a -> (0 < rows a)%nat -> (0 < cols a)%nat ->
  (forall i j, (i < rows a)%nat -> (j < cols a)%nat ->
     at2 q i j = cmul (at2 a i j) (cexp_i (2 * PI * ((INR i - half (rows a)) * sy / INR (rows a) + (INR j - half (cols a)) * sx / INR (cols a))))) ->
  forall y x, fourier_at q y x = fourier_at a (y - sy) (x - sx).
Proof.
  intros R0 C0 RP CP V y x. unfold fourier_at. rewrite R0, C0. f_equal. apply csum_ext. intros e E. apply csum_ext. intros d D. rewrite V by assumption.
  rewrite cmul_assoc, <- cexp_add. f_equal. f_equal.
  assert (N1 : INR (rows a) <> 0) by (apply not_0_INR; lia). assert (N2 : INR (cols a) <> 0) by (apply not_0_INR; lia). field. auto.
Qed.
Lemma cmul_one a : cmul a (1, 0) = a.
Proof. apply cx_eq; unfold cmul; cbn [fst snd]; ring. Qed.

(** ** int, ceil *)
Lemma int_floor r : 0 <= r -> (0 <= int_R r)%Z /\ IZR (int_R r) <= r < IZR (int_R r) + 1.
Proof.
  intros P. unfold int_R. destruct (Rle_dec 0 r); [|contradiction]. destruct (base_Int_part r) as (L & U).
  split; [|lra]. assert (H : (-1 < Int_part r)%Z) by (apply lt_IZR; lra). lia.
Qed.
Lemma int_nat n : int_R (INR n) = Z.of_nat n.
Proof.
  destruct (int_floor (INR n) (pos_INR n)) as (_ & L & U). rewrite INR_IZR_INZ in L, U.
  assert (A : (int_R (IZR (Z.of_nat n)) <= Z.of_nat n)%Z) by (now apply le_IZR). rewrite <- plus_IZR in U. apply lt_IZR in U. rewrite INR_IZR_INZ. lia.
Qed.
Lemma ceil_spec r : IZR (ceil r) - 1 < r <= IZR (ceil r).
Proof. unfold ceil. destruct (base_Int_part (- r)) as (L & U). rewrite opp_IZR. lra. Qed.
Lemma powerRZ_exp k : powerRZ 2 k = exp (IZR k * ln 2).
Proof. rewrite powerRZ_Rpower by lra. unfold Rpower. reflexivity. Qed.
(** The smallest power of two not below a number. *)
Lemma smallest_power x : 0 < x -> let k := ceil (ln x / ln 2) in x <= powerRZ 2 k /\ powerRZ 2 (k - 1) < x.
Proof.
  intros P k. assert (L2 : 0 < ln 2) by (rewrite <- ln_1; apply ln_increasing; lra). destruct (ceil_spec (ln x / ln 2)) as (A & B). fold k in A, B.
  assert (E : ln x = ln x / ln 2 * ln 2) by (field; lra). rewrite !powerRZ_exp, minus_IZR. split.
  - rewrite <- (exp_ln x P) at 1. assert (H : ln x <= IZR k * ln 2) by (rewrite E; apply Rmult_le_compat_r; lra).
    destruct H as [H|H]; [left; now apply exp_increasing|rewrite H; lra].
  - rewrite <- (exp_ln x P) at 1. apply exp_increasing. rewrite E. apply Rmult_lt_compat_r; lra.
Qed.

(** ** Sizes *)
Lemma sizes_ok c l o z : export_sizes c l o = Ok z ->
  exists d, (z_kbinsize z <> 0 /\ (0 < z_dimension z)%nat)
  /\ int_R d = Z.of_nat (z_dimension z)
  /\ z_fov z = 180 / PI / z_kbinsize z /\ z_radius z = z_fov z / sqrt 2 /\ z_degpix z = z_fov z / INR (z_dimension z)
  /\ (z_nside z = powerRZ 2 (ceil (ln (sqrt (4 * PI * (180 / PI) ^ 2 / z_degpix z ^ 2 / 12)) / ln 2))
      /\ match s_kbinsize c with
         | Some k => z_kbinsize z = k
         | None => match s_fov c with Some f => f <> 0 /\ z_kbinsize z = 180 / PI / f | None => z_kbinsize z = q_kpix o end
         end
      /\ match s_kspan c with
         | Some s => d = s / z_kbinsize z
         | None => match s_dimension c with
                   | Some n => d = n
                   | None => match s_degpix c with
                             | Some p => if Req_EM_T p 0 then d = z_fov z / q_degpix o else d = z_fov z / p
                             | None => d = z_fov z / q_degpix o
                             end
                   end
         end)
  /\ exists avg, update_obs o (z_dimension z) (z_kbinsize z) (Some avg) (Some (z_fov z)) = Ok (z_obs z)
     /\ match s_nfreq_avg c with Some a => avg = a | None => l <> nil /\ avg = inject_Z (np_round (natQ (q_nfreq o) / natQ (fold_right Nat.max 0%nat l + 1))) end.
Proof.
  intros H. unfold export_sizes in H. apply bind_ok in H as (kb & EK & H). apply bind_ok in H as (fov & EF & H). cbv zeta in H.
  apply bind_ok in H as (d & ED & H). apply bind_ok in H as (avg & EA & H).
  destruct (Req_EM_T kb 0) as [|KN]; [discriminate|]. injection EF as EF. destruct (Z.eqb_spec (int_R d) 0) as [|D0]; [discriminate|].
  destruct (Z.ltb_spec (int_R d) 0) as [|D1]; [discriminate|]. apply bind_ok in H as (out & EO & H). injection H as H. subst z fov.
  cbn [z_kbinsize z_fov z_dimension z_degpix z_nside z_radius z_obs]. exists d.
  assert (DN : Z.of_nat (Z.to_nat (int_R d)) = int_R d) by (apply Z2Nat.id; lia).
  assert (DR : INR (Z.to_nat (int_R d)) = IZR (int_R d)) by (rewrite INR_IZR_INZ, DN; reflexivity).
  split; [split; [exact KN|lia]|]. split; [congruence|]. split; [reflexivity|]. split; [reflexivity|]. split; [rewrite DR; reflexivity|]. split; [split; [reflexivity|split]|].
  - destruct (s_kbinsize c); [congruence|]. destruct (s_fov c) as [f|]; [|congruence]. destruct (Req_EM_T f 0); [discriminate|]. split; [assumption|congruence].
  - destruct (s_kspan c); [congruence|]. destruct (s_dimension c); [congruence|].
    assert (BO : (if Req_EM_T (q_degpix o) 0 then Err ZeroDivision else Ok (180 / PI / kb / q_degpix o)) = Ok d -> d = 180 / PI / kb / q_degpix o)
      by (destruct (Req_EM_T (q_degpix o) 0); [discriminate|congruence]).
    destruct (s_degpix c) as [p|]; [destruct (Req_EM_T p 0)|]; auto. congruence.
  - exists avg. split; [exact EO|]. destruct (s_nfreq_avg c); [congruence|]. destruct l; [discriminate|]. split; congruence.
Qed.
Lemma update_keeps o d k avg f o' : update_obs o d k (Some avg) (Some f) = Ok o' ->
  q_kpix o' = 180 / PI / f /\ q_degpix o' = 180 / PI / (180 / PI / f * INR d) /\ q_dimension o' = d /\ q_elements o' = d
  /\ q_obsx o' = (natQ d / 2)%Q /\ q_obsy o' = (natQ d / 2)%Q.
Proof.
  intros H. unfold update_obs in H. cbn [bind] in H. apply bind_ok in H as (fb & _ & H). injection H as <-. cbn. repeat split.
Qed.
Lemma nside_ok z : z_degpix z <> 0 -> z_nside z = powerRZ 2 (ceil (ln (sqrt (4 * PI * (180 / PI) ^ 2 / z_degpix z ^ 2 / 12)) / ln 2)) ->
  exists k, z_nside z = powerRZ 2 k /\ forall j, healpix_area (powerRZ 2 j) <= z_degpix z ^ 2 <-> (k <= j)%Z.
Proof.
  intros DN EN. set (x := sqrt _) in EN. exists (ceil (ln x / ln 2)). split; [exact EN|]. pose proof PI_RGT_0 as PP.
  assert (SP : 0 < 4 * PI * (180 / PI) ^ 2) by (apply Rmult_lt_0_compat; [lra|]; apply pow_lt; apply Rdiv_lt_0_compat; lra).
  assert (D2 : 0 < z_degpix z ^ 2) by (rewrite <- Rsqr_pow2; now apply Rsqr_pos_lt).
  assert (AP : 0 < 4 * PI * (180 / PI) ^ 2 / z_degpix z ^ 2 / 12) by (apply Rdiv_lt_0_compat; [|lra]; now apply Rdiv_lt_0_compat).
  assert (XP : 0 < x) by (apply sqrt_lt_R0; exact AP). destruct (smallest_power x XP) as (S1 & S2).
  assert (X2 : x ^ 2 = 4 * PI * (180 / PI) ^ 2 / z_degpix z ^ 2 / 12) by (rewrite <- Rsqr_pow2; apply Rsqr_sqrt; lra).
  assert (P2 : forall j, 0 < powerRZ 2 j) by (intros j; apply powerRZ_lt; lra).
  assert (EQV : forall j, healpix_area (powerRZ 2 j) <= z_degpix z ^ 2 <-> x <= powerRZ 2 j).
  { intros j. unfold healpix_area, sphere. set (p := powerRZ 2 j). assert (PJ : 0 < p) by apply P2. assert (PQ : 0 < p ^ 2) by (now apply pow_lt).
    assert (TR : 4 * PI * (180 / PI) ^ 2 = 12 * z_degpix z ^ 2 * x ^ 2) by (rewrite X2; field; split; [lra|exact DN]). split; intros H.
    - destruct (Rle_or_lt x p) as [|L]; [assumption|]. assert (p ^ 2 < x ^ 2) by (rewrite <- !Rsqr_pow2; apply Rsqr_incrst_1; lra).
      apply (Rmult_le_compat_r (12 * p ^ 2)) in H; [|lra]. replace (4 * PI * (180 / PI) ^ 2 / (12 * p ^ 2) * (12 * p ^ 2)) with (4 * PI * (180 / PI) ^ 2) in H by (field; split; lra).
      rewrite TR in H. assert (z_degpix z ^ 2 * p ^ 2 < z_degpix z ^ 2 * x ^ 2) by (apply Rmult_lt_compat_l; assumption). lra.
    - assert (x ^ 2 <= p ^ 2) by (rewrite <- !Rsqr_pow2; apply Rsqr_incr_1; lra). apply (Rmult_le_reg_r (12 * p ^ 2)); [lra|].
      replace (4 * PI * (180 / PI) ^ 2 / (12 * p ^ 2) * (12 * p ^ 2)) with (4 * PI * (180 / PI) ^ 2) by (field; split; lra). rewrite TR.
      assert (z_degpix z ^ 2 * x ^ 2 <= z_degpix z ^ 2 * p ^ 2) by (apply Rmult_le_compat_l; lra). lra. }
  assert (MONO : forall a b, (a <= b)%Z -> powerRZ 2 a <= powerRZ 2 b).
  { intros a b AB. rewrite !powerRZ_exp. assert (L2 : 0 < ln 2) by (rewrite <- ln_1; apply ln_increasing; lra). apply IZR_le in AB.
    assert (IZR a * ln 2 <= IZR b * ln 2) by (apply Rmult_le_compat_r; lra). destruct H as [H|H]; [left; now apply exp_increasing|rewrite H; lra]. }
  intros j. rewrite EQV. split; intros H.
  - destruct (Z_le_gt_dec (ceil (ln x / ln 2)) j) as [|G]; [assumption|]. assert (powerRZ 2 j <= powerRZ 2 (ceil (ln x / ln 2) - 1)) by (apply MONO; lia). lra.
  - apply MONO in H. lra.
Qed.
Lemma span_floor d n : 0 <= d -> int_R d = Z.of_nat n -> INR n <= d < INR n + 1.
Proof. intros P E. destruct (int_floor d P) as (_ & B). rewrite E, <- INR_IZR_INZ in B. exact B. Qed.
Lemma negative_none d n : int_R d = Z.of_nat n -> (0 < n)%nat -> 0 < d.
Proof.
  intros E N. destruct (Rlt_or_le 0 d) as [|L]; [assumption|exfalso]. unfold int_R in E. destruct (Rle_dec 0 d) as [P|P].
  - assert (d = 0) by lra. subst d. destruct (base_Int_part 0) as (A & B). assert (H : (Int_part 0 <= 0)%Z) by (apply le_IZR; lra). lia.
  - destruct (base_Int_part (- d)) as (A & B). assert (H : (-1 < Int_part (- d))%Z) by (apply lt_IZR; lra). lia.
Qed.
