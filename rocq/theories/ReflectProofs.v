From Coq Require Import Reals Lra.
From Verif Require Import Base Sky DirtyImage DirtyImageProofs Kernel Reflect ReflectSpec.
Import ListNotations.
Open Scope R_scope.
Ltac Zify.zify_post_hook ::= idtac.

(** ** Absolute values *)
Lemma cabs_nonneg z : 0 <= cabs z. Proof. apply sqrt_pos. Qed.
Lemma cabs_sq z : cabs z * cabs z = fst z ^ 2 + snd z ^ 2.
Proof. unfold cabs. apply sqrt_sqrt. nra. Qed.
Lemma cabs_is z r : 0 <= r -> fst z ^ 2 + snd z ^ 2 = r * r -> cabs z = r.
Proof. intros P E. unfold cabs. rewrite E. now apply sqrt_square. Qed.
Lemma cabs_mul a b : cabs (cmul a b) = cabs a * cabs b.
Proof.
  apply cabs_is.
  - pose proof (cabs_nonneg a). pose proof (cabs_nonneg b). nra.
  - replace (cabs a * cabs b * (cabs a * cabs b)) with ((cabs a * cabs a) * (cabs b * cabs b)) by ring.
    rewrite !cabs_sq. unfold cmul. cbn [fst snd]. ring.
Qed.
Lemma cabs_exp t : cabs (cexp_i t) = 1.
Proof. apply cabs_is; [lra|]. unfold cexp_i. cbn [fst snd]. pose proof (sin2_cos2 t) as E. unfold Rsqr in E. lra. Qed.
Lemma cabs_scale r z : 0 <= r -> cabs (cscale r z) = r * cabs z.
Proof.
  intros P. apply cabs_is.
  - pose proof (cabs_nonneg z). nra.
  - replace (r * cabs z * (r * cabs z)) with (r * r * (cabs z * cabs z)) by ring. rewrite cabs_sq. unfold cscale. cbn [fst snd]. ring.
Qed.
Lemma cabs_0 : cabs (0, 0) = 0.
Proof. apply cabs_is; [lra|]. cbn [fst snd]. ring. Qed.
Lemma cabs_tri a b : cabs (cadd a b) <= cabs a + cabs b.
Proof.
  pose proof (cabs_nonneg a) as A. pose proof (cabs_nonneg b) as B. pose proof (cabs_nonneg (cadd a b)) as C.
  assert (D : fst a * fst b + snd a * snd b <= cabs a * cabs b).
  { apply Rsqr_incr_0_var; [|nra]. unfold Rsqr.
    replace (cabs a * cabs b * (cabs a * cabs b)) with ((cabs a * cabs a) * (cabs b * cabs b)) by ring.
    rewrite !cabs_sq. pose proof (pow2_ge_0 (fst a * snd b - snd a * fst b)) as Q.
    replace ((fst a ^ 2 + snd a ^ 2) * (fst b ^ 2 + snd b ^ 2))
      with ((fst a * fst b + snd a * snd b) * (fst a * fst b + snd a * snd b) + (fst a * snd b - snd a * fst b) ^ 2) by ring. lra. }
  apply Rsqr_incr_0_var; [|lra]. unfold Rsqr. rewrite cabs_sq.
  replace ((cabs a + cabs b) * (cabs a + cabs b)) with (cabs a * cabs a + cabs b * cabs b + 2 * (cabs a * cabs b)) by ring.
  rewrite !cabs_sq. unfold cadd. cbn [fst snd]. nra.
Qed.

Lemma csum_bound n f : (forall k, (k < n)%nat -> cabs (f k) <= 1) -> cabs (csum n f) <= INR n.
Proof.
  revert f. induction n as [|n IH]; intros f B.
  - unfold csum. cbn [seq map fold_right]. rewrite cabs_0. cbn. lra.
  - rewrite csum_S, S_INR. eapply Rle_trans; [apply cabs_tri|].
    assert (cabs (f 0%nat) <= 1) by (apply B; lia).
    assert (cabs (csum n (fun k => f (S k))) <= INR n) by (apply IH; intros k K; apply B; lia). lra.
Qed.

(** ** Sums over a turn *)
Lemma cos_one x : cos x = 1 -> exists k : Z, x = 2 * PI * IZR k.
Proof.
  intros E. replace x with (2 * (x / 2)) in E by field. rewrite cos_2a_sin in E.
  assert (Z0 : sin (x / 2) = 0).
  { assert (sin (x / 2) * sin (x / 2) = 0) by lra. now apply Rmult_integral in H as []. }
  apply sin_eq_0_0 in Z0 as (k & K). exists k. lra.
Qed.

Lemma cmul_1l a : cmul (1, 0) a = a.
Proof. apply cx_eq; unfold cmul; cbn [fst snd]; ring. Qed.

Lemma csum_mul n w f : csum n (fun k => cmul w (f k)) = cmul w (csum n f).
Proof.
  revert f. induction n as [|n IH]; intros f.
  - unfold csum. cbn [seq map fold_right]. apply cx_eq; unfold cmul; cbn [fst snd]; ring.
  - rewrite !csum_S, IH. apply cx_eq; unfold cmul, cadd; cbn [fst snd]; ring.
Qed.

Lemma fixed_zero w s : cmul w s = s -> w <> (1, 0) -> s = (0, 0).
Proof.
  intros E N. destruct w as [a b]. destruct s as [x y]. unfold cmul in E. cbn [fst snd] in E. injection E as E1 E2.
  assert (Ha : (a - 1) * x - b * y = 0) by lra. assert (Hb : (a - 1) * y + b * x = 0) by lra.
  assert (Q : ((a - 1) * (a - 1) + b * b) <> 0).
  { intros Q. apply N. assert (a - 1 = 0) by nra. assert (b = 0) by nra. f_equal; lra. }
  assert (X : ((a - 1) * (a - 1) + b * b) * x = 0).
  { replace (((a - 1) * (a - 1) + b * b) * x) with ((a - 1) * ((a - 1) * x - b * y) + b * ((a - 1) * y + b * x)) by ring. rewrite Ha, Hb. ring. }
  assert (Y : ((a - 1) * (a - 1) + b * b) * y = 0).
  { replace (((a - 1) * (a - 1) + b * b) * y) with ((a - 1) * ((a - 1) * y + b * x) - b * ((a - 1) * x - b * y)) by ring. rewrite Ha, Hb. ring. }
  apply Rmult_integral in X as [X|X]; [contradiction|]. apply Rmult_integral in Y as [Y|Y]; [contradiction|].
  now subst.
Qed.

Lemma full_turns n (k : Z) : (0 < n)%nat -> ~ (Z.of_nat n | k)%Z ->
  csum n (fun f => cexp_i (2 * PI * IZR k * INR f / INR n)) = (0, 0).
Proof.
  intros N D. assert (NR : INR n <> 0) by (apply not_0_INR; lia).
  set (G := fun f : nat => cexp_i (2 * PI * IZR k * INR f / INR n)).
  apply (fixed_zero (G 1%nat)).
  - change (fun f : nat => cexp_i (2 * PI * IZR k * INR f / INR n)) with G. rewrite <- csum_mul.
    transitivity (csum n (fun e => G ((e + 1) mod n)%nat)); [|apply csum_rot; lia]. apply csum_ext. intros f F. unfold G. rewrite <- cexp_add.
    destruct (mod_turn (f + 1) n N) as (j & ->). rewrite plus_INR.
    replace (2 * PI * IZR k * (INR f + INR 1 + IZR j * INR n) / INR n)
      with (2 * PI * IZR k * INR 1 / INR n + 2 * PI * IZR k * INR f / INR n + 2 * PI * IZR (k * j)) by (rewrite mult_IZR; field; exact NR).
    now rewrite cexp_period.
  - intros E. unfold G, cexp_i in E. injection E as E _. apply cos_one in E as (j & E).
    apply D. exists j. apply eq_IZR. rewrite mult_IZR, <- INR_IZR_INZ.
    pose proof PI_RGT_0 as P. change (INR 1) with 1 in E.
    apply (Rmult_eq_reg_l (2 * PI / INR n)).
    + replace (2 * PI / INR n * IZR k) with (2 * PI * IZR k * 1 / INR n) by (field; exact NR). rewrite E. field. exact NR.
    + intros Q. assert (Q2 : 2 * PI = 0). { replace (2 * PI) with (2 * PI / INR n * INR n) by (field; exact NR). rewrite Q. ring. } lra.
Qed.

Lemma cos_less x : 0 < Rabs x < 2 * PI -> cos x < 1.
Proof.
  intros [A B]. assert (C : cos x = cos (Rabs x)).
  { unfold Rabs. destruct (Rcase_abs x); [now rewrite cos_neg|reflexivity]. }
  rewrite C. set (y := Rabs x) in *. replace y with (2 * (y / 2)) by field. rewrite cos_2a_sin.
  assert (0 < sin (y / 2)) by (apply sin_gt_0; lra). nra.
Qed.

Lemma part_turns n (d : R) : (2 <= n)%nat -> 0 < Rabs d < INR n ->
  cabs (csum n (fun f => cexp_i (2 * PI * d * INR f / INR n))) < INR n.
Proof.
  intros N [D1 D2]. destruct n as [|[|n]]; [lia|lia|].
  set (m := INR (S (S n))) in *. assert (MP : 0 < m) by (apply lt_0_INR; lia).
  rewrite csum_S, csum_S, cadd_assoc. eapply Rle_lt_trans; [apply cabs_tri|].
  assert (R1 : cabs (csum n (fun i => cexp_i (2 * PI * d * INR (S (S i)) / m))) <= INR n).
  { apply csum_bound. intros k K. rewrite cabs_exp. lra. }
  assert (R2 : cabs (cadd (cexp_i (2 * PI * d * INR 0 / m)) (cexp_i (2 * PI * d * INR 1 / m))) < 2).
  { change (INR 0) with 0. change (INR 1) with 1. replace (2 * PI * d * 0 / m) with 0 by (field; lra). rewrite cexp_0.
    set (x := 2 * PI * d * 1 / m). assert (X : cos x < 1).
    { apply cos_less. pose proof PI_RGT_0 as P. unfold x. replace (2 * PI * d * 1 / m) with (2 * PI / m * d) by (field; lra).
      assert (Q : 0 < 2 * PI / m) by (apply Rdiv_lt_0_compat; lra).
      rewrite Rabs_mult, (Rabs_pos_eq (2 * PI / m)) by lra. split.
      - apply Rmult_lt_0_compat; assumption.
      - replace (2 * PI) with (2 * PI / m * m) at 2 by (field; lra). apply Rmult_lt_compat_l; assumption. }
    apply Rsqr_incrst_0; [|apply cabs_nonneg|lra]. unfold Rsqr. rewrite cabs_sq. unfold cadd, cexp_i. cbn [fst snd].
    pose proof (sin2_cos2 x) as E. unfold Rsqr in E. nra. }
  assert (R3 : m = INR n + 2) by (unfold m; rewrite !S_INR; ring). lra.
Qed.

(** ** argmax *)
Lemma Rltb_true a b : Rltb a b = true <-> a < b.
Proof. unfold Rltb. destruct (Rlt_dec a b); split; intros; try lra; try reflexivity; discriminate. Qed.

Lemma argmax_from_spec l best v k L : (forall j, (j < k)%nat -> nth j L 0 <= v) -> (best < k)%nat -> nth best L 0 = v ->
  (forall j, nth (k + j) L 0 = nth j l 0) -> length L = (k + length l)%nat ->
  let r := argmax_from best v k l in (r < length L)%nat /\ forall j, (j < length L)%nat -> nth j L 0 <= nth r L 0.
Proof.
  revert best v k. induction l as [|x l IH]; intros best v k A B C D E; cbn [argmax_from].
  - cbn [length] in E. split; [lia|]. intros j J. rewrite C. apply A. lia.
  - assert (Hx : nth k L 0 = x). { specialize (D 0%nat). rewrite Nat.add_0_r in D. exact D. }
    assert (D' : forall j, nth (S k + j) L 0 = nth j l 0).
    { intros j. specialize (D (S j)). replace (S k + j)%nat with (k + S j)%nat by lia. exact D. }
    cbn [length] in E. destruct (Rltb v x) eqn:Lt.
    + apply Rltb_true in Lt. apply IH; [|lia|exact Hx|exact D'|lia].
      intros j J. destruct (Nat.eq_dec j k) as [Q|Q]; [subst j; rewrite Hx; lra|]. assert (nth j L 0 <= v) by (apply A; lia). lra.
    + assert (~ v < x) by (intros Q; apply Rltb_true in Q; congruence).
      apply IH; [|lia|exact C|exact D'|lia].
      intros j J. destruct (Nat.eq_dec j k) as [Q|Q]; [subst j; rewrite Hx; lra|]. apply A. lia.
Qed.

Lemma argmax_spec l : l <> [] -> (argmax l < length l)%nat /\ forall j, (j < length l)%nat -> nth j l 0 <= nth (argmax l) l 0.
Proof.
  destruct l as [|x l]; [congruence|]. intros _. unfold argmax.
  apply (argmax_from_spec l 0 x 1 (x :: l)); try reflexivity; try lia.
  intros j J. replace j with 0%nat by lia. cbn [nth]. lra.
Qed.

(** ** The search *)
Lemma tested_len m : length (tested m) = 101%nat.
Proof. unfold tested. now rewrite map_length, seq_length. Qed.
Lemma tested_nth m j : (j < 101)%nat -> nth j (tested m) 0 = m + IZR (Z.of_nat j - 50) / 20.
Proof.
  intros J. unfold tested. rewrite (nth_indep _ 0 ((fun j => (INR j - 50) * (5 / 100) + m) 0%nat)) by (rewrite map_length, seq_length; exact J).
  rewrite (map_nth (fun j => (INR j - 50) * (5 / 100) + m)), seq_nth by exact J. rewrite Nat.add_0_l, minus_IZR, <- INR_IZR_INZ. field.
Qed.
Lemma tested_candidate n m : candidate n m <-> exists j, (j < 101)%nat /\ nth j (tested n) 0 = m.
Proof.
  split.
  - intros (j & B & ->). exists (Z.to_nat (j + 50)). split; [lia|]. rewrite tested_nth by lia. rewrite Z2Nat.id by lia.
    do 3 f_equal. ring.
  - intros (j & B & <-). exists (Z.of_nat j - 50)%Z. split; [lia|]. now apply tested_nth.
Qed.

Lemma dft_spectrum i t m : fi_auto i = None ->
  exists g, fit_data i t = Some g /\ dft (fi_n_freq i) (fi_freq_use i) m g = spectrum i t m.
Proof.
  intros A. unfold fit_data. rewrite A. eexists. split; [reflexivity|].
  unfold dft, total_c, spectrum. f_equal. apply map_ext. intros f. f_equal.
  - f_equal. unfold Rdiv. ring.
  - unfold mean_gain. set (s := fold_right cadd (0, 0) (map (fun f0 => fi_gain i f0 t) (fi_freq_use i))).
    change (total_c (map (fun f0 => fi_gain i f0 t) (fi_freq_use i))) with s.
    apply cx_eq; unfold cadd, cscale; cbn [fst snd]; unfold Rdiv; ring.
Qed.

Lemma search_best arg i t : fi_auto i = None ->
  exists m, fit arg i t = (m, Some (cabs (spectrum i t m) / INR (length (fi_freq_use i)), arg (spectrum i t m))) /\
    candidate (nominal i t) m /\ forall m', candidate (nominal i t) m' -> cabs (spectrum i t m') <= cabs (spectrum i t m).
Proof.
  intros A. unfold fit. rewrite A. unfold search.
  destruct (dft_spectrum i t 0 A) as (g & Eg & _). rewrite Eg.
  assert (S : forall m, dft (fi_n_freq i) (fi_freq_use i) m g = spectrum i t m).
  { intros m. destruct (dft_spectrum i t m A) as (g' & Eg' & E). rewrite Eg in Eg'. injection Eg' as <-. exact E. }
  set (fits := map (fun m => dft (fi_n_freq i) (fi_freq_use i) m g) (tested (nominal i t))).
  assert (Lf : length fits = 101%nat) by (unfold fits; now rewrite map_length, tested_len).
  assert (Nf : forall j, (j < 101)%nat -> nth j fits (0, 0) = spectrum i t (nth j (tested (nominal i t)) 0)).
  { intros j J. unfold fits. rewrite (nth_indep _ (0, 0) (dft (fi_n_freq i) (fi_freq_use i) 0 g)) by (rewrite map_length, tested_len; exact J).
    rewrite (map_nth (fun m => dft (fi_n_freq i) (fi_freq_use i) m g)). apply S. }
  assert (Na : forall j, (j < 101)%nat -> nth j (map cabs fits) 0 = cabs (spectrum i t (nth j (tested (nominal i t)) 0))).
  { intros j J. rewrite (nth_indep _ 0 (cabs (0, 0))) by (rewrite map_length, Lf; exact J). rewrite (map_nth cabs). now rewrite Nf. }
  destruct (argmax_spec (map cabs fits)) as [K M].
  { intros E. apply (f_equal (@length _)) in E. rewrite map_length, Lf in E. discriminate. }
  rewrite map_length, Lf in K, M. set (k := argmax (map cabs fits)) in *.
  exists (nth k (tested (nominal i t)) 0). rewrite Nf by exact K. split; [reflexivity|]. split.
  - apply tested_candidate. eauto.
  - intros m' C. apply tested_candidate in C as (j & J & <-). specialize (M j J). now rewrite !Na in M by assumption.
Qed.

(** ** Exact reflections *)
Lemma reflection_exp n a phi m f : reflection n a phi m f = cscale a (cexp_i (phi - 2 * PI * m * INR f / INR n)).
Proof. reflexivity. Qed.

Lemma mean_exact i t n b a phi m : unflagged i -> n = fi_n_freq i -> (0 < n)%nat -> proper n m ->
  (forall f, (f < n)%nat -> fi_gain i f t = cadd b (reflection n a phi m f)) -> mean_gain i t = b.
Proof.
  intros U E N (k & -> & D) H. unfold mean_gain. rewrite U, <- E, seq_length.
  change (fold_right cadd (0, 0) (map (fun f => fi_gain i f t) (seq 0 n))) with (csum n (fun f => fi_gain i f t)).
  rewrite (csum_ext n _ (fun f => cadd b (reflection n a phi (IZR k) f))) by exact H.
  rewrite (csum_add n (fun _ => b) (reflection n a phi (IZR k))).
  assert (Z0 : csum n (reflection n a phi (IZR k)) = (0, 0)).
  { rewrite (csum_ext n _ (fun f => cmul (cscale a (cexp_i phi)) (cexp_i (2 * PI * IZR (- k) * INR f / INR n)))).
    - rewrite csum_mul, full_turns; [apply cx_eq; unfold cmul; cbn [fst snd]; ring|exact N|].
      intros [j J]. apply D. exists (- j)%Z. lia.
    - intros f F. rewrite reflection_exp, cscale_mul, <- cexp_add. do 2 f_equal. rewrite opp_IZR. field. apply not_0_INR. lia. }
  rewrite Z0, cadd_0r.
  assert (C0 : csum n (fun _ : nat => b) = cscale (INR n) b).
  { clear. induction n as [|n IH]; [unfold csum; cbn; apply cx_eq; unfold cscale; cbn [fst snd]; ring|].
    rewrite csum_S, IH, S_INR. apply cx_eq; unfold cscale, cadd; cbn [fst snd]; ring. }
  rewrite C0, cscale_scale, Rinv_l by (apply not_0_INR; lia). apply cscale_1.
Qed.

Lemma spectrum_exact i t n b a phi m m' : unflagged i -> n = fi_n_freq i -> (0 < n)%nat -> proper n m ->
  (forall f, (f < n)%nat -> fi_gain i f t = cadd b (reflection n a phi m f)) ->
  spectrum i t m' = cmul (cscale a (cexp_i phi)) (csum n (fun f => cexp_i (2 * PI * (m' - m) * INR f / INR n))).
Proof.
  intros U E N P H. unfold spectrum. rewrite (mean_exact i t n b a phi m U E N P H). rewrite U, <- E.
  change (csum n (fun f => cmul (cexp_i (2 * PI * m' * INR f / INR n)) (cadd (fi_gain i f t) (cscale (-1) b))) =
    cmul (cscale a (cexp_i phi)) (csum n (fun f => cexp_i (2 * PI * (m' - m) * INR f / INR n)))).
  rewrite <- csum_mul. apply csum_ext. intros f F. rewrite H by exact F. rewrite reflection_exp.
  replace (cadd (cadd b (cscale a (cexp_i (phi - 2 * PI * m * INR f / INR n)))) (cscale (-1) b))
    with (cscale a (cexp_i (phi - 2 * PI * m * INR f / INR n))) by (apply cx_eq; unfold cadd, cscale; cbn [fst snd]; ring).
  replace (phi - 2 * PI * m * INR f / INR n) with (phi + (- (2 * PI * m * INR f / INR n))) by ring.
  replace (2 * PI * (m' - m) * INR f / INR n) with (2 * PI * m' * INR f / INR n + (- (2 * PI * m * INR f / INR n))) by (field; apply not_0_INR; lia).
  rewrite !cexp_add. apply cx_eq; unfold cmul, cscale; cbn [fst snd]; ring.
Qed.

Lemma csum_ones n : csum n (fun _ => (1, 0)) = (INR n, 0).
Proof.
  induction n as [|n IH]; [reflexivity|]. rewrite csum_S, IH, S_INR. unfold cadd. cbn [fst snd]. f_equal; ring.
Qed.

Lemma exact_found arg i t n b a phi m : fi_auto i = None -> unflagged i -> n = fi_n_freq i -> (6 <= n)%nat -> proper n m -> 0 < a ->
  candidate (nominal i t) m -> (forall f, (f < n)%nat -> fi_gain i f t = cadd b (reflection n a phi m f)) ->
  spectrum i t m = cscale (INR n * a) (cexp_i phi) /\
  fit arg i t = (m, Some (a, arg (cscale (INR n * a) (cexp_i phi)))).
Proof.
  intros A U E N P Pa C H. assert (NP : (0 < n)%nat) by lia.
  assert (Sm : spectrum i t m = cscale (INR n * a) (cexp_i phi)).
  { rewrite (spectrum_exact i t n b a phi m m U E NP P H).
    rewrite (csum_ext n _ (fun _ => (1, 0))).
    - rewrite csum_ones. apply cx_eq; unfold cmul, cscale; cbn [fst snd]; ring.
    - intros f F. rewrite <- cexp_0. f_equal. field. apply not_0_INR. lia. }
  split; [exact Sm|].
  assert (Am : cabs (spectrum i t m) = INR n * a).
  { rewrite Sm, cabs_scale, cabs_exp; [ring|]. apply Rmult_le_pos; [apply pos_INR|lra]. }
  destruct (search_best arg i t A) as (m0 & F & C0 & B).
  assert (M : m0 = m).
  { destruct (Req_dec m0 m) as [|NE]; [assumption|exfalso].
    specialize (B m C). rewrite Am in B.
    rewrite (spectrum_exact i t n b a phi m m0 U E NP P H), cabs_mul, cabs_scale, cabs_exp in B by lra.
    assert (Q : cabs (csum n (fun f => cexp_i (2 * PI * (m0 - m) * INR f / INR n))) < INR n).
    { apply part_turns; [lia|]. split; [apply Rabs_pos_lt; lra|].
      destruct C as (j & J & ->). destruct C0 as (j0 & J0 & ->).
      assert (N6 : 6 <= INR n) by (replace 6 with (INR 6) by (cbn; ring); apply le_INR; exact N).
      replace (nominal i t + IZR j0 / 20 - (nominal i t + IZR j / 20)) with (IZR (j0 - j) / 20) by (rewrite minus_IZR; field).
      assert (-100 <= IZR (j0 - j) <= 100) by (split; apply IZR_le; lia).
      unfold Rabs. destruct (Rcase_abs (IZR (j0 - j) / 20)); lra. }
    nra. }
  subst m0. rewrite F, Am, Sm. rewrite U, seq_length, <- E. do 3 f_equal. field. apply not_0_INR. lia.
Qed.

Lemma angle_turn arg r phi : is_angle arg -> 0 < r -> cexp_i (arg (cscale r (cexp_i phi))) = cexp_i phi.
Proof.
  intros An P. specialize (An (cscale r (cexp_i phi))). rewrite cabs_scale, cabs_exp in An by lra.
  rewrite Rmult_1_r in An. set (x := arg (cscale r (cexp_i phi))) in *.
  unfold cscale in An. cbn [fst snd] in An. injection An as A1 A2.
  apply cx_eq; [apply (Rmult_eq_reg_l r)|apply (Rmult_eq_reg_l r)]; try lra; symmetry; assumption.
Qed.

Lemma factor_exact arg i t n a phi m : fi_auto i = None -> unflagged i -> n = fi_n_freq i -> (6 <= n)%nat -> proper n m -> 0 < a ->
  candidate (nominal i t) m -> is_angle arg ->
  (forall f, (f < n)%nat -> fi_gain i f t = cadd (1, 0) (reflection n a phi m f)) ->
  forall f, (f < n)%nat -> factor arg i t f = Some (fi_gain i f t).
Proof.
  intros A U E N P Pa C An H f F.
  destruct (exact_found arg i t n (1, 0) a phi m A U E N P Pa C H) as [_ Ft].
  unfold factor. rewrite Ft, A. rewrite H by exact F. do 2 f_equal. unfold gain_mode_fit. rewrite reflection_exp, <- E. f_equal.
  rewrite cexp_add, angle_turn; [|exact An|].
  - rewrite <- cexp_add. f_equal. field. apply not_0_INR. lia.
  - apply Rmult_lt_0_compat; [apply lt_0_INR; lia|exact Pa].
Qed.

(** ** With autocorrelations *)
Lemma incoherent_in i m s : In s (incoherent i m) <->
  nth s (fi_tile_use i) false = true /\ 0 < nominal i s /\ 1 / 100 < Rabs (nominal i s - m).
Proof.
  unfold incoherent. rewrite filter_In, !Bool.andb_true_iff, !Rltb_true, in_seq. split; [tauto|].
  intros (U & A & B). repeat split; try assumption; try lia.
  destruct (Nat.lt_ge_cases s (length (fi_tile_use i))) as [L|L]; [lia|]. rewrite nth_overflow in U by exact L. discriminate.
Qed.

Lemma sin_turn x phi : cmul (cexp_i x) (sin (phi - x), 0) =
  cscale (1 / 2) (cadd (cexp_i (phi - PI / 2)) (cmul (sin phi, cos phi) (cexp_i (2 * x)))).
Proof.
  assert (E : cexp_i (phi - PI / 2) = (sin phi, - cos phi)).
  { unfold cexp_i. replace (phi - PI / 2) with (- (PI / 2 - phi)) by ring. rewrite cos_neg, sin_neg, cos_shift, sin_shift. reflexivity. }
  rewrite E. unfold cmul, cexp_i, cscale, cadd. cbn [fst snd]. rewrite sin_minus, sin_2a, cos_2a.
  pose proof (sin2_cos2 x) as Q. unfold Rsqr in Q.
  f_equal; [|].
  - replace (sin phi) with (sin phi * (sin x * sin x + cos x * cos x)) at 2 by (rewrite Q; ring). field.
  - replace (- cos phi) with (- cos phi * (sin x * sin x + cos x * cos x)) at 1 by (rewrite Q; ring). field.
Qed.

Lemma phase_exact arg i t n a phi m auto tl : fi_auto i = Some auto -> unflagged i -> n = fi_n_freq i -> (0 < n)%nat ->
  proper n (2 * m) -> 0 < a -> is_angle arg -> incoherent i m = tl -> tl <> [] ->
  (forall f, (f < n)%nat ->
     arg (fi_gain i f t) - fold_right Rplus 0 (map (fun s => arg (fi_gain i f s)) tl) / INR (length tl)
     = a * sin (phi - 2 * PI * m * INR f / INR n)) ->
  exists p, phase_fit arg i t m = Some (a, p) /\ cexp_i p = cexp_i phi.
Proof.
  intros A U E N (k & Ek & D) Pa An Et Nt H. unfold phase_fit. rewrite Et. destruct tl as [|t0 tl]; [congruence|]. clear Nt.
  set (avg := fun f => fold_right Rplus 0 (map (fun s => arg (fi_gain i f s)) (t0 :: tl)) / INR (length (t0 :: tl))) in *.
  assert (Zd : dft (fi_n_freq i) (fi_freq_use i) m (fun f => (arg (fi_gain i f t) - avg f, 0)) = cscale (INR n * a / 2) (cexp_i (phi - PI / 2))).
  { unfold dft, total_c. rewrite U, <- E.
    change (csum n (fun f => cmul (cexp_i (2 * PI / INR n * m * INR f)) (arg (fi_gain i f t) - avg f, 0)) = cscale (INR n * a / 2) (cexp_i (phi - PI / 2))).
    rewrite (csum_ext n _ (fun f => cscale (a / 2) (cadd (cexp_i (phi - PI / 2)) (cmul (sin phi, cos phi) (cexp_i (2 * PI * IZR k * INR f / INR n)))))).
    - rewrite csum_scale, csum_add, csum_mul, full_turns by assumption.
      assert (C0 : csum n (fun _ : nat => cexp_i (phi - PI / 2)) = cscale (INR n) (cexp_i (phi - PI / 2))).
      { clear. induction n as [|n IH]; [unfold csum; cbn; apply cx_eq; unfold cscale; cbn [fst snd]; ring|].
        rewrite csum_S, IH, S_INR. apply cx_eq; unfold cscale, cadd; cbn [fst snd]; ring. }
      rewrite C0. apply cx_eq; unfold cscale, cadd, cmul; cbn [fst snd]; field.
    - intros f F. unfold avg. rewrite (H f F). set (x := 2 * PI * m * INR f / INR n).
      replace (2 * PI / INR n * m * INR f) with x by (unfold x; field; apply not_0_INR; lia).
      replace (2 * PI * IZR k * INR f / INR n) with (2 * x) by (unfold x; rewrite <- Ek; field; apply not_0_INR; lia).
      replace (cmul (cexp_i x) (a * sin (phi - x), 0)) with (cscale a (cmul (cexp_i x) (sin (phi - x), 0))) by (apply cx_eq; unfold cscale, cmul; cbn [fst snd]; ring).
      rewrite sin_turn, cscale_scale. f_equal. field. }
  assert (NP : 0 < INR n) by (apply lt_0_INR; exact N).
  unfold avg in Zd. cbv beta zeta in Zd |- *. rewrite Zd. eexists. split.
  - rewrite cabs_scale, cabs_exp by (apply Rmult_le_pos; [apply Rmult_le_pos|]; lra).
    rewrite U, seq_length, <- E. do 2 f_equal. field. lra.
  - rewrite cexp_add, angle_turn; [|exact An|nra]. rewrite <- cexp_add. f_equal. ring.
Qed.

Lemma phase_factor arg i t n a phi m auto tl : fi_auto i = Some auto -> unflagged i -> n = fi_n_freq i -> (0 < n)%nat ->
  proper n (2 * m) -> 0 < a -> is_angle arg -> incoherent i m = tl -> tl <> [] -> fst (search arg i t) = m ->
  (forall f, (f < n)%nat ->
     arg (fi_gain i f t) - fold_right Rplus 0 (map (fun s => arg (fi_gain i f s)) tl) / INR (length tl)
     = a * sin (phi - 2 * PI * m * INR f / INR n)) ->
  forall f, (f < n)%nat -> factor arg i t f = Some (cexp_i (a * sin (phi - 2 * PI * m * INR f / INR n))).
Proof.
  intros A U E N P Pa An Et Nt Sm H f F.
  destruct (phase_exact arg i t n a phi m auto tl A U E N P Pa An Et Nt H) as (p & Ep & Cp).
  unfold factor, fit. rewrite A. cbv zeta. rewrite Sm, Ep. do 2 f_equal. unfold gain_mode_fit. rewrite <- E.
  rewrite cexp_add, Cp, <- cexp_add. unfold cscale, cexp_i. cbn [snd]. do 2 f_equal. field. apply not_0_INR. lia.
Qed.

Lemma search_candidate arg i t : candidate (nominal i t) (fst (search arg i t)).
Proof.
  unfold search. destruct (fit_data i t) as [g|]; cbn [fst].
  - set (fits := map (fun m => dft (fi_n_freq i) (fi_freq_use i) m g) (tested (nominal i t))).
    assert (Lf : length fits = 101%nat) by (unfold fits; now rewrite map_length, tested_len).
    destruct (argmax_spec (map cabs fits)) as [K _].
    { intros E. apply (f_equal (@length _)) in E. rewrite map_length, Lf in E. discriminate. }
    rewrite map_length, Lf in K. apply tested_candidate. eauto.
  - apply tested_candidate. exists 0%nat. split; [lia|reflexivity].
Qed.

Lemma no_reference arg i t auto : fi_auto i = Some auto -> (forall s, ~ other_cables i t s) ->
  fst (fit arg i t) = nominal i t - 5 / 2.
Proof.
  intros A O. unfold fit. rewrite A. cbn [fst]. unfold search, fit_data, res_autos. rewrite A.
  assert (E : incoherent i (nominal i t) = []).
  { destruct (incoherent i (nominal i t)) as [|s l] eqn:E; [reflexivity|].
    exfalso. apply (O s). apply (proj1 (incoherent_in i (nominal i t) s)). rewrite E. left. reflexivity. }
  rewrite E. cbn [fst]. rewrite tested_nth by lia. change (Z.of_nat 0 - 50)%Z with (-50)%Z. lra.
Qed.
