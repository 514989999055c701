(** Lemmas about the kernels made for each baseline. *)
From Coq Require Import String Reals Lra.
From Verif Require Import Base NpArr PyIndex Sky DirtyImage DirtyImageSpec DirtyImageProofs Quickview QuickviewProofs ExportSize ExportSizeSpec ExportSizeProofs Kernel KernelSpec.
Import ListNotations.
Open Scope R_scope.
Ltac Zify.zify_post_hook ::= idtac.

(** ** Summing down *)
Lemma csum_product a b f : (0 < b)%nat -> csum (a * b) (fun q => f (q / b)%nat (q mod b)%nat) = csum a (fun r => csum b (fun s => f r s)).
Proof.
  intros B. revert f. induction a as [|a IH]; intros f; [reflexivity|]. rewrite csum_S. cbn [Nat.mul]. rewrite csum_split. f_equal.
  - apply csum_ext. intros i I. rewrite Nat.div_small, Nat.mod_small by assumption. reflexivity.
  - rewrite <- IH. apply csum_ext. intros i I. replace (b + i)%nat with (i + 1 * b)%nat by lia. rewrite Nat.div_add, Nat.mod_add by lia. f_equal. lia.
Qed.
Lemma sum_down_ok dim res a : (0 < res)%nat -> rows a = (dim * res)%nat -> cols a = (dim * res)%nat ->
  sum_down dim res a = Ok (map (fun k => block_sum res (at2 a) (k / dim) (k mod dim)) (seq 0 (dim * dim))).
Proof.
  intros RP RA CA. unfold sum_down. destruct (Nat.eqb_spec res 0); [lia|]. rewrite RA, CA, Nat.div_mul by lia.
  destruct (Nat.eqb_spec (dim * res * (dim * res)) (res * dim * dim * res)) as [_|NE]; [|exfalso; apply NE; ring]. cbn [negb].
  rewrite Nat.eqb_refl. cbn [negb]. f_equal. apply map_ext_in. intros k K. apply in_seq in K.
  assert (DP : (0 < dim)%nat) by nia. set (i := (k mod dim)%nat). set (j := (k / dim)%nat).
  assert (I : (i < dim)%nat) by (apply Nat.mod_upper_bound; lia). assert (J : (j < dim)%nat) by (apply Nat.div_lt_upper_bound; lia).
  unfold block_sum. rewrite <- (csum_product res res (fun r s => at2 a (j * res + r)%nat (i * res + s)%nat)) by exact RP.
  apply csum_ext. intros q Q. set (K0 := ((i * dim + j) * (res * res) + q)%nat).
  assert (Q1 : (q / res < res)%nat) by (apply Nat.div_lt_upper_bound; lia). assert (Q2 : (q mod res < res)%nat) by (apply Nat.mod_upper_bound; lia).
  assert (QE : q = (res * (q / res) + q mod res)%nat) by (apply Nat.div_mod; lia).
  assert (E1 : (K0 mod res = q mod res)%nat) by (unfold K0; replace ((i * dim + j) * (res * res) + q)%nat with (q + ((i * dim + j) * res) * res)%nat by ring; apply Nat.mod_add; lia).
  assert (E0 : (K0 / res = (j * res + q / res) + i * (res * dim))%nat).
  { unfold K0. replace ((i * dim + j) * (res * res) + q)%nat with (q + ((i * dim + j) * res) * res)%nat by ring. rewrite Nat.div_add by lia. ring. }
  assert (JB : (j * res + q / res < res * dim)%nat) by nia.
  assert (E2 : ((K0 / res) mod (res * dim) = j * res + q / res)%nat) by (rewrite E0, Nat.mod_add by lia; apply Nat.mod_small; exact JB).
  assert (E3 : (K0 / (res * dim * res) = i)%nat).
  { rewrite (Nat.mul_comm (res * dim) res), <- Nat.div_div by lia. rewrite E0, Nat.div_add by lia. rewrite (Nat.div_small (j * res + q / res)) by exact JB. reflexivity. }
  rewrite E1, E2, E3. set (r := (j * res + q / res)%nat).
  assert (CB : (i * res + q mod res < dim * res)%nat) by nia.
  replace (r * (dim * res) + i * res + q mod res)%nat with ((i * res + q mod res) + r * (dim * res))%nat by ring.
  rewrite Nat.div_add, Nat.mod_add by lia. rewrite (Nat.div_small (i * res + q mod res)), (Nat.mod_small (i * res + q mod res)) by exact CB. reflexivity.
Qed.
Lemma window_ok a n bot len : rows a = n -> cols a = n -> (bot + len <= n)%nat ->
  rows (window a (Z.of_nat bot) (Z.of_nat (bot + len) - 1 + 1)) = len /\ cols (window a (Z.of_nat bot) (Z.of_nat (bot + len) - 1 + 1)) = len
  /\ forall i j, at2 (window a (Z.of_nat bot) (Z.of_nat (bot + len) - 1 + 1)) i j = at2 a (bot + i)%nat (bot + j)%nat.
Proof.
  intros RA CA B. assert (P : forall k, (k <= n)%nat -> py_bound n (Z.of_nat k) = k).
  { intros k K. unfold py_bound. destruct (Z.ltb_spec (Z.of_nat k) 0); [lia|]. rewrite Nat2Z.id. lia. }
  replace (Z.of_nat (bot + len) - 1 + 1)%Z with (Z.of_nat (bot + len)) by lia.
  unfold window. rewrite RA, CA, !P by lia. cbn [rows cols at2]. split; [lia|]. split; [lia|]. reflexivity.
Qed.

(** ** One kernel *)
Lemma width_small n : (2 <= n)%nat -> (kernel_width n n None <= n)%nat.
Proof.
  intros N. unfold kernel_width. rewrite Nat.sqrt_square. assert (H : (n / 100 <= n / 2)%nat) by (apply Nat.div_le_compat_l; lia).
  assert (H2 : (2 * (n / 2) <= n)%nat) by (apply Nat.mul_div_le; lia). destruct (Nat.max (n / 100) 1 mod 2 =? 0)%nat eqn:E; [|lia].
  destruct (Nat.max_spec (n / 100) 1) as [(A & B)|(A & B)]; rewrite B in *; [discriminate E|lia].
Qed.
Lemma zip_same {A B C} (f : A -> B -> C) a b n m : has_shape a n m -> has_shape b n m ->
  exists q, azip f a b = Ok q /\ has_shape q n m /\ forall i j, (i < n)%nat -> (j < m)%nat -> at2 q i j = f (at2 a i j) (at2 b i j).
Proof.
  intros (R1 & C1) (R2 & C2). unfold azip. rewrite R1, R2, C1, C2. unfold bdim. rewrite !Nat.eqb_refl. eexists. split; [reflexivity|]. split; [split; reflexivity|].
  cbn [at2]. intros i j I J. unfold bidx. destruct (Nat.eqb_spec n 1), (Nat.eqb_spec m 1); repeat f_equal; lia.
Qed.
Lemma kernel_ok uniform rebin p c mo xmin ymin pol bot bt fi beam n v :
  reads p c xmin ymin bt fi v -> nth_error (k_image p) pol = Some beam -> has_shape beam n n -> (0 < n)%nat -> Nat.Even n ->
  has_shape (m_l mo) n n -> has_shape (m_m mo) n n -> has_shape (m_n mo) n n ->
  (0 < k_res p)%nat -> (bot + k_dim p * k_res p <= n)%nat ->
  kernel uniform rebin p c mo xmin ymin pol (Z.of_nat bot) (Z.of_nat (bot + k_dim p * k_res p) - 1) bt fi =
  Ok (map (fun k => block_sum (k_res p) (fun a b => fourier (phased beam (fun i j =>
        at2 (m_l mo) i j * (v_u v * v_f v - v_x v) + at2 (m_m mo) i j * (v_v v * v_f v - v_y v) - at2 (m_n mo) i j * (v_w v * v_f v))) (bot + a) (bot + b))
        (k / k_dim p) (k mod k_dim p)) (seq 0 (k_dim p * k_dim p))).
Proof.
  intros (E1 & E2 & E3 & E4 & E5 & E6) EB SB N EV SL SM SN RP BT. unfold kernel, offsets, get. rewrite E1, E2, E3, E4, E5, E6, EB. cbn [bind].
  set (du := amap (fun l : R => l * (v_u v * v_f v - v_x v)) (m_l mo)). set (dv := amap (fun m : R => m * (v_v v * v_f v - v_y v)) (m_m mo)).
  set (wn := amap (fun n : R => n * v_w v * v_f v) (m_n mo)).
  assert (S1 : has_shape du n n) by exact SL. assert (S2 : has_shape dv n n) by exact SM. assert (S3 : has_shape wn n n) by exact SN.
  destruct (zip_same (fun a b => - a + b) wn du n n S3 S1) as (t1 & ET1 & ST1 & VT1). rewrite ET1. cbn [bind].
  destruct (zip_same Rplus t1 dv n n ST1 S2) as (t2 & ET2 & ST2 & VT2). rewrite ET2. cbn [bind].
  set (ph := amap (fun a : R => cexp_i (2 * PI * a)) t2). assert (S4 : has_shape ph n n) by exact ST2.
  destruct (zip_same cmul beam ph n n SB S4) as (pl & EP & SP & VP). rewrite EP. cbn [bind].
  destruct (simple_run uniform rebin options_here pl) as (img & after & EI & (RI & CI & VI) & _).
  { unfold even_sizes. destruct SP as (-> & ->). auto. }
  { destruct SP as (R0 & C0). split; [right; split; [reflexivity|]; split; [congruence|]; rewrite R0, C0; apply width_small; destruct EV as (h & ->); lia|].
    split; [intros ? HH; discriminate HH|]. split; [intros ? HH; discriminate HH|]. repeat split. }
  rewrite EI. cbn [bind]. cbn [used weighted rows cols] in RI, CI, VI. destruct SP as (R0 & C0). rewrite R0 in RI, VI. rewrite C0 in CI, VI.
  destruct (window_ok img n bot (k_dim p * k_res p) RI CI BT) as (RW & CW & VW). rewrite sum_down_ok by assumption. f_equal. apply map_ext_in. intros k K. apply in_seq in K.
  assert (DP : (0 < k_dim p)%nat) by nia.
  assert (KI : (k mod k_dim p < k_dim p)%nat) by (apply Nat.mod_upper_bound; lia). assert (KJ : (k / k_dim p < k_dim p)%nat) by (apply Nat.div_lt_upper_bound; lia).
  unfold block_sum. apply csum_ext. intros r Hr. apply csum_ext. intros s Hs. rewrite VW, VI by nia. cbn [options_here o_not_real]. apply fourier_ext.
  split; [exact (eq_trans R0 (eq_sym (proj1 SB)))|]. split; [exact (eq_trans C0 (eq_sym (proj2 SB)))|]. cbn [used weighted rows cols]. rewrite R0, C0. intros i j I J. unfold used, weighted, phased. cbn [at2 options_here o_degpix o_filter o_mask per_steradian factor].
  rewrite VP by assumption. unfold ph at 1. cbn [amap at2]. rewrite VT2, VT1 by assumption. unfold wn, du, dv. cbn [amap at2].
  set (z := cmul _ _). replace (cscale (1 * (1 * 1)) z) with z by (apply cx_eq; unfold cscale; cbn [fst snd]; ring). unfold z. f_equal. f_equal. ring.
Qed.

(** ** The window *)
Lemma intermediate_small res : (0 < res <= 2)%nat -> intermediate res = res.
Proof.
  intros (P & Q). unfold intermediate. assert (R1 : 1 <= sqrt (INR res)). { rewrite <- sqrt_1. apply sqrt_le_1_alt. apply (le_INR 1). lia. }
  destruct (ceil_spec (sqrt (INR res) / 2)) as (A & B). assert (H : (0 < ceil (sqrt (INR res) / 2))%Z) by (apply lt_IZR; lra). lia.
Qed.
Lemma intermediate_large res : (3 <= res)%nat -> (intermediate res < res)%nat.
Proof.
  intros P. unfold intermediate. destruct (ceil_spec (sqrt (INR res) / 2)) as (A & B). set (k := ceil (sqrt (INR res) / 2)) in *.
  assert (SP : 0 <= sqrt (INR res)) by apply sqrt_pos. assert (SS : sqrt (INR res) * sqrt (INR res) = INR res) by (apply sqrt_sqrt; apply pos_INR).
  assert (H : (k * 2 < Z.of_nat res)%Z); [|lia]. destruct (Nat.eq_dec res 3) as [->|N3].
  - assert (sqrt (INR 3) < 2). { apply (Rsqr_incrst_0 (sqrt (INR 3)) 2); [|exact SP|lra]. unfold Rsqr. rewrite SS. cbn [INR]. lra. }
    assert (K : (k < 2)%Z) by (apply lt_IZR; lra). lia.
  - assert (S2 : 2 <= sqrt (INR res)). { apply (Rsqr_incr_0 2 (sqrt (INR res))); [|lra|exact SP]. unfold Rsqr. rewrite SS. assert (4 <= INR res) by (replace 4 with (INR 4) by (cbn [INR]; lra); apply le_INR; lia). lra. }
    apply lt_IZR. rewrite mult_IZR, <- INR_IZR_INZ. assert (sqrt (INR res) + 2 <= INR res) by nra. lra.
Qed.
Lemma window_bounds_ok d res h : (d * intermediate res <= h)%nat -> (0 < d)%nat -> (0 < res)%nat ->
  window_bounds (2 * d) res (2 * h) = (Z.of_nat (h - d * intermediate res), (Z.of_nat (h - d * intermediate res + 2 * d * res) - 1)%Z).
Proof.
  intros B D RP. unfold window_bounds. set (ir := intermediate res) in *.
  assert (HF : forall k, (natQ (2 * k) / 2 == inject_Z (Z.of_nat k))%Q).
  { intros k. unfold natQ. rewrite Nat2Z.inj_mul, inject_Z_mult. change (inject_Z (Z.of_nat 2)) with 2%Q. field. }
  assert (PI0 : forall q z, (q == inject_Z z)%Q -> (0 <= z)%Z -> py_int q = z).
  { intros q z E Z0. rewrite py_int_floor; [rewrite (Qround.Qfloor_comp _ _ E); apply Qround.Qfloor_Z|]. rewrite E. change 0%Q with (inject_Z 0). rewrite <- Zle_Qle. exact Z0. }
  f_equal; apply PI0; try nia; rewrite !HF.
  - unfold natQ. rewrite <- inject_Z_opp, <- inject_Z_mult, <- inject_Z_plus. apply inject_Z_injective. nia.
  - unfold natQ. change 1%Q with (inject_Z 1). unfold Qminus. rewrite <- !inject_Z_mult, <- !inject_Z_opp, <- !inject_Z_plus. apply inject_Z_injective. nia.
Qed.

(** ** Clipping *)
Lemma cabs_nonneg z : 0 <= cabs z. Proof. apply sqrt_pos. Qed.
Lemma cabs_real r : cabs (r, 0) = Rabs r.
Proof. unfold cabs. cbn [fst snd]. replace (r ^ 2 + 0 ^ 2) with (Rsqr r) by (unfold Rsqr; ring). apply sqrt_Rsqr_abs. Qed.
Lemma total_mul l c : total (map (fun z => cmul z c) l) = cmul (total l) c.
Proof. induction l as [|z l IH]; cbn [total map fold_right]; [apply cx_eq; unfold cmul; cbn [fst snd]; ring|]. fold (total l). fold (total (map (fun z => cmul z c) l)). rewrite IH. apply cx_eq; unfold cmul, cadd; cbn [fst snd]; ring. Qed.
Lemma cdiv_ok a b : b <> (0, 0) -> exists q, cdiv a b = Ok q /\ cmul b q = a.
Proof.
  intros NB. unfold cdiv. destruct (Req_EM_T (fst b ^ 2 + snd b ^ 2) 0) as [E|N].
  - exfalso. apply NB. destruct b as [x y]. cbn [fst snd] in E. assert (x * x + y * y = 0) by lra. assert (x = 0) by nra. assert (y = 0) by nra. congruence.
  - eexists. split; [reflexivity|]. destruct a as [a1 a2], b as [b1 b2]. apply cx_eq; unfold cmul, cscale; cbn [fst snd] in *; field; exact N.
Qed.
Lemma cdiv_zero a : cdiv a (0, 0) = Err ZeroDivision.
Proof. unfold cdiv. cbn [fst snd]. destruct (Req_EM_T (0 ^ 2 + 0 ^ 2) 0) as [|N]; [reflexivity|]. exfalso. apply N. ring. Qed.
Lemma lowered_zero t z : cabs z <= t -> lowered t z = (0, 0).
Proof. intros H. unfold lowered. rewrite Rmax_right by lra. apply cx_eq; unfold cscale; cbn [fst snd]; ring. Qed.
Lemma clip_row_ok t row : total (map (lowered t) row) <> (0, 0) ->
  exists row', clip_row t row = Ok row' /\ List.length row' = List.length row /\ total row' = total row
  /\ (exists ratio, cmul (total (map (lowered t) row)) ratio = total row /\ row' = map (fun z => cmul (lowered t z) ratio) row).
Proof.
  intros N. unfold clip_row. destruct (cdiv_ok (total row) _ N) as (q & E & M). rewrite E. cbn [bind]. eexists. split; [reflexivity|].
  split; [now rewrite !map_length|]. split; [rewrite total_mul; exact M|]. exists q. split; [exact M|]. now rewrite map_map.
Qed.
Lemma peak_above box row z : In row box -> In z row -> cabs z <= peak box.
Proof.
  intros R0 Z0. unfold peak. assert (I : In z (concat box)) by (apply in_concat; eauto). induction (concat box) as [|y l IH]; [contradiction|]. cbn [map fold_right].
  destruct I as [->|I]; [apply Rmax_l|]. eapply Rle_trans; [now apply IH|apply Rmax_r].
Qed.
Lemma peak_unique box m : (exists row z, In row box /\ In z row) -> is_peak box m -> peak box = m.
Proof.
  intros (row0 & z0 & R0 & Z0) (U & A).
  assert (CN : forall z, 0 <= cabs z) by (intros z; apply sqrt_pos).
  apply Rle_antisym.
  - unfold peak. assert (U' : forall z, In z (concat box) -> cabs z <= m) by (intros z Iz; apply in_concat in Iz as (row & Ir & Iz); eauto).
    assert (P : 0 <= m) by (eapply Rle_trans; [apply (CN z0)|eauto]). clear - P U'. induction (concat box) as [|z l IH]; cbn [map fold_right]; [exact P|].
    apply Rmax_lub; [apply U'; now left|apply IH; intros; apply U'; now right].
  - destruct A as [->|(row & z & Ir & Iz & <-)]; [eapply Rle_trans; [apply (CN z0)|]|]; eapply peak_above; eauto.
Qed.
Lemma total_zero l : (forall z, In z l -> z = (0, 0)) -> total l = (0, 0).
Proof. induction l as [|z l IH]; intros H; [reflexivity|]. cbn [total fold_right]. fold (total l). rewrite (H z (or_introl eq_refl)), IH by (intros y Y; apply H; now right). apply cx_eq; unfold cadd; cbn [fst snd]; ring. Qed.
Lemma map_res_each {A B} (f : A -> result B) (g : A -> B) l : (forall a, In a l -> f a = Ok (g a)) -> map_res f l = Ok (map g l).
Proof. induction l as [|a l IH]; intros H; [reflexivity|]. cbn [map_res map]. rewrite (H a (or_introl eq_refl)). cbn [bind]. rewrite IH by (intros b B0; apply H; now right). reflexivity. Qed.
Lemma map_res_nth {A B} (f : A -> result B) l r : map_res f l = Ok r -> List.length r = List.length l /\ forall k a, nth_error l k = Some a -> exists b, f a = Ok b /\ nth_error r k = Some b.
Proof.
  revert r. induction l as [|a l IH]; intros r H; cbn [map_res] in H.
  - injection H as <-. split; [reflexivity|]. intros [|k] a0 K; discriminate K.
  - apply bind_ok in H as (b & EB & H). apply bind_ok in H as (bs & ES & H). injection H as <-. destruct (IH bs ES) as (L & N). split; [cbn; lia|].
    intros [|k] a0 K; cbn [nth_error] in *; [injection K as <-; eauto|auto].
Qed.
