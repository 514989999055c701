(** Sums, phases and shifts. *)
From Coq Require Import String Reals Lra Lia ZifyNat.
From Verif Require Import Base NpArr Utils1 Utils1Spec Utils1Proofs Sky DirtyImage DirtyImageSpec.
Import ListNotations.
Open Scope nat_scope.
Open Scope list_scope.
Open Scope R_scope.
Ltac Zify.zify_post_hook ::= idtac.

Lemma cx_eq (a b : cx) : fst a = fst b -> snd a = snd b -> a = b.
Proof. destruct a, b; cbn; congruence. Qed.
Ltac cx := apply cx_eq; cbn [fst snd cadd cscale cmul]; ring.
Lemma cadd_assoc a b c : cadd a (cadd b c) = cadd (cadd a b) c. Proof. cx. Qed.
Lemma cadd_comm a b : cadd a b = cadd b a. Proof. cx. Qed.
Lemma cadd_0 a : cadd (0, 0) a = a. Proof. cx. Qed.
Lemma cadd_0r a : cadd a (0, 0) = a. Proof. cx. Qed.
Lemma cscale_add r a b : cscale r (cadd a b) = cadd (cscale r a) (cscale r b). Proof. cx. Qed.
Lemma cscale_scale r s a : cscale r (cscale s a) = cscale (r * s) a. Proof. cx. Qed.
Lemma cscale_1 a : cscale 1 a = a. Proof. cx. Qed.
Lemma cscale_mul r a b : cmul (cscale r a) b = cscale r (cmul a b). Proof. cx. Qed.

Definition lsum (l : list cx) : cx := fold_right cadd (0, 0) l.
Lemma lsum_app a b : lsum (a ++ b) = cadd (lsum a) (lsum b).
Proof. induction a as [|x a IH]; cbn [app lsum fold_right]; [now rewrite cadd_0|]. fold (lsum (a ++ b)). fold (lsum a). now rewrite IH, cadd_assoc. Qed.
Lemma csum_lsum n f : csum n f = lsum (map f (seq 0 n)). Proof. reflexivity. Qed.
Lemma csum_ext n f g : (forall i, (i < n)%nat -> f i = g i) -> csum n f = csum n g.
Proof. intros H. unfold csum. f_equal. apply map_ext_in. intros i I. apply H. apply in_seq in I. lia. Qed.
Lemma csum_scale n r f : csum n (fun i => cscale r (f i)) = cscale r (csum n f).
Proof.
  unfold csum. induction (seq 0 n) as [|i l IH]; cbn [map fold_right]; [cx|]. rewrite IH, cscale_add. reflexivity.
Qed.
Lemma csum_add n f g : csum n (fun i => cadd (f i) (g i)) = cadd (csum n f) (csum n g).
Proof.
  unfold csum. induction (seq 0 n) as [|i l IH]; cbn [map fold_right]; [cx|]. rewrite IH. cx.
Qed.
Lemma csum_zero n f : (forall i, (i < n)%nat -> f i = (0, 0)) -> csum n f = (0, 0).
Proof.
  intros H. unfold csum. assert (G : forall l, (forall i, In i l -> f i = (0, 0)) -> fold_right cadd (0, 0) (map f l) = (0, 0)).
  { induction l as [|i l IH]; intros K; [reflexivity|]. cbn [map fold_right]. rewrite (K i (or_introl eq_refl)), cadd_0. apply IH. intros; apply K; now right. }
  apply G. intros i I. apply H. apply in_seq in I. lia.
Qed.
Lemma map_seq_shift {A} (f : nat -> A) s n : map f (seq s n) = map (fun i => f (s + i)%nat) (seq 0 n).
Proof.
  revert s f. induction n as [|n IH]; intros s f; [reflexivity|]. cbn [seq map]. rewrite Nat.add_0_r. f_equal.
  rewrite (IH (S s) f), (IH 1%nat (fun i => f (s + i)%nat)). apply map_ext. intros i. f_equal. lia.
Qed.
Lemma csum_split a b f : csum (a + b) f = cadd (csum a f) (csum b (fun i => f (a + i)%nat)).
Proof. rewrite !csum_lsum, seq_app, map_app, lsum_app. f_equal. now rewrite Nat.add_0_l, map_seq_shift. Qed.
(** A sum over a rotated axis. *)
Lemma csum_rot n s G : (s <= n)%nat -> (0 < n)%nat -> csum n (fun e => G ((e + s) mod n)%nat) = csum n G.
Proof.
  intros S0 N. replace n with ((n - s) + s)%nat at 1 by lia. rewrite csum_split.
  rewrite (csum_ext (n - s) _ (fun i => G (s + i)%nat)) by (intros i I; f_equal; rewrite Nat.mod_small by lia; lia).
  rewrite (csum_ext s _ G).
  - rewrite cadd_comm, <- csum_split. f_equal. lia.
  - intros i I. f_equal. replace (n - s + i + s)%nat with (i + 1 * n)%nat by lia. rewrite Nat.mod_add by lia. apply Nat.mod_small. lia.
Qed.
Lemma csum_S n f : csum (S n) f = cadd (f 0%nat) (csum n (fun i => f (S i))).
Proof. rewrite (csum_split 1 n). f_equal. unfold csum. cbn. now rewrite cadd_0r. Qed.
Lemma csum_rev n f : csum n (fun i => f (n - 1 - i)%nat) = csum n f.
Proof.
  induction n as [|n IH]; [reflexivity|]. rewrite csum_S. replace (S n) with (n + 1)%nat by lia. rewrite csum_split.
  rewrite (csum_ext n (fun i => f (n + 1 - 1 - S i)%nat) (fun i => f (n - 1 - i)%nat)) by (intros i I; f_equal; lia).
  rewrite IH, cadd_comm. f_equal. unfold csum. cbn [seq map fold_right]. rewrite cadd_0r. f_equal. lia.
Qed.
(** A sum over an axis reflected about 0. *)
Lemma csum_reflect n G : (0 < n)%nat -> csum n (fun e => G ((n - e) mod n)%nat) = csum n G.
Proof.
  intros N. destruct n as [|n]; [lia|]. rewrite !csum_S. f_equal.
  - f_equal. rewrite Nat.sub_0_r. apply Nat.mod_same. lia.
  - rewrite <- (csum_rev n (fun i => G (S i))). apply csum_ext. intros i I. f_equal. rewrite Nat.mod_small by lia. lia.
Qed.

(** Phases. *)
Lemma cexp_period t (k : Z) : cexp_i (t + 2 * PI * IZR k) = cexp_i t.
Proof.
  assert (P : forall u (n : nat), cexp_i (u + 2 * PI * INR n) = cexp_i u).
  { intros u n. unfold cexp_i. replace (u + 2 * PI * INR n) with (u + 2 * INR n * PI) by ring. now rewrite cos_period, sin_period. }
  destruct (Z.le_gt_cases 0 k) as [K|K].
  - rewrite <- (Z2Nat.id k) by lia. rewrite <- INR_IZR_INZ. apply P.
  - rewrite <- (P _ (Z.to_nat (- k))). f_equal. rewrite INR_IZR_INZ, Z2Nat.id by lia. rewrite opp_IZR. ring.
Qed.
Lemma cexp_add a b : cexp_i (a + b) = cmul (cexp_i a) (cexp_i b).
Proof. unfold cexp_i. rewrite cos_plus, sin_plus. cx. Qed.
Lemma cexp_0 : cexp_i 0 = (1, 0). Proof. unfold cexp_i. now rewrite cos_0, sin_0. Qed.

(** The phase of one axis: the product of a and b counted in units of 1/n of a turn. *)
Definition turn (n : nat) (p : R) : R := - (2 * PI * (p / INR n)).
Lemma turn_eq n p q : (0 < n)%nat -> (exists k : Z, p = q + IZR k * INR n) -> cexp_i (turn n p) = cexp_i (turn n q).
Proof.
  intros N (k & ->). rewrite <- (cexp_period (turn n q) (- k)). f_equal. unfold turn. rewrite opp_IZR. field.
  apply not_0_INR. lia.
Qed.
Lemma cexp_two n m p q : cexp_i (- (2 * PI * (p / INR n + q / INR m))) = cmul (cexp_i (turn n p)) (cexp_i (turn m q)).
Proof. rewrite <- cexp_add. f_equal. unfold turn. ring. Qed.
Lemma mod_turn a n : (0 < n)%nat -> exists k : Z, INR (a mod n) = INR a + IZR k * INR n.
Proof.
  intros N. exists (- Z.of_nat (a / n))%Z. rewrite opp_IZR, <- INR_IZR_INZ. pose proof (Nat.div_mod a n) as E.
  assert (INR a = INR n * INR (a / n) + INR (a mod n)) by (rewrite <- mult_INR, <- plus_INR; f_equal; apply E; lia). lra.
Qed.
(** The shifts on both sides of an even axis make it a transform about the middle. *)
Lemma shift_phase n e y : (0 < n)%nat -> Nat.Even n -> (e < n)%nat -> (y < n)%nat ->
  cexp_i (turn n (INR (((e + n / 2) mod n) * ((y + (n - n / 2)) mod n)))) = cexp_i (turn n ((INR e - half n) * (INR y - half n))).
Proof.
  intros N (h & ->) E Y. assert (2 * h / 2 = h)%nat as -> by (rewrite Nat.mul_comm; apply Nat.div_mul; lia).
  apply turn_eq; [exact N|]. rewrite mult_INR. destruct (mod_turn (e + h) (2 * h) N) as (k & ->).
  destruct (mod_turn (y + (2 * h - h)) (2 * h) N) as (l & ->). replace (y + (2 * h - h))%nat with (y + h)%nat by lia.
  unfold half. rewrite !plus_INR, !mult_INR. change (INR 2) with 2.
  exists (Z.of_nat e + Z.of_nat y + k * Z.of_nat (y + h) + l * Z.of_nat (e + h) + k * l * (2 * Z.of_nat h))%Z.
  rewrite !plus_IZR, !mult_IZR, <- !INR_IZR_INZ, !plus_INR. field.
Qed.

(** fft of the shifted plane, shifted, is the centred transform. *)
Lemma shifted_fft a f : even_sizes a -> fft2 (fftshift a) = Ok f ->
  rows (fftshift f) = rows a /\ cols (fftshift f) = cols a
  /\ forall y x, (y < rows a)%nat -> (x < cols a)%nat -> at2 (fftshift f) y x = fourier a y x.
Proof.
  intros (R0 & C0 & RE & CE) H. unfold fft2 in H. cbn [fftshift rows cols] in H.
  match type of H with (if ?b then _ else _) = _ => destruct b end; [discriminate H|]. injection H as <-.
  cbn [fftshift rows cols]. split; [reflexivity|]. split; [reflexivity|]. intros y x Y X. cbn [fftshift at2 rows cols]. unfold fourier.
  f_equal. set (n := rows a) in *. set (m := cols a) in *.
  set (y' := ((y + (n - n / 2)) mod n)%nat). set (x' := ((x + (m - m / 2)) mod m)%nat).
  pose (G := fun e d => cmul (at2 a e d) (cexp_i (- (2 * PI * (INR (((e + n / 2) mod n) * y') / INR n + INR (((d + m / 2) mod m) * x') / INR m))))).
  assert (HN : forall k i, (0 < k)%nat -> (i < k)%nat -> ((((i + (k - k / 2)) mod k) + k / 2) mod k = i)%nat).
  { intros k i K I. rewrite Nat.add_mod_idemp_l by lia. pose proof (Nat.div_lt k 2 K ltac:(lia)).
    replace (i + (k - k / 2) + k / 2)%nat with (i + 1 * k)%nat by lia. rewrite Nat.mod_add by lia. apply Nat.mod_small. exact I. }
  transitivity (csum n (fun e => csum m (fun d => G e d))).
  - rewrite <- (csum_rot n (n - n / 2) (fun e => csum m (fun d => G e d))) by lia. apply csum_ext. intros e E.
    rewrite <- (csum_rot m (m - m / 2) (fun d => G _ d)) by lia. apply csum_ext. intros d D. unfold G.
    now rewrite !HN.
  - apply csum_ext. intros e E. apply csum_ext. intros d D. unfold G. f_equal. rewrite !cexp_two.
    unfold y', x'. now rewrite !shift_phase.
Qed.
Lemma fft_ok a : (0 < rows a)%nat -> (0 < cols a)%nat -> exists f, fft2 (fftshift a) = Ok f.
Proof. intros R0 C0. unfold fft2. cbn [fftshift rows cols]. destruct (Nat.eqb_spec (rows a) 0), (Nat.eqb_spec (cols a) 0); try lia. cbn [orb]. eauto. Qed.

Lemma fourier_ext a b y x : arr_eq a b -> fourier a y x = fourier b y x.
Proof.
  intros (R0 & C0 & E). unfold fourier. rewrite <- R0, <- C0. f_equal. apply csum_ext. intros e HE. apply csum_ext. intros d HD. now rewrite E.
Qed.
Lemma fourier_scale r a y x : fourier (amap (cscale r) a) y x = cscale r (fourier a y x).
Proof.
  unfold fourier. cbn [amap rows cols at2].
  rewrite (csum_ext _ _ (fun e => cscale r (csum (cols a) (fun d => cmul (at2 a e d)
         (cexp_i (- (2 * PI * ((INR e - half (rows a)) * (INR y - half (rows a)) / INR (rows a)
                               + (INR d - half (cols a)) * (INR x - half (cols a)) / INR (cols a))))))))).
  - rewrite csum_scale, !cscale_scale. f_equal. ring.
  - intros e E. rewrite <- csum_scale. apply csum_ext. intros d D. apply cscale_mul.
Qed.

(** The transform of a Hermitian plane is real. *)
Definition cconj (z : cx) : cx := (fst z, - snd z).
Lemma csum_conj n f : csum n (fun i => cconj (f i)) = cconj (csum n f).
Proof.
  unfold csum. induction (seq 0 n) as [|i l IH]; cbn [map fold_right]; [unfold cconj; cx|]. rewrite IH. unfold cconj. cx.
Qed.
Lemma cexp_conj t : cexp_i (- t) = cconj (cexp_i t).
Proof. unfold cexp_i, cconj. cbn [fst snd]. now rewrite cos_neg, sin_neg. Qed.
Lemma reflect_phase n e y : (0 < n)%nat -> Nat.Even n -> (e < n)%nat ->
  cexp_i (turn n ((INR ((n - e) mod n) - half n) * (INR y - half n))) = cconj (cexp_i (turn n ((INR e - half n) * (INR y - half n)))).
Proof.
  intros N (h & ->) E. rewrite <- cexp_conj. replace (- turn (2 * h) ((INR e - half (2 * h)) * (INR y - half (2 * h))))
    with (turn (2 * h) (- ((INR e - half (2 * h)) * (INR y - half (2 * h))))) by (unfold turn; field; apply not_0_INR; lia).
  apply turn_eq; [exact N|]. destruct (mod_turn (2 * h - e) (2 * h) N) as (k & ->). rewrite minus_INR by lia.
  unfold half. rewrite !mult_INR. change (INR 2) with 2.
  exists (k * (Z.of_nat y - Z.of_nat h))%Z. rewrite mult_IZR, minus_IZR, <- !INR_IZR_INZ. field.
Qed.
Lemma fourier_real a y x : even_sizes a -> hermitian a -> snd (fourier a y x) = 0.
Proof.
  intros (R0 & C0 & RE & CE) H. unfold fourier. set (n := rows a) in *. set (m := cols a) in *.
  pose (F := fun e d => cmul (at2 a e d) (cexp_i (- (2 * PI * ((INR e - half n) * (INR y - half n) / INR n + (INR d - half m) * (INR x - half m) / INR m))))).
  assert (E : csum n (fun e => csum m (fun d => F e d)) = cconj (csum n (fun e => csum m (fun d => F e d)))).
  { rewrite <- csum_conj. rewrite <- (csum_reflect n (fun e => csum m (fun d => F e d))) by exact R0.
    apply csum_ext. intros e HE. rewrite <- (csum_reflect m (fun d => F _ d)) by exact C0. rewrite <- csum_conj. apply csum_ext. intros d HD.
    unfold F. unfold n, m. rewrite H by assumption. fold n m. rewrite !cexp_two, !reflect_phase by assumption. unfold cconj. cx. }
  assert (Z : snd (csum n (fun e => csum m (fun d => F e d))) = 0).
  { assert (E' := f_equal snd E). cbn [cconj snd] in E'. lra. }
  cbn [cscale snd]. unfold F in Z. rewrite Z. ring.
Qed.

(** ** The mask *)
Lemma rsum_ext n f g : (forall i, (i < n)%nat -> f i = g i) -> rsum n f = rsum n g.
Proof. intros H. unfold rsum. f_equal. apply map_ext_in. intros i I. apply H. apply in_seq in I. lia. Qed.
Lemma rsum_const n c : rsum n (fun _ => c) = INR n * c.
Proof.
  unfold rsum. induction n as [|n IH]; [cbn; ring|]. rewrite seq_S, map_app, fold_right_app. cbn [map fold_right].
  assert (G : forall l a, fold_right Rplus a (map (fun _ : nat => c) l) = fold_right Rplus 0 (map (fun _ : nat => c) l) + a).
  { induction l as [|i l I]; intros a; cbn [map fold_right]; [ring|]. rewrite I. ring. }
  rewrite G, IH, S_INR. ring.
Qed.
Lemma rsum_bounds n f lo hi : (forall i, (i < n)%nat -> lo <= f i <= hi) -> INR n * lo <= rsum n f <= INR n * hi.
Proof.
  intros H. unfold rsum. assert (G : forall k, (k <= n)%nat -> INR k * lo <= fold_right Rplus 0 (map f (seq (n - k) k)) <= INR k * hi).
  { induction k as [|k IH]; intros K; [cbn; lra|]. cbn [seq map fold_right]. replace (S (n - S k)) with (n - k)%nat by lia.
    specialize (IH ltac:(lia)). specialize (H (n - S k)%nat ltac:(lia)). rewrite S_INR. lra. }
  specialize (G n (le_n n)). now rewrite Nat.sub_diag in G.
Qed.
Lemma kernel_pos E D w : (0 < kernel_width E D w)%nat.
Proof. unfold kernel_width. destruct (_ mod 2 =? 0)%nat; lia. Qed.
Lemma kernel_odd E D w : exists h, kernel_width E D w = (2 * h + 1)%nat.
Proof.
  unfold kernel_width. set (k := Nat.max _ 1). pose proof (Nat.div_mod k 2 ltac:(lia)) as H. pose proof (Nat.mod_upper_bound k 2 ltac:(lia)).
  destruct (Nat.eqb_spec (k mod 2) 0) as [Z|Z]; exists (k / 2)%nat; lia.
Qed.
(** Smoothing of a square mask: an average over the window where it lies inside, the mask itself near the edge. *)
Lemma smooth_square n h m : rows m = n -> cols m = n -> (2 * h + 1 <= n)%nat ->
  exists s, smooth (2 * h + 1) m = Ok s /\ rows s = n /\ cols s = n
  /\ forall i j, (i < n)%nat -> (j < n)%nat ->
     at2 s i j = if (h <=? i)%nat && (i <? n - h)%nat && (h <=? j)%nat && (j <? n - h)%nat
                 then rsum (2 * h + 1) (fun a => rsum (2 * h + 1) (fun b => at2 m (i - h + a) (j - h + b) * / (INR (2 * h + 1) * INR (2 * h + 1))))
                 else at2 m i j.
Proof.
  intros R0 C0 L. unfold smooth, box_averages. rewrite R0, C0.
  rewrite (proj2 (Nat.leb_le _ _) L). cbn [andb bind rows cols].
  assert ((2 * h + 1) / 2 = h)%nat as -> by (symmetry; apply (Nat.div_unique _ 2 h 1); lia).
  replace (Nat.min (n - h) n - h)%nat with (n - (2 * h + 1) + 1)%nat by lia.
  unfold axis_ok at 1. rewrite Nat.eqb_refl. cbn [orb].
  eexists. split; [reflexivity|]. cbn [rows cols at2]. split; [reflexivity|]. split; [reflexivity|]. intros i j I J.
  destruct (Nat.leb_spec h i), (Nat.ltb_spec i (n - h)), (Nat.leb_spec h j), (Nat.ltb_spec j (n - h)); cbn [andb]; try reflexivity.
  unfold bidx. destruct (Nat.eqb_spec (n - (2 * h + 1) + 1) 1) as [X|X]; [|reflexivity].
  replace (i - h)%nat with 0%nat by lia. reflexivity.
Qed.
(** The mask of a square plane before smoothing. *)
Lemma rarray_square n : (0 < n)%nat -> exists r, rarray n n = Ok r /\ rows r = n /\ cols r = n
  /\ forall i j, (i < n)%nat -> (j < n)%nat -> at2 r i j = sqrt ((INR j - half n) ^ 2 + (INR i - half n) ^ 2).
Proof.
  intros N. unfold rarray. rewrite !meshgrid_square.
  destruct (meshgrid_axis n n 1 N) as (mx & -> & (LX & CX) & VX). destruct (meshgrid_axis n n 2 N) as (my & -> & (LY & CY) & VY).
  cbn [bind]. unfold azip, of_lists. cbn [rows cols at2].
  assert (HX : List.length (hd [] mx) = n) by (rewrite <- (CX 0%nat N); destruct mx; reflexivity).
  assert (HY : List.length (hd [] my) = n) by (rewrite <- (CY 0%nat N); destruct my; reflexivity).
  rewrite LX, LY, HX, HY. unfold bdim. rewrite Nat.eqb_refl. eexists. split; [reflexivity|]. cbn [rows cols at2].
  split; [reflexivity|]. split; [reflexivity|]. intros i j I J.
  assert (B : forall k, (k < n)%nat -> bidx n k = k) by (intros k K; unfold bidx; destruct (Nat.eqb_spec n 1); lia).
  rewrite !B by assumption. unfold nth2 in VX, VY. rewrite (VX i j I J), (VY i j I J). reflexivity.
Qed.
Lemma cut_mask_square n t r : (0 < n)%nat -> rows r = n -> cols r = n ->
  exists m, cut_mask n n t r = Ok m /\ rows m = n /\ cols m = n
  /\ forall i j, (i < n)%nat -> (j < n)%nat -> at2 m i j = if cut t (at2 r i j) then 0 else 1.
Proof.
  intros N R0 C0. unfold cut_mask. rewrite R0, C0.
  assert (A : forallb (fun k => negb (cut t (at2 r (k / n) (k mod n))) || (k <? n * n)%nat) (seq 0 (n * n)) = true).
  { apply forallb_forall. intros k K. apply in_seq in K. rewrite (proj2 (Nat.ltb_lt _ _)) by lia. apply orb_true_r. }
  rewrite A. eexists. split; [reflexivity|]. cbn [rows cols at2]. split; [reflexivity|]. split; [reflexivity|]. intros i j I J.
  assert (L : (i * n + j < n * n)%nat) by nia. rewrite (proj2 (Nat.ltb_lt _ _) L). cbn [andb].
  assert ((i * n + j) / n = i)%nat as -> by (symmetry; apply (Nat.div_unique _ n i j); lia).
  assert ((i * n + j) mod n = j)%nat as -> by (symmetry; apply (Nat.mod_unique _ n i j); lia). reflexivity.
Qed.
Lemma kernel_default n : (0 < n)%nat -> (kernel_width n n None <= n)%nat.
Proof.
  intros N. unfold kernel_width. rewrite Nat.sqrt_square. pose proof (Nat.div_mod n 100 ltac:(lia)). pose proof (Nat.mod_upper_bound n 100 ltac:(lia)).
  destruct (Nat.eqb_spec (Nat.max (n / 100) 1 mod 2) 0) as [Z|Z]; [|lia].
  destruct (Nat.le_gt_cases (n / 100) 1) as [L|L]; [|lia]. replace (Nat.max (n / 100) 1) with 1%nat in Z by lia. discriminate Z.
Qed.
(** The whole mask, between 0 and 1, with what is certain about it. *)
Definition kept (n : nat) (t : R) (i j : nat) : R := if cut t (sqrt ((INR j - half n) ^ 2 + (INR i - half n) ^ 2)) then 0 else 1.
Lemma threshold_square n t w : (0 < n)%nat -> (kernel_width n n w <= n)%nat ->
  exists m h, threshold_mask n n t w = Ok m /\ rows m = n /\ cols m = n /\ kernel_width n n w = (2 * h + 1)%nat
  /\ forall i j, (i < n)%nat -> (j < n)%nat ->
     at2 m i j = if (h <=? i)%nat && (i <? n - h)%nat && (h <=? j)%nat && (j <? n - h)%nat
                 then rsum (2 * h + 1) (fun a => rsum (2 * h + 1) (fun b => kept n t (i - h + a) (j - h + b) * / (INR (2 * h + 1) * INR (2 * h + 1))))
                 else kept n t i j.
Proof.
  intros N K. unfold threshold_mask. destruct (rarray_square n N) as (r & -> & R0 & C0 & V). cbn [bind].
  destruct (cut_mask_square n t r N R0 C0) as (m & -> & R1 & C1 & V1). cbn [bind].
  destruct (kernel_odd n n w) as (h & HK). rewrite HK in *.
  destruct (smooth_square n h m R1 C1 K) as (s & -> & R2 & C2 & V2).
  exists s, h. split; [reflexivity|]. split; [exact R2|]. split; [exact C2|]. split; [reflexivity|]. intros i j I J. rewrite V2 by assumption.
  destruct (Nat.leb_spec h i), (Nat.ltb_spec i (n - h)), (Nat.leb_spec h j), (Nat.ltb_spec j (n - h)); cbn [andb];
    try (rewrite V1, V by assumption; reflexivity).
  apply rsum_ext. intros a A. apply rsum_ext. intros b B. rewrite V1, V by lia. reflexivity.
Qed.
(** The average over a window where the mask has one value. *)
Lemma window_const h c (f : nat -> nat -> R) : (forall a b, (a < 2 * h + 1)%nat -> (b < 2 * h + 1)%nat -> f a b = c) ->
  rsum (2 * h + 1) (fun a => rsum (2 * h + 1) (fun b => f a b * / (INR (2 * h + 1) * INR (2 * h + 1)))) = c.
Proof.
  intros H. rewrite (rsum_ext _ _ (fun _ => INR (2 * h + 1) * (c * / (INR (2 * h + 1) * INR (2 * h + 1))))).
  - rewrite rsum_const. field. apply not_0_INR. lia.
  - intros a A. rewrite <- (rsum_const _ (c * / (INR (2 * h + 1) * INR (2 * h + 1)))). apply rsum_ext. intros b B. now rewrite H.
Qed.
Lemma threshold_zero n w : (0 < n)%nat -> (kernel_width n n w <= n)%nat ->
  exists m, threshold_mask n n 0 w = Ok m /\ rows m = n /\ cols m = n /\ forall i j, (i < n)%nat -> (j < n)%nat -> at2 m i j = 1.
Proof.
  intros N K. destruct (threshold_square n 0 w N K) as (m & h & E & R0 & C0 & _ & V). exists m. split; [exact E|]. split; [exact R0|]. split; [exact C0|].
  assert (KP : forall i j, kept n 0 i j = 1).
  { intros i j. unfold kept, cut. destruct (Rle_dec 0 0); [|lra]. destruct (Rlt_dec _ 0) as [X|X]; [|reflexivity].
    exfalso. pose proof (sqrt_pos ((INR j - half n) ^ 2 + (INR i - half n) ^ 2)). lra. }
  intros i j I J. rewrite V by assumption. rewrite KP. match goal with |- (if ?b then _ else _) = _ => destruct b end; [|reflexivity].
  apply window_const. intros; apply KP.
Qed.

(** ** The function *)
Lemma bind_ok {A B} (x : result A) (f : A -> result B) r : bind x f = Ok r -> exists a, x = Ok a /\ f a = Ok r.
Proof. destruct x; cbn; [eauto|discriminate]. Qed.
Lemma arr_eq_refl {A} (a : arr2 A) : arr_eq a a. Proof. repeat split. Qed.
Lemma arr_eq_sym {A} (a b : arr2 A) : arr_eq a b -> arr_eq b a.
Proof. intros (R0 & C0 & E). split; [auto|]. split; [auto|]. intros i j I J. symmetry. apply E; congruence. Qed.
Lemma arr_eq_trans {A} (a b c : arr2 A) : arr_eq a b -> arr_eq b c -> arr_eq a c.
Proof. intros (R0 & C0 & E) (R1 & C1 & E1). split; [congruence|]. split; [congruence|]. intros i j I J. rewrite E by assumption. apply E1; congruence. Qed.
Lemma mul_same a (m : arr2 R) : same_shape m a -> exists p, mul_into rmul a m = Ok p /\ arr_eq p (weighted (at2 m) a).
Proof.
  intros (R0 & C0). unfold mul_into, axis_ok. rewrite R0, C0, !Nat.eqb_refl. cbn [orb andb]. eexists. split; [reflexivity|].
  split; [reflexivity|]. split; [reflexivity|]. cbn [rows cols at2 weighted]. intros i j I J. unfold rmul, bidx.
  destruct (Nat.eqb_spec (rows a) 1), (Nat.eqb_spec (cols a) 1); repeat f_equal; lia.
Qed.
Lemma weighted_ext w w' a b : arr_eq a b -> (forall i j, (i < rows a)%nat -> (j < cols a)%nat -> w i j = w' i j) -> arr_eq (weighted w a) (weighted w' b).
Proof. intros (R0 & C0 & E) H. split; [exact R0|]. split; [exact C0|]. cbn. intros i j I J. rewrite H, E by assumption. reflexivity. Qed.
Lemma weighted_twice w w' a : arr_eq (weighted w (weighted w' a)) (weighted (fun i j => w i j * w' i j) a).
Proof. split; [reflexivity|]. split; [reflexivity|]. cbn. intros i j I J. apply cscale_scale. Qed.
Lemma weighted_one w a : (forall i j, (i < rows a)%nat -> (j < cols a)%nat -> w i j = 1) -> arr_eq (weighted w a) a.
Proof. intros H. split; [reflexivity|]. split; [reflexivity|]. cbn. intros i j I J. rewrite H by assumption. apply cscale_1. Qed.
Lemma amap_weighted r a : arr_eq (amap (cscale r) a) (weighted (fun _ _ => r) a).
Proof. repeat split. Qed.

Lemma is_image_ext nr a b i : arr_eq a b -> is_image nr a i -> is_image nr b i.
Proof.
  intros E (R0 & C0 & V). pose proof E as (R1 & C1 & _). split; [congruence|]. split; [congruence|]. intros y x Y X.
  rewrite <- (fourier_ext a b y x E). apply V; congruence.
Qed.
Lemma even_ext a b : arr_eq a b -> even_sizes a -> even_sizes b.
Proof. intros (R0 & C0 & _) H. unfold even_sizes in *. now rewrite <- R0, <- C0. Qed.
Lemma image_plain o w : even_sizes (plane w) -> o_beam o = None -> o_norm o = None ->
  exists img, step_image o w = Ok img /\ is_image (o_not_real o) (plane w) img.
Proof.
  intros EV B N. unfold step_image. destruct (fft_ok (plane w)) as (f & F); [apply EV|apply EV|]. rewrite F. cbn [bind]. rewrite B, N. cbn [bind].
  destruct (shifted_fft _ _ EV F) as (R0 & C0 & V). eexists. split; [reflexivity|]. unfold is_image.
  destruct (o_not_real o); cbn [real_part amap rows cols at2]; (split; [exact R0|]; split; [exact C0|]); intros y x Y X; now rewrite V.
Qed.
Lemma threshold_none o w : (o_threshold o = None \/ (o_threshold o = Some 0 /\ rows (plane w) = cols (plane w)
    /\ (kernel_width (rows (plane w)) (cols (plane w)) (o_width o) <= rows (plane w))%nat)) -> (0 < rows (plane w))%nat ->
  current w = None -> exists w', step_threshold o w = Ok w' /\ current w' = None /\ arr_eq (plane w') (plane w).
Proof.
  intros T R0 CN. unfold step_threshold. destruct T as [->|(-> & RC & K)]; [exists w; split; [reflexivity|]; split; [exact CN|]; apply arr_eq_refl|].
  rewrite <- RC in *. destruct (threshold_zero _ _ R0 K) as (m & -> & R1 & C1 & V). cbn [bind].
  destruct (mul_same (plane w) m) as (p & -> & E); [split; congruence|]. cbn [bind]. eexists. split; [reflexivity|].
  unfold in_place. rewrite CN. cbn [current plane caller]. split; [reflexivity|]. eapply arr_eq_trans; [exact E|].
  apply weighted_one. intros i j I J. apply V; lia.
Qed.
Lemma mask_step o w : current w = None -> (forall m, o_mask o = Some m -> same_shape m (plane w)) ->
  exists w', step_mask o w = Ok w' /\ current w' = None /\ arr_eq (plane w') (weighted (factor (o_mask o)) (plane w)).
Proof.
  intros CN SH. unfold step_mask. destruct (o_mask o) as [m|].
  - destruct (mul_same (plane w) m (SH m eq_refl)) as (p & -> & E). cbn [bind]. eexists. split; [reflexivity|]. unfold in_place. rewrite CN.
    split; [reflexivity|]. cbn [plane current caller]. exact E.
  - exists w. split; [reflexivity|]. split; [exact CN|]. apply arr_eq_sym, weighted_one. reflexivity.
Qed.
Lemma filter_step uniform o w : current w = None -> (forall m, o_filter o = Some m -> same_shape m (plane w)) ->
  exists w', step_filter uniform o w = Ok (w', o_filter o) /\ current w' = None /\ arr_eq (plane w') (weighted (factor (o_filter o)) (plane w)).
Proof.
  intros CN SH. unfold step_filter. destruct (o_filter o) as [m|].
  - destruct (SH m eq_refl) as (R0 & C0). rewrite R0, C0, Nat.eqb_refl.
    destruct (mul_same (plane w) m (conj R0 C0)) as (p & -> & E). cbn [bind]. eexists. split; [reflexivity|]. unfold in_place. rewrite CN.
    split; [reflexivity|]. cbn [plane current caller]. exact E.
  - exists w. split; [reflexivity|]. split; [exact CN|]. apply arr_eq_sym, weighted_one. reflexivity.
Qed.
Lemma degpix_step o w : current w = None ->
  current (step_degpix o w) = None /\ arr_eq (plane (step_degpix o w)) (weighted (fun _ _ => per_steradian (o_degpix o)) (plane w)).
Proof.
  intros CN. unfold step_degpix, per_steradian. destruct (o_degpix o) as [d|].
  - unfold in_place. rewrite CN. split; [reflexivity|]. cbn [plane current caller]. unfold plane. rewrite CN. apply amap_weighted.
  - split; [exact CN|]. apply arr_eq_sym, weighted_one. reflexivity.
Qed.
Lemma degpix_copy o w a : current w = Some a ->
  exists b, step_degpix o w = {| caller := caller w; current := Some b |} /\ arr_eq b (weighted (fun _ _ => per_steradian (o_degpix o)) a).
Proof.
  intros CN. unfold step_degpix, per_steradian. destruct (o_degpix o) as [d|].
  - unfold in_place. rewrite CN. eexists. split; [reflexivity|]. unfold plane. rewrite CN. apply amap_weighted.
  - exists a. split; [destruct w; cbn in *; congruence|]. apply arr_eq_sym, weighted_one. reflexivity.
Qed.
(** Up to the padding. *)
Lemma simple_front uniform rebin o uv : even_sizes uv ->
  (o_threshold o = None \/ (o_threshold o = Some 0 /\ rows uv = cols uv /\ (kernel_width (rows uv) (cols uv) (o_width o) <= rows uv)%nat)) ->
  (forall m, o_mask o = Some m -> same_shape m uv) -> (forall f, o_filter o = Some f -> same_shape f uv) -> o_resize o = None ->
  exists w, current w = None /\ arr_eq (plane w) (weighted (fun i j => factor (o_filter o) i j * factor (o_mask o) i j) uv)
  /\ dirty_image_generate uniform rebin o uv =
     (w <- step_pad o w (rows uv, cols uv) ;; let w := step_degpix o w in image <- step_image o w ;; Ok (image, o_filter o, caller w)).
Proof.
  intros EV T M F RS. unfold dirty_image_generate.
  destruct (threshold_none o {| caller := uv; current := None |} T) as (w1 & -> & CN1 & E1); [apply EV|reflexivity|]. cbn [bind].
  change (plane {| caller := uv; current := None |}) with uv in E1.
  destruct (mask_step o w1 CN1) as (w2 & -> & CN2 & E2).
  { intros m X. destruct (M m X) as (A & B). destruct E1 as (A' & B' & _). split; congruence. }
  cbn [bind]. destruct (filter_step uniform o w2 CN2) as (w3 & -> & CN3 & E3).
  { intros m X. destruct (F m X) as (A & B). destruct E1 as (A' & B' & _). destruct E2 as (A2 & B2 & _). cbn in A2, B2. split; congruence. }
  cbn [bind]. unfold step_resize. rewrite RS. cbn [bind]. exists w3. split; [exact CN3|]. split; [|reflexivity].
  eapply arr_eq_trans; [exact E3|]. eapply arr_eq_trans; [|apply weighted_twice]. apply weighted_ext; [|reflexivity].
  eapply arr_eq_trans; [exact E2|]. apply weighted_ext; [exact E1|reflexivity].
Qed.
Lemma simple_run uniform rebin o uv : even_sizes uv -> simple o uv ->
  exists img after, dirty_image_generate uniform rebin o uv = Ok (img, o_filter o, after)
    /\ is_image (o_not_real o) (used o uv) img /\ arr_eq after (used o uv).
Proof.
  intros EV (T & M & F & RS & P & B & N). destruct (simple_front uniform rebin o uv EV T M F RS) as (w & CN & E & ->).
  unfold step_pad. rewrite P. cbn [bind]. destruct (degpix_step o w CN) as (CN' & ED).
  assert (EU : arr_eq (plane (step_degpix o w)) (used o uv)).
  { eapply arr_eq_trans; [exact ED|]. eapply arr_eq_trans; [|apply weighted_twice]. apply weighted_ext; [exact E|reflexivity]. }
  destruct (image_plain o (step_degpix o w)) as (img & -> & I); auto.
  { eapply even_ext; [apply arr_eq_sym; exact EU|]. exact EV. }
  cbn [bind]. eexists _, _. split; [reflexivity|]. split; [eapply is_image_ext; eassumption|].
  replace (caller (step_degpix o w)) with (plane (step_degpix o w)) by (unfold plane; now rewrite CN'). exact EU.
Qed.

(** ** Padding *)
Lemma csum_window k n f : (forall i, (i < k)%nat \/ (k + n <= i)%nat -> f i = (0, 0)) -> csum (n + 2 * k) f = csum n (fun i => f (k + i)%nat).
Proof.
  intros H. replace (n + 2 * k)%nat with (k + (n + k))%nat by lia. rewrite csum_split, csum_zero by (intros i I; apply H; lia).
  rewrite cadd_0, csum_split. rewrite (csum_zero k) by (intros i I; apply H; lia). apply cadd_0r.
Qed.
Lemma fourier_pad a b h p y x : rows a = (2 * h)%nat -> cols a = (2 * h)%nat -> (0 < h)%nat -> (1 <= p)%nat ->
  np_pad a (Z.of_nat (h * (p - 1))) = Ok b ->
  rows b = (p * (2 * h))%nat /\ cols b = (p * (2 * h))%nat /\ fourier b (p * y) (p * x) = cscale (/ (INR p ^ 2)) (fourier a y x).
Proof.
  intros R0 C0 H P E. unfold np_pad in E. destruct (Z.ltb_spec (Z.of_nat (h * (p - 1))) 0); [lia|].
  match type of E with Ok ?v = Ok _ => assert (EB : b = v) by congruence; clear E; subst b end. rewrite Nat2Z.id.
  cbn [rows cols]. assert (SZ : (2 * h + 2 * (h * (p - 1)) = p * (2 * h))%nat) by (replace p with (S (p - 1)) at 2 by lia; lia).
  rewrite R0, C0. split; [exact SZ|]. split; [exact SZ|]. unfold fourier. cbn [rows cols at2]. rewrite R0, C0, SZ.
  set (k := (h * (p - 1))%nat) in *. rewrite cscale_scale. rewrite <- SZ at 3.
  rewrite csum_window.
  2:{ intros e O. apply csum_zero. intros d D. destruct (Nat.leb_spec k e), (Nat.ltb_spec e (k + 2 * h)); try lia; cbn [andb]; cx. }
  rewrite (csum_ext (2 * h) _ (fun e => csum (2 * h) (fun d => cmul (at2 a e d)
         (cexp_i (- (2 * PI * ((INR e - half (2 * h)) * (INR y - half (2 * h)) / INR (2 * h) + (INR d - half (2 * h)) * (INR x - half (2 * h)) / INR (2 * h)))))))).
  - f_equal. rewrite !mult_INR. change (INR 2) with 2. field. split; apply not_0_INR; lia.
  - intros e HE. rewrite <- SZ at 1. rewrite csum_window.
    2:{ intros d O. destruct (Nat.leb_spec k d), (Nat.ltb_spec d (k + 2 * h)); try lia; cbn [andb]; rewrite ?andb_false_r; cbn [andb]; cx. }
    apply csum_ext. intros d HD.
    rewrite (proj2 (Nat.leb_le k (k + e))), (proj2 (Nat.ltb_lt (k + e) (k + 2 * h))), (proj2 (Nat.leb_le k (k + d))), (proj2 (Nat.ltb_lt (k + d) (k + 2 * h))) by lia.
    cbn [andb]. replace (k + e - k)%nat with e by lia. replace (k + d - k)%nat with d by lia. f_equal. f_equal. f_equal. f_equal.
    unfold half, k. rewrite !plus_INR, !mult_INR, minus_INR by lia. change (INR 2) with 2. change (INR 1) with 1. field. split; apply not_0_INR; lia.
Qed.
Lemma py_int_Z (z : Z) : py_int (inject_Z z) = z.
Proof.
  unfold py_int. destruct (Qlt_le_dec (inject_Z z) 0); [|apply Qround.Qfloor_Z].
  change (- inject_Z z)%Q with (inject_Z (- z)). rewrite Qround.Qfloor_Z. lia.
Qed.
Lemma py_int_one q : (1 <= q)%Q -> (q < 2)%Q -> py_int q = 1%Z.
Proof.
  intros L U. unfold py_int. destruct (Qlt_le_dec q 0) as [X|X]; [exfalso; apply (Qlt_not_le _ _ X); eapply Qle_trans; [|exact L]; discriminate|].
  pose proof (Qround.Qfloor_resp_le _ _ L) as A. change (Qround.Qfloor 1) with 1%Z in A.
  assert (B : (Qround.Qfloor q < 2)%Z). { rewrite Zlt_Qlt. eapply Qle_lt_trans; [apply Qround.Qfloor_le|exact U]. } lia.
Qed.
(** Runs that end in padding, and what they leave of the caller's plane. *)
Lemma padded_run uniform rebin o uv q b : even_sizes uv ->
  (o_threshold o = None \/ (o_threshold o = Some 0 /\ rows uv = cols uv /\ (kernel_width (rows uv) (cols uv) (o_width o) <= rows uv)%nat)) ->
  (forall m, o_mask o = Some m -> same_shape m uv) -> (forall f, o_filter o = Some f -> same_shape f uv) -> o_resize o = None ->
  o_beam o = None -> o_norm o = None -> o_pad o = Some q ->
  let a := weighted (fun i j => factor (o_filter o) i j * factor (o_mask o) i j) uv in
  np_pad a (Z.of_nat (Nat.max (rows uv) (cols uv) / 2) * (py_int q - 1)) = Ok b -> even_sizes b ->
  exists img after, dirty_image_generate uniform rebin o uv = Ok (img, o_filter o, after)
    /\ is_image (o_not_real o) (weighted (fun _ _ => per_steradian (o_degpix o) * Q2R q ^ 2) b) img /\ arr_eq after a.
Proof.
  intros EV T M F RS B N P a PB EB. destruct (simple_front uniform rebin o uv EV T M F RS) as (w & CN & E & ->).
  unfold step_pad. rewrite P. cbn [fst snd].
  assert (PB' : exists b', np_pad (plane w) (Z.of_nat (Nat.max (rows uv) (cols uv) / 2) * (py_int q - 1)) = Ok b' /\ arr_eq b' b).
  { unfold np_pad in *. destruct (_ <? 0)%Z; [discriminate PB|]. eexists. split; [reflexivity|].
    match type of PB with Ok ?v = Ok _ => assert (EQ : b = v) by congruence; rewrite EQ end. destruct E as (R0 & C0 & V).
    unfold a. cbn [rows cols weighted] in *. split; [cbn; now rewrite R0|]. split; [cbn; now rewrite C0|]. cbn [rows cols at2]. intros i j I J.
    rewrite <- R0, <- C0 in *. 
    match goal with |- (if ?c then _ else _) = _ => destruct c eqn:K end; [|reflexivity].
    apply andb_prop in K as (K & K4). apply andb_prop in K as (K & K3). apply andb_prop in K as (K1 & K2).
    apply Nat.leb_le in K1, K3. apply Nat.ltb_lt in K2, K4. rewrite V by lia. reflexivity. }
  destruct PB' as (b' & -> & EB'). cbn [bind].
  destruct (degpix_copy o (copied w (amap (cscale (Q2R q ^ 2)) b')) _ eq_refl) as (c & -> & EC).
  assert (EU : arr_eq c (weighted (fun _ _ => per_steradian (o_degpix o) * Q2R q ^ 2) b)).
  { eapply arr_eq_trans; [exact EC|]. eapply arr_eq_trans; [|apply weighted_twice]. apply weighted_ext; [|reflexivity].
    eapply arr_eq_trans; [apply amap_weighted|]. apply weighted_ext; [exact EB'|reflexivity]. }
  destruct (image_plain o {| caller := caller (copied w (amap (cscale (Q2R q ^ 2)) b')); current := Some c |}) as (img & -> & I); auto.
  { cbn [plane current]. eapply even_ext; [apply arr_eq_sym; exact EU|]. exact EB. }
  cbn [bind]. eexists _, _. split; [reflexivity|]. split; [cbn [plane current] in I; eapply is_image_ext; [exact EU|exact I]|].
  cbn [caller copied]. unfold a. replace (caller w) with (plane w) by (unfold plane; now rewrite CN). exact E.
Qed.
Lemma fourier_weighted r a y x : fourier (weighted (fun _ _ => r) a) y x = cscale r (fourier a y x).
Proof. exact (fourier_scale r a y x). Qed.
Lemma csum_single n k f : (k < n)%nat -> (forall i, (i < n)%nat -> i <> k -> f i = (0, 0)) -> csum n f = f k.
Proof.
  intros K Z. replace n with (k + (1 + (n - k - 1)))%nat by lia. rewrite csum_split, csum_zero by (intros i I; apply Z; [lia|lia]). rewrite cadd_0, csum_split.
  rewrite (csum_zero (n - k - 1)) by (intros i I; apply Z; [lia|lia]). rewrite cadd_0r. unfold csum. cbn [seq map fold_right]. rewrite cadd_0r. f_equal. lia.
Qed.
