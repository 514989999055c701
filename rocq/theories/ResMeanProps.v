(** C25: property theorems about resistant_mean. *)
From Coq Require Import Qabs Permutation Lqa.
From Verif Require Import Base SortLib GridLoc GridLocProofs VisWeights ResMean ResMeanSpec ResMeanProofs.
Open Scope Q_scope.
Ltac Zify.zify_post_hook ::= idtac.

(** Whenever a number is returned it is the mean of the elements within the final threshold: take
    the median [med], the median absolute deviation [mad], the variance [s2] of the elements within
    [d * mad / 0.6745] of the median, and keep the elements within [d * sqrt s2 / c] of the median. *)
Theorem C25_mean_of_inliers : forall a d v, resistant_mean a d = Some v ->
  exists med mad s2 c,
    is_med a med /\ is_med (map (fun x => Qabs (x - med)) a) mad
    /\ (forall near : Q -> bool,
          (forall x, near x = true <-> Qabs (x - med) * (67449999999999999 # 100000000000000000) <= d * mad) ->
          is_var (filter near a) s2)
    /\ correction d c /\ 0 < c
    /\ (forall near : Q -> bool,
          (forall x, near x = true <-> (x - med) * (x - med) * (c * c) <= s2 * (d * d)) ->
          is_mean (filter near a) v)
    /\ (exists lo hi, In lo a /\ In hi a /\ lo <= v <= hi).
Proof.
  intros a d v H. destruct (resistant_inv a d v H) as (med & mad & E1 & E2 & N1 & N2 & ->).
  destruct (thr2_correction d) as (c & HC & P & HT).
  exists med, mad, (Qvar (inner a med mad d)), c.
  split; [now apply np_median_med|]. split; [now apply np_median_med|]. split; [|split; [exact HC|split; [exact P|split]]].
  - intros near HN. replace (filter near a) with (inner a med mad d); [now apply Qvar_var|].
    apply filter_decides. intros x. rewrite Qle_bool_iff, HN. fold mad_scale.
    assert (MS : 0 < mad_scale) by reflexivity. split; intros X.
    + setoid_replace (d * mad) with (d * (mad / mad_scale) * mad_scale) by (field; lra).
      apply Qmult_le_compat_r; [exact X|lra].
    + setoid_replace (d * mad) with (d * (mad / mad_scale) * mad_scale) in X by (field; lra).
      now apply Qmult_lt_0_le_reg_r in X.
  - intros near HN. replace (filter near a) with (kept a med (thr2 (Qvar (inner a med mad d)) d)); [now apply Qmean_mean|].
    apply filter_decides. intros x. rewrite Qle_bool_iff, HN, Qabs_sq, <- HT.
    assert (P2 : 0 < c * c) by (now apply Qmult_lt_0_compat). split; intros X.
    + apply Qmult_le_compat_r; [exact X|lra].
    + now apply Qmult_lt_0_le_reg_r in X.
  - destruct (mean_between _ _ (Qmean_mean _ N2)) as (lo & hi & I1 & I2 & B).
    unfold kept in I1, I2. apply filter_In in I1 as [I1 _]. apply filter_In in I2 as [I2 _]. exists lo, hi. auto.
Qed.
Print Assumptions C25_mean_of_inliers.

(** For an odd number of values a number is always returned. *)
Theorem C25_odd_total : forall a d, Nat.odd (length a) = true -> 0 <= d ->
  exists v, resistant_mean a d = Some v.
Proof.
  intros a d HO Hd.
  assert (N : a <> []) by (intros ->; discriminate HO).
  destruct (np_median_some a N) as (med & HM). pose proof (np_median_med _ _ HM) as (s & P & S & _ & E).
  pose proof (Permutation_length P) as L. apply Nat.odd_spec in HO as (k & HK). rewrite <- L, HK in E.
  replace ((2 * k + 1 - 1) / 2)%nat with k in E by (replace (2 * k + 1 - 1)%nat with (k * 2)%nat by lia; symmetry; now apply Nat.div_mul).
  replace ((2 * k + 1) / 2)%nat with k in E by (apply (Nat.div_unique _ 2 k 1); lia).
  apply (median_kept a d (nth k s 0) med HM); auto.
  - apply Permutation_in with s; [now apply Permutation_sym|]. apply nth_In. lia.
  - rewrite E. field.
Qed.
Print Assumptions C25_odd_total.

(** A constant array gives the constant. *)
Theorem C25_constant : forall a d c, a <> [] -> (forall x, In x a -> x == c) -> 0 <= d ->
  exists v, resistant_mean a d = Some v /\ v == c.
Proof.
  intros a d c N HC Hd. destruct (np_median_some a N) as (med & HM).
  assert (X : exists x, In x a) by (destruct a as [|x a]; [congruence|exists x; now left]). destruct X as (x & Hx).
  assert (E : x == med).
  { pose proof (np_median_med _ _ HM) as (s & P & S & _ & E).
    assert (L : (0 < length s)%nat) by (rewrite <- (Permutation_length P); destruct a; [congruence|cbn; lia]).
    assert (L1 : ((length s - 1) / 2 < length s)%nat) by (apply Nat.div_lt_upper_bound; lia).
    assert (L2 : (length s / 2 < length s)%nat) by (apply Nat.div_lt; lia).
    assert (V : forall k, (k < length s)%nat -> nth k s 0 == c).
    { intros k Hk. apply HC. eapply Permutation_in; [apply Permutation_sym, P|]. now apply nth_In. }
    rewrite E, (V _ L1), (V _ L2), (HC x Hx). field. }
  destruct (median_kept a d x med HM Hx E Hd) as (v & HV). exists v. split; auto.
  destruct (C25_mean_of_inliers a d v HV) as (_ & _ & _ & _ & _ & _ & _ & _ & _ & _ & lo & hi & I1 & I2 & B).
  apply HC in I1, I2. rewrite I1, I2 in B. lra.
Qed.
Print Assumptions C25_constant.

(** The order of the values does not matter. *)
Theorem C25_order_free : forall a b d, Permutation a b ->
  match resistant_mean a d, resistant_mean b d with
  | Some v, Some w => v == w
  | None, None => True
  | _, _ => False
  end.
Proof.
  intros a b d P. rewrite !resistant_mean_eq.
  destruct a as [|x0 a0]; [apply Permutation_nil in P; subst b; exact I|].
  set (a := x0 :: a0) in *. assert (Na : a <> []) by discriminate.
  assert (Nb : b <> []). { intros ->. apply Permutation_sym, Permutation_nil in P. discriminate P. }
  destruct (np_median_some a Na) as (m1 & E1). destruct (np_median_some b Nb) as (m2 & E2). rewrite E1, E2.
  assert (EM : m1 == m2).
  { apply (is_med_unique a b); try apply np_median_med; auto. - now apply Permutation_length. - intros c. now apply cnt_perm. }
  destruct (np_median_some (map (fun x => Qabs (x - m1)) a)) as (d1 & D1). { intros X%map_eq_nil. congruence. }
  destruct (np_median_some (map (fun x => Qabs (x - m2)) b)) as (d2 & D2). { intros X%map_eq_nil. congruence. }
  rewrite D1, D2.
  assert (ED : d1 == d2).
  { apply (is_med_unique (map (fun x => Qabs (x - m1)) a) (map (fun x => Qabs (x - m2)) b)); try apply np_median_med; auto.
    - rewrite !map_length. now apply Permutation_length.
    - intros c. rewrite (cnt_perm c _ _ (Permutation_map (fun x => Qabs (x - m1)) P)).
      unfold cnt. clear -EM. induction b as [|y b IH]; cbn [map filter]; auto.
      rewrite (Qle_bool_ext (Qabs (y - m1)) (Qabs (y - m2)) c c) by (rewrite ?EM; reflexivity).
      destruct (Qle_bool _ c); cbn [length]; now rewrite IH. }
  assert (PI : Permutation (inner a m1 d1 d) (inner b m2 d2 d)).
  { apply filter_perm; auto. intros x. apply Qle_bool_ext; rewrite ?EM, ?ED; reflexivity. }
  set (t1 := thr2 (Qvar (inner a m1 d1 d)) d). set (t2 := thr2 (Qvar (inner b m2 d2 d)) d).
  assert (ET : t1 == t2) by (apply thr2_ext; now apply Qvar_perm).
  assert (PK : Permutation (kept a m1 t1) (kept b m2 t2)).
  { apply filter_perm; auto. intros x. apply Qle_bool_ext; rewrite ?EM, ?ET; reflexivity. }
  pose proof (Permutation_length PI) as LI. pose proof (Permutation_length PK) as LK. pose proof (Qmean_perm _ _ PK) as MK.
  destruct (inner a m1 d1 d), (inner b m2 d2 d); cbn [length] in LI; try lia; auto.
  destruct (kept a m1 t1), (kept b m2 t2); cbn [length] in LK; try lia; auto.
Qed.
Print Assumptions C25_order_free.

(** With an even number of values the result can be NaN: here 40 values, deviations 2 as in every
    call of the package. *)
Theorem C25_nan_refuted : exists a, length a = 40%nat /\ resistant_mean a 2 = None.
Proof.
  exists (repeat (-1000) 19 ++ [-1] ++ repeat 1 20). split; [reflexivity|]. vm_compute. reflexivity.
Qed.
Print Assumptions C25_nan_refuted.

Example resistant_mean_ex : exists v, resistant_mean [1; 2; 3; 2; 1000] 2 = Some v /\ v == 2.
Proof.
  eexists. split; [vm_compute; reflexivity|]. reflexivity.
Qed.
