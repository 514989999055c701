From Coq Require Import ZifyBool ZifyNat Lqa.
From Verif Require Import Base SortLib PyIndex Cplx WeightInvert WeightInvertProofs CalApply AdaptGain AdaptGainSpec.
Open Scope nat_scope.
Ltac Zify.zify_post_hook ::= idtac.

(** Linear arithmetic on canonical rationals. *)
Ltac qc_to_q :=
  unfold Qcle, Qclt in *;
  cbn [this Qcplus Qcmult Qcminus Qcopp Q2Qc Qcdiv Qcinv] in *;
  repeat match goal with
  | H : context [Qred ?x] |- _ => setoid_rewrite (Qred_correct x) in H
  | |- context [Qred ?x] => setoid_rewrite (Qred_correct x)
  end;
  change (/ 2)%Q with (1#2)%Q in *.

Lemma half_range b d q : (0 < b)%Qc -> (0 <= d)%Qc -> gain_in_range b q ->
  ((1 - d + q) / Q2Qc 2 <= 1)%Qc \/ ((1 - d + q) / Q2Qc 2 <= b)%Qc.
Proof.
  intros Hb Hd [_ H]. destruct (Qclt_le_dec b 1) as [L|L].
  - left. assert (q <= 1)%Qc. { destruct H; auto. qc_to_q. lra. } clear H.
    qc_to_q. lra.
  - right. assert (q <= b)%Qc. { destruct H; auto. qc_to_q. lra. } clear H.
    qc_to_q. lra.
Qed.

Lemma base_half b : (0 < b)%Qc -> gain_in_range b (b / Q2Qc 2)%Qc.
Proof. intros H. split; [apply Qcle_refl|right]. qc_to_q. lra. Qed.
Lemma base_itself b : (0 < b)%Qc -> gain_in_range b b.
Proof. intros H. split; [|right; apply Qcle_refl]. qc_to_q. lra. Qed.

Lemma xhalf_fin q : xhalf (Fin q) = Fin (q / Q2Qc 2)%Qc.
Proof. unfold xhalf, xdiv. destruct (Qc_eq_dec (Q2Qc 2) 0) as [E|]; auto. discriminate E. Qed.
Lemma xmax_fin a b : xmax (Fin a) (Fin b) = Fin (if Qcleb b a then a else b).
Proof. unfold xmax. cbn [is_nan orb xge]. now destruct (Qcleb b a). Qed.

(** The last step, whatever delta is. *)
Lemma final_ok b delta last : (0 < b)%Qc -> gain_ok b last ->
  gain_ok b (xmax (xhalf (Fin b)) (xhalf (xadd (xsub (Fin 1) (xabs delta)) last))).
Proof.
  intros Hb Hl. rewrite xhalf_fin.
  destruct Hl as [-> | (q & -> & Hq)].
  - left. destruct delta; reflexivity.
  - destruct delta as [d| | |].
    + cbn [xabs xsub xopp xadd]. set (a := if Qclt_le_dec d 0 then (- d)%Qc else d).
      assert (Ha : (0 <= a)%Qc).
      { unfold a. destruct (Qclt_le_dec d 0); auto. now apply Qc_neg_pos. }
      clearbody a. rewrite xhalf_fin, xmax_fin. right. eexists. split; [reflexivity|].
      destruct (Qcleb ((1 + - a + q) / Q2Qc 2)%Qc (b / Q2Qc 2)%Qc) eqn:E; [now apply base_half|].
      split.
      * destruct (Qclt_le_dec (b / Q2Qc 2)%Qc ((1 + - a + q) / Q2Qc 2)%Qc) as [L|L].
        { now apply Qclt_le_weak. }
        apply Qcleb_true in L. congruence.
      * apply half_range; auto.
    + right. exists (b / Q2Qc 2)%Qc. split; [reflexivity|now apply base_half].
    + right. exists (b / Q2Qc 2)%Qc. split; [reflexivity|now apply base_half].
    + left. reflexivity.
Qed.

Lemma py_list_spec {A} (l : list A) i a : py_list l i = Ok a -> forall d, i < length l /\ nth i l d = a.
Proof.
  unfold py_list. intros H d. destruct (nth_error l i) eqn:E; [|discriminate]. injection H as ->.
  split; [|now apply nth_error_nth]. apply nth_error_Some. congruence.
Qed.

Lemma step_ok b est gl cl n g gl' : (0 < b)%Qc ->
  (2 < n -> gain_ok b (nth (n - 1) gl NaN)) ->
  calculate_adaptive_gain gl cl n (Fin b) est = Ok (g, gl') ->
  gain_ok b g /\ n < length gl /\ gl' = upd gl n g /\ (n <= 2 -> g = Fin b).
Proof.
  intros Hb Hgl. unfold calculate_adaptive_gain.
  destruct (2 <? n) eqn:E2.
  - apply Nat.ltb_lt in E2.
    destruct (match est with Some e => Ok e | None => _ end) as [e|]; cbn [bind]; [|discriminate].
    destruct (py_list gl (n - 1)) as [lg|] eqn:Eg; cbn [bind]; [|discriminate].
    destruct (py_list cl (n - 2)) as [lc|]; cbn [bind]; [|discriminate].
    destruct (py_list cl (n - 1)) as [nc|]; cbn [bind]; [|discriminate].
    destruct (length gl <=? n) eqn:L; [discriminate|]. apply Nat.leb_gt in L.
    intros [= <- <-]. split; [|split; [auto|split; [auto|lia]]].
    apply final_ok; auto. destruct (py_list_spec _ _ _ Eg NaN) as [_ <-]. now apply Hgl.
  - cbn [bind]. destruct (length gl <=? n) eqn:L; [discriminate|]. apply Nat.leb_gt in L.
    intros [= <- <-]. split; [|split; [auto|split; auto]]. right. exists b. split; auto. now apply base_itself.
Qed.

Lemma step_total b est gl cl n : n < length gl -> length cl = length gl ->
  exists g, calculate_adaptive_gain gl cl n (Fin b) est = Ok (g, upd gl n g).
Proof.
  intros H L. unfold calculate_adaptive_gain.
  assert (P : forall {A} (l : list A) i, i < length l -> exists a, py_list l i = Ok a).
  { intros A l i Hi. unfold py_list. destruct (nth_error l i) eqn:E; [eauto|].
    apply nth_error_None in E. lia. }
  replace (length gl <=? n) with false by (symmetry; apply Nat.leb_gt; lia).
  destruct (2 <? n) eqn:E2; cbn [bind]; [|eauto].
  apply Nat.ltb_lt in E2.
  assert (M : exists e, match est with Some e => Ok e
     | None => l <- map_res (est_entry gl cl) (seq 0 (n - 1)) ;; Ok (xmedian (skipn (n - 5) l)) end = Ok e).
  { destruct est as [e|]; [eauto|].
    assert (R : forall k s, s + k <= n - 1 -> exists l, map_res (est_entry gl cl) (seq s k) = Ok l).
    { induction k as [|k IH]; intros s Hs; cbn [seq map_res]; [eauto|].
      unfold est_entry at 1. destruct (P _ gl s) as (a1 & ->); [lia|].
      destruct (P _ cl (s + 1)) as (a2 & ->); [lia|]. destruct (P _ cl s) as (a3 & ->); [lia|].
      cbn [bind]. destruct (IH (S s)) as (l & ->); [lia|]. cbn [bind]. eauto. }
    destruct (R (n - 1) 0) as (l & ->); [lia|]. cbn [bind]. eauto. }
  destruct M as (e & ->). cbn [bind].
  destruct (P _ gl (n - 1)) as (a1 & ->); [lia|]. destruct (P _ cl (n - 2)) as (a2 & ->); [lia|].
  destruct (P _ cl (n - 1)) as (a3 & ->); [lia|]. cbn [bind]. eauto.
Qed.

Lemma history_ok b est conv gl0 n gl : (0 < b)%Qc -> history b est conv gl0 n gl ->
  length gl = length gl0 /\ (forall j, j < n -> j < length gl /\ gain_ok b (nth j gl NaN))
  /\ (forall j, n <= j -> nth j gl NaN = nth j gl0 NaN)
  /\ (forall j, j < n -> j <= 2 -> nth j gl NaN = Fin b).
Proof.
  intros Hb. induction 1 as [|n gl g gl' H IH E].
  - repeat split; auto; intros; lia.
  - destruct IH as (L & I1 & I2 & I3).
    destruct (step_ok b est gl (conv n) n g gl' Hb) as (G1 & G2 & -> & G3); auto.
    { intros Hn. apply I1. lia. }
    rewrite upd_length. split; auto. split; [|split].
    + intros j Hj. destruct (Nat.eq_dec j n) as [->|].
      * split; auto. now rewrite upd_same.
      * destruct (I1 j) as [J1 J2]; [lia|]. split; auto. now rewrite upd_other by lia.
    + intros j Hj. rewrite upd_other by lia. apply I2. lia.
    + intros j Hj J2. destruct (Nat.eq_dec j n) as [->|].
      * rewrite upd_same by auto. auto.
      * rewrite upd_other by lia. apply I3; lia.
Qed.

(** A finite result for the estimate 0. *)
Lemma step_finite b gl cl n q c0 c1 : (0 < b)%Qc -> 2 < n -> n < length gl ->
  nth (n - 1) gl NaN = Fin q -> gain_in_range b q ->
  n - 1 < length cl -> nth (n - 2) cl NaN = Fin c0 -> nth (n - 1) cl NaN = Fin c1 -> c0 <> 0%Qc ->
  exists g, calculate_adaptive_gain gl cl n (Fin b) (Some (Fin 0)) = Ok (Fin g, upd gl n (Fin g))
    /\ gain_in_range b g.
Proof.
  intros Hb H2 Hn Eq Rq Hc E0 E1 Nz.
  assert (PL : forall (l : list xf) i a, i < length l -> nth i l NaN = a -> py_list l i = Ok a).
  { intros l i a Hi <-. unfold py_list. now rewrite (nth_error_nth' l NaN Hi). }
  assert (C : exists g, calculate_adaptive_gain gl cl n (Fin b) (Some (Fin 0)) = Ok (Fin g, upd gl n (Fin g))).
  { unfold calculate_adaptive_gain. replace (2 <? n) with true by (symmetry; now apply Nat.ltb_lt).
    cbn [bind]. rewrite (PL gl (n - 1) _ ltac:(lia) Eq), (PL cl (n - 2) _ ltac:(lia) E0), (PL cl (n - 1) _ ltac:(lia) E1).
    cbn [bind]. replace (length gl <=? n) with false by (symmetry; apply Nat.leb_gt; lia).
    assert (B : (b + q)%Qc <> 0%Qc).
    { destruct Rq as [R1 _]. intros Z. assert ((0 < b + q)%Qc) by (clear -Hb R1; qc_to_q; lra).
      rewrite Z in H. now apply Qclt_not_eq in H. }
    match goal with |- exists g, Ok (?G, _) = _ => cut (exists g, G = Fin g); [intros (g & ->); eauto|] end.
    cbn [xadd xmul xsub xopp]. unfold xdiv at 2 3.
    destruct (Qc_eq_dec (b + q)%Qc 0); [contradiction|]. cbn [xadd xopp].
    unfold xdiv at 1. destruct (Qc_eq_dec ((c0 + - 0) / (b + q))%Qc 0) as [Z|Z].
    - exfalso. apply Nz. transitivity ((c0 + - 0) / (b + q) * (b + q))%Qc; [field; auto|]. rewrite Z. ring.
    - cbn [xabs xsub xopp xadd]. rewrite !xhalf_fin, xmax_fin. eexists; reflexivity. }
  destruct C as (g & C). exists g. split; auto.
  destruct (step_ok b _ _ _ _ _ _ Hb (fun _ => ltac:(rewrite Eq; right; eauto)) C) as ([F|(g' & F & R)] & _).
  - discriminate.
  - injection F as ->. exact R.
Qed.

(** The estimate of the final convergence when it has been approached exactly *)
Lemma xmedian_const e k : xmedian (repeat (Fin e) (S k)) = Fin e.
Proof.
  unfold xmedian. assert (X : existsb is_nan (repeat (Fin e) (S k)) = false) by (induction k; [reflexivity|]; exact IHk). rewrite X.
  assert (N : forall j, j < S k -> nth j (isort xle (repeat (Fin e) (S k))) NaN = Fin e).
  { intros j Hj. assert (I : In (nth j (isort xle (repeat (Fin e) (S k))) NaN) (isort xle (repeat (Fin e) (S k)))).
    { apply nth_In. rewrite <- (Permutation.Permutation_length (isort_perm xle _)), repeat_length. exact Hj. }
    apply isort_In in I. now apply repeat_spec in I. }
  rewrite <- (Permutation.Permutation_length (isort_perm xle _)), repeat_length. cbn [Nat.eqb].
  pose proof (Nat.div_mod (S k) 2 ltac:(lia)) as D. pose proof (Nat.mod_upper_bound (S k) 2 ltac:(lia)) as U.
  destruct (Nat.eqb_spec (S k mod 2) 1); [apply N; lia|]. rewrite !N by lia. cbn [xadd]. rewrite xhalf_fin. f_equal. apply Qc_is_canon. unfold Qcdiv, Qcmult, Qcplus, Qcinv. cbn [this Q2Qc]. rewrite !Qred_correct. change (/ 2)%Q with (1#2)%Q. lra.
Qed.
Lemma step_limit gl cl base (g c : nat -> Qc) e n : 2 < n -> n - 1 <= length gl -> n <= length cl -> (0 <= e)%Qc ->
  (forall i, i < n - 1 -> nth i gl NaN = Fin (g i) /\ g i <> 0%Qc) -> (forall i, i < n -> nth i cl NaN = Fin (c i)) ->
  (forall i, i < n - 1 -> ((1 + g i) * c (S i) = e * g i + c i)%Qc) ->
  calculate_adaptive_gain gl cl n base None = calculate_adaptive_gain gl cl n base (Some (Fin e)).
Proof.
  intros H2 Lg Lc He Hg Hc R. unfold calculate_adaptive_gain. replace (2 <? n) with true by lia.
  assert (PL : forall (l : list xf) i a, i < length l -> nth i l NaN = a -> py_list l i = Ok a).
  { intros l i a Hi <-. unfold py_list. now rewrite (nth_error_nth' l NaN Hi). }
  assert (M : map_res (est_entry gl cl) (seq 0 (n - 1)) = Ok (repeat (Fin e) (n - 1))).
  { assert (G : forall k a, a + k <= n - 1 -> map_res (est_entry gl cl) (seq a k) = Ok (repeat (Fin e) k)).
    { induction k as [|k IH]; intros a Ha; [reflexivity|]. cbn [seq map_res repeat]. destruct (Hg a ltac:(lia)) as [Ga Na]. unfold est_entry at 1.
      rewrite (PL gl a _ ltac:(lia) Ga), (PL cl (a + 1) _ ltac:(lia) (Hc (a + 1) ltac:(lia))), (PL cl a _ ltac:(lia) (Hc a ltac:(lia))). cbn [bind xadd xmul xsub xopp].
      unfold xdiv. destruct (Qc_eq_dec (g a) 0); [contradiction|]. rewrite Nat.add_1_r, (R a ltac:(lia)).
      replace ((e * g a + c a + - c a) / g a)%Qc with e by (field; auto). rewrite xmax_fin, IH by lia. cbn [bind]. f_equal. f_equal. f_equal.
      destruct (Qcleb e 0) eqn:E; auto. apply Qcleb_true in E. now apply Qcle_antisym. }
    apply G. lia. }
  rewrite M. cbn [bind].
  assert (S : skipn (n - 5) (repeat (Fin e) (n - 1)) = repeat (Fin e) (S (Nat.min 3 (n - 2)))).
  { replace (n - 1) with ((n - 5) + S (Nat.min 3 (n - 2))) by lia. rewrite repeat_app, skipn_app, repeat_length, Nat.sub_diag.
    rewrite skipn_all2 by (rewrite repeat_length; lia). reflexivity. }
  rewrite S, xmedian_const. reflexivity.
Qed.
