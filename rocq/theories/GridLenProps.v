(** C13: baseline lengths compared through squares are baseline lengths. *)
From Coq Require Import QArith Reals Qreals Lra Lia.
From Verif Require Import GridLoc GridSpec.

(** The squared-length condition is the one on lengths: lo <= fmin*|b| and fmax*|b| <= hi. *)
Theorem C13_length_in_reals : forall lo hi fmin fmax m,
  (0 <= fmin)%Q -> (0 <= fmax)%Q -> (0 <= hi)%Q ->
  let len := sqrt (Q2R (m_u m) * Q2R (m_u m) + Q2R (m_v m) * Q2R (m_v m)) in
  length_ok lo hi fmin fmax m <-> (Q2R lo <= Q2R fmin * len /\ Q2R fmax * len <= Q2R hi)%R.
Proof.
  intros lo hi fmin fmax m Hmin Hmax Hhi len. unfold length_ok. cbv zeta.
  set (s := (Q2R (m_u m) * Q2R (m_u m) + Q2R (m_v m) * Q2R (m_v m))%R) in *.
  assert (Hs : (0 <= s)%R) by (unfold s; pose proof (Rle_0_sqr (Q2R (m_u m))); pose proof (Rle_0_sqr (Q2R (m_v m))); unfold Rsqr in *; lra).
  assert (Hl : (0 <= len)%R) by apply sqrt_pos.
  assert (Hl2 : (len * len = s)%R) by (apply sqrt_sqrt; auto).
  apply Qle_Rle in Hmin, Hmax, Hhi. replace (Q2R 0) with 0%R in * by (unfold Q2R; simpl; lra).
  assert (E : forall f, Q2R (f * f * (m_u m * m_u m + m_v m * m_v m)) = ((Q2R f * len) * (Q2R f * len))%R).
  { intros f. rewrite !Q2R_mult, !Q2R_plus, !Q2R_mult. fold s.
    replace (Q2R f * len * (Q2R f * len))%R with (Q2R f * Q2R f * (len * len))%R by ring. now rewrite Hl2. }
  assert (SQ : forall a b : R, (0 <= a -> 0 <= b -> (a <= b <-> a * a <= b * b))%R).
  { intros a b Ha Hb. split; intros H.
    - apply Rmult_le_compat; auto.
    - apply Rsqr_incr_0; auto. }
  assert (P1 : (0 <= Q2R fmin * len)%R) by (apply Rmult_le_pos; auto).
  assert (P2 : (0 <= Q2R fmax * len)%R) by (apply Rmult_le_pos; auto).
  split.
  - intros [H1 H2]. split.
    + destruct H1 as [H1|H1]; apply Qle_Rle in H1.
      * replace (Q2R 0) with 0%R in H1 by (unfold Q2R; simpl; lra). lra.
      * rewrite Q2R_mult, E in H1. destruct (Rle_or_lt (Q2R lo) 0) as [Hn|Hn]; [lra|].
        apply (proj2 (SQ _ _ (Rlt_le _ _ Hn) P1)). lra.
    + apply Qle_Rle in H2. rewrite E, Q2R_mult in H2. apply (proj2 (SQ _ _ P2 Hhi)). lra.
  - intros [H1 H2]. split.
    + destruct (Qlt_le_dec 0 lo) as [Hlo|]; auto. right. apply Qlt_le_weak in Hlo. apply Qle_Rle in Hlo.
      replace (Q2R 0) with 0%R in Hlo by (unfold Q2R; simpl; lra).
      apply Rle_Qle. rewrite Q2R_mult, E. apply (proj1 (SQ _ _ Hlo P1)). lra.
    + apply Rle_Qle. rewrite E, Q2R_mult. apply (proj1 (SQ _ _ P2 Hhi)). lra.
Qed.
Print Assumptions C13_length_in_reals.

Example C13_length_case :
  let m := {| m_freq := 1; m_u := 3; m_v := 4; m_w := 1 |}%Q in
  length_ok 5 10 1 2 m /\ ~ length_ok (51 # 10) 10 1 2 m /\ ~ length_ok 5 (99 # 10) 1 2 m.
Proof.
  cbv zeta. unfold length_ok, Qle; cbn. split; [lia|]. split; intros [H1 H2]; lia.
Qed.
