From Coq Require Import ZifyBool ZifyNat Lqa.
From Verif Require Import Base SortLib Histogram HistogramSpec HistogramProofs HistogramFinal
  ArrayMatch ArrayMatchProofs ArrayMatchProps NpArr GridLoc GridLocProofs VisWeights VisWeightsSpec.
Open Scope nat_scope.

Lemma memn_In k l : memn k l = true <-> In k l.
Proof.
  unfold memn. rewrite existsb_exists. split.
  - intros (x & H & E). apply Nat.eqb_eq in E. congruence.
  - intros H. exists k. split; auto. apply Nat.eqb_refl.
Qed.

Lemma in_axis_ok n l : (forall i, In i l -> i < n) -> in_axis n l = Ok tt.
Proof.
  intros H. unfold in_axis. replace (forallb (fun i => i <? n) l) with true; auto.
  symmetry. apply forallb_forall. intros i Hi. apply Nat.ltb_lt. auto.
Qed.

(** [w'] is [w] with the entries selected by [m] cleared. *)
Definition cleared (n : nat) (w w' : arr3 Q) (m : nat -> nat -> bool) : Prop :=
  d_pol w' = d_pol w /\ d_freq w' = d_freq w /\ d_bl w' = d_bl w
  /\ forall p f b, at3 w' p f b = if (p <? n) && m f b then 0%Q else at3 w p f b.

Lemma cleared_refl n w : cleared n w w (fun _ _ => false).
Proof. repeat split; auto. intros. now rewrite andb_false_r. Qed.

Lemma cleared_step n w w' m m2 : cleared n w w' m ->
  cleared n w (zero_at n m2 w') (fun f b => m f b || m2 f b).
Proof.
  intros (H1 & H2 & H3 & H4). repeat split; auto. intros p f b. cbn [zero_at at3]. rewrite H4.
  destruct (p <? n), (m f b), (m2 f b); auto.
Qed.

Lemma cleared_ext n w w' m m2 : (forall f b, m f b = m2 f b) -> cleared n w w' m -> cleared n w w' m2.
Proof. intros E (H1 & H2 & H3 & H4). repeat split; auto. intros. now rewrite H4, E. Qed.

(** ** Time bins *)
Lemma time_bins_ok offs : forall n, n < length offs ->
  exists tb, time_bins n offs = Ok tb
    /\ forall b, (exists t, t < n /\ nth t offs 0 <= b < nth (S t) offs 0) ->
         tb b < n /\ nth (tb b) offs 0 <= b < nth (S (tb b)) offs 0.
Proof.
  unfold time_bins. induction n as [|n IH]; intros Hn.
  { eexists. split; [reflexivity|]. intros b (t & Ht & _). lia. }
  destruct IH as (tb & E & H); [lia|].
  rewrite seq_S, fold_res_app, E. cbn [bind fold_res].
  rewrite (proj2 (Nat.ltb_lt (S (0 + n)) (length offs))) by lia. cbn [bind].
  eexists. split; [reflexivity|]. intros b (t & Ht & Hb). cbn [Nat.add].
  destruct ((nth n offs 0 <=? b) && (b <? nth (S n) offs 0)) eqn:Eb.
  - split; [lia|]. apply andb_true_iff in Eb. destruct Eb as [E1 E2].
    apply Nat.leb_le in E1. apply Nat.ltb_lt in E2. lia.
  - assert (t <> n).
    { intros ->. apply andb_false_iff in Eb.
      destruct Eb as [Eb|Eb]; [apply Nat.leb_gt in Eb|apply Nat.ltb_ge in Eb]; lia. }
    destruct (H b) as [H1 H2]; [exists t; split; [lia|auto]|]. split; [lia|auto].
Qed.

Lemma offs_mono offs nb : good_offsets offs nb ->
  forall i j, i <= j -> j <= length offs -> nth i (offs ++ [nb]) 0 <= nth j (offs ++ [nb]) 0.
Proof.
  intros (H0 & Hne & Hs & Hb) i j Hij Hj.
  assert (L : nth (length offs) (offs ++ [nb]) 0 = nb) by (rewrite app_nth2, Nat.sub_diag by lia; reflexivity).
  destruct (Nat.eq_dec j (length offs)) as [->|Hn].
  - rewrite L. destruct (Nat.eq_dec i (length offs)) as [->|Hi]; [rewrite L; lia|].
    rewrite app_nth1 by lia. apply Hb. lia.
  - rewrite !app_nth1 by lia. apply Hs; lia.
Qed.

Lemma holds_unique offs nb : good_offsets offs nb -> forall b t t',
  holds_baseline offs nb t b -> holds_baseline offs nb t' b -> t = t'.
Proof.
  intros G b t t' (T1 & T2) (T3 & T4).
  rewrite <- (app_nth1 offs [nb] 0 T1) in T2. rewrite <- (app_nth1 offs [nb] 0 T3) in T4.
  destruct (Nat.lt_trichotomy t t') as [H|[H|H]]; auto; exfalso.
  - pose proof (offs_mono offs nb G (S t) t' ltac:(lia) ltac:(lia)). lia.
  - pose proof (offs_mono offs nb G (S t') t ltac:(lia) ltac:(lia)). lia.
Qed.

Lemma holds_exists offs nb : good_offsets offs nb -> forall b, b < nb ->
  exists t, holds_baseline offs nb t b.
Proof.
  intros G b Hb. destruct G as (H0 & Hne & Hs & Hle). 
  assert (K : forall n, n <= length offs -> b < nth n (offs ++ [nb]) 0 -> exists t, holds_baseline offs nb t b).
  { induction n as [|n IH]; intros Hn Hlt.
    - rewrite app_nth1 in Hlt by (destruct offs; [congruence|simpl; lia]). lia.
    - destruct (Nat.lt_ge_cases b (nth n (offs ++ [nb]) 0)) as [H|H]; [apply IH; auto; lia|].
      exists n. split; [lia|]. rewrite app_nth1 in H by lia. auto. }
  apply (K (length offs)); auto. rewrite app_nth2, Nat.sub_diag by lia. auto.
Qed.

Lemma time_bins_holds offs nb : good_offsets offs nb ->
  exists tb, time_bins (length offs) (offs ++ [nb]) = Ok tb
    /\ forall b, b < nb -> forall t, holds_baseline offs nb t b <-> tb b = t.
Proof.
  intros G. destruct (time_bins_ok (offs ++ [nb]) (length offs)) as (tb & E & H).
  { rewrite app_length. simpl. lia. }
  exists tb. split; auto. intros b Hb.
  assert (K : holds_baseline offs nb (tb b) b).
  { destruct (holds_exists _ _ G b Hb) as (t & T1 & T2).
    destruct (H b) as [A B].
    { exists t. split; auto. now rewrite app_nth1 by auto. }
    split; auto. now rewrite app_nth1 in B by auto. }
  intros t. split; [|intros <-; auto]. intros Ht. eapply holds_unique; eauto.
Qed.

(** ** Stages *)
Lemma time_stage n tb nb w0 : forall cut w m, cleared n w0 w m -> d_bl w0 = nb ->
  exists w', fold_res (fun w t =>
         let cut := filter (fun b => tb b =? t) (seq 0 nb) in
         _ <- in_axis (d_bl w) cut ;;
         Ok (zero_at n (fun _ b => memn b cut) w)) cut w = Ok w'
    /\ cleared n w0 w' (fun f b => m f b || ((b <? nb) && memn (tb b) cut)).
Proof.
  induction cut as [|t cut IH]; intros w m HC Hnb; cbn [fold_res].
  { exists w. split; auto. eapply cleared_ext; [|exact HC]. intros. cbn. now rewrite andb_false_r, orb_false_r. }
  cbv zeta. rewrite in_axis_ok.
  2:{ intros i Hi. apply filter_In in Hi. rewrite in_seq in Hi. destruct HC as (_ & _ & H & _). lia. }
  cbn [bind]. edestruct (IH _ _ (cleared_step _ _ _ _ (fun _ b => memn b (filter (fun b => tb b =? t) (seq 0 nb))) HC) Hnb) as (w' & E & H).
  exists w'. split; [exact E|]. eapply cleared_ext; [|exact H]. intros f b. cbn beta.
  assert (Em : memn b (filter (fun b => tb b =? t) (seq 0 nb)) = (b <? nb) && (tb b =? t)).
  { apply eq_true_iff_eq. rewrite memn_In, filter_In, in_seq, andb_true_iff, Nat.ltb_lt. intuition lia. }
  rewrite Em. unfold memn at 2. cbn [existsb].
  change (existsb (Nat.eqb (tb b)) cut) with (memn (tb b) cut).
  destruct (m f b), (b <? nb), (tb b =? t), (memn (tb b) cut); reflexivity.
Qed.

Lemma tile_flagged_In o v : tile_flagged o v <->
  In v (map (fun i => (Z.of_nat i + 1)%Z) (where_ is0 (o_tile_use o))).
Proof.
  rewrite in_map_iff. unfold tile_flagged. split.
  - intros (i & H1 & H2 & ->). exists i. split; auto. apply (In_where _ _ 0%Z). split; auto.
    unfold is0. lia.
  - intros (i & <- & H). apply (In_where _ _ 0%Z) in H. destruct H as [H1 H2]. exists i.
    unfold is0 in H2. repeat split; auto. lia.
Qed.

Lemma NoDup_where {A} (p : A -> bool) l (d : A) : NoDup (where_ p l).
Proof. rewrite (where_spec p l d). apply NoDup_filter, seq_NoDup. Qed.

Lemma NoDup_map_inj {A B} (f : A -> B) l : (forall x y, f x = f y -> x = y) -> NoDup l -> NoDup (map f l).
Proof.
  intros Hf H. induction H as [|x l Hx H IH]; constructor; auto.
  intros (y & Ey & Hy)%in_map_iff. apply Hf in Ey. congruence.
Qed.

Lemma tile_stage o n w0 w m nb : cleared n w0 w m -> d_bl w0 = nb -> 0 < nb ->
  length (o_tile_a o) = nb -> length (o_tile_b o) = nb ->
  exists w' bi, match where_ is0 (o_tile_use o) with
       | [] => Ok w
       | _ =>
         bi <- array_match (o_tile_a o)
                 (Some (map (fun i => (Z.of_nat i + 1)%Z) (where_ is0 (o_tile_use o)))) (Some (o_tile_b o)) ;;
         match bi with
         | MinusOne =>
             if d_bl w =? 0 then Err IndexError
             else Ok (zero_at n (fun _ b => b =? d_bl w - 1) w)
         | Indices bi =>
             _ <- in_axis (d_bl w) bi ;;
             Ok (zero_at n (fun _ b => memn b bi) w)
         end
       end = Ok w'
    /\ cleared n w0 w' (fun f b => m f b || memn b bi)
    /\ ((forall v, ~ tile_flagged o v)
        \/ (exists b, b < nb /\ (tile_flagged o (nth b (o_tile_a o) 0%Z) \/ tile_flagged o (nth b (o_tile_b o) 0%Z))) ->
        forall b, In b bi <-> b < nb /\ (tile_flagged o (nth b (o_tile_a o) 0%Z) \/ tile_flagged o (nth b (o_tile_b o) 0%Z))).
Proof.
  intros HC Hnb Hp Ha Hb.
  assert (HI := tile_flagged_In o).
  destruct (where_ is0 (o_tile_use o)) as [|t ts] eqn:Ew.
  { exists w, []. split; [reflexivity|]. split.
    - eapply cleared_ext; [|exact HC]. intros. cbn. now rewrite orb_false_r.
    - intros _ b. rewrite !HI. simpl. tauto. }
  assert (Hex : tile_flagged o (Z.of_nat t + 1)) by (apply HI; left; reflexivity).
  rewrite <- Ew in *. clear ts Ew.
  set (vm := map (fun i => (Z.of_nat i + 1)%Z) (where_ is0 (o_tile_use o))) in *.
  assert (Hd : NoDup vm).
  { apply NoDup_map_inj; [intros; lia|]. apply (NoDup_where _ _ 0%Z). }
  destruct (C04_array_match_partial (o_tile_a o) (o_tile_b o) vm) as (r & Er & Hr); auto.
  { congruence. }
  { intros E. rewrite E in Ha. simpl in Ha. lia. }
  rewrite Er. cbn [bind]. destruct HC as (P1 & P2 & P3 & P4).
  destruct r as [|bi].
  - rewrite (proj2 (Nat.eqb_neq (d_bl w) 0)) by lia. exists (zero_at n (fun _ b => b =? d_bl w - 1) w), [nb - 1].
    split; [reflexivity|]. split.
    + eapply cleared_ext; [|apply cleared_step; repeat split; eauto]. intros f b. cbn beta.
      rewrite P3, Hnb. unfold memn. simpl. now rewrite orb_false_r.
    + intros HH b. exfalso. destruct HH as [HH|(b0 & B1 & B2)].
      * eapply HH; eauto.
      * apply (Hr b0); [lia|]. unfold wanted. rewrite <- !HI. auto.
  - destruct Hr as (_ & _ & Hr). rewrite in_axis_ok.
    2:{ intros i Hi. apply Hr in Hi. lia. }
    cbn [bind]. eexists _, bi. split; [reflexivity|]. split.
    + apply cleared_step. repeat split; auto.
    + intros _ b. rewrite Hr. unfold wanted. rewrite !HI, Ha. reflexivity.
Qed.

(** ** Range and length tests *)
Lemma off_range_spec c size n : off_range (corner c size n) size n = true <-> cells_outside c size n.
Proof.
  unfold off_range, cells_outside, corner. rewrite orb_true_iff, !Qle_bool_iff.
  assert (E : (inject_Z (size - 1) == inject_Z size - 1)%Q) by (unfold Zminus; rewrite inject_Z_plus; reflexivity).
  rewrite E.
  split; (intros [H|H]; [left; exact H|right; lra]).
Qed.

Lemma off_range_minus1 size n : off_range (- (1)) size n = true.
Proof. unfold off_range. reflexivity. Qed.

Lemma far_spec o uu vv f b : (0 < o_kpix o)%Q -> (0 <= o_min_baseline o)%Q -> (0 <= o_max_baseline o)%Q ->
  (0 < nth f (o_freq o) 0)%Q ->
  far o uu vv f b = true <-> length_outside o uu vv f b.
Proof.
  intros Hk Hmin Hmax Hf. unfold far, k_of. cbv zeta.
  set (s := (nth b uu 0 / o_kpix o * (nth b uu 0 / o_kpix o) + nth b vv 0 / o_kpix o * (nth b vv 0 / o_kpix o))%Q).
  pose proof (dist_test_spec (o_kpix o) (nth b uu 0%Q) (nth b vv 0%Q) (o_min_baseline o) (o_max_baseline o)
               (nth f (o_freq o) 0%Q) (nth f (o_freq o) 0%Q) Hk Hmax ltac:(lra) ltac:(lra)) as D.
  cbv zeta in D. fold s in D. rewrite <- not_false_iff_true, D. unfold length_outside. cbv zeta.
  set (l2 := (nth f (o_freq o) 0 * nth f (o_freq o) 0 * (nth b uu 0 * nth b uu 0 + nth b vv 0 * nth b vv 0))%Q).
  assert (H0 : (0 <= l2)%Q).
  { unfold l2. apply Qmult_le_0_compat; [apply Qsq_nonneg|].
    pose proof (Qsq_nonneg (nth b uu 0%Q)). pose proof (Qsq_nonneg (nth b vv 0%Q)). lra. }
  split.
  - intros H. destruct (Qlt_le_dec l2 (o_min_baseline o * o_min_baseline o)) as [|H1]; auto.
    right. apply Qnot_le_lt. intros H2. apply H. auto.
  - intros [H|H] [[H1|H1] H2]; try lra.
    assert (E : (o_min_baseline o == 0)%Q) by lra. rewrite E in H. lra.
Qed.

Lemma bad_spec o psf_dim uu vv f b : (0 < o_kpix o)%Q -> (0 <= o_min_baseline o)%Q -> (0 <= o_max_baseline o)%Q ->
  (0 < nth f (o_freq o) 0)%Q ->
  bad o psf_dim uu vv f b = true <-> length_outside o uu vv f b \/ footprint_outside o psf_dim uu vv f b.
Proof.
  intros Hk Hmin Hmax Hf. unfold bad. cbv zeta. rewrite !orb_true_iff, far_spec by auto.
  unfold xmin0 at 1. rewrite off_range_spec.
  assert (E : off_range (if off_range (xmin0 o psf_dim uu vv f b) (o_dimension o) psf_dim
                         then (- (1))%Q else ymin0 o psf_dim vv f b) (o_elements o) psf_dim = true
              <-> cells_outside (nth f (o_freq o) 0 * kx_of o uu vv b)%Q (o_dimension o) psf_dim
                  \/ cells_outside (nth f (o_freq o) 0 * ky_of o vv b)%Q (o_elements o) psf_dim).
  { rewrite <- !off_range_spec. fold (xmin0 o psf_dim uu vv f b). fold (ymin0 o psf_dim vv f b).
    destruct (off_range (xmin0 o psf_dim uu vv f b) (o_dimension o) psf_dim).
    - rewrite off_range_minus1. tauto.
    - intuition congruence. }
  rewrite E. unfold footprint_outside. cbv zeta. fold (k_of o uu b). fold (k_of o vv b).
  unfold kx_of, ky_of. destruct (Qltb 0 (k_of o vv b)) eqn:El.
  - apply Qltb_true in El. split.
    + intros H. assert (H' : length_outside o uu vv f b \/ (cells_outside (nth f (o_freq o) 0 * - k_of o uu b)%Q (o_dimension o) psf_dim
         \/ cells_outside (nth f (o_freq o) 0 * - k_of o vv b)%Q (o_elements o) psf_dim)) by tauto.
      destruct H' as [|H']; auto. right. eexists _, _. split; [left; eauto|]. auto.
    + intros [|(x & y & [(_ & -> & ->)|(Hn & _)] & H)]; [tauto|tauto|contradiction].
  - apply Qltb_false in El. split.
    + intros H. assert (H' : length_outside o uu vv f b \/ (cells_outside (nth f (o_freq o) 0 * k_of o uu b)%Q (o_dimension o) psf_dim
         \/ cells_outside (nth f (o_freq o) 0 * k_of o vv b)%Q (o_elements o) psf_dim)) by tauto.
      destruct H' as [|H']; auto. right. eexists _, _. split; [right; split; [lra|eauto]|]. auto.
    + intros [|(x & y & [(Hn & _)|(_ & -> & ->)] & H)]; [tauto|lra|tauto].
Qed.

Lemma bad_false o psf_dim uu vv f b : (0 < psf_dim)%Z ->
  bad o psf_dim uu vv f b = false -> (0 < xmin0 o psf_dim uu vv f b)%Q /\ (0 < ymin0 o psf_dim vv f b)%Q.
Proof.
  intros Hp. unfold bad. cbv zeta. rewrite !orb_false_iff. intros [[H1 H2] _]. rewrite H1 in H2.
  unfold off_range in *. rewrite orb_false_iff in *. rewrite !Qle_bool_false in *. tauto.
Qed.

Lemma In_flat2 {A} n m (f : nat -> nat -> A) x : In x (flat2 n m f) <->
  exists i j, i < n /\ j < m /\ x = f i j.
Proof.
  unfold flat2. rewrite in_flat_map. split.
  - intros (i & Hi & H). apply in_map_iff in H. destruct H as (j & <- & Hj).
    rewrite in_seq in *. exists i, j. intuition lia.
  - intros (i & j & Hi & Hj & ->). exists i. rewrite in_seq. split; [lia|]. apply in_map, in_seq. lia.
Qed.

Lemma flat2_ne {A} n m (f : nat -> nat -> A) : 0 < n -> 0 < m -> flat2 n m f <> [].
Proof.
  intros Hn Hm E. assert (In (f 0 0) (flat2 n m f)) by (apply In_flat2; eauto).
  rewrite E in H. destruct H.
Qed.

Lemma filter_map_length {A B} (p : B -> bool) (g : A -> B) l :
  length (filter p (map g l)) = length (filter (fun x => p (g x)) l).
Proof. induction l; simpl; auto. destruct (p (g a)); simpl; auto. Qed.

Lemma flat2_count {A} (p : A -> bool) n m (f : nat -> nat -> A) :
  length (filter p (flat2 n m f)) = length (filter (fun x => p (f (fst x) (snd x))) (all_pairs n m)).
Proof.
  assert (E : flat2 n m f = map (fun x => f (fst x) (snd x)) (all_pairs n m)).
  { unfold flat2, all_pairs. generalize (seq 0 n) as l. induction l as [|i l IH]; auto.
    cbn [flat_map list_prod]. now rewrite IH, map_app, map_map. }
  now rewrite E, filter_map_length.
Qed.

(** ** The whole function *)
Section Update.
  Variables (o : wobs) (psf_dim : Z) (uu vv : list Q) (w : arr3 Q).
  Hypothesis WF : well_formed o psf_dim uu vv w.
  Let nf := length (o_freq o).
  Let nb := length uu.

  Let hits : Prop := (forall v, ~ tile_flagged o v)
    \/ (exists b, b < nb /\ (tile_flagged o (nth b (o_tile_a o) 0%Z) \/ tile_flagged o (nth b (o_tile_b o) 0%Z))).
  Let time_flagged b : Prop :=
    exists t, holds_baseline (o_bin_offset o) nb t b /\ nth t (o_time_use o) 0%Z = 0%Z.
  Let flags (l : list Z) := sum_Z (map (fun z => (1 - z)%Z) l).

  Lemma update_ok :
    exists (bi : list nat) w' c,
      vis_weights_update w o psf_dim uu vv = Ok (w', c)
      /\ (hits -> forall b, In b bi <-> b < nb
            /\ (tile_flagged o (nth b (o_tile_a o) 0%Z) \/ tile_flagged o (nth b (o_tile_b o) 0%Z)))
      /\ d_pol w' = d_pol w /\ d_freq w' = nf /\ d_bl w' = nb
      /\ (forall p f b, f < nf -> b < nb ->
            let drop := (f < length (o_freq_use o) /\ nth f (o_freq_use o) 0%Z = 0%Z) \/ In b bi \/ time_flagged b
                        \/ length_outside o uu vv f b \/ footprint_outside o psf_dim uu vv f b in
            (p < o_n_pol o -> drop -> at3 w' p f b = 0%Q)
            /\ (o_n_pol o <= p \/ ~ drop -> at3 w' p f b = at3 w p f b))
      /\ c_n_vis c = length (filter (fun x => Qltb 0 (at3 w' 0 (fst x) (snd x))) (all_pairs nf nb))
      /\ c_flags c = if c_n_vis c =? 0 then None
                     else Some (flags (o_time_use o), flags (o_tile_use o), flags (o_freq_use o)).
  Proof.
    pose proof WF as [W1 W2 W3 W4 W5 W6 W7 W8 W9 W10 W11 W12 W13 W14 W15 W16 W17].
    assert (Hnb : 0 < nb) by (unfold nb; destruct uu; [congruence|simpl; lia]).
    assert (Hnf : 0 < nf) by (unfold nf; destruct (o_freq o); [congruence|simpl; lia]).
    unfold vis_weights_update. cbv zeta. fold nf. fold nb. fold nb in W1, W2, W3, W4, W8. fold nf in W5, W6, W13.
    rewrite (proj2 (Nat.eqb_eq (length vv) nb) W1). cbn [negb].
    set (bd := bad o psf_dim uu vv).
    assert (Hbd : forall f b, f < nf -> (bd f b = true <-> length_outside o uu vv f b \/ footprint_outside o psf_dim uu vv f b)).
    { intros f b Hf. apply bad_spec; auto. }
    set (mf := fun f (_ : nat) => memn f (where_ is0 (o_freq_use o))).
    rewrite in_axis_ok.
    2:{ intros i Hi. apply (In_where _ _ 0%Z) in Hi. lia. }
    cbn [bind].
    pose proof (cleared_step (o_n_pol o) w w _ mf (cleared_refl _ w)) as C1.
    destruct (tile_stage o (o_n_pol o) w _ _ nb C1 W4 Hnb W2 W3) as (w2 & bi & E2 & C2 & Hbi).
    rewrite E2. cbn [bind]. clear E2.
    destruct (time_bins_holds _ _ W8) as (tb & Etb & Htb).
    rewrite W7. rewrite Etb. cbn [bind].
    destruct (time_stage (o_n_pol o) tb nb w (where_ is0 (o_time_use o)) w2 _ C2 W4) as (w3 & E3 & C3).
    cbv zeta in E3. rewrite E3. cbn [bind]. clear E3 C2 C1 w2.
    set (m3 := fun f b : nat => _) in C3.
    destruct C3 as (S1 & S2 & S3 & A3).
    rewrite (proj2 (Nat.eqb_neq (d_pol w3) 0)) by lia.
    rewrite !in_axis_ok; cycle 1.
    1-4: intros i Hi; apply in_map_iff in Hi; destruct Hi as ((a & b) & <- & Hi);
         apply filter_In in Hi; destruct Hi as [Hi _]; apply In_flat2 in Hi;
         destruct Hi as (f' & b' & Hf' & Hb' & [= -> ->]); cbn [fst snd]; lia.
    cbn [bind].
    set (flag := fun f b : nat => Qle_bool (at3 w3 0 f b) 0).
    set (w4 := zero_at _ _ _).
    set (xm := fun f b : nat => if Qle_bool (at3 w3 0 f b) 0 then (- (1))%Q else if bd f b then (- (1))%Q else xmin0 o psf_dim uu vv f b).
    set (ym := fun f b : nat => if Qle_bool (at3 w3 0 f b) 0 then (- (1))%Q else if bd f b then (- (1))%Q else ymin0 o psf_dim vv f b).
    assert (Hpos : forall f b, bd f b = false -> (0 < xmin0 o psf_dim uu vv f b)%Q /\ (0 < ymin0 o psf_dim vv f b)%Q)
      by (intros; now apply bad_false).
    assert (Hm1 : forall f b, Qltb (if bd f b then (- (1))%Q else xmin0 o psf_dim uu vv f b) 0 = bd f b).
    { intros f b. destruct (bd f b) eqn:E; [reflexivity|]. apply Qltb_false. destruct (Hpos _ _ E). lra. }
    assert (A4 : forall p f b, at3 w4 p f b = if (p <? o_n_pol o) && (m3 f b || bd f b) then 0%Q else at3 w p f b).
    { intros p f b. unfold w4. cbn [zero_at at3]. rewrite Hm1, A3.
      destruct (p <? o_n_pol o), (m3 f b), (bd f b); reflexivity. }
    assert (Hgood : forall f b, Qltb 0 (at3 w4 0 f b) = negb (flag f b) && negb (bd f b)).
    { intros f b. unfold flag. rewrite A4, A3. rewrite (proj2 (Nat.ltb_lt 0 (o_n_pol o))) by lia. cbn [andb].
      unfold Qltb. destruct (m3 f b), (bd f b); cbn; rewrite ?andb_true_r, ?andb_false_r; reflexivity. }
    assert (Hxm : forall f b, (Qltb 0 (at3 w4 0 f b) = true -> 0 < xm f b /\ 0 < ym f b)%Q
                   /\ (Qltb 0 (at3 w4 0 f b) = false -> xm f b = (- (1))%Q /\ ym f b = (- (1))%Q)).
    { intros f b. rewrite Hgood. unfold xm, ym. change (Qle_bool (at3 w3 0 f b) 0) with (flag f b). destruct (flag f b), (bd f b) eqn:E; cbn; split; intros; try congruence; auto. }
    destruct (np_max_spec (flat2 nf nb xm) (flat2_ne _ _ _ Hnf Hnb)) as (mx & Emx & Imx & Mmx).
    destruct (np_max_spec (flat2 nf nb ym) (flat2_ne _ _ _ Hnf Hnb)) as (my & Emy & Imy & Mmy).
    rewrite Emx. cbn [bind]. rewrite Emy. cbn [bind].
    assert (Hw : forall p f b, f < nf -> b < nb ->
            let drop := (f < length (o_freq_use o) /\ nth f (o_freq_use o) 0%Z = 0%Z) \/ In b bi \/ time_flagged b
                        \/ length_outside o uu vv f b \/ footprint_outside o psf_dim uu vv f b in
            (p < o_n_pol o -> drop -> at3 w4 p f b = 0%Q)
            /\ (o_n_pol o <= p \/ ~ drop -> at3 w4 p f b = at3 w p f b)).
    { intros p f b Hf Hb drop. rewrite A4.
      assert (D : m3 f b || bd f b = true <-> drop).
      { unfold m3, drop, mf. cbn [orb]. rewrite !orb_true_iff, Hbd, !memn_In, (In_where _ _ 0%Z) by auto.
        rewrite andb_true_iff, memn_In, (In_where _ _ 0%Z), Nat.ltb_lt. unfold is0 at 1 2. rewrite !Z.eqb_eq.
        assert (T : (b < nb /\ tb b < length (o_time_use o) /\ nth (tb b) (o_time_use o) 0%Z = 0%Z) <-> time_flagged b).
        { unfold time_flagged. split.
          - intros (_ & T1 & T2). exists (tb b). split; auto. now apply Htb.
          - intros (t & T1 & T2). pose proof (proj1 (Htb b Hb t) T1) as T3. subst t. split; auto. split; auto.
            rewrite W7. apply T1. }
        rewrite T. tauto. }
      split.
      - intros Hp Hd. rewrite (proj2 (Nat.ltb_lt _ _) Hp), (proj2 D Hd). reflexivity.
      - intros [Hp|Hd].
        + rewrite (proj2 (Nat.ltb_ge _ _) Hp). reflexivity.
        + destruct (m3 f b || bd f b); [exfalso; apply Hd, D; reflexivity|]. now rewrite andb_false_r. }
    destruct (Qltb mx 0 || Qltb my 0) eqn:Eneg.
    - exists bi, w4, {| c_n_vis := 0; c_flags := None |}. split; [reflexivity|]. split; [exact Hbi|].
      do 3 (split; [cbn; congruence|]). split; [exact Hw|]. split; [|reflexivity].
      cbn [c_n_vis]. rewrite filter_none; [reflexivity|]. intros (f & b) Hin. cbn [fst snd].
      apply in_prod_iff in Hin. rewrite !in_seq in Hin.
      destruct (Qltb 0 (at3 w4 0 f b)) eqn:E; auto. exfalso. apply (Hxm f b) in E.
      specialize (Mmx (xm f b) ltac:(apply In_flat2; exists f, b; intuition lia)).
      specialize (Mmy (ym f b) ltac:(apply In_flat2; exists f, b; intuition lia)).
      apply orb_true_iff in Eneg. rewrite !Qltb_true in Eneg. lra.
    - apply orb_false_iff in Eneg. rewrite !Qltb_false in Eneg.
      set (key := fun f b : nat => (xm f b + ym f b * inject_Z (o_dimension o))%Q).
      assert (HD : (0 < inject_Z (o_dimension o))%Q) by (change 0%Q with (inject_Z 0); rewrite <- Zlt_Qlt; auto).
      assert (Hkey : forall f b, Qle_bool 0 (key f b) = Qltb 0 (at3 w4 0 f b)).
      { intros f b. unfold key. destruct (Hxm f b) as [K1 K2]. destruct (Qltb 0 (at3 w4 0 f b)).
        - apply Qle_bool_iff. destruct K1 as [K1 K3]; auto.
          assert (0 <= ym f b * inject_Z (o_dimension o))%Q by (apply Qmult_le_0_compat; lra). lra.
        - destruct K2 as [-> ->]; auto. apply Qle_bool_false. lra. }
      destruct (np_max_spec (flat2 nf nb key) (flat2_ne _ _ _ Hnf Hnb)) as (mk & Emk & Imk & Mmk).
      assert (Hmk : (0 <= mk)%Q).
      { apply In_flat2 in Imx. destruct Imx as (f & b & Hf & Hb & ->).
        specialize (Mmk (key f b) ltac:(apply In_flat2; exists f, b; auto)).
        assert (0 <= key f b)%Q; [|lra]. apply Qle_bool_iff. rewrite Hkey.
        destruct (Qltb 0 (at3 w4 0 f b)) eqn:E; auto. apply (Hxm f b) in E. destruct E as [E _]. rewrite E in Eneg. lra. }
      match goal with |- context[histogram (flat2 nf nb ?k) 1 None (Some 0%Q) None] => change k with key end.
      rewrite (histogram_defaults (flat2 nf nb key) 1 (Some 0%Q) None 0%Q mk None eq_refl Emk).
      destruct (histogram_counts (flat2 nf nb key) 1 0 mk ltac:(lra) Hmk) as (hist & bins & ri & Eh & _ & _ & _ & _ & _ & Hs).
      rewrite Eh. cbn [bind].
      assert (Hn : sum_nat hist = length (filter (fun x => Qltb 0 (at3 w4 0 (fst x) (snd x))) (all_pairs nf nb))).
      { rewrite Hs, flat2_count. f_equal. apply filter_ext_in. intros (f & b) Hin. cbn [fst snd].
        apply in_prod_iff in Hin. rewrite !in_seq in Hin. rewrite <- Hkey. unfold within_b.
        rewrite (proj2 (Qle_bool_iff (key f b) mk)); [now rewrite andb_true_r|].
        apply Mmk, In_flat2. exists f, b. intuition lia. }
      eexists bi, w4, _. split; [reflexivity|]. split; [exact Hbi|].
      do 3 (split; [cbn; congruence|]). split; [exact Hw|]. split; [exact Hn|].
      cbn [c_n_vis c_flags]. destruct (sum_nat hist =? 0) eqn:E0; auto. exfalso.
      apply Nat.eqb_eq in E0. apply In_flat2 in Imx. destruct Imx as (f & b & Hf & Hb & ->).
      assert (Hc : In (f, b) (filter (fun x => Qltb 0 (at3 w4 0 (fst x) (snd x))) (all_pairs nf nb))).
      { apply filter_In. split; [apply in_prod; apply in_seq; lia|]. cbn [fst snd].
        destruct (Qltb 0 (at3 w4 0 f b)) eqn:E; auto. apply (Hxm f b) in E. destruct E as [E _]. rewrite E in Eneg. lra. }
      rewrite Hn in E0. apply length_zero_iff_nil in E0. rewrite E0 in Hc. destruct Hc.
  Qed.
End Update.
