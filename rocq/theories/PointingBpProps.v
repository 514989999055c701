(** C115, C116: which entry of a calibration file by pointings is used; files with other channels. *)
From Coq Require Import String Qabs Lqa.
From Verif Require Import Base PyIndex Cplx NpArr VisWeights Obs TransferBp TransferBpSpec TransferBpProofs
  PointingBp PointingBpSpec PointingBpProofs.
Import ListNotations.
Open Scope nat_scope.
Open Scope list_scope.

Lemma starts_for_eq obs file : Forall2 Qeq (starts_for obs file) (starts (shift obs file)).
Proof.
  assert (E : (per_day * inject_Z (Qfloor obs - Qfloor file) == shift obs file)%Q).
  { unfold per_day, shift. unfold Z.sub. rewrite inject_Z_plus, inject_Z_opp. apply Qmult_comp; [vm_compute; reflexivity|reflexivity]. }
  unfold starts_for, starts, starts_2013, reference_starts. cbn [map].
  repeat (constructor; [rewrite E; apply Qplus_inj_r; reflexivity|]). constructor.
Qed.
Lemma Forall2_nth_Q l l' i : Forall2 Qeq l l' -> (nth i l 0 == nth i l' 0)%Q.
Proof.
  intros F. revert i. induction F as [|x y l l' H F IH]; intros [|i]; cbn [nth]; try reflexivity; [exact H|apply IH].
Qed.
Lemma slot_eq l l' k t : Forall2 Qeq l l' -> in_slot l k t -> in_slot l' k t.
Proof.
  intros F (Hk & H1 & H2). assert (L : length l = length l') by (clear -F; induction F; cbn; auto).
  assert (N := fun i => Forall2_nth_Q l l' i F). split; [lia|]. split; [rewrite <- N; exact H1|]. intros H. rewrite <- N. apply H2. lia.
Qed.

(** C115. The delays tell the pointing: the eleven patterns, and no other. *)
Theorem C115_delays : forall delays p, obs_pointing delays = Some p <-> (-5 <= p <= 5)%Z /\ delays = delays_at p.
Proof. intros delays p. split; [apply obs_pointing_inv|]. intros [H ->]. now apply obs_pointing_at. Qed.
Print Assumptions C115_delays.
Example C115_delays_case : delays_at 4 = [12; 8; 4; 0; 13; 9; 5; 1; 14; 10; 6; 2; 15; 11; 7; 3]%Z.
Proof. reflexivity. Qed.

(** C115, full statement: for every file that starts within the pointings the entry used is the one for the pointing of the
    observation.
    Proved when the file starts in the slot of one of the ten pointings: the first entry is that pointing, and the observation
    gets the entry as many places further as its own pointing is later; an earlier one gets none. *)
Theorem C115_entry_partial : forall p obs_date file_date k, (-5 <= p <= 5)%Z ->
  in_slot (starts_for obs_date file_date) k (day_fraction file_date) ->
  (day_fraction file_date <= nth 9 (starts_for obs_date file_date) 0 + (0.15157 - 0.13611))%Q ->
  pointing (delays_at p) obs_date file_date
  = if (p <? Z.of_nat k - 5)%Z then None else Some (Z.to_nat (p - (Z.of_nat k - 5))).
Proof.
  intros p obs file k Hp Hs Hu. assert (F := starts_for_eq obs file). apply (slot_eq _ _ k _ F) in Hs.
  rewrite (Forall2_nth_Q _ _ 9 F) in Hu. unfold pointing. rewrite obs_pointing_at by exact Hp.
  fold (starts (shift obs file)). fold (day_fraction file). set (s := shift obs file) in *. set (t := day_fraction file) in *.
  assert (N := nearest_slot (starts s) k t (starts_increasing s) Hs). cbn zeta in N. cbn zeta. rewrite N.
  destruct Hs as (Hk & H1 & H2). rewrite starts_length in Hk.
  assert (St : (nth 1 (starts s) 0 - nth 0 (starts s) 0 == 0.15157 - 0.13611)%Q).
  { rewrite !starts_nth by lia. cbn [nth reference_starts]. lra. }
  assert (B : Qlt_bool (qmax (starts s) + (nth 1 (starts s) 0%Q - nth 0 (starts s) 0%Q)) t = false).
  { apply Qlt_bool_false. rewrite qmax_starts, St. exact Hu. }
  assert (Bm : Qlt_bool t (qmin (starts s) - (nth 1 (starts s) 0%Q - nth 0 (starts s) 0%Q)) = false).
  { apply Qlt_bool_false. rewrite qmin_starts, St. apply Qle_trans with (nth 0 (starts s) 0%Q); [lra|].
    apply Qle_trans with (nth k (starts s) 0%Q); [|exact H1]. destruct k; [lra|]. apply Qlt_le_weak, starts_increasing; [lia|exact Hk]. }
  rewrite B, Bm. cbn [orb].
  assert (A : at_z pointing_num_ref (Z.of_nat k) = (Z.of_nat k - 5)%Z).
  { clear - Hk. do 10 (destruct k as [|k]; [reflexivity|]). lia. }
  rewrite A. destruct (Z.ltb_spec p (Z.of_nat k - 5)) as [L|L]; [reflexivity|]. do 2 f_equal. lia.
Qed.
Print Assumptions C115_entry_partial.
(** An observation at the zenith and a file of the same day that starts at pointing -2: the third entry. *)
Example C115_entry_case :
  in_slot (starts_for 2456528.26 2456528.21) 3 (day_fraction 2456528.21)
  /\ (day_fraction 2456528.21 <= nth 9 (starts_for 2456528.26 2456528.21) 0 + (0.15157 - 0.13611))%Q
  /\ pointing (delays_at 0) 2456528.26 2456528.21 = Some 2.
Proof. split; [split; [vm_compute; lia|]; split; [|intros _]; vm_compute; congruence|]. split; [vm_compute; congruence|vm_compute; reflexivity]. Qed.

(** C115 is false of files that start shortly before the first pointing: the start is taken for that of the last one, so that
    observations at every other pointing are refused and those at the pointings 4 and 5 get the first entries. *)
Theorem C115_before_refuted : forall p obs_date file_date, (-5 <= p <= 5)%Z ->
  (day_fraction file_date < nth 0 (starts_for obs_date file_date) 0)%Q ->
  (nth 0 (starts_for obs_date file_date) 0 - (0.15157 - 0.13611) <= day_fraction file_date)%Q ->
  pointing (delays_at p) obs_date file_date = if (p <? 4)%Z then None else Some (Z.to_nat (p - 4)).
Proof.
  intros p obs file Hp H1 H2. assert (F := starts_for_eq obs file). rewrite (Forall2_nth_Q _ _ 0 F) in H1, H2.
  unfold pointing. rewrite obs_pointing_at by exact Hp.
  fold (starts (shift obs file)). fold (day_fraction file). set (s := shift obs file) in *. set (t := day_fraction file) in *.
  assert (N := nearest_before (starts s) t (starts_increasing s) ltac:(rewrite starts_length; lia) H1). cbn zeta in N. cbn zeta. rewrite N.
  assert (St : (nth 1 (starts s) 0 - nth 0 (starts s) 0 == 0.15157 - 0.13611)%Q).
  { rewrite !starts_nth by lia. cbn [nth reference_starts]. lra. }
  assert (B : Qlt_bool (qmax (starts s) + (nth 1 (starts s) 0%Q - nth 0 (starts s) 0%Q)) t = false).
  { apply Qlt_bool_false. rewrite qmax_starts, St. apply Qle_trans with (nth 0 (starts s) 0%Q); [lra|].
    assert (L := starts_increasing s 0 9 ltac:(lia) ltac:(rewrite starts_length; lia)). lra. }
  assert (Bm : Qlt_bool t (qmin (starts s) - (nth 1 (starts s) 0%Q - nth 0 (starts s) 0%Q)) = false).
  { apply Qlt_bool_false. rewrite qmin_starts, St. exact H2. }
  rewrite B, Bm. cbn [orb]. change (at_z pointing_num_ref (-1)) with 4%Z.
  destruct (Z.ltb_spec p 4) as [L|L]; [reflexivity|]. do 2 f_equal. lia.
Qed.
Print Assumptions C115_before_refuted.
Example C115_before_case : (day_fraction 2456528.13 < nth 0 (starts_for 2456528.31 2456528.13) 0)%Q
  /\ (nth 0 (starts_for 2456528.31 2456528.13) 0 - (0.15157 - 0.13611) <= day_fraction 2456528.13)%Q
  /\ pointing (delays_at 4) 2456528.31 2456528.13 = Some 0 /\ pointing (delays_at 0) 2456528.26 2456528.13 = None.
Proof. repeat split; vm_compute; congruence. Qed.

(** C115. Further outside, and for delays that are not of the list, no entry is used. *)
Theorem C115_outside : forall delays obs_date file_date,
  ((forall p, (-5 <= p <= 5)%Z -> delays <> delays_at p)
   \/ (nth 9 (starts_for obs_date file_date) 0 + (0.15157 - 0.13611) < day_fraction file_date)%Q
   \/ (day_fraction file_date < nth 0 (starts_for obs_date file_date) 0 - (0.15157 - 0.13611))%Q) ->
  pointing delays obs_date file_date = None.
Proof.
  intros delays obs file H. unfold pointing. destruct (obs_pointing delays) as [p|] eqn:E; [|reflexivity].
  apply obs_pointing_inv in E as [Hp E]. destruct H as [H|H]; [exfalso; exact (H p Hp E)|].
  assert (F := starts_for_eq obs file). rewrite (Forall2_nth_Q _ _ 9 F), (Forall2_nth_Q _ _ 0 F) in H.
  fold (starts (shift obs file)). fold (day_fraction file). set (s := shift obs file) in *. set (t := day_fraction file) in *. cbn zeta.
  assert (St : (nth 1 (starts s) 0 - nth 0 (starts s) 0 == 0.15157 - 0.13611)%Q).
  { rewrite !starts_nth by lia. cbn [nth reference_starts]. lra. }
  destruct H as [H|H].
  - replace (Qlt_bool (qmax (starts s) + _) t) with true; [reflexivity|]. symmetry. apply Qlt_bool_spec. rewrite qmax_starts, St. exact H.
  - replace (Qlt_bool t (qmin (starts s) - _)) with true; [now rewrite orb_true_r|]. symmetry. apply Qlt_bool_spec.
    rewrite qmin_starts, St. exact H.
Qed.
Print Assumptions C115_outside.
Example C115_outside_case : (nth 9 (starts_for 2456528.31 2456528.5) 0 + (0.15157 - 0.13611) < day_fraction 2456528.5)%Q.
Proof. vm_compute. reflexivity. Qed.

(** C115 is false of the seasons: the starts of 23 August 2013 are used unshifted for every file and observation of the same day,
    although the sky comes round about four minutes earlier each day. Moving both by any number of days changes nothing. *)
Theorem C115_season_refuted : forall delays obs_date file_date n,
  pointing delays (obs_date + inject_Z n) (file_date + inject_Z n) = pointing delays obs_date file_date.
Proof.
  intros delays obs file n.
  assert (Fl : forall x, Qfloor (x + inject_Z n) = (Qfloor x + n)%Z).
  { intros [a b]. unfold Qplus, inject_Z. cbn [Qnum Qden]. rewrite Z.mul_1_r, Pos.mul_1_r. unfold Qfloor.
    now rewrite Z.div_add. }
  assert (Es : shift (obs + inject_Z n) (file + inject_Z n) = shift obs file).
  { unfold shift. rewrite !Fl. f_equal. unfold Qminus, Qplus, Qopp, inject_Z. cbn [Qnum Qden]. f_equal. lia. }
  assert (Et : (file + inject_Z n - inject_Z (Qfloor (file + inject_Z n)) = file - inject_Z (Qfloor file))%Q).
  { rewrite Fl. generalize (Qfloor file) as f. destruct file as [a b]. intros f. unfold Qminus, Qplus, Qopp, inject_Z. cbn [Qnum Qden].
    rewrite !Pos.mul_1_r. f_equal. lia. }
  unfold pointing. rewrite Es, Et. reflexivity.
Qed.
Print Assumptions C115_season_refuted.

(** C116 is false of the code: no file whose channels are wider than those of the observation can be brought to its channels;
    with real data, imaginary data and flags the last assignment never fits, *)
Theorem C116_parts_refuted : forall n_jones n_freq factor tiles channels times pols n_data a r,
  nd_shape a = [tiles; channels; times; pols; n_data] -> 3 <= n_data -> finer n_jones n_freq factor a <> Ok r.
Proof.
  intros nj nf k tiles ch times pols nd a r Hs Hn. unfold finer, shape_at. rewrite Hs. cbn [nth].
  destruct (fold_res _ _ _) as [tmp|]; [|discriminate]. cbn [bind]. destruct (nf =? 0); [discriminate|]. destruct (ch =? 0); [discriminate|].
  unfold bfit. destruct (Nat.eqb_spec nd 2); [lia|]. destruct (Nat.eqb_spec nd 1); [lia|]. rewrite andb_false_r. discriminate.
Qed.
Print Assumptions C116_parts_refuted.

(** and the channels are looked for on the axis of the polarisations: an observation with more channels than the file has
    polarisations, and one more, ends with a ValueError, which is not caught. *)
Lemma fold_value_error {A S} (f : S -> A -> result S) (l : list A) (r : list A) (x : A) s :
  (forall y s, In y l -> (exists s', f s y = Ok s') \/ f s y = Err ValueError) -> (forall s, f s x = Err ValueError) -> In x l ->
  fold_res f (l ++ r) s = Err ValueError.
Proof.
  intros H Hx. revert s. induction l as [|y l IH]; intros s Hin; [destruct Hin|]. cbn [app fold_res].
  destruct (H y s (or_introl eq_refl)) as [[s' E]|E]; rewrite E; [|reflexivity]. cbn [bind]. destruct Hin as [->|Hin]; [rewrite Hx in E; discriminate|].
  apply IH; [|exact Hin]. intros z s0 Hz. apply H. now right.
Qed.
Theorem C116_channels_refuted : forall n_jones n_freq factor tiles channels times pols n_data a,
  nd_shape a = [tiles; channels; times; pols; n_data] ->
  1 <= tiles -> 1 <= channels -> 1 <= times -> 1 <= n_data -> 1 <= n_jones -> pols + 2 <= n_freq ->
  finer n_jones n_freq factor a = Err ValueError.
Proof.
  intros nj nf k tiles ch times pols nd a Hs Ht Hc Hm Hn Hj Hf. unfold finer.
  assert (L : exists r, interp_loop nj (shape_at a 2) (shape_at a 0) nf = map (fun c => (0, 0, 0, 0, c)) (seq 0 (nf - 1)) ++ r).
  { unfold interp_loop, shape_at. rewrite Hs. cbn [nth seq flat_map]. destruct nj as [|nj]; [lia|]. destruct times as [|times]; [lia|].
    destruct tiles as [|tiles]; [lia|]. cbn [seq flat_map]. rewrite <- !app_assoc. eexists. reflexivity. }
  destruct L as (r & ->). rewrite (fold_value_error _ _ _ (0, 0, 0, 0, pols)); [reflexivity| | |].
  - intros y s Hy. apply in_map_iff in Hy as (c & <- & Hc'). unfold interp_step, shape_at. rewrite Hs. cbn [nth].
    destruct (Nat.ltb_spec 0 tiles); [|lia]. destruct (Nat.ltb_spec 0 ch); [|lia]. destruct (Nat.ltb_spec 0 times); [|lia].
    destruct (Nat.ltb_spec 0 nd); [|lia]. cbn [andb]. destruct (negb _); [now right|]. destruct (negb _); [now right|]. left. eexists. reflexivity.
  - intros s. unfold interp_step, shape_at. rewrite Hs. cbn [nth].
    destruct (Nat.ltb_spec 0 tiles); [|lia]. destruct (Nat.ltb_spec 0 ch); [|lia]. destruct (Nat.ltb_spec 0 times); [|lia].
    destruct (Nat.ltb_spec 0 nd); [|lia]. cbn [andb]. unfold span. rewrite !Nat.min_r by lia. rewrite Nat.sub_diag. reflexivity.
  - apply in_map. apply in_seq. lia.
Qed.
Print Assumptions C116_channels_refuted.
Example C116_channels_case : finer 2 8 2 (NdArr [3; 4; 1; 2; 3] (fun i => inject_Z (Z.of_nat (list_sum i)))) = Err ValueError.
Proof. vm_compute. reflexivity. Qed.

(** So only files with the channel width of the observation are ever transferred. *)
Theorem C116_width_refuted : forall n_jones n_freq factor pointing f o i gain r tiles channels times pols n_data w,
  calibration f tiles channels times pols n_data -> 3 <= n_data -> c_num f "chwidth" = Some w ->
  transfer_bandpass (finer n_jones n_freq factor) pointing (Some f) o i gain = Ok (Some r) -> (w == b_freq_res o)%Q.
Proof.
  intros nj nf k pt f o i gain [bp rest] tiles ch times pols nd w CAL ND W E. unfold transfer_bandpass in E.
  apply bind_some in E as (g & R & _).
  destruct (read_standard (finer nj nf k) pt f o i _ _ _ _ _ CAL) as (it & w' & or & st & td & ts & _ & W' & O & ST & RD).
  rewrite RD in R. assert (w' = w) by congruence. subst w'. destruct (pols <? b_pol o); [discriminate|].
  apply bind_inv in R as (a & TU & R). apply bind_some in R as (b & M & _).
  apply turned_shape in TU. destruct CAL as (_ & _ & _ & _ & SH). cbn [map snd rev app] in SH.
  assert (SA : exists p, nd_shape a = [tiles; ch; times; p; nd]).
  { rewrite TU. unfold sliced. destruct (b_pol o <? pols); [|exists pols; exact SH]. unfold nd_slice. rewrite SH.
    cbn [nd_shape firstn skipn app]. eexists. reflexivity. }
  destruct SA as (p & SA). unfold match_channels in M. destruct (Qeq_bool w (b_freq_res o)) eqn:EQ; [now apply Qeq_bool_iff|]. exfalso.
  destruct (negb _); [discriminate|]. destruct (negb _); [discriminate|]. destruct (Qle_bool (b_freq_res o / w) 1) eqn:L.
  - destruct (Qeq_bool (b_freq_res o / w) 1) eqn:E1.
    + apply Qeq_bool_iff in E1. assert (Hw : ~ (w == 0)%Q).
      { intros H0. rewrite H0 in E1. unfold Qdiv in E1. change (/ 0)%Q with 0%Q in E1. rewrite Qmult_0_r in E1. discriminate E1. }
      assert (b_freq_res o == w)%Q. { rewrite <- (Qmult_1_l w), <- E1. field. exact Hw. }
      assert (w == b_freq_res o)%Q by (symmetry; assumption). apply Qeq_bool_iff in H0. congruence.
    + apply bind_inv in M as (b' & M & _). exact (C116_parts_refuted nj nf k tiles ch times p nd a b' SA ND M).
  - rewrite SA in M. destruct (nd <? 3); discriminate.
Qed.
Print Assumptions C116_width_refuted.
