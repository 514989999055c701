(** Proofs about create_obs and read_metafits. *)
From Coq Require Import String Qabs Qround Sorted Permutation ZifyBool ZifyNat.
From Verif Require Import Base SortLib Histogram HistogramSpec HistogramFinal Utils1 PyIndex Obs ObsProofs ObsFull ObsFullSpec.
Import ListNotations.
Open Scope nat_scope.
Open Scope list_scope.
Ltac Zify.zify_post_hook ::= idtac.

Lemma bind_ok {A B} (x : result A) (f : A -> result B) r : bind x f = Ok r -> exists a, x = Ok a /\ f a = Ok r.
Proof. destruct x; [eauto|discriminate]. Qed.

(** ** The parts of a successful run *)
Definition par' (p : uvpar) (ab : list Z * list Z) : uvpar :=
  {| u_time := u_time p; u_ant1 := fst ab; u_ant2 := snd ab; u_baseline := u_baseline p; u_uu := u_uu p; u_vv := u_vv p |}.
Lemma create_parts s tick c h p ants file o : create_obs s tick c h p ants file = Ok o ->
  exists n_time offsets n_baselines ext,
    obs_times (u_time p) = Ok (n_time, offsets, n_baselines)
    /\ create_fbin (d_freq h) (List.length (d_freq h)) ((match c_nfreq_avg c with Some a => a | None => 1%Q end) * d_freq_res h)%Q = Ok (o_fbin o)
    /\ tiles h p ants = Ok (o_tile_a o, o_tile_b o)
    /\ kpix c (deg s) = Ok (o_kpix o)
    /\ dimensions c = Ok (o_dimension o, o_elements o)
    /\ degpix c (deg s) (o_kpix o) = Ok (o_degpix o)
    /\ extent s c (o_kpix o) (o_dimension o) (o_elements o) (samples (d_freq h) (u_uu p) (u_vv p)) = Ok ext
    /\ o_max_baseline o = fst ext /\ o_min_baseline o = snd ext
    /\ read_metafits s tick c h (par' p (o_tile_a o, o_tile_b o)) (d_n_tile h) (o_dimension o) (o_elements o) (o_degpix o) file = Ok (o_meta o)
    /\ time_use n_time (m_time_res (o_meta o)) c = Ok (o_time_use o)
    /\ o_n_time o = n_time /\ o_bin_offset o = offsets /\ o_n_baselines o = n_baselines
    /\ o_n_vis o = List.length (u_time p) * List.length (d_freq h)
    /\ o_tile_use o = map (fun f => (1 - f)%Z) (m_tile_flag (o_meta o))
    /\ o_n_tile_flag o = List.length (filter (fun x => (x =? 0)%Z) (o_tile_use o))
    /\ o_n_time_flag o = n_time - List.length (filter (fun b => b) (o_time_use o)).
Proof.
  intros H. unfold create_obs in H.
  apply bind_ok in H as ([[n_time offsets] nb] & E1 & H). apply bind_ok in H as (fbin & E2 & H).
  apply bind_ok in H as ([a b] & E3 & H). apply bind_ok in H as (k & E4 & H). apply bind_ok in H as ([d e] & E5 & H).
  apply bind_ok in H as (dp & E6 & H). apply bind_ok in H as (ext & E7 & H). apply bind_ok in H as (m & E8 & H).
  apply bind_ok in H as (use & E9 & H). injection H as <-. cbn [fst snd] in *.
  exists n_time, offsets, nb, ext. cbn. repeat split; assumption.
Qed.
(** And back. *)
Lemma create_run s tick c h p ants file t fbin ab k de dp ext m use :
  obs_times (u_time p) = Ok t ->
  create_fbin (d_freq h) (List.length (d_freq h)) ((match c_nfreq_avg c with Some a => a | None => 1%Q end) * d_freq_res h)%Q = Ok fbin ->
  tiles h p ants = Ok ab -> kpix c (deg s) = Ok k -> dimensions c = Ok de -> degpix c (deg s) k = Ok dp ->
  extent s c k (fst de) (snd de) (samples (d_freq h) (u_uu p) (u_vv p)) = Ok ext ->
  read_metafits s tick c h (par' p ab) (d_n_tile h) (fst de) (snd de) dp file = Ok m ->
  time_use (fst (fst t)) (m_time_res m) c = Ok use -> exists o, create_obs s tick c h p ants file = Ok o.
Proof.
  intros E1 E2 E3 E4 E5 E6 E7 E8 E9. unfold create_obs. rewrite E1. cbn [bind]. destruct t as [[n offs] nb]. cbn [fst snd] in E9.
  rewrite E2. cbn [bind]. rewrite E3. cbn [bind]. rewrite E4. cbn [bind]. rewrite E5. cbn [bind]. rewrite E6. cbn [bind].
  rewrite E7. cbn [bind]. unfold par' in E8. rewrite E8. cbn [bind]. rewrite E9. cbn [bind]. eauto.
Qed.

(** ** Extents *)
Lemma qmax_fold l : forall x, let m := fold_left (fun a b => if Qlt_le_dec a b then b else a) l x in
  In m (x :: l) /\ (x <= m)%Q /\ forall y, In y l -> (y <= m)%Q.
Proof.
  induction l as [|a l IH]; intros x; cbn [fold_left].
  - split; [now left|]. split; [apply Qle_refl|intros y []].
  - destruct (IH (if Qlt_le_dec x a then a else x)) as (I & L & A). cbv zeta. split; [|split].
    + destruct I as [I|I]; [|right; right; exact I]. destruct (Qlt_le_dec x a); [right; left; exact I|left; exact I].
    + apply Qle_trans with (if Qlt_le_dec x a then a else x); [|exact L]. destruct (Qlt_le_dec x a); [now apply Qlt_le_weak|apply Qle_refl].
    + intros y [<-|Hy]; [|now apply A]. apply Qle_trans with (if Qlt_le_dec x a then a else x); [|exact L].
      destruct (Qlt_le_dec x a); [apply Qle_refl|assumption].
Qed.
Lemma qmin_fold l : forall x, let m := fold_left (fun a b => if Qlt_le_dec b a then b else a) l x in
  In m (x :: l) /\ (m <= x)%Q /\ forall y, In y l -> (m <= y)%Q.
Proof.
  induction l as [|a l IH]; intros x; cbn [fold_left].
  - split; [now left|]. split; [apply Qle_refl|intros y []].
  - destruct (IH (if Qlt_le_dec a x then a else x)) as (I & L & A). cbv zeta. split; [|split].
    + destruct I as [I|I]; [|right; right; exact I]. destruct (Qlt_le_dec a x); [right; left; exact I|left; exact I].
    + apply Qle_trans with (if Qlt_le_dec a x then a else x); [exact L|]. destruct (Qlt_le_dec a x); [now apply Qlt_le_weak|apply Qle_refl].
    + intros y [<-|Hy]; [|now apply A]. apply Qle_trans with (if Qlt_le_dec a x then a else x); [exact L|].
      destruct (Qlt_le_dec a x); [apply Qle_refl|assumption].
Qed.
Lemma qmax_ok l m : qmax_list l = Ok m -> In m l /\ forall y, In y l -> (y <= m)%Q.
Proof.
  destruct l as [|x l]; [discriminate|]. intros H. injection H as <-. destruct (qmax_fold l x) as (I & L & A).
  split; [exact I|]. intros y [<-|Hy]; [exact L|now apply A].
Qed.
Lemma qmin_ok l m : qmin_list l = Ok m -> In m l /\ forall y, In y l -> (m <= y)%Q.
Proof.
  destruct l as [|x l]; [discriminate|]. intros H. injection H as <-. destruct (qmin_fold l x) as (I & L & A).
  split; [exact I|]. intros y [<-|Hy]; [exact L|now apply A].
Qed.
Lemma samples_in h p x y : List.length (u_uu p) = List.length (u_vv p) ->
  (In (x, y) (samples (d_freq h) (u_uu p) (u_vv p)) <-> sample h p x y).
Proof.
  intros L. unfold samples, sample. rewrite in_flat_map. split.
  - intros (f & Hf & H). apply in_map_iff in H as ([u v] & E & H). cbn [fst snd] in E. injection E as <- <-.
    destruct (In_nth _ _ (0, 0)%Q H) as (i & Hi & N). rewrite combine_length in Hi. rewrite combine_nth in N by exact L. injection N as <- <-.
    exists f, i. repeat split; auto. lia.
  - intros (f & i & Hf & Hi & -> & ->). exists f. split; [exact Hf|]. apply in_map_iff. exists (nth i (u_uu p) 0%Q, nth i (u_vv p) 0%Q).
    split; [reflexivity|]. rewrite <- combine_nth by exact L. apply nth_In. rewrite combine_length. lia.
Qed.
Lemma inside_on_grid k d e xy : inside k d e xy = true <-> on_grid k d e (fst xy) (snd xy).
Proof.
  unfold inside, on_grid. destruct (Qlt_le_dec (Qabs (fst xy) / k) (inject_Z d / 2)) as [A|A], (Qlt_le_dec (Qabs (snd xy) / k) (inject_Z e / 2)) as [B|B]; cbn;
    split; try discriminate; auto; intros [X Y]; exfalso; [apply Qlt_not_le in Y|apply Qlt_not_le in X|apply Qlt_not_le in X]; contradiction.
Qed.
Lemma extent_spec s c k d e xy mx mn : extent s c k d e xy = Ok (mx, mn) ->
  (exists x y, In (x, y) xy /\ on_grid k d e x y /\ mx = Qabs (hyp s x y))
  /\ (forall x y, In (x, y) xy -> on_grid k d e x y -> (Qabs (hyp s x y) <= mx)%Q)
  /\ exists m x y, In (x, y) xy /\ m = hyp s x y /\ ~ (m == 0)%Q
     /\ (forall x y, In (x, y) xy -> ~ (hyp s x y == 0)%Q -> (m <= hyp s x y)%Q)
     /\ mn = match c_min_baseline c with None => m | Some b => if Qlt_le_dec b m then m else b end.
Proof.
  unfold extent. intros H. apply bind_ok in H as (a & A & H). apply bind_ok in H as (b & B & H). injection H as <- <-.
  apply qmax_ok in A as [A1 A2]. apply qmin_ok in B as [B1 B2]. split; [|split].
  - apply in_map_iff in A1 as ([x y] & <- & I). apply filter_In in I as [I G]. apply inside_on_grid in G. exists x, y. auto.
  - intros x y I G. apply A2. apply in_map_iff. exists (x, y). split; [reflexivity|]. apply filter_In. split; [exact I|].
    now apply inside_on_grid.
  - apply filter_In in B1 as [B1 N]. apply in_map_iff in B1 as ([x y] & <- & I). exists (hyp s x y), x, y. cbn [fst snd] in *.
    split; [exact I|]. split; [reflexivity|]. split; [intros Z; apply Qeq_bool_iff in Z; rewrite Z in N; discriminate N|].
    split; [|reflexivity]. intros x' y' I' Z. apply B2. apply filter_In. split; [apply in_map_iff; exists (x', y'); auto|].
    destruct (Qeq_bool (hyp s x' y') 0) eqn:E; [apply Qeq_bool_iff in E; contradiction|reflexivity].
Qed.
Lemma extent_ok s c k d e xy : (exists x y, In (x, y) xy /\ on_grid k d e x y) -> (exists x y, In (x, y) xy /\ ~ (hyp s x y == 0)%Q) ->
  exists r, extent s c k d e xy = Ok r.
Proof.
  intros (x & y & I & G) (x' & y' & I' & N). unfold extent.
  assert (A : exists a, qmax_list (map (fun p => Qabs (hyp s (fst p) (snd p))) (filter (inside k d e) xy)) = Ok a).
  { assert (X : In (x, y) (filter (inside k d e) xy)) by (apply filter_In; split; [exact I|now apply inside_on_grid]).
    destruct (filter (inside k d e) xy); [destruct X|]. cbn. eauto. }
  destruct A as [a ->]. cbn [bind].
  assert (B : exists a, qmin_list (filter (fun r => negb (Qeq_bool r 0)) (map (fun p => hyp s (fst p) (snd p)) xy)) = Ok a).
  { assert (X : In (hyp s x' y') (filter (fun r => negb (Qeq_bool r 0)) (map (fun p => hyp s (fst p) (snd p)) xy))).
    { apply filter_In. split; [apply in_map_iff; exists (x', y'); auto|].
      destruct (Qeq_bool (hyp s x' y') 0) eqn:E; [apply Qeq_bool_iff in E; contradiction|reflexivity]. }
    destruct (filter _ (map _ xy)); [destruct X|]. cbn. eauto. }
  destruct B as [b ->]. cbn [bind]. eauto.
Qed.

(** ** Metafits *)
Lemma filter_sorted {A} (R : A -> A -> Prop) f l : StronglySorted R l -> StronglySorted R (filter f l).
Proof.
  induction 1 as [|a l H IH F]; [constructor|]. cbn [filter]. destruct (f a); [|exact IH]. constructor; [exact IH|].
  apply Forall_forall. intros x Hx. apply filter_In in Hx as [Hx _]. rewrite Forall_forall in F. auto.
Qed.
Lemma single_spec rows sel : complete_table rows -> single (sort_rows rows) = Ok sel -> one_per_antenna rows sel.
Proof.
  intros [ND C] H.
  set (cmp := fun a b : row => (r_antenna a <=? r_antenna b)%Z) in *.
  assert (S0 : StronglySorted (le_ cmp) (sort_rows rows)).
  { apply isort_sorted; unfold cmp; intros; lia. }
  assert (IN : forall r, In r (sort_rows rows) <-> In r rows) by (intros; apply isort_In).
  assert (ND' : NoDup (map (fun r => (r_antenna r, r_pol r)) (sort_rows rows))).
  { eapply Permutation_NoDup; [apply Permutation_map, isort_perm|]. exact ND. }
  unfold single in H. destruct (sort_rows rows) as [|r0 l] eqn:E; [discriminate H|].
  assert (HS : sel = filter (fun x => String.eqb (r_pol x) (r_pol r0)) (r0 :: l)) by congruence. clear H. rewrite <- E in S0, IN, ND', HS. subst sel.
  set (f := fun x => String.eqb (r_pol x) (r_pol r0)).
  assert (G : forall x, In x (filter f (sort_rows rows)) <-> In x rows /\ r_pol x = r_pol r0).
  { intros x. rewrite filter_In, IN. unfold f. rewrite String.eqb_eq. reflexivity. }
  split; [intros x X; apply G in X; apply X|]. split; [|split].
  - apply (filter_sorted _ f) in S0.
    assert (P : forall x, In x (filter f (sort_rows rows)) -> r_pol x = r_pol r0) by (intros x X; apply G in X; apply X).
    assert (ND2 : NoDup (map (fun r => (r_antenna r, r_pol r)) (filter f (sort_rows rows)))).
    { clear -ND'. induction (sort_rows rows) as [|a l IH]; [constructor|]. cbn [map] in ND'. inversion_clear ND' as [|? ? N1 N2].
      cbn [filter]. destruct (f a); [|auto]. cbn [map]. constructor; [|auto]. intros X. apply N1.
      apply in_map_iff in X as (y & Y & X). apply filter_In in X as [X _]. apply in_map_iff. eauto. }
    revert S0 P ND2. generalize (filter f (sort_rows rows)). clear. intros l S0 P ND.
    induction S0 as [|a l S0 IH F]; [constructor|]. cbn [map] in *. inversion_clear ND as [|? ? N1 N2]. constructor.
    + apply IH; [intros; apply P; now right|exact N2].
    + apply Forall_forall. intros z Z. apply in_map_iff in Z as (y & <- & Y). rewrite Forall_forall in F. specialize (F y Y).
      unfold le_, cmp in F. assert (r_antenna a <> r_antenna y); [|lia]. intros Q0. apply N1. apply in_map_iff. exists y. split; [|exact Y].
      rewrite Q0, (P y (or_intror Y)), (P a (or_introl eq_refl)). reflexivity.
  - intros a A. apply in_map_iff in A as (r & <- & R).
    assert (R0 : In r0 rows) by (apply IN; rewrite E; now left).
    destruct (C r r0 R R0) as (x & X & XA & XP). apply in_map_iff. exists x. split; [exact XA|]. apply G. auto.
  - exists (r_pol r0). intros x X. apply G in X. apply X.
Qed.
Lemma single_ok rows : rows <> [] -> exists sel, single (sort_rows rows) = Ok sel.
Proof.
  intros N. unfold single. destruct (sort_rows rows) as [|r l] eqn:E; [|eauto]. exfalso. apply N.
  pose proof (isort_length (fun a b => (r_antenna a <=? r_antenna b)%Z) rows) as L. unfold sort_rows in E. rewrite E in L.
  destruct rows; [reflexivity|discriminate L].
Qed.
Lemma read_parts s tick c h p n d e dp f m : read_metafits s tick c h p n d e dp (Some f) = Ok m ->
  exists sel ra dec pra pdec res delays, single (sort_rows (mf_rows f)) = Ok sel
  /\ (all_flagged (map r_flag sel) = true -> c_simulation c = true)
  /\ mf_num f "RA"%string = Some ra /\ mf_num f "DEC"%string = Some dec /\ mf_num f "RAPHASE"%string = Some pra
  /\ mf_num f "DECPHASE"%string = Some pdec /\ mf_num f "INTTIME"%string = Some res /\ mf_delays f = Some delays
  /\ m_tile_names m = map r_tile sel /\ m_tile_height m = map (fun r => (r_height r - d_alt h)%Q) sel /\ m_tile_flag m = map r_flag sel
  /\ m_time_res m = res /\ m_obsra m = ra /\ m_obsdec m = dec /\ m_phasera m = pra /\ m_phasedec m = pdec
  /\ m_orig_phasera m = (match c_phasera c with Some x => x | None => pra end)
  /\ m_orig_phasedec m = (match c_phasedec c with Some x => x | None => pdec end)
  /\ m_astr m = project s d e dp pra pdec (m_zenra m) (m_zendec m) /\ m_obsx m = (d / 2)%Z /\ m_obsy m = (e / 2)%Z.
Proof.
  unfold read_metafits. intros H. apply bind_ok in H as (jd0 & _ & H). apply bind_ok in H as (src & E & H).
  unfold from_file in E. apply bind_ok in E as (sel & ES & E).
  destruct (all_flagged (map r_flag sel) && negb (c_simulation c)) eqn:F; [discriminate E|].
  apply bind_ok in E as (ra & E1 & E). apply bind_ok in E as (dec & E2 & E). apply bind_ok in E as (pra & E3 & E).
  apply bind_ok in E as (pdec & E4 & E). apply bind_ok in E as (res & E5 & E). apply bind_ok in E as (delays & E6 & E).
  injection E as <-. destruct (zenith s (d_lat h) (d_lon h) (d_alt h) jd0) as [zra zdec] eqn:Z. injection H as <-.
  assert (CN : forall k v, card f k = Ok v -> mf_num f k = Some v).
  { intros k v X. unfold card in X. destruct (mf_num f k); [injection X as ->; reflexivity|discriminate X]. }
  exists sel, ra, dec, pra, pdec, res, delays. cbn. repeat split; auto.
  - intros A. rewrite A in F. destruct (c_simulation c); [reflexivity|discriminate F].
  - destruct (mf_delays f); [injection E6 as ->; reflexivity|discriminate E6].
Qed.
Lemma card_ok f k : mf_num f k <> None -> exists v, card f k = Ok v.
Proof. unfold card. destruct (mf_num f k); [eauto|congruence]. Qed.
Lemma zmin_ok l : l <> [] -> exists m, zmin l = Ok m.
Proof. destruct l; [congruence|]. cbn. eauto. Qed.
Lemma read_ok s tick c h p n d e dp f : idl_argunique (u_time p) <> [] -> mf_rows f <> [] -> has_cards f ->
  (forall sel, single (sort_rows (mf_rows f)) = Ok sel -> all_flagged (map r_flag sel) = true -> c_simulation c = true) ->
  exists m, read_metafits s tick c h p n d e dp (Some f) = Ok m.
Proof.
  intros T R [C D] F. unfold read_metafits. destruct (zmin_ok (map (fun i => nth i (u_time p) 0%Z) (idl_argunique (u_time p)))) as [jd0 ->].
  { destruct (idl_argunique (u_time p)); [congruence|discriminate]. }
  cbn [bind]. unfold from_file. destruct (single_ok _ R) as [sel ES]. rewrite ES. cbn [bind].
  assert (A : all_flagged (map r_flag sel) && negb (c_simulation c) = false).
  { destruct (all_flagged (map r_flag sel)) eqn:A; [|reflexivity]. rewrite (F sel ES A). reflexivity. }
  rewrite A.
  destruct (card_ok f "RA") as [v1 ->]; [apply C; cbn; tauto|]. cbn [bind].
  destruct (card_ok f "DEC") as [v2 ->]; [apply C; cbn; tauto|]. cbn [bind].
  destruct (card_ok f "RAPHASE") as [v3 ->]; [apply C; cbn; tauto|]. cbn [bind].
  destruct (card_ok f "DECPHASE") as [v4 ->]; [apply C; cbn; tauto|]. cbn [bind].
  destruct (card_ok f "INTTIME") as [v5 ->]; [apply C; cbn; tauto|]. cbn [bind].
  destruct (mf_delays f); [|congruence]. cbn [bind].
  destruct (zenith s (d_lat h) (d_lon h) (d_alt h) jd0). eauto.
Qed.
(** With one unflagged tile the program ends; with none it goes on. *)
Lemma zsum_ones l : (forall z, In z l -> z = 0 \/ z = 1)%Z ->
  zsum l = Z.of_nat (List.length (filter (fun z => (z =? 1)%Z) l)).
Proof.
  induction l as [|a l IH]; intros H; [reflexivity|]. change (zsum (a :: l)) with (a + zsum l)%Z. cbn [filter].
  rewrite IH by (intros; apply H; now right). destruct (H a (or_introl eq_refl)) as [->| ->].
  - change (0 =? 1)%Z with false. cbv iota. lia.
  - change (1 =? 1)%Z with true. cbv iota. cbn [List.length]. lia.
Qed.
Lemma filter_count {A} (f : A -> bool) l : List.length (filter f l) + List.length (filter (fun x => negb (f x)) l) = List.length l.
Proof. induction l as [|a l IH]; [reflexivity|]. cbn [filter]. destruct (f a); cbn [negb List.length]; lia. Qed.
Lemma all_flagged_iff l : (forall z, In z l -> z = 0 \/ z = 1)%Z ->
  (all_flagged l = true <-> List.length (filter (fun z => (z =? 0)%Z) l) = 1).
Proof.
  intros H. unfold all_flagged. rewrite zsum_ones by exact H.
  pose proof (filter_count (fun z => (z =? 1)%Z) l) as C.
  assert (E : filter (fun x => negb (x =? 1)%Z) l = filter (fun z => (z =? 0)%Z) l).
  { apply filter_ext_in. intros z Hz. destruct (H z Hz) as [->| ->]; reflexivity. }
  cbv beta in C. rewrite E in C. rewrite Z.eqb_eq. lia.
Qed.

(** ** Longitude offset *)
Lemma lon_offset_spec a b : same_direction (lon_offset a b) (a - b)%Q.
Proof.
  unfold lon_offset, same_direction. destruct Qlt_le_dec; [destruct Qlt_le_dec|].
  - exists (-1)%Z. change (inject_Z (360 * -1)) with (-360)%Q. ring.
  - exists 1%Z. change (inject_Z (360 * 1)) with 360%Q. ring.
  - exists 0%Z. change (inject_Z (360 * 0)) with 0%Q. ring.
Qed.

(** ** Time cuts *)
Lemma ceil_pos q : (0 < q)%Q -> (1 <= qceil q)%Q.
Proof.
  intros H. unfold qceil. change 1%Q with (inject_Z 1). rewrite <- Zle_Qle.
  pose proof (Qle_ceiling q) as C. assert (0 < inject_Z (Qceiling q))%Q by (eapply Qlt_le_trans; eauto).
  change 0%Q with (inject_Z 0) in H0. rewrite <- Zlt_Qlt in H0. lia.
Qed.
Lemma cut_neg n res l use ti v : (0 < res)%Q -> cut_at l ti = Ok v -> (v < 0)%Q -> cut_one n res l use ti = Err TypeError.
Proof.
  intros R A V. unfold cut_one. rewrite A. cbn [bind]. unfold cut_range.
  destruct (Qlt_le_dec v 0) as [_|X]; [|apply Qle_not_lt in X; contradiction]. unfold py_min. cbn [num_val].
  assert (C : (1 <= qceil (Qabs v / res))%Q).
  { apply ceil_pos. apply Qlt_shift_div_l; [exact R|]. rewrite Qmult_0_l. rewrite Qabs_neg by now apply Qlt_le_weak.
    rewrite <- (Qplus_0_l (- v)). apply Qlt_minus_iff in V. rewrite Qplus_0_l in V. rewrite Qplus_0_l. exact V. }
  assert (W : (inject_Z (Z.of_nat n) - qceil (Qabs v / res) <= inject_Z (Z.of_nat n - 1))%Q).
  { unfold Z.sub. rewrite inject_Z_plus. apply Qplus_le_r. change (inject_Z (-(1))) with (- (1))%Q. now apply Qopp_le_compat. }
  destruct (Qlt_le_dec (inject_Z (Z.of_nat n - 1)) (inject_Z (Z.of_nat n) - qceil (Qabs v / res))) as [X|X];
    [apply Qlt_not_le in X; contradiction|]. cbn [num_val].
  destruct (Qlt_le_dec (inject_Z (Z.of_nat n - 1)) (inject_Z (Z.of_nat n) - qceil (Qabs v / res))) as [X'|X'];
    [apply Qlt_not_le in X'; contradiction|]. reflexivity.
Qed.
Lemma cut_one_spec n res l use ti use' : (0 < res)%Q -> List.length use = n -> cut_one n res l use ti = Ok use' ->
  use' = use \/ use' = repeat false n.
Proof.
  intros R L H. destruct (cut_at l ti) as [v|e] eqn:A; [|unfold cut_one in H; rewrite A in H; discriminate H].
  destruct (Qlt_le_dec v 0) as [V|V]; [rewrite (cut_neg n res l use ti v R A V) in H; discriminate H|].
  unfold cut_one in H. rewrite A in H. cbn [bind] in H. unfold cut_range in H.
  destruct (Qlt_le_dec v 0) as [X|_]; [apply Qlt_not_le in X; contradiction|].
  unfold py_min in H. cbn [num_val] in H.
    destruct (Qlt_le_dec (inject_Z (Z.of_nat n - 1)) (qceil (Qabs v) / res - 1)) as [X|X]; cbn [num_val] in H.
    + destruct (Qlt_le_dec (inject_Z (Z.of_nat n - 1)) (inject_Z 0)) as [Y|Y]; [injection H as <-; now left|].
      injection H as <-. right. rewrite L.
      assert (G : forall m k, k + m = n -> map (fun i => if ((0 <=? Z.of_nat i) && (Z.of_nat i <=? Z.of_nat n - 1))%Z then false else nth i use true) (seq k m) = repeat false m).
      { induction m as [|m IH]; intros k K; [reflexivity|]. cbn [seq map repeat]. rewrite IH by lia.
        replace ((0 <=? Z.of_nat k) && (Z.of_nat k <=? Z.of_nat n - 1))%Z with true by lia. reflexivity. }
      now apply G.
    + destruct (Qlt_le_dec (qceil (Qabs v) / res - 1) (inject_Z 0)) as [Y|Y]; [injection H as <-; now left|discriminate H].
Qed.
Lemma time_use_spec n res c use : (0 < res)%Q -> time_use n res c = Ok use -> use = repeat true n \/ use = repeat false n.
Proof.
  intros R H. unfold time_use in H. destruct (c_time_cut c) as [l|]; [|injection H as <-; now left].
  assert (G : forall l' u, List.length u = n -> (u = repeat true n \/ u = repeat false n) -> fold_res (cut_one n res l) l' u = Ok use ->
    use = repeat true n \/ use = repeat false n).
  { induction l' as [|ti l' IH]; intros u L U F; cbn [fold_res] in F; [injection F as <-; exact U|].
    apply bind_ok in F as (u' & C & F).
    pose proof (cut_one_spec _ _ _ _ _ _ R L C) as [->| ->]; [now apply (IH u)|].
    apply (IH (repeat false n)); [apply repeat_length|now right|exact F]. }
  apply (G l (repeat true n)); [apply repeat_length|now left|exact H].
Qed.
(** One time to cut: nothing but 0 works. *)
Lemma time_use_one n res c v : (0 < res)%Q -> c_time_cut c = Some [CInt v] -> v <> 0%Z ->
  time_use n res c = Err (if (v =? -1)%Z then TypeError else IndexError).
Proof.
  intros R C N. unfold time_use. rewrite C. cbn [fold_res].
  destruct (v =? -1)%Z eqn:M.
  - apply Z.eqb_eq in M. subst v. rewrite (cut_neg n res _ _ _ (-1)%Q R); [reflexivity|reflexivity|reflexivity].
  - assert (E : norm_index 1 v = Err IndexError).
    { unfold norm_index. change (Z.of_nat 1) with 1%Z. apply Z.eqb_neq in M.
      replace ((0 <=? v) && (v <? 1))%Z with false by lia. replace ((v <? 0) && (- (1) <=? v))%Z with false by lia. reflexivity. }
    unfold cut_one. cbn [cut_at List.length]. rewrite E. reflexivity.
Qed.
