(** Properties C16 and C51-C55: visibility_grid, continued. *)
From Coq Require Import Permutation Lqa ZifyBool ZifyNat.
From Verif Require Import Base SortLib Cplx NpArr PyIndex SumLib Histogram ArrayMatch Utils1 WeightInvert WeightInvertProofs
  GridLoc GridSpec GridLocProofs GridCountProofs GridLocProps RebinProofs
  VisGrid VisGridSpec VisGridBoxProofs VisGridProofs VisGridLinProofs VisGridProps.
Open Scope nat_scope.

(** *** C15: order, counterexample *)
(** Listing the same baselines in another order changes a pixel. *)
Theorem C15_order_refuted : exists gi b1 b2 o1 o2 y x,
  sensible (gi_loc gi) /\ beam_ok gi /\ Permutation b1 b2
  /\ visibility_grid cfg0 gi false true None (Some b1) = Ok (Some o1)
  /\ visibility_grid cfg0 gi false true None (Some b2) = Ok (Some o2)
  /\ at2 (o_image o1) y x <> at2 (o_image o2) y x.
Proof.
  exists gdemo, [0; 1; 2]%Z, [1; 0; 2]%Z.
  assert (R1 : run_ok (visibility_grid cfg0 gdemo false true None (Some [0; 1; 2]%Z))
            (fun o => Ceqb (at2 (o_image o) 6 9) (mkC (Q2Qc (4 # 3)) (Q2Qc (2 # 3)))) = true) by (vm_compute; reflexivity).
  assert (R2 : run_ok (visibility_grid cfg0 gdemo false true None (Some [1; 0; 2]%Z))
            (fun o => Ceqb (at2 (o_image o) 6 9) (mkC (Q2Qc (4 # 3)) (Q2Qc (2 # 3)))) = false) by (vm_compute; reflexivity).
  assert (R3 : run_ok (visibility_grid cfg0 gdemo false true None (Some [1; 0; 2]%Z)) (fun _ => true) = true) by (vm_compute; reflexivity).
  apply run_ok_elim in R1, R3. destruct R1 as (o1 & E1 & H1), R3 as (o2 & E2 & _).
  rewrite E2 in R2. cbn [run_ok] in R2.
  exists o1, o2, 6, 9. split; [exact demo_sensible|]. split; [exact gdemo_beam|]. split; [constructor|].
  split; [exact E1|]. split; [exact E2|]. intros E. rewrite E in H1. congruence.
Qed.
Print Assumptions C15_order_refuted.

(** *** C16 *)
(** Decision for [gdemo]. *)
Definition gdemo_good (k : nat) : bool := kept_b demo 1 (3 # 2) false false (measurement demo [0; 1]%Z [0; 1; 2]%Z k).
Lemma demo_range : is_min 1 (g_freq demo) /\ is_max (3 # 2) (g_freq demo).
Proof.
  split; (split; [cbn; auto|]); intros y [<-|[<-|[]]]; unfold Qle; simpl; lia.
Qed.
Lemma gdemo_decides : decides gdemo_good demo false [0; 1]%Z [0; 1; 2]%Z.
Proof. intros k _. unfold gdemo_good. apply kept_b_spec; [exact demo_sensible|]. intros _. exact demo_range. Qed.

Lemma gridded_sum_ext it gi fi bi fb fb' p q v y x :
  (forall k, k < length fi * length bi -> p k = q k) ->
  (forall k, k < length fi * length bi -> fb k = fb' k) ->
  gridded_sum it gi fi bi fb p v y x = gridded_sum it gi fi bi fb' q v y x.
Proof.
  intros H HF. unfold gridded_sum. rewrite (count_if_ext _ _ _ H). f_equal. unfold total.
  rewrite (filter_seq_ext _ _ _ H). apply Csum_ext. intros k Hk. apply filter_In in Hk. destruct Hk as [Hk _].
  apply in_seq in Hk. unfold sample_at. now rewrite HF by lia.
Qed.
Lemma gridded_power_ext it gi fi bi fb fb' p q y x :
  (forall k, k < length fi * length bi -> p k = q k) ->
  (forall k, k < length fi * length bi -> fb k = fb' k) ->
  gridded_power it gi fi bi fb p y x = gridded_power it gi fi bi fb' q y x.
Proof.
  intros H HF. unfold gridded_power. rewrite (count_if_ext _ _ _ H). f_equal. unfold total_q.
  rewrite (filter_seq_ext _ _ _ H). apply Qcsum_ext. intros k Hk. apply filter_In in Hk. destruct Hk as [Hk _].
  apply in_seq in Hk. unfold sample_at. now rewrite HF by lia.
Qed.

(** The plane is not the sum of the visibilities with the beams of their own frequencies,
    whatever samples are taken to be griddable. *)
Theorem C16_refuted : exists gi out fi bi,
  sensible (gi_loc gi) /\ beam_ok gi /\ g_elements (gi_loc gi) = g_dimension (gi_loc gi)
  /\ visibility_grid cfg0 gi false true (Some fi) (Some bi) = Ok (Some out)
  /\ forall good, decides good (gi_loc gi) false fi bi ->
     exists y x, at2 (o_image out) y x <> gridded_sum false gi fi bi (own_bin gi fi bi) good s_vis y x.
Proof.
  exists gdemo.
  assert (R1 : run_ok (visibility_grid cfg0 gdemo false true (Some [0; 1]%Z) (Some [0; 1; 2]%Z))
     (fun o => negb (Ceqb (at2 (o_image o) 6 9)
        (gridded_sum false gdemo [0; 1]%Z [0; 1; 2]%Z (own_bin gdemo [0; 1]%Z [0; 1; 2]%Z) gdemo_good s_vis 6 9))) = true)
    by (vm_compute; reflexivity).
  apply run_ok_elim in R1. destruct R1 as (o & E & H). exists o, [0; 1]%Z, [0; 1; 2]%Z.
  split; [exact demo_sensible|]. split; [exact gdemo_beam|]. split; [reflexivity|]. split; [exact E|].
  intros good HD. exists 6, 9.
  rewrite (gridded_sum_ext _ _ _ _ _ (own_bin gdemo [0; 1]%Z [0; 1; 2]%Z) good gdemo_good);
    [|exact (decides_unique _ _ _ _ _ _ HD gdemo_decides)|reflexivity].
  apply negb_true_iff in H. intros E2. rewrite <- E2 in H. unfold Ceqb in H. destruct (C_eq_dec _ _) in H; congruence.
Qed.
Print Assumptions C16_refuted.

(** visibility_grid takes channel k mod n_freq for sample k, which is k / n_baselines: the
    two agree for all samples only with one channel or one baseline. *)
Theorem C16_lookup_exact : forall nf nb, 0 < nf -> 0 < nb ->
  (forall k, k < nf * nb -> k mod nf = k / nb) <-> nf = 1 \/ nb = 1.
Proof.
  intros nf nb Hf Hb. split.
  - intros H. destruct (Nat.eq_dec nf 1); auto. destruct (Nat.eq_dec nb 1); auto. exfalso.
    assert (K : 1 < nf * nb) by nia. specialize (H 1 K).
    rewrite Nat.mod_small, Nat.div_small in H by lia. lia.
  - intros [->| ->] k Hk.
    + rewrite Nat.mod_1_r, Nat.div_small by lia. reflexivity.
    + rewrite Nat.div_1_r, Nat.mod_small by lia. reflexivity.
Qed.
Print Assumptions C16_lookup_exact.

(** With one channel, one baseline or one frequency bin every visibility does get the
    beam of its own frequency. *)
Theorem C16_own_frequency_partial : forall cfg gi uniform fi_use bi_use out,
  let g := gi_loc gi in let fi := choose_fi_use g false fi_use in
  sensible g -> (g_elements g <= g_dimension g)%Z -> tabulated cfg -> beam_ok gi -> c_uniform cfg = false ->
  visibility_grid cfg gi uniform true fi_use bi_use = Ok (Some out) ->
  exists bi, selection g bi_use bi /\
  (length fi = 1 \/ length bi = 1 \/ (exists b, forall i, In i fi -> py_get 0 (gi_fbin gi) i = b) ->
   exists good, decides good g (c_mask_mirror cfg) fi bi
    /\ let fb := own_bin gi fi bi in let it := c_interp cfg in
       forall y x,
       at2 (o_image out) y x = gridded_sum it gi fi bi fb good s_vis y x
       /\ (c_weights cfg = true -> at2 (o_weights out) y x = gridded_sum it gi fi bi fb good (fun _ => C1) y x)
       /\ (c_variance cfg = true -> at2 (o_variance out) y x = gridded_power it gi fi bi fb good y x)
       /\ (forall mo, o_model out = Some mo -> at2 mo y x = gridded_sum it gi fi bi fb good s_model y x)).
Proof.
  intros cfg gi uniform fi_use bi_use out g fi Hs Hle Ht Hb Hu E.
  destruct (C14_planes_partial _ _ _ _ _ _ Hs Hle Ht Hb Hu E) as (bi & S1 & good & HD & _ & _ & _ & _ & HV).
  fold g in S1, HD, HV. fold fi in HD, HV.
  exists bi. split; [exact S1|]. intros HC. exists good. split; [exact HD|]. cbv zeta in HV |- *.
  assert (EB : forall k, k < length fi * length bi -> looked_up_bin gi fi k = own_bin gi fi bi k).
  { intros k Hk. unfold looked_up_bin, own_bin.
    assert (Hf : 0 < length fi) by (destruct fi; simpl in *; lia).
    assert (Hb' : 0 < length bi) by (destruct bi; simpl in *; lia).
    assert (D : k / length bi < length fi) by (apply Nat.div_lt_upper_bound; lia).
    assert (M : k mod length fi < length fi) by (apply Nat.mod_upper_bound; lia).
    destruct HC as [H|[H|(b & H)]].
    - do 2 f_equal. apply (proj2 (C16_lookup_exact (length fi) (length bi) Hf Hb')); auto.
    - do 2 f_equal. apply (proj2 (C16_lookup_exact (length fi) (length bi) Hf Hb')); auto.
    - rewrite !H by (apply nth_In; auto). reflexivity. }
  intros y x. destruct (HV y x) as (V1 & V2 & V3 & _ & V5).
  split; [|split; [|split]].
  - rewrite V1. now apply gridded_sum_ext.
  - intros Hw. rewrite V2 by auto. now apply gridded_sum_ext.
  - intros Hw. rewrite V3 by auto. now apply gridded_power_ext.
  - intros mo Hm. rewrite (V5 mo Hm). now apply gridded_sum_ext.
Qed.
Print Assumptions C16_own_frequency_partial.

(** Only channel 0 of the demonstration input. *)
Example C16_case : run_ok (visibility_grid cfg0 gdemo false true (Some [0]%Z) None)
  (fun o => (o_n_vis o =? 2) && negb (Ceqb (at2 (o_image o) 6 9) C0)) = true.
Proof. vm_compute. reflexivity. Qed.

(** *** C51: counts *)
Lemma seq_add_map a n : seq a n = map (fun j => a + j) (seq 0 n).
Proof.
  revert a. induction n as [|n IH]; intros a; cbn [seq map]; [reflexivity|]. rewrite Nat.add_0_r. f_equal.
  rewrite (IH (S a)), (IH 1), map_map. apply map_ext. intros; lia.
Qed.
Lemma count_rows nb p m : sum_nat (map (fun q => count_if nb (fun j => p (q * nb + j))) (seq 0 m)) = count_if (m * nb) p.
Proof.
  induction m as [|m IH]; [reflexivity|].
  rewrite seq_S, map_app, sum_nat_app, IH. cbn [map plus]. unfold sum_nat; cbn [fold_right]. rewrite Nat.add_0_r.
  replace (S m * nb) with (m * nb + nb) by lia. unfold count_if. rewrite seq_app, filter_app, app_length.
  f_equal. rewrite Nat.add_0_l, (seq_add_map (m * nb)), filter_map_comm, map_length. reflexivity.
Qed.

Lemma list_as_map_nth (l : list Z) : l = map (fun q => nth q l 0%Z) (seq 0 (length l)).
Proof. apply (nth_ext _ _ 0%Z 0%Z); [now rewrite map_length, seq_length|]. intros n Hn. now rewrite nth_map_seq. Qed.

(** What a successful run says about the locations, whatever the beam and the shape. *)
Lemma grid_locations cfg gi uniform nc fi_use bi_use out :
  let g := gi_loc gi in let fi := choose_fi_use g false fi_use in
  sensible g -> visibility_grid cfg gi uniform nc fi_use bi_use = Ok (Some out) ->
  exists bi good l, selection g bi_use bi /\ (forall k, good k = true <-> griddable g false (c_mask_mirror cfg) (measurement g fi bi k))
    /\ (forall i j, i < length fi -> j < length bi -> (0 < at2 (l_xmin l) i j)%Z <-> good (i * length bi + j) = true)
    /\ set_nf_vis fi (length bi) l (gi_nf_vis gi) = Ok (o_nf_vis out)
    /\ o_n_vis out = count_if (length fi * length bi) good
    /\ exists k, k < length fi * length bi /\ good k = true.
Proof.
  intros g fi Hs. unfold visibility_grid. cbv zeta. fold g fi.
  match goal with |- bind ?x _ = _ -> _ => destruct x; cbn [bind]; [|discriminate] end.
  destruct (baseline_grid_locations g bi_use (Some fi) false (c_interp cfg) (c_mask_mirror cfg)) as [l|] eqn:El; cbn [bind]; [|discriminate].
  destruct (loc_main _ _ _ _ _ _ _ Hs El) as (bi & fmin & fmax & Hbi & HL).
  change (choose_fi_use g false (Some fi)) with fi in HL.
  set (bi' := match bi_use with Some b => b | None => _ end).
  assert (Ebi : bi' = bi) by (unfold bi'; destruct bi_use; [symmetry; apply Hbi|now destruct Hbi as [_ ->]]).
  rewrite Ebi. clear bi' Ebi.
  repeat match goal with |- bind ?x _ = _ -> _ => destruct x; cbn [bind]; [|discriminate] end.
  destruct (l_bins l) as [[[bin_n bin_i] ri]|] eqn:EB; [|discriminate].
  destruct (set_nf_vis fi (length bi) l (gi_nf_vis gi)) as [nf|] eqn:Enf; cbn [bind]; [|discriminate].
  match goal with |- bind ?x _ = _ -> _ => destruct x as [st|] eqn:Est end; cbn [bind]; [|discriminate].
  intros [= <-]. pose proof (loc_bins _ _ _ _ _ _ _ _ _ Hs HL) as HBF. rewrite EB in HBF. cbn [bins_facts] in HBF.
  destruct HBF as (Hex & Hkey & _ & _ & Hsum & _).
  set (good := fun k => kept_b g fmin fmax false (c_mask_mirror cfg) (meas_k g fi bi k)) in *.
  exists bi, good, l.
  split; [unfold selection; destruct bi_use; apply Hbi|].
  split. { intros k. unfold good. apply kept_b_spec; [exact Hs|]. apply (lf_range _ _ _ _ _ _ _ _ _ HL). }
  split. { intros i j Hi Hj. destruct (lf_at _ _ _ _ _ _ _ _ _ HL _ _ Hi Hj) as (A & _). rewrite A.
    assert (Em' : meas_k g fi bi (i * length bi + j) = meas_at g fi bi i j).
    { unfold meas_k. rewrite Nat.div_add_l, Nat.div_small, Nat.add_0_r by lia.
      now rewrite Nat.add_comm, Nat.mod_add, Nat.mod_small by lia. }
    unfold good. rewrite Em'.
    destruct (kept_b g fmin fmax false (c_mask_mirror cfg) (meas_at g fi bi i j)) eqn:Ek; [|lia].
    apply kept_in_plane in Ek. unfold in_plane in Ek. lia. }
  split; [exact Enf|]. split; [exact Hsum|]. exact Hex.
Qed.

(** n_vis and obs["nf_vis"]: numbers of griddable samples, in total and per channel. For
    every beam, configuration and shape of the plane. *)
Theorem C51_total : forall cfg gi uniform no_conjugate fi_use bi_use out,
  let g := gi_loc gi in let fi := choose_fi_use g false fi_use in
  sensible g ->
  visibility_grid cfg gi uniform no_conjugate fi_use bi_use = Ok (Some out) ->
  exists bi, selection g bi_use bi /\
  exists good, decides good g (c_mask_mirror cfg) fi bi
    /\ o_n_vis out = count_if (length fi * length bi) good /\ 0 < o_n_vis out.
Proof.
  intros cfg gi uniform nc fi_use bi_use out g fi Hs E.
  destruct (grid_locations _ _ _ _ _ _ _ Hs E) as (bi & good & l & Hbi & HG & Hx & Hnf & Hn & (k & Hk & Gk)).
  exists bi. split; [exact Hbi|]. exists good. split; [intros q _; apply HG|]. split; [exact Hn|].
  rewrite Hn. unfold count_if.
  assert (I : In k (filter good (seq 0 (length fi * length bi)))).
  { apply filter_In. split; [apply in_seq; split; [lia|exact Hk]|exact Gk]. }
  unfold fi in I. unfold g in I. destruct (filter good _); [destruct I|cbn [length]; lia].
Qed.
Print Assumptions C51_total.

(** The channels of the selection are distinct. *)
Theorem C51_counts : forall cfg gi uniform no_conjugate fi_use bi_use out,
  let g := gi_loc gi in let fi := choose_fi_use g false fi_use in
  sensible g ->
  NoDup (map (fun i => i mod Z.of_nat (length (gi_nf_vis gi)))%Z fi) ->
  visibility_grid cfg gi uniform no_conjugate fi_use bi_use = Ok (Some out) ->
  exists bi, selection g bi_use bi /\
  exists good, decides good g (c_mask_mirror cfg) fi bi
    /\ o_n_vis out = count_if (length fi * length bi) good
    /\ length (o_nf_vis out) = length (gi_nf_vis gi)
    /\ (forall q, q < length fi ->
          py_get 0 (o_nf_vis out) (nth q fi 0%Z) = count_if (length bi) (fun j => good (q * length bi + j)))
    /\ sum_nat (map (py_get 0 (o_nf_vis out)) fi) = o_n_vis out
    /\ (forall c, c < length (gi_nf_vis gi) ->
          (forall i, In i fi -> (i mod Z.of_nat (length (gi_nf_vis gi)))%Z <> Z.of_nat c) ->
          nth c (o_nf_vis out) 0 = nth c (gi_nf_vis gi) 0).
Proof.
  intros cfg gi uniform nc fi_use bi_use out g fi Hs Hnd E.
  destruct (grid_locations _ _ _ _ _ _ _ Hs E) as (bi & good & l & Hbi & HG & Hx & Hnf & Hn & _).
  fold g in HG, Hx, Hn, Hbi, Hnf. fold fi in HG, Hx, Hn, Hnf.
  destruct (set_nf_spec _ _ _ _ _ Hnf Hnd) as (HL & HP & HO).
  assert (HQ : forall q, q < length fi ->
          py_get 0 (o_nf_vis out) (nth q fi 0%Z) = count_if (length bi) (fun j => good (q * length bi + j))).
  { intros q Hq. rewrite HP by auto. unfold count_if. f_equal. apply filter_seq_ext. intros j Hj.
    specialize (Hx q j Hq Hj). destruct (good (q * length bi + j)).
    - apply Z.ltb_lt. now apply Hx.
    - apply Z.ltb_nlt. intros HC. now apply Hx in HC. }
  exists bi. split; [exact Hbi|]. exists good. split; [intros k _; apply HG|]. split; [exact Hn|]. split; [exact HL|].
  split; [exact HQ|]. split.
  - rewrite Hn, <- count_rows. f_equal.
    rewrite (list_as_map_nth fi) at 1. rewrite map_map. apply map_ext_in. intros q Hq. apply in_seq in Hq. apply HQ. lia.
  - intros c Hc Hi. apply HO; auto. intros q Hq. apply Hi. now apply nth_In.
Qed.
Print Assumptions C51_counts.

Example C51_case : NoDup (map (fun i => i mod Z.of_nat (length (gi_nf_vis gdemo)))%Z [0; 1]%Z)
  /\ run_ok (visibility_grid cfg0 gdemo false true None None)
       (fun o => (o_n_vis o =? 3) && (nth 0 (o_nf_vis o) 0 =? 2) && (nth 1 (o_nf_vis o) 0 =? 1)) = true.
Proof. split; [|vm_compute; reflexivity]. repeat constructor; simpl; intuition discriminate. Qed.

(** *** C52: uniform_filter agrees with visibility_count *)
Lemma total_q_count n (p q : nat -> bool) : total_q n p (fun k => if q k then 1%Qc else 0%Qc) = qc_nat (count_if n (fun k => p k && q k)).
Proof.
  unfold total_q, count_if. induction (seq 0 n) as [|k l IH]; [symmetry; exact qc_nat_0|].
  cbn [filter]. destruct (p k); cbn [andb]; [|exact IH].
  cbn [map]. match goal with |- Qcsum (?a :: ?b) = _ => change (Qcsum (a :: b)) with (a + Qcsum b)%Qc end. rewrite IH.
  destruct (q k); cbn [length]; [|ring]. match goal with |- _ = qc_nat (S ?a) => change (S a) with (1 + a) end. now rewrite qc_nat_plus.
Qed.

(** The interpolation weights do not enter into the pixels. *)
Lemma locations_interp g bi_use fi_use it mask l :
  baseline_grid_locations g bi_use (Some (choose_fi_use g false fi_use)) false it mask = Ok l ->
  exists l', baseline_grid_locations g bi_use fi_use false false mask = Ok l'
    /\ l_xmin l' = l_xmin l /\ l_ymin l' = l_ymin l /\ l_bins l' = l_bins l.
Proof.
  unfold baseline_grid_locations. cbv zeta.
  change (choose_fi_use g false (Some (choose_fi_use g false fi_use))) with (choose_fi_use g false fi_use).
  repeat match goal with |- bind ?x _ = _ -> _ => destruct x; cbn [bind]; [|discriminate] end.
  intros [= <-]. eexists. split; [reflexivity|]. cbn [l_xmin l_ymin l_bins]. auto.
Qed.

Lemma grid_bin_uniform cfg gi u l fb vis model n bin_n ri st b st' :
  grid_bin cfg gi u l fb vis model n bin_n ri st b = Ok st' ->
  let ind0 := nth 0 (slice ri (nth b ri 0) (nth (S b) ri 0)) 0 in
  p_uniform st' = if u then add_const (flat_at (l_ymin l) ind0) (flat_at (l_xmin l) ind0) (g_psf_dim (gi_loc gi))
                                      (qc_nat (nth b bin_n 0)) (p_uniform st) else p_uniform st.
Proof.
  unfold grid_bin. cbv zeta.
  match goal with |- bind ?x _ = _ -> _ => destruct x; cbn [bind]; [|discriminate] end.
  match goal with |- (if ?x then _ else _) = _ -> _ => destruct x; [discriminate|] end.
  repeat match goal with |- bind ?x _ = _ -> _ => destruct x; cbn [bind]; [|discriminate] end.
  intros [= <-]. reflexivity.
Qed.

(** For every beam, configuration and shape of the plane. *)
Theorem C52_uniform_is_count : forall cfg gi uniform no_conjugate fi_use bi_use out,
  let g := gi_loc gi in
  sensible g -> uniform = true \/ c_uniform cfg = true ->
  visibility_grid cfg gi uniform no_conjugate fi_use bi_use = Ok (Some out) ->
  exists plane, visibility_count g fi_use bi_use (c_mask_mirror cfg) no_conjugate false = Ok plane
  /\ rows (o_uniform out) = rows plane /\ cols (o_uniform out) = cols plane
  /\ forall y x, at2 (o_uniform out) y x = at2 plane y x.
Proof.
  intros cfg gi uniform nc fi_use bi_use out g Hs Hu. unfold visibility_grid. cbv zeta. fold g.
  set (fi := choose_fi_use g false fi_use).
  match goal with |- bind ?x _ = _ -> _ => destruct x as [fb|]; cbn [bind]; [|discriminate] end.
  destruct (baseline_grid_locations g bi_use (Some fi) false (c_interp cfg) (c_mask_mirror cfg)) as [l|] eqn:El; cbn [bind]; [|discriminate].
  destruct (loc_main _ _ _ _ _ _ _ Hs El) as (bi & fmin & fmax & Hbi & HL).
  pose proof (loc_bins _ _ _ _ _ _ _ _ _ Hs HL) as HBF.
  destruct (locations_interp _ _ _ _ _ _ El) as (l' & El' & X1 & X2 & X3).
  unfold visibility_count. rewrite El'. cbn [bind]. unfold count_loop. rewrite X1, X2, X3.
  repeat match goal with |- bind ?x _ = _ -> _ => destruct x; cbn [bind]; [|discriminate] end.
  destruct (l_bins l) as [[[bin_n bin_i] ri]|] eqn:EB; [|discriminate].
  match goal with |- bind ?x _ = _ -> _ => destruct x; cbn [bind]; [|discriminate] end.
  match goal with |- bind (fold_res ?f _ ?s) _ = _ -> _ => set (F := f); set (s0 := s) end.
  destruct (fold_res F bin_i s0) as [st|] eqn:Est; cbn [bind]; [|discriminate].
  intros [= <-].
  assert (HU : uniform || c_uniform cfg = true) by (apply orb_true_iff; exact Hu).
  cbn [bins_facts] in HBF. destruct HBF as (_ & _ & Hsl & Hbi' & _).
  assert (HF : forall bs, (forall b, In b bs -> In b bin_i) -> forall s s', fold_res F bs s = Ok s' ->
    p_uniform s' = fold_left (fun a b => let idx := nth (nth b ri 0) ri 0 in
        add_const (flat_at (l_ymin l) idx) (flat_at (l_xmin l) idx) (g_psf_dim g) (qc_nat (nth b bin_n 0)) a) bs (p_uniform s)).
  { induction bs as [|b bs IH]; intros Hin s s'; cbn [fold_res fold_left].
    - now intros [= <-].
    - destruct (F s b) as [s1|] eqn:E1; cbn [bind]; [|discriminate]. intros E2.
      rewrite (IH ltac:(intros; apply Hin; now right) _ _ E2). f_equal.
      apply grid_bin_uniform in E1. cbv zeta in E1. rewrite HU in E1. rewrite E1.
      assert (Hb : In b bin_i) by (apply Hin; now left).
      rewrite Hbi' in Hb. apply filter_In in Hb. destruct Hb as [Hb1%in_seq Hb2].
      destruct (Hsl b ltac:(lia)) as (S1 & S2 & _).
      assert (Hne : 0 < length (slice ri (nth b ri 0) (nth (S b) ri 0))).
      { rewrite S1. apply negb_true_iff, Nat.eqb_neq in Hb2. lia. }
      replace (nth 0 (slice ri (nth b ri 0) (nth (S b) ri 0)) 0) with (nth (nth b ri 0) ri 0); [reflexivity|].
      unfold slice in *. rewrite firstn_length in Hne.
      rewrite nth_firstn by lia. now rewrite nth_skipn, Nat.add_0_r. }
  specialize (HF bin_i (fun b H => H) s0 st Est). cbn [s0 p_uniform] in HF.
  unfold grid_finish. rewrite HU. cbn [o_uniform andb].
  match goal with |- exists plane, Ok (if nc then ?a else _) = _ /\ _ => assert (EP : p_uniform st = a) by exact HF; rewrite <- EP; clear HF EP end.
  eexists. split; [reflexivity|].
  destruct nc; cbn [negb mirror_real_scaled rows cols at2].
  - auto.
  - split; [reflexivity|]. split; [reflexivity|]. intros y x. change half with (1 / qc_nat 2)%Qc. field. discriminate.
Qed.
Print Assumptions C52_uniform_is_count.

Example C52_case_mirrored : run_ok (visibility_grid cfg0 gdemo true false None None)
   (fun o => match visibility_count demo None None false false false with
             | Ok pl => Qceqb (at2 (o_uniform o) 6 5) (at2 pl 6 5) && negb (Qceqb (at2 pl 6 5) 0)
             | Err _ => false end) = true.
Proof. vm_compute. reflexivity. Qed.

(** *** C53: the returned planes are Hermitian *)
Definition hermitian (a : arr2 C) : Prop := forall u v, u < rows a -> v < cols a ->
  at2 a (reflect (rows a) u) (reflect (cols a) v) = Cconj (at2 a u v).
Definition even_plane (a : arr2 Qc) : Prop := forall u v, u < rows a -> v < cols a ->
  at2 a (reflect (rows a) u) (reflect (cols a) v) = at2 a u v.
Lemma mirror_avg_hermitian a : hermitian (mirror_avg a).
Proof. destruct (C11_average_hermitian a) as [H _]. exact H. Qed.
Lemma mirror_real_even s a : even_plane (mirror_real_scaled s a).
Proof.
  intros u v. cbn [mirror_real_scaled rows cols at2]. intros Hu Hv.
  rewrite !reflect_neg_mod by auto. rewrite !mirror_at by (auto; apply neg_mod_lt; lia). rewrite !neg_mod_inv by auto. ring.
Qed.

(** For every input whatsoever (any plane shape, beam, configuration). *)
Theorem C53_hermitian : forall cfg gi uniform fi_use bi_use out,
  visibility_grid cfg gi uniform false fi_use bi_use = Ok (Some out) ->
  hermitian (o_image out)
  /\ (c_weights cfg = true -> hermitian (o_weights out))
  /\ (c_variance cfg = true -> even_plane (o_variance out))
  /\ (uniform = true -> even_plane (o_uniform out))
  /\ (forall a, o_model out = Some a -> hermitian a)
  /\ (forall a, o_spectral out = Some a -> hermitian a)
  /\ (forall a, o_spectral_model out = Some a -> hermitian a).
Proof.
  intros cfg gi uniform fi_use bi_use out. unfold visibility_grid. cbv zeta.
  repeat match goal with |- bind ?x _ = _ -> _ => destruct x; cbn [bind]; [|discriminate] end.
  match goal with |- match ?x with _ => _ end = _ -> _ => destruct x as [[[bin_n bin_i] ri]|]; [|discriminate] end.
  repeat match goal with |- bind ?x _ = _ -> _ => destruct x; cbn [bind]; [|discriminate] end.
  intros [= <-]. unfold grid_finish. cbn [o_image o_weights o_variance o_uniform o_model o_spectral o_spectral_model].
  split; [apply mirror_avg_hermitian|]. split; [intros ->; apply mirror_avg_hermitian|].
  split; [intros ->; apply mirror_real_even|]. split; [intros ->; apply mirror_real_even|].
  split; [|split]; intros x; repeat match goal with |- context [match ?c with _ => _ end] => destruct c end;
    try discriminate; intros [= <-]; apply mirror_avg_hermitian.
Qed.
Print Assumptions C53_hermitian.

(** The planes returned by default are the averages of the no_conjugate planes and their
    reflections (for the variance, half of that average: variance of a mean of two). *)
Definition averaged (a b : arr2 C) : Prop := rows a = rows b /\ cols a = cols b
  /\ forall u v, u < rows a -> v < cols a ->
     at2 a u v = Cscale (1 / qc_nat 2)%Qc (at2 b u v + Cconj (at2 b (reflect (rows a) u) (reflect (cols a) v)))%C.
Definition averaged_real (s : Qc) (a b : arr2 Qc) : Prop := rows a = rows b /\ cols a = cols b
  /\ forall u v, u < rows a -> v < cols a ->
     at2 a u v = ((at2 b u v + at2 b (reflect (rows a) u) (reflect (cols a) v)) / s)%Qc.
Lemma mirror_avg_averaged a : averaged (mirror_avg a) a.
Proof.
  split; [reflexivity|]. split; [reflexivity|]. intros u v Hu Hv. cbn [mirror_avg at2 rows cols] in *.
  rewrite !reflect_neg_mod, conj_mirror_at by auto. reflexivity.
Qed.
Lemma mirror_real_averaged a : averaged_real (qc_nat 2) (mirror_real_scaled half a) a /\ averaged_real (qc_nat 4) (mirror_real_scaled quarter a) a.
Proof.
  split; (split; [reflexivity|split; [reflexivity|]]); intros u v Hu Hv; cbn [mirror_real_scaled at2 rows cols] in *;
    rewrite !reflect_neg_mod, mirror_at by auto; [change half with (1 / qc_nat 2)%Qc|change quarter with (1 / qc_nat 4)%Qc]; field; discriminate.
Qed.

Theorem C53_average : forall cfg gi uniform fi_use bi_use out out1,
  visibility_grid cfg gi uniform false fi_use bi_use = Ok (Some out) ->
  visibility_grid cfg gi uniform true fi_use bi_use = Ok (Some out1) ->
  averaged (o_image out) (o_image out1)
  /\ (c_weights cfg = true -> averaged (o_weights out) (o_weights out1))
  /\ (c_variance cfg = true -> averaged_real (qc_nat 4) (o_variance out) (o_variance out1))
  /\ (uniform = true -> averaged_real (qc_nat 2) (o_uniform out) (o_uniform out1))
  /\ (forall a, o_model out = Some a -> exists b, o_model out1 = Some b /\ averaged a b)
  /\ (forall a, o_spectral out = Some a -> exists b, o_spectral out1 = Some b /\ averaged a b)
  /\ (forall a, o_spectral_model out = Some a -> exists b, o_spectral_model out1 = Some b /\ averaged a b)
  /\ o_n_vis out = o_n_vis out1 /\ o_nf_vis out = o_nf_vis out1.
Proof.
  intros cfg gi uniform fi_use bi_use out out1. unfold visibility_grid. cbv zeta.
  repeat match goal with |- bind ?x _ = _ -> _ => destruct x; cbn [bind]; [|discriminate] end.
  match goal with |- match ?x with _ => _ end = _ -> _ => destruct x as [[[bin_n bin_i] ri]|]; [|discriminate] end.
  repeat match goal with |- bind ?x _ = _ -> _ => destruct x; cbn [bind]; [|discriminate] end.
  intros [= <-] [= <-]. unfold grid_finish. cbn [o_image o_weights o_variance o_uniform o_model o_spectral o_spectral_model o_n_vis o_nf_vis].
  split; [apply mirror_avg_averaged|]. split; [intros ->; apply mirror_avg_averaged|].
  split; [intros ->; apply mirror_real_averaged|]. split; [intros ->; apply mirror_real_averaged|].
  split; [|split; [|split]]; [intros x| intros x|intros x|now split];
    repeat match goal with |- context [match ?c with _ => _ end] => destruct c end;
    try discriminate; intros [= <-]; (eexists; split; [reflexivity|apply mirror_avg_averaged]).
Qed.
Print Assumptions C53_average.
Example C53_case : run_ok (visibility_grid cfg0 gdemo true false None None)
   (fun o => negb (Ceqb (at2 (o_image o) 6 9) C0) && negb (Ceqb (at2 (o_image o) 10 7) C0)) = true.
Proof. vm_compute. reflexivity. Qed.

(** *** C54: gridding succeeds *)
(** The rows grid_beam_per_baseline returns have psf_dim^2 entries. *)
Definition per_baseline_ok (gi : grid_input) : Prop := forall fs bs x y,
  length (gi_beam_pb gi fs bs x y) = length fs
  /\ Forall (fun r => Z.of_nat (length r) = (g_psf_dim (gi_loc gi) ^ 2)%Z) (gi_beam_pb gi fs bs x y).

Theorem C54_succeeds : forall cfg gi uniform no_conjugate fi_use bi_use bi,
  let g := gi_loc gi in let fi := choose_fi_use g false fi_use in
  sensible g -> g_elements g = g_dimension g -> beam_ok gi -> (tabulated cfg \/ per_baseline_ok gi) -> selection g bi_use bi ->
  g_freq g <> [] ->
  (forall i, In i fi -> valid_index (length (g_freq g)) i /\ valid_index (rows (g_weights g)) i
     /\ valid_index (length (gi_fbin gi)) i /\ valid_index (rows (gi_vis gi)) i /\ valid_index (length (gi_nf_vis gi)) i
     /\ forall m, gi_model gi = Some m -> valid_index (rows m) i) ->
  (forall i, In i bi -> valid_index (cols (g_weights g)) i /\ valid_index (length (g_uu g)) i
     /\ valid_index (length (g_vv g)) i /\ valid_index (cols (gi_vis gi)) i
     /\ forall m, gi_model gi = Some m -> valid_index (cols m) i) ->
  length bi <= gi_n_time gi * Nat.min (gi_n_baselines gi) (gi_group_cols gi) ->
  (c_spectral cfg = true -> gi_model gi = None) ->
  (exists out, visibility_grid cfg gi uniform no_conjugate fi_use bi_use = Ok (Some out)
     /\ exists k, k < length fi * length bi /\ griddable g false (c_mask_mirror cfg) (measurement g fi bi k))
  \/ (visibility_grid cfg gi uniform no_conjugate fi_use bi_use = Ok None
     /\ forall k, k < length fi * length bi -> ~ griddable g false (c_mask_mirror cfg) (measurement g fi bi k)).
Proof.
  intros cfg gi uniform nc fi_use bi_use bi g fi Hs Hsq Hb Ht Hbi Hf Hfi Hbb Hn Hsp.
  assert (Hpb : c_interp cfg = false -> c_per_baseline cfg = true ->
     forall fs bs x y, Forall (fun r => Z.of_nat (length r) = (g_psf_dim g ^ 2)%Z) (gi_beam_pb gi fs bs x y)).
  { intros H1 H2. destruct Ht as [[Ht|Ht]|Ht]; [congruence|congruence|]. intros fs bs x y. apply Ht. }
  destruct (grid_total cfg gi uniform nc fi_use bi_use bi Hs Hsq Hb Hpb Hbi Hf Hfi Hbb Hn Hsp) as ([out|] & E).
  - left. exists out. split; [exact E|].
    destruct (grid_locations _ _ _ _ _ _ _ Hs E) as (bi1 & good & l & Hbi1 & HG & _ & _ & _ & (k & Hk & Gk)).
    fold g in HG, Hk, Hbi1. fold fi in HG, Hk.
    assert (bi1 = bi) by (unfold selection in Hbi, Hbi1; destruct bi_use; congruence). subst bi1.
    exists k. split; [exact Hk|]. now apply HG.
  - right. split; [exact E|]. revert E. unfold visibility_grid. cbv zeta. fold g. fold fi.
    match goal with |- bind ?x _ = _ -> _ => destruct x; cbn [bind]; [|discriminate] end.
    match goal with |- bind ?x _ = _ -> _ => destruct x as [lc|] eqn:El; cbn [bind]; [|discriminate] end.
    repeat match goal with |- bind ?x _ = _ -> _ => destruct x; cbn [bind]; [|discriminate] end.
    destruct (loc_main _ _ _ _ _ _ _ Hs El) as (bi1 & fmin & fmax & Hbi1 & HL).
    assert (bi1 = bi).
    { unfold selection in Hbi. destruct bi_use; [destruct Hbi1; congruence|destruct Hbi1 as [X _]; congruence]. } subst bi1.
    change (choose_fi_use g false (Some fi)) with fi in HL.
    pose proof (loc_bins _ _ _ _ _ _ _ _ _ Hs HL) as HBF.
    destruct (l_bins lc) as [[[bin_n bin_i] ri]|].
    + repeat match goal with |- bind ?x _ = _ -> _ => destruct x; cbn [bind]; [|discriminate] end. discriminate.
    + intros _ k Hk HGk. cbn [bins_facts] in HBF.
      apply (kept_b_spec g fmin fmax false (c_mask_mirror cfg) _ Hs (lf_range _ _ _ _ _ _ _ _ _ HL)) in HGk.
      specialize (HBF k Hk). unfold measurement in HGk. unfold meas_k in HBF. congruence.
Qed.
Print Assumptions C54_succeeds.

(** With spectral planes and a model, and kernels wider than a pixel, the statement that
    adds the model's spectral plane always fails: no planes are ever returned. *)
Theorem C54_spectral_model : forall cfg gi uniform no_conjugate fi_use bi_use m,
  sensible (gi_loc gi) -> c_spectral cfg = true -> gi_model gi = Some m -> (g_psf_dim (gi_loc gi) <> 1)%Z ->
  forall out, visibility_grid cfg gi uniform no_conjugate fi_use bi_use <> Ok (Some out).
Proof.
  intros cfg gi uniform nc fi_use bi_use m Hs Hsp Hm Hp out. unfold visibility_grid. cbv zeta.
  set (g := gi_loc gi) in *. set (fi := choose_fi_use g false fi_use).
  match goal with |- bind ?x _ <> _ => destruct x; cbn [bind]; [|discriminate] end.
  destruct (baseline_grid_locations g bi_use (Some fi) false (c_interp cfg) (c_mask_mirror cfg)) as [l|] eqn:El; cbn [bind]; [|discriminate].
  destruct (loc_main _ _ _ _ _ _ _ Hs El) as (bi & fmin & fmax & Hbi & HL).
  pose proof (loc_bins _ _ _ _ _ _ _ _ _ Hs HL) as HBF.
  repeat match goal with |- bind ?x _ <> _ => destruct x; cbn [bind]; [|discriminate] end.
  destruct (l_bins l) as [[[bin_n bin_i] ri]|] eqn:EB; [|discriminate].
  match goal with |- bind ?x _ <> _ => destruct x; cbn [bind]; [|discriminate] end.
  cbn [bins_facts] in HBF. destruct HBF as ((k & Hk & Kk) & Hky & Hsl & Hbi' & _).
  destruct bin_i as [|b bs].
  { exfalso. specialize (Hky k Hk Kk). set (q := Z.to_nat (key g (meas_k g (choose_fi_use g false (Some fi)) bi k))) in *.
    assert (Hq : q < length bin_n) by lia. destruct (Hsl q Hq) as (_ & S2 & _).
    assert (I : In q (filter (fun b => negb (nth b bin_n 0 =? 0)) (seq 0 (length bin_n)))).
    { apply filter_In. split; [apply in_seq; lia|]. apply negb_true_iff, Nat.eqb_neq. rewrite S2.
      assert (I2 : In k (filter (fun k => kept_b g fmin fmax false (c_mask_mirror cfg) (meas_k g (choose_fi_use g false (Some fi)) bi k) &&
         (key g (meas_k g (choose_fi_use g false (Some fi)) bi k) =? Z.of_nat q)%Z) (seq 0 (length (choose_fi_use g false (Some fi)) * length bi)))).
      { apply filter_In. split; [apply in_seq; lia|]. rewrite Kk. cbn [andb]. apply Z.eqb_eq. unfold q. lia. }
      destruct (filter _ _) in I2 |- *; [destruct I2|cbn [length]; lia]. }
    rewrite <- Hbi' in I. destruct I. }
  cbn [fold_res].
  match goal with |- bind (bind ?x _) _ <> _ => assert (EX : exists e, x = Err e) end.
  { unfold grid_bin. cbv zeta. fold g. rewrite Hm, Hsp.
    match goal with |- exists e, bind ?x _ = _ => destruct x; cbn [bind]; [|eauto] end.
    match goal with |- exists e, (if ?x then _ else _) = _ => destruct x; [eauto|] end.
    match goal with |- exists e, bind ?x _ = _ => destruct x; cbn [bind]; [|eauto] end.
    match goal with |- exists e, bind ?x _ = _ => destruct x; cbn [bind]; [|eauto] end.
    match goal with |- exists e, bind ?x _ = _ => destruct x; cbn [bind]; [|eauto] end.
    cbn [andb when]. destruct (Z.eqb_spec (g_psf_dim g) 1); [contradiction|]. cbn [bind]. eauto. }
  destruct EX as [e ->]. cbn [bind]. discriminate.
Qed.
Print Assumptions C54_spectral_model.

(** The demonstration input with one kernel per baseline. *)
Example C54_case_per_baseline : per_baseline_ok {| gi_loc := demo; gi_fbin := gi_fbin gdemo; gi_group := gi_group gdemo;
      gi_group_cols := gi_group_cols gdemo; gi_n_baselines := gi_n_baselines gdemo; gi_n_time := gi_n_time gdemo;
      gi_beam := gi_beam gdemo; gi_beam_pb := fun fs _ _ _ => map (fun f => repeat C1 (Z.to_nat (g_psf_dim demo ^ 2))) fs;
      gi_vis := gi_vis gdemo; gi_model := gi_model gdemo; gi_nf_vis := gi_nf_vis gdemo |}.
Proof.
  intros fs bs x y. cbn [gi_beam_pb gi_loc]. split; [apply map_length|].
  apply Forall_forall. intros r Hr. apply in_map_iff in Hr. destruct Hr as (f & <- & _).
  rewrite repeat_length. reflexivity.
Qed.

(** *** C55: uniform weighting *)
Lemma winvert_none x : winvert None x = if Qceqb x 0 then 0%Qc else (1 / x)%Qc.
Proof.
  unfold winvert, invert_entry, assigned, used. cbn [option_map xnonzero]. 
  destruct (Qceqb x 0) eqn:E; cbn [negb clean_nan clean_inf is_nan is_inf]; [reflexivity|].
  apply Qceqb_false in E. unfold xdiv. destruct (Qc_eq_dec x 0); [contradiction|]. reflexivity.
Qed.
Lemma winvert_one x : winvert (Some 1%Qc) x = if Qcleb 1 x then (1 / x)%Qc else 0%Qc.
Proof.
  unfold winvert, invert_entry, assigned, used. cbn [option_map xge].
  destruct (Qcleb 1 x) eqn:E; cbn [clean_nan clean_inf is_nan is_inf]; [|reflexivity].
  apply Qcleb_true in E. unfold xdiv. destruct (Qc_eq_dec x 0); [|reflexivity]. subst x. now apply Qcle_not_lt in E.
Qed.
Lemma qc_nat_le m n : (qc_nat m <= qc_nat n)%Qc <-> m <= n.
Proof.
  unfold qc_nat, Qcle. cbn [this Q2Qc]. rewrite !Qred_correct. rewrite <- Zle_Qle. lia.
Qed.
Lemma qc_nat_neq0 n : n <> 0 -> qc_nat n <> 0%Qc.
Proof.
  intros H E. rewrite <- qc_nat_0 in E. pose proof (proj1 (qc_nat_le n 0)) as L. rewrite E in L.
  specialize (L (Qcle_refl _)). lia.
Qed.
Lemma inv_count n : winvert (Some 1%Qc) (qc_nat n) = if n =? 0 then 0%Qc else (1 / qc_nat n)%Qc.
Proof.
  rewrite winvert_one. change 1%Qc with (qc_nat 1).
  destruct (Nat.eqb_spec n 0) as [->|H].
  - reflexivity.
  - destruct (Qcleb (qc_nat 1) (qc_nat n)) eqn:E; auto. exfalso.
    assert (L : (qc_nat 1 <= qc_nat n)%Qc) by (apply qc_nat_le; lia). apply Qcleb_true in L. congruence.
Qed.
Lemma Qcinv_pos_nat n : 0 < n -> (0 < / qc_nat n)%Qc.
Proof.
  intros H. unfold qc_nat, Qclt. cbn [this Q2Qc Qcinv]. rewrite !Qred_correct. apply Qinv_lt_0_compat.
  change 0%Q with (inject_Z 0). rewrite <- Zlt_Qlt. lia.
Qed.
Lemma Qcsum_pos l : l <> [] -> (forall x, In x l -> (0 < x)%Qc) -> (0 < Qcsum l)%Qc.
Proof.
  assert (G : forall l, (forall x, In x l -> (0 < x)%Qc) -> (0 <= Qcsum l)%Qc).
  { induction l0 as [|x l0 IH]; intros H; [apply Qcle_refl|].
    change (0 <= x + Qcsum l0)%Qc. rewrite <- (Qcplus_0_r 0). apply Qcplus_le_compat; [apply Qclt_le_weak, H; simpl; auto|].
    apply IH. intros; apply H; simpl; auto. }
  destruct l as [|x l]; [congruence|]. intros _ H.
  change (0 < x + Qcsum l)%Qc. apply Qclt_le_trans with x; [apply H; simpl; auto|].
  rewrite <- (Qcplus_0_r x) at 1. apply Qcplus_le_compat; [apply Qcle_refl|]. apply G. intros; apply H; simpl; auto.
Qed.

(** uniform_filter counts as entries: the factor applied to a pixel is a common positive
    constant times its count. *)
Lemma uniform_factor (u : arr2 Qc) (cnt : nat -> nat -> nat) : (forall y x, at2 u y x = qc_nat (cnt y x)) ->
  exists c, (0 < c)%Qc /\ forall y x, y < rows u -> x < cols u ->
    winvert None (at2 (uniform_weights u) y x) = (c * qc_nat (cnt y x))%Qc.
Proof.
  intros Hu. unfold uniform_weights. cbv zeta.
  set (f := amap (winvert (Some 1%Qc)) u).
  assert (Hf : forall y x, at2 f y x = if cnt y x =? 0 then 0%Qc else (1 / qc_nat (cnt y x))%Qc).
  { intros y x. unfold f. cbn [amap at2]. rewrite Hu. apply inv_count. }
  set (nz := filter _ (flatten f)).
  destruct (0 <? length nz) eqn:EL.
  - assert (Hpos : (0 < Qcsum nz / qc_nat (length nz))%Qc).
    { unfold Qcdiv. rewrite <- (Qcmult_0_l (/ qc_nat (length nz))%Qc). apply Qcmult_lt_compat_r.
      - apply Nat.ltb_lt in EL. apply Qcinv_pos_nat. lia.
      - apply Qcsum_pos; [destruct nz; [discriminate|congruence]|].
        intros z Hz. apply filter_In in Hz. destruct Hz as [Hz Hn]. apply negb_true_iff, Qceqb_false in Hn.
        unfold flatten in Hz. apply in_map_iff in Hz. destruct Hz as (k & Ek & _). unfold flat_at in Ek. rewrite Hf in Ek.
        destruct (Nat.eqb_spec (cnt (k / cols f) (k mod cols f)) 0) as [|Hc]; [congruence|]. subst z.
        unfold Qcdiv. rewrite Qcmult_1_l. apply Qcinv_pos_nat. lia. }
    set (c := (Qcsum nz / qc_nat (length nz))%Qc) in *.
    assert (Hc0 : c <> 0%Qc) by (intros E; rewrite E in Hpos; now apply Qclt_not_le in Hpos; apply Hpos, Qcle_refl).
    exists c. split; [exact Hpos|]. intros y x Hy Hx. cbn [amap at2]. rewrite Hf.
    destruct (Nat.eqb_spec (cnt y x) 0) as [->|Hn].
    + unfold Qcdiv. rewrite Qcmult_0_l, winvert_none. rewrite (proj2 (Qceqb_true 0 0) eq_refl), qc_nat_0. ring.
    + pose proof (qc_nat_neq0 _ Hn) as Hq.
      assert (Hd : (1 / qc_nat (cnt y x) / c)%Qc <> 0%Qc).
      { intros E. assert (E1 : (1 = (1 / qc_nat (cnt y x) / c) * (qc_nat (cnt y x) * c))%Qc) by (field; auto).
        rewrite E, Qcmult_0_l in E1. discriminate. }
      rewrite winvert_none, (proj2 (Qceqb_false _ _) Hd). field. repeat split; auto. discriminate.
  - exists 1%Qc. split; [reflexivity|]. intros y x Hy Hx. cbn [amap at2].
    assert (H0 : cnt y x = 0).
    { destruct (Nat.eq_dec (cnt y x) 0) as [|Hn]; auto. exfalso.
      assert (Hin : In (at2 f y x) nz).
      { apply filter_In. split.
        - unfold flatten. apply in_map_iff. exists (y * cols f + x). unfold flat_at. split.
          + change (cols f) with (cols u). f_equal.
            * rewrite Nat.div_add_l, Nat.div_small by lia. lia.
            * rewrite Nat.add_comm, Nat.mod_add, Nat.mod_small by lia. reflexivity.
          + apply in_seq. change (cols f) with (cols u). change (rows f) with (rows u). nia.
        - rewrite Hf. destruct (Nat.eqb_spec (cnt y x) 0); [contradiction|]. apply negb_true_iff, Qceqb_false.
          pose proof (qc_nat_neq0 _ Hn) as Hq. intros E.
          assert (E1 : (1 = (1 / qc_nat (cnt y x)) * qc_nat (cnt y x))%Qc) by (field; auto).
          rewrite E, Qcmult_0_l in E1. discriminate. }
      destruct nz; [exact Hin|discriminate]. }
    rewrite H0, qc_nat_0, Hf, H0. cbn [Nat.eqb]. unfold Qcdiv. rewrite Qcmult_0_l, winvert_none.
    rewrite (proj2 (Qceqb_true 0 0) eq_refl). ring.
Qed.

(** With grid_uniform a pixel is MULTIPLIED by (a constant times) its number of samples. *)
Theorem C55_uniform_partial : forall cfg gi uniform fi_use bi_use out,
  let g := gi_loc gi in let fi := choose_fi_use g false fi_use in
  sensible g -> (g_elements g <= g_dimension g)%Z -> tabulated cfg -> beam_ok gi -> c_uniform cfg = true ->
  visibility_grid cfg gi uniform true fi_use bi_use = Ok (Some out) ->
  exists bi, selection g bi_use bi /\
  exists good c, decides good g (c_mask_mirror cfg) fi bi /\ (0 < c)%Qc
    /\ let fb := looked_up_bin gi fi in let it := c_interp cfg in
       forall y x, y < Z.to_nat (g_elements g) -> x < Z.to_nat (g_dimension g) ->
       let n := gridded_count gi fi bi good y x in
       at2 (o_image out) y x = Cscale (c * n) (gridded_sum it gi fi bi fb good s_vis y x)
       /\ (c_weights cfg = true -> at2 (o_weights out) y x = Cscale (c * n) (gridded_sum it gi fi bi fb good (fun _ => C1) y x))
       /\ (c_variance cfg = true -> at2 (o_variance out) y x = ((c * n) * gridded_power it gi fi bi fb good y x)%Qc)
       /\ (forall mo, o_model out = Some mo -> at2 mo y x = Cscale (c * n) (gridded_sum it gi fi bi fb good s_model y x)).
Proof.
  intros cfg gi uniform fi_use bi_use out g fi Hs Hle Hmode Hbeam Hu E.
  destruct (grid_main _ _ _ _ _ _ _ Hs Hle Hmode Hbeam E) as (bi & good & l & st & Hbi & HG & _ & _ & _ & _ & Hout & Hsh & Hsh2 & HV).
  fold g in HG, HV, Hsh, Hsh2, Hbi. fold fi in HG, HV. cbv zeta in HV. rewrite Hu, orb_true_r in HV.
  exists bi. split; [exact Hbi|].
  destruct (uniform_factor (p_uniform st)
    (fun y x => count_if (length fi * length bi) (fun k => good k && in_footprint g (meas_at g fi bi (k / length bi) (k mod length bi)) y x)))
    as (c & Hc & HF).
  { intros y x. destruct (HV y x) as (_ & _ & _ & _ & ->). unfold gridded_count. fold g. apply total_q_count. }
  exists good, c. split; [intros k _; apply HG|]. split; [exact Hc|]. cbv zeta. intros y x Hy Hx.
  destruct (Hsh2 p_uniform) as [RU CU]; [simpl; auto|]. specialize (HF y x). rewrite RU, CU in HF. specialize (HF Hy Hx).
  rewrite <- total_q_count in HF.
  change (total_q (length fi * length bi) good (fun k => if in_footprint g (meas_at g fi bi (k / length bi) (k mod length bi)) y x then 1%Qc else 0%Qc))
    with (gridded_count gi fi bi good y x) in HF.
  rewrite Hout. unfold grid_finish. rewrite Hu. cbn [o_image o_weights o_variance o_model czip at2].
  destruct (HV y x) as (V1 & V2 & V3 & V4 & _). rewrite HF.
  split; [now rewrite V1|]. split; [intros Hw; rewrite Hw in *; cbn [czip at2]; now rewrite V3, HF|].
  split; [intros Hw; rewrite Hw in *; cbn [at2]; rewrite V4, HF; ring|].
  destruct (gi_model gi); [|discriminate]. intros mo [= <-]. cbn [czip at2]. rewrite V2, HF by congruence. reflexivity.
Qed.
Print Assumptions C55_uniform_partial.

(** Weighted or not, averaged with their mirror images or not: the planes have the size of the uv grid. *)
Definition of_size {A} (rc : nat * nat) (a : arr2 A) : Prop := (rows a, cols a) = rc.
Theorem C55_shapes : forall cfg gi uniform no_conjugate fi_use bi_use out,
  sensible (gi_loc gi) -> (g_elements (gi_loc gi) <= g_dimension (gi_loc gi))%Z -> tabulated cfg -> beam_ok gi ->
  visibility_grid cfg gi uniform no_conjugate fi_use bi_use = Ok (Some out) ->
  let rc := (Z.to_nat (g_elements (gi_loc gi)), Z.to_nat (g_dimension (gi_loc gi))) in
  of_size rc (o_image out) /\ of_size rc (o_weights out) /\ of_size rc (o_variance out) /\ of_size rc (o_uniform out)
  /\ forall mo, o_model out = Some mo -> of_size rc mo.
Proof.
  intros cfg gi uniform nc fi_use bi_use out Hs Hle Hmode Hbeam E rc.
  destruct (grid_main _ _ _ _ _ _ _ Hs Hle Hmode Hbeam E) as (bi & good & l & st & _ & _ & _ & _ & _ & _ & Hout & H1 & H2 & _).
  assert (S1 : of_size rc (p_image st)) by (destruct (H1 p_image) as [A B]; [simpl; auto|]; unfold of_size, rc; congruence).
  assert (S2 : of_size rc (p_weights st)) by (destruct (H1 p_weights) as [A B]; [simpl; auto|]; unfold of_size, rc; congruence).
  assert (S3 : of_size rc (p_model st)) by (destruct (H1 p_model) as [A B]; [simpl; auto|]; unfold of_size, rc; congruence).
  assert (S4 : of_size rc (p_variance st)) by (destruct (H2 p_variance) as [A B]; [simpl; auto|]; unfold of_size, rc; congruence).
  assert (S5 : of_size rc (p_uniform st)) by (destruct (H2 p_uniform) as [A B]; [simpl; auto|]; unfold of_size, rc; congruence).
  rewrite Hout. unfold grid_finish. cbn [o_image o_weights o_variance o_uniform o_model].
  split; [destruct nc, (c_uniform cfg); exact S1|]. split; [destruct (c_weights cfg), nc, (c_uniform cfg); exact S2|].
  split; [destruct (c_variance cfg), nc, (c_uniform cfg); exact S4|]. split; [destruct (_ && _); exact S5|].
  destruct (gi_model gi); [|discriminate]. intros mo [= <-]. destruct nc, (c_uniform cfg); exact S3.
Qed.
Print Assumptions C55_shapes.

(** Uniform weighting should give every covered pixel the unweighted value divided by its
    number of samples, up to a common factor: it does not. *)
Definition cfg_uniform : grid_cfg :=
  {| c_interp := false; c_per_baseline := false; c_spectral := false; c_weights := true; c_variance := true;
     c_uniform := true; c_mask_mirror := false |}.
Theorem C55_uniform_refuted : exists gi o0 o1,
  sensible (gi_loc gi) /\ beam_ok gi
  /\ visibility_grid cfg0 gi true true None None = Ok (Some o0)
  /\ visibility_grid cfg_uniform gi true true None None = Ok (Some o1)
  /\ ~ exists c : Qc, forall y x, at2 (o_uniform o0) y x <> 0%Qc ->
         at2 (o_weights o1) y x = Cscale (c / at2 (o_uniform o0) y x)%Qc (at2 (o_weights o0) y x).
Proof.
  exists gdemo.
  assert (R0 : run_ok (visibility_grid cfg0 gdemo true true None None) (fun o =>
     Qceqb (at2 (o_uniform o) 6 5) (qc_nat 2) && Qceqb (at2 (o_uniform o) 5 4) (qc_nat 1)
     && Qceqb (re (at2 (o_weights o) 6 5)) (qc_nat 1) && Qceqb (re (at2 (o_weights o) 5 4)) (Q2Qc (2 # 3))) = true)
    by (vm_compute; reflexivity).
  assert (R1 : run_ok (visibility_grid cfg_uniform gdemo true true None None) (fun o =>
     Qceqb (re (at2 (o_weights o) 6 5)) (Q2Qc (23 # 13)) && Qceqb (re (at2 (o_weights o) 5 4)) (Q2Qc (23 # 39))) = true)
    by (vm_compute; reflexivity).
  apply run_ok_elim in R0, R1. destruct R0 as (o0 & E0 & H0), R1 as (o1 & E1 & H1).
  exists o0, o1. split; [exact demo_sensible|]. split; [exact gdemo_beam|]. split; [exact E0|]. split; [exact E1|].
  cbv beta in H0, H1. rewrite !andb_true_iff in H0. rewrite andb_true_iff in H1. destruct H0 as [[[A1 A2] A3] A4], H1 as [B1 B2]. apply Qceqb_true in A1, A2, A3, A4, B1, B2.
  intros (c & Hc). pose proof (Hc 6 5) as P1. pose proof (Hc 5 4) as P2.
  rewrite A1 in P1. rewrite A2 in P2.
  apply (f_equal re) in P1; [|discriminate]. apply (f_equal re) in P2; [|discriminate]. cbn [re Cscale] in P1, P2.
  rewrite A3, B1 in P1. rewrite A4, B2 in P2.
  assert (X1 : c = Q2Qc (46 # 13)).
  { transitivity (qc_nat 2 * (c / qc_nat 2 * qc_nat 1))%Qc; [|rewrite <- P1; apply Qc_is_canon; reflexivity].
    change (qc_nat 1) with 1%Qc. field. discriminate. }
  assert (X2 : c = Q2Qc (23 # 26)).
  { transitivity (Q2Qc (3 # 2) * (c / qc_nat 1 * Q2Qc (2 # 3)))%Qc; [|rewrite <- P2; apply Qc_is_canon; reflexivity].
    change (qc_nat 1) with 1%Qc. replace (Q2Qc (3 # 2) * (c / 1 * Q2Qc (2 # 3)))%Qc with (c * (Q2Qc (3 # 2) * Q2Qc (2 # 3)))%Qc by (field; discriminate).
    replace (Q2Qc (3 # 2) * Q2Qc (2 # 3))%Qc with 1%Qc by (apply Qc_is_canon; reflexivity). ring. }
  rewrite X1 in X2. discriminate.
Qed.
Print Assumptions C55_uniform_refuted.

Example C52_case : run_ok (visibility_grid cfg0 gdemo true true None None) (fun o =>
   match visibility_count demo None None false true false with
   | Ok p => Qceqb (at2 (o_uniform o) 6 5) (at2 p 6 5) && Qceqb (at2 p 6 5) (qc_nat 2) | Err _ => false end) = true.
Proof. vm_compute. reflexivity. Qed.

(** The hypotheses of C54 hold for the demonstration input. *)
Example C54_case : selection demo (Some [0; 1; 2]%Z) [0; 1; 2]%Z /\ g_freq demo <> []
  /\ (forall i, In i [0; 1]%Z -> valid_index (length (g_freq demo)) i /\ valid_index (rows (g_weights demo)) i
        /\ valid_index (length (gi_fbin gdemo)) i /\ valid_index (rows (gi_vis gdemo)) i)
  /\ (forall i, In i [0; 1; 2]%Z -> valid_index (cols (g_weights demo)) i /\ valid_index (length (g_uu demo)) i
        /\ valid_index (length (g_vv demo)) i /\ valid_index (cols (gi_vis gdemo)) i)
  /\ 3 <= gi_n_time gdemo * Nat.min (gi_n_baselines gdemo) (gi_group_cols gdemo).
Proof.
  split; [reflexivity|]. split; [discriminate|]. split; [|split].
  - intros i [<-|[<-|[]]]; unfold valid_index; simpl; lia.
  - intros i [<-|[<-|[<-|[]]]]; unfold valid_index; simpl; lia.
  - simpl. lia.
Qed.
