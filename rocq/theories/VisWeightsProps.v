(** C21, C23, C48: property theorems about the visibility weights. *)
From Coq Require Import ZifyBool ZifyNat Lqa.
From Verif Require Import Base NpArr GridLoc GridLocProofs VisWeights VisWeightsSpec VisWeightsProofs SplitWeightsProofs.
Open Scope nat_scope.

(** ** C21 *)

(** C21, for observations in which either no tile is flagged or some flagged tile takes part in a
    baseline: exactly the dropped visibilities of the first n_pol polarisations get weight 0, every
    other weight is untouched, n_vis counts the visibilities left with a positive weight in the
    first polarisation, and the three flag counters are updated unless nothing is left. *)
Theorem C21_update_partial : forall o psf_dim uu vv w,
  well_formed o psf_dim uu vv w ->
  (forall v, ~ tile_flagged o v)
  \/ (exists b, b < length uu
        /\ (tile_flagged o (nth b (o_tile_a o) 0%Z) \/ tile_flagged o (nth b (o_tile_b o) 0%Z))) ->
  exists w' c,
    vis_weights_update w o psf_dim uu vv = Ok (w', c)
    /\ d_pol w' = d_pol w /\ d_freq w' = d_freq w /\ d_bl w' = d_bl w
    /\ (forall p f b, f < d_freq w -> b < d_bl w ->
          (p < o_n_pol o -> dropped o psf_dim uu vv f b -> at3 w' p f b = 0%Q)
          /\ (o_n_pol o <= p \/ ~ dropped o psf_dim uu vv f b -> at3 w' p f b = at3 w p f b))
    /\ (forall usable : nat * nat -> bool,
          (forall x, usable x = true <-> (0 < at3 w' 0 (fst x) (snd x))%Q) ->
          c_n_vis c = length (filter usable (list_prod (seq 0 (d_freq w)) (seq 0 (d_bl w)))))
    /\ (c_n_vis c <> 0 ->
          c_flags c = Some (sum_Z (map (fun z => 1 - z)%Z (o_time_use o)),
                            sum_Z (map (fun z => 1 - z)%Z (o_tile_use o)),
                            sum_Z (map (fun z => 1 - z)%Z (o_freq_use o)))).
Proof.
  intros o psf_dim uu vv w WF Hhit.
  destruct (update_ok o psf_dim uu vv w WF) as (bi & w' & c & E & Hbi & S1 & S2 & S3 & Hw & Hn & Hf).
  specialize (Hbi Hhit). exists w', c. split; [exact E|]. pose proof (wf_bl _ _ _ _ _ WF) as B1.
  pose proof (wf_f _ _ _ _ _ WF) as B2.
  split; [auto|]. split; [congruence|]. split; [congruence|]. split; [|split].
  - intros p f b Hf' Hb. rewrite B2 in Hf'. rewrite B1 in Hb. destruct (Hw p f b Hf' Hb) as [H1 H2].
    assert (D : dropped o psf_dim uu vv f b <->
      (f < length (o_freq_use o) /\ nth f (o_freq_use o) 0%Z = 0%Z) \/ In b bi
      \/ (exists t, holds_baseline (o_bin_offset o) (length uu) t b /\ nth t (o_time_use o) 0%Z = 0%Z)
      \/ length_outside o uu vv f b \/ footprint_outside o psf_dim uu vv f b).
    { unfold dropped. rewrite (Hbi b). tauto. }
    split.
    + intros Hp HD. apply H1; auto. now apply D.
    + intros HD. apply H2. destruct HD as [|HD]; auto. right. intros HD'. apply HD, D, HD'.
  - intros usable HU. rewrite Hn, B1, B2. unfold all_pairs. f_equal. apply filter_ext. intros x.
    apply eq_true_iff_eq. now rewrite HU, Qltb_true.
  - intros Hne. rewrite Hf. destruct (c_n_vis c =? 0) eqn:E0; auto. apply Nat.eqb_eq in E0. contradiction.
Qed.
Print Assumptions C21_update_partial.

(** For use arrays of zeros and ones the three counters count the zeros. *)
Theorem C21_flag_counters : forall l : list Z, (forall z, In z l -> z = 0%Z \/ z = 1%Z) ->
  sum_Z (map (fun z => 1 - z)%Z l) = Z.of_nat (count_occ Z.eq_dec l 0%Z).
Proof.
  induction l as [|z l IH]; intros H; auto. cbn [map sum_Z fold_right].
  change (fold_right Z.add 0%Z (map (fun z0 => (1 - z0)%Z) l)) with (sum_Z (map (fun z0 => (1 - z0)%Z) l)).
  rewrite IH by (intros; apply H; now right). cbn [count_occ].
  destruct (H z (or_introl eq_refl)) as [-> | ->]; destruct (Z.eq_dec _ _); lia.
Qed.
Print Assumptions C21_flag_counters.

(** A small observation: two times, three tiles, baselines 1-2, 1-3, 2-3 at both times, 2 channels. *)
Definition demo_obs (tiles : list Z) : wobs := {|
  o_kpix := 1; o_freq := [1%Q; 2%Q]; o_min_baseline := 1; o_max_baseline := 6;
  o_dimension := 16; o_elements := 16; o_n_pol := 1;
  o_freq_use := [1; 1]%Z; o_tile_use := tiles; o_time_use := [1; 1]%Z;
  o_tile_a := [1; 1; 2; 1; 1; 2]%Z; o_tile_b := [2; 3; 3; 2; 3; 3]%Z;
  o_bin_offset := [0; 3] |}.
Definition demo_uu : list Q := [1; 2; 3; 1; -2; 3]%Q.
Definition demo_vv : list Q := [1; 1; -1; 2; 1; 0]%Q.
Definition demo_w : arr3 Q := Arr3 2 2 6 (fun _ _ _ => 1%Q).

Lemma demo_well_formed tiles : well_formed (demo_obs tiles) 2 demo_uu demo_vv demo_w.
Proof.
  constructor; cbn; try lia; try lra; try discriminate; auto.
  - repeat split; auto; try discriminate.
    + intros i j Hij Hj. destruct j as [|[|]], i as [|[|]]; cbn in *; lia.
    + intros i Hi. destruct i as [|[|]]; cbn in *; lia.
  - intros [|[|]] H; cbn; try lra; lia.
Qed.

(** A run that succeeds with a checked outcome. *)
Lemma run_check {A} (r : result A) (chk : A -> bool) :
  match r with Ok x => chk x | Err _ => false end = true -> exists x, r = Ok x /\ chk x = true.
Proof. destruct r as [x|]; [eauto|discriminate]. Qed.

Definition row_is (w : arr3 Q) (p f : nat) (l : list Q) : bool :=
  forallb (fun x => Qeq_bool (fst x) (snd x)) (combine (map (at3 w p f) (seq 0 (d_bl w))) l)
  && (d_bl w =? length l).

(** The hypotheses are met with a flagged tile that has baselines (tile 3)... *)
Example C21_case : exists r,
  vis_weights_update demo_w (demo_obs [1; 1; 0; 1]%Z) 2 demo_uu demo_vv = Ok r
  /\ row_is (fst r) 0 0 [1; 0; 0; 1; 0; 0]%Q && row_is (fst r) 1 0 [1; 1; 1; 1; 1; 1]%Q
     && (c_n_vis (snd r) =? 4)
     && match c_flags (snd r) with Some (0, 1, 0)%Z => true | _ => false end = true.
Proof. apply run_check. vm_compute. reflexivity. Qed.

(** ... and the property fails when the only flagged tile has none (tile 4 here): array_match
    answers -1, which is then used as an index, so the last baseline loses its weights. *)
Theorem C21_no_match_refuted : exists o psf_dim uu vv w w' c f b,
  well_formed o psf_dim uu vv w
  /\ vis_weights_update w o psf_dim uu vv = Ok (w', c)
  /\ f < d_freq w /\ b < d_bl w /\ ~ dropped o psf_dim uu vv f b
  /\ at3 w 0 f b = 1%Q /\ at3 w' 0 f b = 0%Q.
Proof.
  assert (R : exists r, vis_weights_update demo_w (demo_obs [1; 1; 1; 0]%Z) 2 demo_uu demo_vv = Ok r
    /\ (match at3 (fst r) 0 0 5 with 0%Q => true | _ => false end) = true)
    by (apply run_check; vm_compute; reflexivity).
  destruct R as ((w' & c) & R & Hr).
  exists (demo_obs [1; 1; 1; 0]%Z), 2%Z, demo_uu, demo_vv, demo_w, w', c, 0, 5.
  split; [apply demo_well_formed|]. split; [exact R|].
  split; [cbn; lia|]. split; [cbn; lia|]. split; [|split; [reflexivity|]].
  2:{ cbn [fst] in Hr. destruct (at3 w' 0 0 5) as [[| |] [| |]]; try discriminate Hr. reflexivity. }
  clear R.
  assert (NT : forall v, (v = 2 \/ v = 3)%Z -> ~ tile_flagged (demo_obs [1; 1; 1; 0]%Z) v).
  { intros v Hv (i & H1 & H2 & ->). destruct i as [|[|[|[|]]]]; cbn in *; lia. }
  intros [[_ H]|[H|[H|[(t & Ht & H)|H]]]].
  - discriminate.
  - revert H. apply NT. cbn. auto.
  - revert H. apply NT. cbn. auto.
  - destruct t as [|[|t]]; cbn in H; try discriminate. destruct Ht as [Ht _]. cbn in Ht. lia.
  - assert (B : bad (demo_obs [1; 1; 1; 0]%Z) 2 demo_uu demo_vv 0 5 = true).
    { apply bad_spec; auto; cbn; lra. }
    vm_compute in B. discriminate.
Qed.
Print Assumptions C21_no_match_refuted.

(** When every visibility is dropped the flag counters of obs are not written. *)
Theorem C21_counters_refuted : exists o psf_dim uu vv w w' c,
  well_formed o psf_dim uu vv w /\ vis_weights_update w o psf_dim uu vv = Ok (w', c)
  /\ In 0%Z (o_tile_use o) /\ c_flags c = None.
Proof.
  assert (R : exists r, vis_weights_update demo_w (demo_obs [0; 0; 0; 1]%Z) 2 demo_uu demo_vv = Ok r
    /\ (match c_flags (snd r) with None => true | _ => false end) = true)
    by (apply run_check; vm_compute; reflexivity).
  destruct R as ((w' & c) & R & Hr).
  exists (demo_obs [0; 0; 0; 1]%Z), 2%Z, demo_uu, demo_vv, demo_w, w', c.
  split; [apply demo_well_formed|]. split; [exact R|]. split; [now left|].
  cbn [snd] in Hr. destruct (c_flags c); [discriminate Hr|reflexivity].
Qed.
Print Assumptions C21_counters_refuted.

(** ** C23 *)

(** C23, the part that holds for every flag pattern: the two lists have the same length, are
    increasing (so without repetition) and disjoint; the even list only holds baselines of usable
    even times; after the call the two members of a pair have the same weight, the smaller of the
    two clipped into [0, 1] from below and above, and everything outside the lists is 0.
    Missing: nothing is said about the times of the odd list (see the refutation). *)
Theorem C23_split_partial : forall n_time n_pol offs time_use w,
  2 <= n_time -> length offs = n_time -> length time_use = n_time ->
  good_offsets offs (d_bl w) -> n_pol <= d_pol w ->
  (forall z, In z time_use -> z = 0%Z \/ z = 1%Z) -> In 1%Z time_use ->
  exists w' even odd,
    split_vis_weights n_time n_pol offs time_use w = Ok (w', Some (even, odd))
    /\ length even = length odd
    /\ (forall i j, i < j < length even -> nth i even 0 < nth j even 0)
    /\ (forall i j, i < j < length odd -> nth i odd 0 < nth j odd 0)
    /\ (forall b, In b even -> ~ In b odd)
    /\ (forall b, In b even \/ In b odd -> b < d_bl w)
    /\ (forall b, In b even -> exists t, holds_baseline offs (d_bl w) t b /\ Nat.Even t /\ nth t time_use 0%Z = 1%Z)
    /\ (forall p f i, p < n_pol -> i < length even ->
          let lo x := if Qle_bool 0 x then x else 0%Q in
          let least x y := if Qle_bool x y then x else y in
          let v := least (lo (at3 w p f (nth i even 0))) (least (at3 w p f (nth i odd 0)) 1%Q) in
          at3 w' p f (nth i even 0) = v /\ at3 w' p f (nth i odd 0) = v)
    /\ (forall p f b, p < n_pol -> ~ In b even -> ~ In b odd -> at3 w' p f b = 0%Q)
    /\ (forall p f b, n_pol <= p -> at3 w' p f b = at3 w p f b).
Proof.
  intros n_time n_pol offs tu w HT HL HU G HP H01 H1.
  assert (Hs : exists t, t < n_time /\ nth t tu 0%Z <> 0%Z).
  { destruct (In_nth _ _ 0%Z H1) as (t & Ht & E). exists t. split; [lia|]. rewrite E. lia. }
  destruct (split_ok n_time n_pol offs tu w HT HL HU G HP Hs)
    as (start & even & odd & w' & Hst & Hsu & Hmin & E & (HE & HO) & S1 & S2 & S3 & Hv & H0 & Hp).
  exists w', even, odd. split; [exact E|].
  set (E0 := filter _ _) in HE, HO. set (O0 := filter _ (seq 0 (d_bl w))) in HE, HO.
  assert (Dis : forall b, In b E0 -> In b O0 -> False).
  { intros b. unfold E0, O0. rewrite !filter_In, !existsb_exists.
    intros (Hb & t & Ht & K) (_ & t' & Ht' & K').
    cbv beta in K, K'. rewrite !andb_true_iff in K. rewrite !andb_true_iff in K'.
    rewrite Nat.leb_le, Nat.ltb_lt in K. rewrite Nat.leb_le, Nat.ltb_lt in K'. rewrite in_seq in *.
    assert (t = t').
    { apply (holds_unique offs (d_bl w) G b); unfold holds_baseline; lia. }
    subst t'. destruct K as [[[K1 K2] K3] K4], K' as [_ K']. rewrite K3, K4 in K'.
    rewrite (proj2 (Nat.ltb_lt t (n_time / 2))) in K' by lia. discriminate. }
  assert (HinE : forall b, In b even -> In b E0) by (intros b; rewrite HE; apply In_firstn).
  assert (HinO : forall b, In b odd -> In b O0) by (intros b; rewrite HO; apply In_firstn).
  split. { rewrite HE, HO, !firstn_length. lia. }
  split. { intros i j [Hij Hj]. revert Hij Hj. rewrite HE. apply incr_firstn, incr_filter_seq. }
  split. { intros i j [Hij Hj]. revert Hij Hj. rewrite HO. apply incr_firstn, incr_filter_seq. }
  split. { intros b Hb Hb'. eapply Dis; eauto. }
  split. { intros b [Hb|Hb]; [apply HinE in Hb|apply HinO in Hb]; apply filter_In in Hb; rewrite in_seq in Hb; lia. }
  split.
  { intros b Hb. apply HinE in Hb. apply filter_In in Hb. destruct Hb as [Hb K]. rewrite existsb_exists in K.
    destruct K as (t & Ht & K). cbv beta in K. rewrite !andb_true_iff, Nat.leb_le, Nat.ltb_lt in K. rewrite in_seq in *.
    destruct K as [[[K1 K2] K3] K4]. assert (t < n_time) by lia.
    exists t. split; [unfold holds_baseline; lia|]. split; [now apply Nat.even_spec|].
    unfold kept, paired_use in K4. rewrite nth_map_seq in K4 by lia.
    destruct ((start <=? t) && (t <? start + (n_time - start) / 2 * 2)) eqn:Er; [|discriminate].
    apply andb_true_iff in Er. destruct Er as [Er1 Er2]. apply Nat.leb_le in Er1. apply Nat.ltb_lt in Er2.
    set (a := start + (t - start) / 2 * 2) in K4.
    assert (Ha : a = t \/ a + 1 = t) by (unfold a; lia).
    assert (Hn : nth t tu 0%Z <> 0%Z) by (intros Hz; destruct Ha as [Ha|Ha]; rewrite <- Ha in Hz; rewrite Hz in K4;
      rewrite ?Z.mul_0_r in K4; discriminate).
    destruct (H01 (nth t tu 0%Z)); auto; [apply nth_In; lia|contradiction]. }
  split; [exact Hv|]. split; [exact H0|exact Hp].
Qed.
Print Assumptions C23_split_partial.

(** With a flagged first time the odd list starts with a baseline of that flagged time. *)
Theorem C23_odd_refuted : exists n_time n_pol offs time_use w w' even odd b t,
  2 <= n_time /\ length offs = n_time /\ length time_use = n_time /\ good_offsets offs (d_bl w)
  /\ In 1%Z time_use
  /\ split_vis_weights n_time n_pol offs time_use w = Ok (w', Some (even, odd))
  /\ In b odd /\ holds_baseline offs (d_bl w) t b /\ nth t time_use 0%Z = 0%Z /\ Nat.Even t.
Proof.
  eexists 6, 1, [0;1;2;3;4;5], [0;1;1;1;1;1]%Z, (Arr3 1 1 6 (fun _ _ _ => 1%Q)), _, _, _, 0, 0.
  split; [lia|]. split; [reflexivity|]. split; [reflexivity|]. split.
  { split; [reflexivity|]. split; [discriminate|]. split.
    - intros i j Hij Hj. cbn [length] in Hj.
      do 6 (destruct j as [|j]; [do 6 (destruct i as [|i]; [cbn; lia|]); lia|]). lia.
    - intros i Hi. cbn [length] in Hi. cbn [d_bl]. do 6 (destruct i as [|i]; [cbn; lia|]). lia. }
  split; [cbn; auto|]. split; [vm_compute; reflexivity|].
  split; [vm_compute; auto|]. split; [unfold holds_baseline; cbn; lia|]. split; [reflexivity|]. exists 0. lia.
Qed.
Print Assumptions C23_odd_refuted.

