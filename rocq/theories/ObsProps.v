(** C38-C41, C46: property theorems about create_obs, update_obs, create_params and extract_visibilities. *)
From Coq Require Import ZifyBool ZifyNat.
From Verif Require Import Base SortLib Histogram HistogramSpec Utils1 Utils1Spec Cplx VisWeights PyIndex VisWeightsProps Obs ObsSpec ObsProofs.
Open Scope nat_scope.
Ltac Zify.zify_post_hook ::= idtac.

(** C38. Two or more times: the offsets delimit the visibilities of each time. *)
Theorem C38_bins_partial : forall time : list Z, nondecreasing time -> (exists x y, In x time /\ In y time /\ x <> y) ->
  exists n_time offsets n_baselines, obs_times time = Ok (n_time, offsets, n_baselines)
  /\ distinct_count time n_time /\ length offsets = n_time /\ nth 0 offsets 0 = 0
  /\ n_baselines = nth 1 offsets 0
  /\ (forall i, i < n_time -> nth i offsets 0 < length time)
  /\ (forall i j, i < j -> j < n_time -> nth i offsets 0 < nth j offsets 0)
  /\ (forall i j, i < j -> j < n_time -> (nth (nth i offsets 0%nat) time 0 < nth (nth j offsets 0%nat) time 0)%Z)
  /\ (forall i q, i < n_time -> q < length time ->
        (in_time_bin offsets (length time) i q <-> nth q time 0%Z = nth (nth i offsets 0) time 0%Z)).
Proof.
  intros time Hs Hd. destruct (obs_times_spec time Hs Hd) as (n & offs & nb & E & D & L & _ & O0 & Nb & Up & B & T & S_).
  exists n, offs, nb. repeat (split; auto); try apply S_; auto. intros i j Hij Hj. apply Up; auto. now rewrite L.
Qed.
Print Assumptions C38_bins_partial.

(** Missing: with a single time (snapshot data) the call always fails. *)
Theorem C38_single_refuted : forall time : list Z, (forall x y, In x time -> In y time -> x = y) ->
  obs_times time = Err TypeError.
Proof. exact obs_times_single. Qed.
Print Assumptions C38_single_refuted.

Example C38_case : nondecreasing [10; 10; 10; 12; 12; 12; 14; 14; 14]%Z
  /\ obs_times [10; 10; 10; 12; 12; 12; 14; 14; 14]%Z = Ok (3, [0; 3; 6], 3) /\ obs_times [10; 10; 10]%Z = Err TypeError.
Proof.
  split; [|split; vm_compute; reflexivity]. intros i j H1 H2. cbn in H2.
  do 9 (destruct j as [|j]; [do 9 (destruct i as [|i]; [cbn; lia|]); lia|]). lia.
Qed.

(** C39. create_obs: every channel is in the bin it is assigned to. *)
Theorem C39_create : forall freq freq_bin, (0 < freq_bin)%Q -> freq <> [] ->
  exists fbin lo, create_fbin freq (length freq) freq_bin = Ok fbin /\ least freq lo /\ length fbin = length freq
  /\ forall k, k < length freq ->
       in_bin lo freq_bin (nth k fbin 0) (nth k freq 0%Q)
       /\ forall j, in_bin lo freq_bin j (nth k freq 0%Q) -> j = nth k fbin 0.
Proof.
  intros freq b Hb Hne. destruct (fbin_hist freq b Hb Hne) as (lo & hi & hist & bins & ri & Hlo & _ & _ & E & _ & _ & _ & Sl & Ch).
  destruct (fbin_loop_spec (length freq) ri (length hist)) as (fb & Ef & Lf & Hf).
  { intros i k Hi Hk. rewrite (Sl i Hi) in Hk. apply filter_In in Hk as [Hk _]. apply in_seq in Hk. lia. }
  exists fb, lo. split; [unfold create_fbin; rewrite E; exact Ef|]. split; auto. split; auto.
  intros k Hk. destruct (Ch k Hk) as (i & Hi & Hin & Hb' & U1 & U2). rewrite (proj1 (Hf k) i Hi Hin U1). auto.
Qed.
Print Assumptions C39_create.

(** update_obs leaves the channels of the last bin, the one of the highest frequency, in bin 0. *)
Theorem C39_update_partial : forall freq freq_bin, (0 < freq_bin)%Q -> freq <> [] ->
  exists fbin lo last, update_fbin freq (length freq) freq_bin = Ok fbin /\ least freq lo /\ length fbin = length freq
  /\ (exists hi, In hi freq /\ (forall x, In x freq -> (x <= hi)%Q) /\ in_bin lo freq_bin last hi)
  /\ forall k, k < length freq ->
       (in_bin lo freq_bin last (nth k freq 0%Q) -> nth k fbin 0 = 0)
       /\ (~ in_bin lo freq_bin last (nth k freq 0%Q) -> in_bin lo freq_bin (nth k fbin 0) (nth k freq 0%Q)).
Proof.
  intros freq b Hb Hne. destruct (fbin_hist freq b Hb Hne) as (lo & hi & hist & bins & ri & Hlo & Hhi & Hm & E & _ & Lst & Lp & Sl & Ch).
  destruct (fbin_loop_spec (length freq) ri (length hist - 1)) as (fb & Ef & Lf & Hf).
  { intros i k Hi Hk. rewrite (Sl i) in Hk by lia. apply filter_In in Hk as [Hk _]. apply in_seq in Hk. lia. }
  exists fb, lo, (length hist - 1). split; [unfold update_fbin; rewrite E; exact Ef|]. split; auto. split; auto.
  split; [exists hi; auto|].
  intros k Hk. destruct (Ch k Hk) as (i & Hi & Hin & Hb' & U1 & U2). destruct (Hf k) as [F1 F2]. split.
  - intros Hl. apply U2 in Hl. apply F2. intros j Hj Hj'. apply U1 in Hj'; lia.
  - intros Hl. rewrite (F1 i); auto.
    + assert (i <> length hist - 1) by (intros ->; auto). lia.
    + intros j Hj. apply U1. lia.
Qed.
Print Assumptions C39_update_partial.

Theorem C39_update_refuted : exists freq freq_bin fbin, (0 < freq_bin)%Q
  /\ create_fbin freq (length freq) freq_bin = Ok fbin /\ update_fbin freq (length freq) freq_bin <> Ok fbin.
Proof.
  exists [100; 110; 120; 130; 140; 150]%Q, 20%Q, [0; 0; 1; 1; 2; 2]. split; [reflexivity|].
  split; vm_compute; [reflexivity|discriminate].
Qed.
Print Assumptions C39_update_refuted.

Example C39_case : create_fbin [100; 110; 120; 130; 140; 150]%Q 6 20%Q = Ok [0; 0; 1; 1; 2; 2]
  /\ update_fbin [100; 110; 120; 130; 140; 150]%Q 6 20%Q = Ok [0; 0; 1; 1; 0; 0].
Proof. split; vm_compute; reflexivity. Qed.

(** C40. The tile numbers are right when no tile number is the antenna number of a later entry, in
    particular for increasing tables from 1. *)
Theorem C40_tiles_partial : forall antenna_numbers column, NoDup antenna_numbers ->
  (forall i j, i < j -> j < length antenna_numbers -> nth j antenna_numbers 0%Z <> Z.of_nat (i + 1)) ->
  exists tiles, renumber antenna_numbers (length antenna_numbers) column = Ok tiles /\ length tiles = length column
  /\ forall k, k < length column -> tile_of antenna_numbers (nth k column 0%Z) (nth k tiles 0%Z).
Proof.
  intros nums col Nd Hs. unfold renumber. rewrite renumber_map by lia. eexists. split; [reflexivity|].
  split; [apply map_length|]. intros k Hk. rewrite (nth_map_lt _ col k 0%Z) by auto.
  destruct (renumber_safe nums Nd Hs (length nums) (nth k col 0%Z) (le_n _)) as [R1 R2]. split; [exact R1|].
  intros N. apply R2. intros i Hi E. apply N. rewrite <- E. now apply nth_In.
Qed.
Print Assumptions C40_tiles_partial.

Lemma increasing_from_1 nums : (forall i j, i < j -> j < length nums -> (nth i nums 0 < nth j nums 0)%Z) ->
  (forall a, In a nums -> (1 <= a)%Z) ->
  NoDup nums /\ forall i j, i < j -> j < length nums -> nth j nums 0%Z <> Z.of_nat (i + 1).
Proof.
  intros Inc Pos. split.
  - apply (NoDup_nth nums 0%Z). intros i j Hi Hj E. destruct (Nat.lt_trichotomy i j) as [L|[L|L]]; auto; exfalso.
    + specialize (Inc i j L Hj). lia.
    + specialize (Inc j i L Hi). lia.
  - assert (G : forall j, j < length nums -> (Z.of_nat j + 1 <= nth j nums 0)%Z).
    { induction j as [|j IH]; intros Hj; [specialize (Pos (nth 0 nums 0%Z) ltac:(apply nth_In; auto)); lia|].
      specialize (Inc j (S j) ltac:(lia) Hj). specialize (IH ltac:(lia)). lia. }
    intros i j Hij Hj. specialize (G j Hj). lia.
Qed.
Theorem C40_increasing : forall antenna_numbers column,
  (forall i j, i < j -> j < length antenna_numbers -> (nth i antenna_numbers 0 < nth j antenna_numbers 0)%Z) ->
  (forall a, In a antenna_numbers -> (1 <= a)%Z) ->
  exists tiles, renumber antenna_numbers (length antenna_numbers) column = Ok tiles /\ length tiles = length column
  /\ forall k, k < length column -> tile_of antenna_numbers (nth k column 0%Z) (nth k tiles 0%Z).
Proof. intros nums col H1 H2. destruct (increasing_from_1 nums H1 H2). now apply C40_tiles_partial. Qed.
Print Assumptions C40_increasing.

(** Not so in general. With antenna numbers 0, .., n-1 every antenna becomes tile n. *)
Theorem C40_zero_based_refuted : forall n column, (forall a, In a column -> (0 <= a < Z.of_nat n)%Z) ->
  renumber (map Z.of_nat (seq 0 n)) n column = Ok (repeat (Z.of_nat n) (length column)).
Proof.
  intros n col H. unfold renumber. rewrite renumber_map by (rewrite map_length, seq_length; lia). f_equal.
  induction col as [|a col IH]; auto. cbn [map length repeat]. rewrite IH by (intros; apply H; now right). f_equal.
  specialize (H a (or_introl eq_refl)). rewrite renumber_zero_based by lia.
  rewrite (proj2 (Z.ltb_lt _ _)) by lia. reflexivity.
Qed.
Print Assumptions C40_zero_based_refuted.
Theorem C40_unordered_refuted : exists nums column tiles, NoDup nums /\ (forall a, In a nums -> (1 <= a)%Z)
  /\ renumber nums (length nums) column = Ok tiles /\ In 0 (seq 0 (length column))
  /\ ~ tile_of nums (nth 0 column 0%Z) (nth 0 tiles 0%Z).
Proof.
  exists [2; 1]%Z, [2; 1]%Z, [2; 2]%Z. split; [repeat constructor; cbn; lia|]. split; [intros a [<-|[<-|[]]]; lia|].
  split; [reflexivity|]. split; [now left|]. intros [H _]. specialize (H 0 ltac:(cbn; lia) eq_refl). cbn in H. lia.
Qed.
Print Assumptions C40_unordered_refuted.
Theorem C40_short_table : forall antenna_numbers n_tile column, length antenna_numbers < n_tile ->
  renumber antenna_numbers n_tile column = Err IndexError.
Proof. exact renumber_short. Qed.
Print Assumptions C40_short_table.
Example C40_case : renumber [11; 12; 21]%Z 3 [11; 11; 12; 5]%Z = Ok [1; 1; 2; 5]%Z.
Proof. reflexivity. Qed.

(** C41. The pairs are recovered when the smallest baseline number is that of antennas 1 and 1, or of antenna 1 and
    an even one. *)
Theorem C41_decode_partial : forall pairs b0,
  (forall a b, In (a, b) pairs -> (1 <= a /\ 0 <= b < 256)%Z) ->
  In (1%Z, b0) pairs -> (forall p, In p pairs -> (encode (1, b0) <= encode p)%Z) ->
  b0 = 1%Z \/ (b0 mod 2 = 0)%Z ->
  decode_baselines (map encode pairs) = Ok (map fst pairs, map snd pairs).
Proof.
  intros pairs b0 Hr Hin Hmin G. unfold decode_baselines.
  rewrite (zmin_is _ (encode (1, b0)%Z)); [|now apply in_map|intros y Hy; apply in_map_iff in Hy as (p & <- & Hp); auto].
  cbn [bind]. specialize (Hr 1%Z b0 Hin) as Hb. cbv zeta.
  assert (M : antenna_mod_index (encode (1%Z, b0)) = 256%Z).
  { unfold encode. cbn [fst snd]. change (256 * 1)%Z with 256%Z. apply mod_index_good; auto; lia. }
  rewrite M. f_equal. f_equal; rewrite map_map; apply map_ext_in; intros (a, b) Hp; unfold encode; cbn [fst snd];
    apply Hr in Hp.
  - rewrite Z.mul_comm, Z.div_add_l, (Z.div_small b) by lia. lia.
  - replace (256 * a + b)%Z with (b + a * 256)%Z by ring. rewrite Z.mod_add, Z.mod_small by lia. reflexivity.
Qed.
Print Assumptions C41_decode_partial.

(** Whenever antenna 1's first partner is an odd antenna other than itself, as after flagging antenna 2 in data without
    auto-correlations, its baseline decodes to a wrong antenna. *)
Theorem C41_decode_refuted : forall pairs b0 k,
  (3 <= b0 < 256)%Z -> (b0 mod 2 = 1)%Z ->
  (forall p, In p pairs -> (encode (1, b0) <= encode p)%Z) -> k < length pairs -> nth k pairs (0, 0)%Z = (1%Z, b0) ->
  exists a1 a2, decode_baselines (map encode pairs) = Ok (a1, a2) /\ nth k a1 0%Z <> 1%Z.
Proof.
  intros pairs b0 k Hb Odd Hmin Hk Ek. unfold decode_baselines.
  rewrite (zmin_is _ (encode (1, b0)%Z)).
  2:{ rewrite <- Ek. apply in_map, nth_In. auto. }
  2:{ intros y Hy. apply in_map_iff in Hy as (p & <- & Hp). auto. }
  cbn [bind]. do 2 eexists. split; [reflexivity|].
  rewrite (nth_map_lt _ _ k 0%Z) by (rewrite map_length; auto). rewrite (nth_map_lt encode _ k (0, 0)%Z) by auto. rewrite Ek.
  unfold encode. cbn [fst snd]. change (256 * 1)%Z with 256%Z. destruct (mod_index_bad b0 Hb Odd) as [M1 M2].
  set (m := antenna_mod_index (256 + b0)) in *. clearbody m. intros E.
  assert (Y : (2 <= (256 + b0) / m)%Z) by (apply Z.div_le_lower_bound; lia). lia.
Qed.
Print Assumptions C41_decode_refuted.

(** Also without tile 1. *)
Theorem C41_missing_tile_refuted : decode_baselines (map encode [(2, 2); (2, 3); (3, 3)]%Z) <> Ok ([2; 2; 3], [2; 3; 3])%Z
  /\ decode_baselines (map encode [(1, 3); (1, 4); (3, 4)]%Z) = Ok ([2; 2; 6], [3; 4; 4])%Z.
Proof. split; vm_compute; [discriminate|reflexivity]. Qed.
Print Assumptions C41_missing_tile_refuted.
Example C41_case : decode_baselines (map encode [(1, 1); (1, 2); (1, 3); (2, 3); (128, 255)]%Z) = Ok ([1; 1; 1; 2; 128], [1; 2; 3; 3; 255])%Z.
Proof. reflexivity. Qed.

(** C46. A file with the axes (baseline-time, k axes of length 1, frequency, polarisation, part), no other axis of length 1. *)
Theorem C46_layout_partial : forall nb k nf np nc header_pol config_pol re_i im_i w_i at_,
  nb <> 1 -> nf <> 1 -> np <> 1 -> nc <> 1 -> re_i < nc -> im_i < nc -> w_i < nc ->
  let n_pol := if config_pol =? 0 then header_pol else config_pol in
  n_pol <= np ->
  exists vis weights,
    extract_visibilities header_pol config_pol re_i im_i w_i (NdArr (nb :: repeat 1 k ++ [nf; np; nc]) at_) = Ok (vis, weights)
    /\ (d_pol vis, d_freq vis, d_bl vis) = (n_pol, nf, nb) /\ (d_pol weights, d_freq weights, d_bl weights) = (n_pol, nf, nb)
    /\ forall p f b, p < n_pol -> f < nf -> b < nb ->
         let record part := at_ (b :: repeat 0 k ++ [f; p; part]) in
         at3 vis p f b = mkC (Q2Qc (record re_i)) (Q2Qc (record im_i)) /\ at3 weights p f b = record w_i.
Proof.
  intros nb k nf np nc hp cp ri ii wi at_ Nb Nf Np Nc Hr Hi Hw n_pol Hn. unfold extract_visibilities. fold n_pol.
  unfold squeeze. cbn [nd_shape nd_at].
  assert (Es : filter (fun n => negb (n =? 1)) (nb :: repeat 1 k ++ [nf; np; nc]) = [nb; nf; np; nc]).
  { cbn [filter]. rewrite filter_ones. cbn [filter]. apply Nat.eqb_neq in Nb, Nf, Np, Nc. rewrite Nb, Nf, Np, Nc. reflexivity. }
  rewrite Es. assert (B : (np <? n_pol) || (nc <=? ri) || (nc <=? ii) || (nc <=? wi) = false) by lia. rewrite B.
  do 2 eexists. split; [reflexivity|]. cbn [d_pol d_freq d_bl at3]. do 2 (split; [reflexivity|]).
  intros p f b _ _ _. cbv zeta.
  assert (Eu : forall part, unsqueeze (nb :: repeat 1 k ++ [nf; np; nc]) [b; f; p; part] = b :: repeat 0 k ++ [f; p; part]).
  { intros part. cbn [unsqueeze]. rewrite (proj2 (Nat.eqb_neq _ _) Nb), unsqueeze_ones. cbn [unsqueeze].
    apply Nat.eqb_neq in Nf, Np, Nc. now rewrite Nf, Np, Nc. }
  rewrite !Eu. auto.
Qed.
Print Assumptions C46_layout_partial.

(** A file with a single baseline-time, channel or polarisation cannot be read. *)
Theorem C46_single_refuted : forall nb k nf np nc header_pol config_pol re_i im_i w_i at_,
  nb = 1 \/ nf = 1 \/ np = 1 ->
  extract_visibilities header_pol config_pol re_i im_i w_i (NdArr (nb :: repeat 1 k ++ [nf; np; nc]) at_) = Err IndexError.
Proof.
  intros nb k nf np nc hp cp ri ii wi at_ H. unfold extract_visibilities, squeeze. cbn [nd_shape filter]. rewrite filter_ones. cbn [filter].
  destruct (Nat.eqb_spec nb 1); destruct (Nat.eqb_spec nf 1); destruct (Nat.eqb_spec np 1); destruct (Nat.eqb_spec nc 1);
    cbn [negb]; try reflexivity; lia.
Qed.
Print Assumptions C46_single_refuted.
Example C46_case : exists r, extract_visibilities 2 0 0 1 2 (NdArr [2; 1; 1; 3; 2; 3]
      (fun i => inject_Z (Z.of_nat (fold_left (fun a x => 10 * a + x) i 0)))) = Ok r
  /\ Ceqb (at3 (fst r) 1 2 1) (mkC (Q2Qc 100210) (Q2Qc 100211)) && Qeq_bool (at3 (snd r) 1 2 1) 100212 = true.
Proof. apply run_check. vm_compute. reflexivity. Qed.
