(** C22, C56, C57: property theorems about flagging. *)
From Coq Require Import Qabs ZifyBool ZifyNat Lqa.
From Verif Require Import Base SortLib Histogram ArrayMatch NpArr PyIndex GridLoc GridLocProofs VisWeights VisWeightsSpec VisWeightsProofs VisWeightsProps Flagging FlaggingSpec FlaggingProofs VisFlagProofs.
Open Scope nat_scope.
Ltac Zify.zify_post_hook ::= idtac.

(** ** C22 *)

(** A tile (frequency) is used afterwards exactly if it was used before and has usable data in every
    polarisation; so none is ever put back. The counters are the numbers of zeros. *)
Theorem C22_use_flags : forall w nz o c, flag_ready w o c ->
  exists w' r, vis_flag_basic w nz o c = Ok (w', r)
    /\ length (r_tile_use r) = b_n_tile o /\ bits (r_tile_use r)
    /\ length (r_freq_use r) = b_n_freq o /\ bits (r_freq_use r)
    /\ (forall t, t < b_n_tile o ->
          (nth t (r_tile_use r) 0%Z = 1%Z <->
           nth t (b_tile_use o) 0%Z = 1%Z /\ forall p, p < b_n_pol o -> tile_has_data w o c p t))
    /\ (forall f, f < b_n_freq o ->
          (nth f (r_freq_use r) 0%Z = 1%Z <->
           nth f (b_freq_use o) 0%Z = 1%Z
           /\ (f_flag_frequencies c = true -> forall p, p < b_n_pol o -> exists b, usable w o c p f b)))
    /\ r_n_tile_flag r = count_occ Z.eq_dec (r_tile_use r) 0%Z
    /\ r_n_freq_flag r = count_occ Z.eq_dec (r_freq_use r) 0%Z
    /\ r_n_time_flag r = count_occ Z.eq_dec (b_time_use o) 0%Z.
Proof.
  intros w nz o c R.
  destruct (flag_basic_ok w nz o c R) as (w' & r & E & _ & _ & _ & L1 & B1 & L2 & B2 & T & F & N1 & N2 & N3 & _).
  exists w', r. auto 12.
Qed.
Print Assumptions C22_use_flags.

(** Monotonicity and the counters alone need no assumption on sizes or contents: whatever the input,
    if the call returns, no flag that was down goes up. *)
Theorem C22_monotone : forall w nz o c w' r, vis_flag_basic w nz o c = Ok (w', r) ->
  (forall t, nth t (b_tile_use o) 0%Z = 0%Z -> nth t (r_tile_use r) 0%Z = 0%Z)
  /\ (forall f, nth f (b_freq_use o) 0%Z = 0%Z -> nth f (r_freq_use r) 0%Z = 0%Z)
  /\ r_n_tile_flag r = count_occ Z.eq_dec (r_tile_use r) 0%Z
  /\ r_n_freq_flag r = count_occ Z.eq_dec (r_freq_use r) 0%Z
  /\ r_n_time_flag r = count_occ Z.eq_dec (b_time_use o) 0%Z.
Proof.
  intros w nz o c w' r H.
  assert (CU : forall new old u, combine_use new old = Ok u ->
     forall k, nth k old 0%Z = 0%Z -> nth k u 0%Z = 0%Z).
  { intros new old u HC k Hk. unfold combine_use in HC.
    destruct (negb (length new =? length old)) eqn:EL; [discriminate HC|].
    apply negb_false_iff, Nat.eqb_eq in EL.
    match type of HC with Ok (map ?g _) = _ => set (G := g) in HC end.
    assert (HU : u = map G (combine new old)) by congruence. rewrite HU.
    destruct (le_lt_dec (length old) k) as [L|L].
    - apply nth_overflow. rewrite map_length, combine_length. lia.
    - rewrite (nth_indep _ 0%Z (G (0, 0)%Z)) by (rewrite map_length, combine_length; lia).
      rewrite map_nth, combine_nth, Hk by auto. unfold G. cbn [fst snd]. now rewrite Z.land_0_r. }
  unfold vis_flag_basic in H.
  destruct (zero_freqs (length (b_freq o)) _ w) as [w0|]; [|discriminate H]. cbn [bind] in H.
  destruct (match f_flag_tiles c with [] => Ok tt | _ => _ end) as [[]|]; [|discriminate H]. cbn [bind] in H.
  match type of H with bind ?x _ = _ => destruct x as [w1|]; [|discriminate H] end. cbn [bind] in H.
  destruct (_ || _) in H; [discriminate H|]. destruct (_ <? _) in H; [discriminate H|].
  destruct (existsb _ _) in H; [discriminate H|].
  destruct (tile_use_of o w1) as [tu|]; [|discriminate H]. cbn [bind] in H.
  match type of H with bind ?x _ = _ => destruct x as [w3|]; [|discriminate H] end. cbn [bind] in H.
  destruct (combine_use tu (b_tile_use o)) as [u1|] eqn:E1; [|discriminate H]. cbn [bind] in H.
  match type of H with bind ?x _ = _ => destruct x as [u2|] eqn:E2; [|discriminate H] end. cbn [bind] in H.
  injection H as _ <-. cbn [r_tile_use r_freq_use r_n_tile_flag r_n_freq_flag r_n_time_flag].
  rewrite !zeros_count. split; [|split; [|auto]]; intros k Hk; eapply CU; eassumption.
Qed.
Print Assumptions C22_monotone.

(** ** C56 *)

(** Which weights change: those of flagged times (all baselines of the time but the last) and of the
    out-of-band and edge channels become 0; with channel flagging off, channels without usable data
    get weight 1 where there is data; everything else is untouched. *)
Theorem C56_weights_partial : forall w nz o c, flag_ready w o c ->
  exists w' r, vis_flag_basic w nz o c = Ok (w', r)
    /\ d_pol w' = d_pol w /\ d_freq w' = d_freq w /\ d_bl w' = d_bl w
    /\ forall p f b, f < d_freq w -> b < d_bl w ->
          (time_cleared o b -> at3 w' p f b = 0%Q)
          /\ (~ time_cleared o b -> restored w nz o c p f b -> at3 w' p f b = 1%Q)
          /\ (~ time_cleared o b -> ~ restored w nz o c p f b -> initially_cut o c f -> at3 w' p f b = 0%Q)
          /\ (~ time_cleared o b -> ~ restored w nz o c p f b -> ~ initially_cut o c f -> at3 w' p f b = at3 w p f b).
Proof.
  intros w nz o c R.
  destruct (flag_basic_ok w nz o c R) as (w' & r & E & D1 & D2 & D3 & _ & _ & _ & _ & _ & _ & _ & _ & _ & W).
  exists w', r. auto.
Qed.
Print Assumptions C56_weights_partial.

(** A case that is ready: 24 channels, 2 tiles, 2 times of 2 baselines, the second time flagged. *)
Definition ex_w : arr3 Q := Arr3 1 24 4 (fun _ _ _ => 1%Q).
Definition ex_o : fobs := {|
  b_freq := map (fun k => inject_Z (Z.of_nat k * 1000000)) (seq 150 24);
  b_n_pol := 1; b_n_freq := 24; b_n_tile := 3; b_n_time := 2;
  b_tile_a := [1; 1; 1; 1]%Z; b_tile_b := [2; 2; 2; 2]%Z;
  b_tile_use := [1; 1; 1]%Z; b_freq_use := repeat 1%Z 24; b_time_use := [1; 0]%Z; b_bin_offset := [0; 2] |}.
Definition ex_c (ff : bool) : fconfig := {|
  f_freq_start := Some (152 # 1); f_freq_end := None; f_flag_tiles := []; f_flag_frequencies := ff |}.

Example ex_ready : flag_ready ex_w ex_o (ex_c false).
Proof.
  split; cbn; try reflexivity; try lia; try discriminate.
  - intros v Hv. repeat (destruct Hv as [<-|Hv]; [lia|]). contradiction.
  - intros v Hv. repeat (destruct Hv as [<-|Hv]; [lia|]). contradiction.
  - intros [|[|t]] Ht; cbn; lia.
Qed.

(** The last baseline of a flagged time keeps its weight. *)
Theorem C56_flagged_time_refuted : exists w nz o c w' r t b,
  flag_ready w o c /\ vis_flag_basic w nz o c = Ok (w', r)
  /\ nth t (b_time_use o) 1%Z = 0%Z /\ nth t (b_bin_offset o) 0 <= b
  /\ b < nth (S t) (b_bin_offset o ++ [length (b_tile_a o)]) 0
  /\ at3 w' 0 10 b = 1%Q.
Proof.
  destruct (run_check (vis_flag_basic ex_w (fun _ _ _ => true) ex_o (ex_c false))
    (fun x => Qeq_bool (at3 (fst x) 0 10 3) 1 && (Pos.eqb (Qden (at3 (fst x) 0 10 3)) 1))) as ([w' r] & E & K).
  { vm_compute. reflexivity. }
  exists ex_w, (fun _ _ _ => true), ex_o, (ex_c false), w', r, 1, 3.
  split; [exact ex_ready|]. split; [exact E|]. clear E. cbn [b_time_use b_bin_offset b_tile_a ex_o nth length app fst] in *.
  split; auto. split; [lia|]. split; [lia|].
  apply andb_true_iff in K as [K1 K2]. apply Qeq_bool_iff in K1. apply Pos.eqb_eq in K2.
  destruct (at3 w' 0 10 3) as [n d]. cbn in K2. subst d. unfold Qeq in K1. cbn in K1. f_equal. lia.
Qed.
Print Assumptions C56_flagged_time_refuted.

(** With channel flagging off, channels below flag_freq_start are put back wherever there is data,
    and stay marked as used. *)
Theorem C56_band_refuted : exists w nz o c w' r f,
  flag_ready w o c /\ vis_flag_basic w nz o c = Ok (w', r)
  /\ out_of_band o c f /\ f < d_freq w
  /\ (0 < at3 w' 0 f 0)%Q /\ nth f (r_freq_use r) 0%Z = 1%Z.
Proof.
  destruct (run_check (vis_flag_basic ex_w (fun _ _ _ => true) ex_o (ex_c false))
    (fun x => Qltb 0 (at3 (fst x) 0 0 0) && (nth 0 (r_freq_use (snd x)) 0 =? 1)%Z)) as ([w' r] & E & K).
  { vm_compute. reflexivity. }
  exists ex_w, (fun _ _ _ => true), ex_o, (ex_c false), w', r, 0.
  split; [exact ex_ready|]. split; [exact E|]. clear E. apply andb_true_iff in K as [K1 K2]. cbn [fst snd] in *.
  split. { left. exists (152 # 1). split; [reflexivity|]. vm_compute. reflexivity. }
  split; [cbn; lia|]. split; [now apply Qltb_true|]. lia.
Qed.
Print Assumptions C56_band_refuted.

(** Asking for any tile to be flagged makes the call fail, whether the tile exists or not. *)
Theorem C56_tile_list_refuted : forall w nz o c,
  f_flag_tiles c <> [] -> exists e, vis_flag_basic w nz o c = Err e.
Proof.
  intros w nz o c H. unfold vis_flag_basic. destruct (zero_freqs _ _ w) as [w0|e]; [|exists e; reflexivity].
  cbn [bind].
  assert (V : exists e, vis_flag_tiles o (f_flag_tiles c) = Err e).
  { unfold vis_flag_tiles. destruct (existsb _ _); [eauto|].
    destruct (histogram _ _ _ _ _) as [?|e]; [|exists e; reflexivity]. cbn [bind].
    destruct (histogram (injs (b_tile_b o)) _ _ _ _) as [?|e]; [|exists e; reflexivity]. cbn [bind].
    destruct (histogram [] 1 None (Some 1%Q) None) as [?|e] eqn:E; [vm_compute in E; discriminate E|].
    exists e; reflexivity. }
  destruct V as (e & V). destruct (f_flag_tiles c) as [|x l]; [congruence|]. rewrite V. exists e. reflexivity.
Qed.
Print Assumptions C56_tile_list_refuted.

(** ** C57 *)

(** Whatever the statistics (std, smooth) and the data: when vis_flag returns, every weight is either
    unchanged or 0, every use flag is unchanged or 0, the weights of a tile or channel whose flag was
    lowered are 0 in all n_pol polarisations, and n_vis counts the positive weights left in the first
    polarisation. *)
Theorem C57_lowers_partial : forall std smooth junk dabs w o w' tu fu n,
  vis_flag std smooth junk dabs w o = Ok (w', (tu, fu, n)) ->
  d_pol w' = d_pol w /\ d_freq w' = d_freq w /\ d_bl w' = d_bl w
  /\ (forall p f b, at3 w' p f b = at3 w p f b \/ at3 w' p f b = 0%Q)
  /\ length tu = length (v_tile_use o) /\ length fu = length (v_freq_use o)
  /\ (forall t, nth t tu 0%Z = nth t (v_tile_use o) 0%Z \/ nth t tu 0%Z = 0%Z)
  /\ (forall f, nth f fu 0%Z = nth f (v_freq_use o) 0%Z \/ nth f fu 0%Z = 0%Z)
  /\ (forall t b, nth t tu 0%Z <> nth t (v_tile_use o) 0%Z ->
        nth b (v_tile_a o) 0%Z = (Z.of_nat t + 1)%Z \/ nth b (v_tile_b o) 0%Z = (Z.of_nat t + 1)%Z ->
        forall p f, p < v_n_pol o -> at3 w' p f b = 0%Q)
  /\ (forall f, nth f fu 0%Z <> nth f (v_freq_use o) 0%Z ->
        forall p b, p < v_n_pol o -> at3 w' p f b = 0%Q)
  /\ (forall b, v_far o b = true -> forall p f, p < v_n_pol o -> at3 w' p f b = 0%Q)
  /\ (forall good : nat * nat -> bool,
        (forall x, good x = true <-> (0 < at3 w' 0 (fst x) (snd x))%Q) ->
        n = length (filter good (list_prod (seq 0 (d_freq w)) (seq 0 (d_bl w))))).
Proof.
  intros std smooth junk dabs w o w' tu fu n H.
  destruct (vis_flag_ok _ _ _ _ _ _ _ _ _ _ H) as (tc & fc & w3 & -> & Z1 & Z2 & EW & _ & HN & _). clear H.
  apply zero_use_ok in Z1 as (L1 & R1 & S1). apply zero_use_ok in Z2 as (L2 & R2 & S2).
  assert (IN : forall l u cut, length u = length l ->
     (forall i, i < length l -> (In i cut -> nth i u 0%Z = 0%Z) /\ (~ In i cut -> nth i u 0%Z = nth i l 0%Z)) ->
     forall i, (nth i u 0%Z = nth i l 0%Z \/ nth i u 0%Z = 0%Z) /\ (nth i u 0%Z <> nth i l 0%Z -> In i cut)).
  { intros l u cut L HS i. destruct (le_lt_dec (length l) i) as [Ho|Hi].
    - rewrite !nth_overflow by lia. split; auto. congruence.
    - destruct (HS i Hi) as [A B]. destruct (in_dec Nat.eq_dec i cut); split; auto. intros X. exfalso. auto. }
  subst w3. split; [reflexivity|]. split; [reflexivity|]. split; [reflexivity|]. split.
  { intros p f b. unfold zero_at. cbn [at3]. destruct (_ && memn f fc); auto. destruct (_ && existsb _ _); auto.
    destruct (_ && v_far o b); auto. }
  split; auto. split; auto.
  split; [intros t; apply (IN _ _ _ L1 S1)|]. split; [intros f; apply (IN _ _ _ L2 S2)|].
  split; [|split; [|split]].
  - intros t b Hd Ht p f Hp. apply (IN _ _ _ L1 S1) in Hd. unfold zero_at. cbn [at3].
    destruct (_ && memn f fc); auto. replace (p <? v_n_pol o) with true by lia. cbn [andb].
    match goal with |- (if ?e then _ else _) = _ => assert (X : e = true) end.
    { apply existsb_exists. exists t. split; auto. lia. }
    rewrite X. reflexivity.
  - intros f Hd p b Hp. apply (IN _ _ _ L2 S2) in Hd. unfold zero_at. cbn [at3].
    replace (p <? v_n_pol o) with true by lia. apply memn_In in Hd. rewrite Hd. reflexivity.
  - intros b Hb p f Hp. unfold zero_at. cbn [at3]. rewrite Hb. replace (p <? v_n_pol o) with true by lia.
    cbn [andb]. destruct (memn f fc); auto. destruct (existsb _ _); auto.
  - intros good HG. rewrite HN. cbn [d_freq d_bl zero_at]. f_equal. apply filter_ext. intros x.
    apply eq_true_iff_eq. rewrite HG, Qltb_true. reflexivity.
Qed.
Print Assumptions C57_lowers_partial.

(** A channel with at most ten usable visibilities (positive weight and amplitude, baseline of an allowed length) in each of
    the first two polarisations is flagged, with all its weights; so is a tile, if np.empty happened to contain 0 for it
    and no baseline joins it to itself. *)
Theorem C57_empty_channel : forall std smooth junk dabs w o w' tu fu n f,
  vis_flag std smooth junk dabs w o = Ok (w', (tu, fu, n)) -> f < v_n_freq o ->
  (forall p l, p < 2 -> NoDup l ->
     (forall b, In b l -> b < d_bl w /\ v_far o b = false /\ (0 < at3 w p f b)%Q /\ (0 < dabs f b)%Q) -> length l <= 10) ->
  nth f fu 0%Z = 0%Z /\ forall p b, p < v_n_pol o -> at3 w' p f b = 0%Q.
Proof.
  intros std smooth junk dabs w o w' tu fu n f H Hf Hl.
  destruct (vis_flag_ok _ _ _ _ _ _ _ _ _ _ H) as (tc & fc & w3 & -> & _ & Z2 & EW & _ & _ & _ & O). clear H.
  assert (I : In f fc).
  { apply (freq_outliers_zero _ _ _ _ _ _ O); [now rewrite map_length, seq_length|]. rewrite nth_map_seq by exact Hf. unfold freq_fom.
    apply fom_zero2. intros p Hp H2. rewrite <- (map_length snd). apply (Hl p _ H2).
    - assert (E : forall l, map snd (filter (fun x => Qltb 0 (at3 (zero_at (v_n_pol o) (fun _ b => v_far o b) w) p (fst x) (snd x)) && Qltb 0 (dabs (fst x) (snd x)))
                     (map (fun b : nat => (f, b)) l)) = filter (fun b => Qltb 0 (at3 (zero_at (v_n_pol o) (fun _ b => v_far o b) w) p f b) && Qltb 0 (dabs f b)) l).
      { induction l as [|b l IH]; [reflexivity|]. cbn [map filter fst snd]. destruct (_ && _); cbn [map snd]; now rewrite IH. }
      rewrite E. apply NoDup_filter, seq_NoDup.
    - intros b Ib. apply in_map_iff in Ib as ((f0 & b0) & <- & Ib). apply filter_In in Ib as [Ib Q]. apply in_map_iff in Ib as (b1 & [= <- <-] & Ib).
      apply in_seq in Ib. cbn [fst snd] in *. apply andb_true_iff in Q as [Q1 Q2]. apply Qltb_true in Q1, Q2. unfold zero_at in Q1. cbn [at3] in Q1.
      replace (p <? v_n_pol o) with true in Q1 by lia. cbn [andb] in Q1.
      destruct (v_far o b1); [exfalso; exact (Qlt_irrefl 0 Q1)|]. cbn [d_bl zero_at] in Ib. split; [lia|]. auto. }
  apply zero_use_ok in Z2 as (L2 & R2 & S2). split; [exact (proj1 (S2 f (R2 f I)) I)|].
  intros p b Hp. subst w3. unfold zero_at. cbn [at3]. replace (p <? v_n_pol o) with true by lia. apply memn_In in I. now rewrite I.
Qed.
Print Assumptions C57_empty_channel.
Theorem C57_empty_tile : forall std smooth junk dabs w o w' tu fu n t,
  vis_flag std smooth junk dabs w o = Ok (w', (tu, fu, n)) ->
  (exists z, (In z (v_tile_a o) \/ In z (v_tile_b o)) /\ t < Z.to_nat z) -> (junk t == 0)%Q ->
  (forall b, nth b (v_tile_a o) 0%Z = nth b (v_tile_b o) 0%Z -> nth b (v_tile_a o) 0%Z <> (Z.of_nat t + 1)%Z) ->
  (forall p l, p < 2 -> NoDup l ->
     (forall f b, In (f, b) l -> f < d_freq w /\ (nth b (v_tile_a o) 0 = Z.of_nat t + 1 \/ nth b (v_tile_b o) 0 = Z.of_nat t + 1)%Z
        /\ v_far o b = false /\ (0 < at3 w p f b)%Q /\ (0 < dabs f b)%Q) -> length l <= 10) ->
  nth t tu 0%Z = 0%Z
  /\ forall p f b, p < v_n_pol o -> (nth b (v_tile_a o) 0 = Z.of_nat t + 1 \/ nth b (v_tile_b o) 0 = Z.of_nat t + 1)%Z -> at3 w' p f b = 0%Q.
Proof.
  intros std smooth junk dabs w o w' tu fu n t H (z & Iz & Hz) J A Hl.
  destruct (vis_flag_ok _ _ _ _ _ _ _ _ _ _ H) as (tc & fc & w3 & -> & Z1 & _ & EW & _ & _ & (nt & Hn & O) & _). clear H.
  specialize (Hn z Iz).
  assert (IW : forall x l, In x (where_ (fun z => (z - 1 =? Z.of_nat t)%Z) l) -> x < length l /\ nth x l 0%Z = (Z.of_nat t + 1)%Z).
  { intros x l Ix. rewrite where_spec with (d := 0%Z) in Ix. apply filter_In in Ix as [Ix E]. apply in_seq in Ix. split; lia. }
  assert (I : In t tc).
  { apply outliers_ok in O as (_ & _ & _ & O). apply O; [rewrite map_length, seq_length; lia|]. rewrite nth_map_seq by lia. unfold tile_fom. rewrite J, Qplus_0_l.
    apply fom_zero2. intros p Hp H2. apply (Hl p _ H2).
    - apply NoDup_filter, NoDup_list_prod; [apply seq_NoDup|]. unfold tile_bl. apply NoDup_app_disj.
      + rewrite where_spec with (d := 0%Z). apply NoDup_filter, seq_NoDup.
      + rewrite where_spec with (d := 0%Z). apply NoDup_filter, seq_NoDup.
      + intros x X Y. apply IW in X as [_ X]. apply IW in Y as [_ Y]. apply (A x); lia.
    - intros f b Ib. apply filter_In in Ib as [Ib Q]. apply in_prod_iff in Ib as [If Ib]. apply in_seq in If.
      cbn [fst snd] in *. apply andb_true_iff in Q as [Q1 Q2]. apply Qltb_true in Q1, Q2. unfold zero_at in Q1. cbn [at3] in Q1.
      replace (p <? v_n_pol o) with true in Q1 by lia. cbn [andb] in Q1.
      destruct (v_far o b); [exfalso; exact (Qlt_irrefl 0 Q1)|]. cbn [d_freq zero_at] in If. split; [lia|]. split; [|auto].
      unfold tile_bl in Ib. apply in_app_or in Ib as [Ib|Ib]; apply IW in Ib as [_ Ib]; auto. }
  apply zero_use_ok in Z1 as (L1 & R1 & S1). split; [exact (proj1 (S1 t (R1 t I)) I)|].
  intros p f b Hp Ht. subst w3. unfold zero_at. cbn [at3]. destruct (_ && memn f fc); auto. replace (p <? v_n_pol o) with true by lia. cbn [andb].
  match goal with |- (if ?e then _ else _) = _ => assert (X : e = true) end.
  { apply existsb_exists. exists t. split; auto. lia. }
  rewrite X. reflexivity.
Qed.
Print Assumptions C57_empty_tile.
(** If all channels have the same amplitudes and weights, no channel flag is lowered or all are. *)
Theorem C57_uniform : forall std smooth junk dabs w o w' tu fu n,
  (forall l, (0 <= std l)%Q) -> (forall j x m, smooth j (repeat x m) = repeat x m) ->
  (forall f g b, dabs f b = dabs g b) -> (forall p f g b, at3 w p f b = at3 w p g b) ->
  length (v_freq_use o) = v_n_freq o ->
  vis_flag std smooth junk dabs w o = Ok (w', (tu, fu, n)) ->
  fu = v_freq_use o \/ fu = repeat 0%Z (v_n_freq o).
Proof.
  intros std smooth junk dabs w o w' tu fu n Hs Hm D W Lf H.
  destruct (vis_flag_ok _ _ _ _ _ _ _ _ _ _ H) as (tc & fc & w3 & -> & _ & Z2 & EW & _ & _ & _ & O). clear H.
  set (c := freq_fom std dabs o (zero_at (v_n_pol o) (fun _ b => v_far o b) w) 0) in *.
  assert (E : map (freq_fom std dabs o (zero_at (v_n_pol o) (fun _ b => v_far o b) w)) (seq 0 (v_n_freq o)) = repeat c (v_n_freq o)).
  { apply nth_ext with (d := 0%Q) (d' := 0%Q). { now rewrite map_length, seq_length, repeat_length. }
    intros i Hi. rewrite map_length, seq_length in Hi. rewrite nth_map_seq, nth_repeat_lt by exact Hi. apply freq_fom_ext; [intros; apply D|].
    intros p b. unfold zero_at. cbn [at3]. now rewrite (W p i 0 b). }
  apply zero_use_ok in Z2 as (L2 & R2 & S2). destruct (Qeq_dec c 0) as [Z|Z].
  - right. apply nth_ext with (d := 0%Z) (d' := 0%Z). { now rewrite repeat_length, L2. }
    intros i Hi. rewrite nth_repeat_lt by lia. apply (S2 i ltac:(lia)).
    apply (freq_outliers_zero _ _ _ _ _ _ O); rewrite E, ?repeat_length, ?nth_repeat_lt by lia; [lia|exact Z].
  - left. rewrite E in O. apply (freq_outliers_uniform _ _ _ _ _ _ Hs Hm) in O; [|exact Z]. subst fc.
    apply nth_ext with (d := 0%Z) (d' := 0%Z); [exact L2|]. intros i Hi. apply (S2 i ltac:(lia)). easy.
Qed.
Print Assumptions C57_uniform.

(** A time with at most ten usable visibilities in each of the first two polarisations - a flagged
    time, for instance - makes the call fail. *)
Theorem C57_empty_time_refuted : forall std smooth junk dabs w o t,
  t < length (v_time_use o) ->
  (forall p l, p < 2 -> NoDup l ->
     (forall f b, In (f, b) l -> f < d_freq w /\ b < d_bl w
        /\ nth t (v_bin_offset o ++ [length (v_tile_a o)]) 0 <= b < nth (S t) (v_bin_offset o ++ [length (v_tile_a o)]) 0
        /\ (0 < at3 w p f b)%Q) -> length l <= 10) ->
  exists e, vis_flag std smooth junk dabs w o = Err e.
Proof.
  intros std smooth junk dabs w o t Ht Hl.
  destruct (vis_flag std smooth junk dabs w o) as [[w' [[tu fu] n]]|e] eqn:E; [exfalso|eauto].
  destruct (vis_flag_ok _ _ _ _ _ _ _ _ _ _ E) as (tc & fc & w3 & -> & _ & _ & EW & O & _). clear E.
  apply outliers_ok in O as (_ & _ & _ & O).
  rewrite map_length, seq_length in O. specialize (O t Ht).
  apply O. rewrite nth_map_seq by auto. unfold time_fom. apply fom_zero. intros p Hp H2.
  match goal with |- length ?l <= 10 => apply (Hl p l H2) end.
  - apply NoDup_filter. apply NoDup_list_prod; [apply seq_NoDup|apply NoDup_filter, seq_NoDup].
  - intros f b Hfb. apply filter_In in Hfb as [Hfb Hq]. apply in_prod_iff in Hfb as [Hf Hb].
    apply filter_In in Hb as [Hb Hb2]. rewrite in_seq in Hf, Hb. apply Qltb_true in Hq. cbn [fst snd] in Hq.
    assert (D : d_freq w3 = d_freq w /\ d_bl w3 = d_bl w) by (subst w3; split; reflexivity). destruct D as [D1 D2].
    split; [lia|]. split; [lia|]. split; [lia|].
    assert (A : at3 w3 p f b = at3 w p f b \/ at3 w3 p f b = 0%Q).
    { subst w3. unfold zero_at. cbn [at3]. destruct (_ && memn f fc); auto. destruct (_ && existsb _ _); auto.
      destruct (_ && v_far o b); auto. }
    destruct A as [A|A]; rewrite A in Hq; auto. exfalso. exact (Qlt_irrefl 0 Hq).
Qed.
Print Assumptions C57_empty_time_refuted.

(** An observation with a single time always fails. *)
Theorem C57_one_time_refuted : forall std smooth junk dabs w o,
  length (v_time_use o) <= 1 -> exists e, vis_flag std smooth junk dabs w o = Err e.
Proof.
  intros std smooth junk dabs w o Ht.
  destruct (vis_flag std smooth junk dabs w o) as [[w' [[tu fu] n]]|e] eqn:E; [exfalso|eauto].
  destruct (vis_flag_ok _ _ _ _ _ _ _ _ _ _ E) as (tc & fc & w3 & -> & _ & _ & EW & O & _). clear E.
  apply outliers_ok in O as (L & _). rewrite map_length, seq_length in L. lia.
Qed.
Print Assumptions C57_one_time_refuted.

(** Twelve baselines per time between tiles 1 and 3, two times, two channels. Tile 2 has no baseline:
    whether it ends up flagged depends on what np.empty happened to contain. The standard deviations
    met in the run are 0 and 1, for which [sd01] is exact. *)
Definition sd01 (l : list Q) : Q := if Qeq_bool (Qvar l) 1 then 1%Q else 0%Q.
Definition ex_v : vobs := {|
  v_n_pol := 1; v_n_freq := 2; v_tile_a := repeat 1%Z 24; v_tile_b := repeat 3%Z 24;
  v_tile_use := [1; 1; 1]%Z; v_freq_use := [1; 1]%Z; v_time_use := [1; 1]%Z; v_bin_offset := [0; 12];
  v_far := fun _ => false |}.
Definition ex_vw : arr3 Q := Arr3 1 2 24 (fun _ _ _ => 1%Q).
Definition ex_dabs (f b : nat) : Q := if Nat.even b then 1%Q else 3%Q.

Definition use3 (a b c : Z) (x : arr3 Q * (list Z * list Z * nat)) : bool :=
  match x with (_, ([x0; x1; x2], _, _)) => (x0 =? a)%Z && (x1 =? b)%Z && (x2 =? c)%Z | _ => false end.
Lemma use3_spec a b c x : use3 a b c x = true -> fst (fst (snd x)) = [a; b; c].
Proof.
  destruct x as [? [[[|x0 [|x1 [|x2 [|]]]] ?] ?]]; cbn; try discriminate.
  intros H. f_equal; [lia|]. f_equal; [lia|]. f_equal. lia.
Qed.

Theorem C57_uninitialised_refuted : exists dabs w o smooth x y,
  vis_flag sd01 smooth (fun _ => 0%Q) dabs w o = Ok x
  /\ vis_flag sd01 smooth (fun t => if t =? 1 then 1%Q else 0%Q) dabs w o = Ok y
  /\ fst (fst (snd x)) = [1; 0; 1]%Z /\ fst (fst (snd y)) = [1; 1; 1]%Z.
Proof.
  destruct (run_check (vis_flag sd01 (fun _ l => l) (fun _ => 0%Q) ex_dabs ex_vw ex_v) (use3 1 0 1)) as (x & E & K).
  { vm_compute. reflexivity. }
  destruct (run_check (vis_flag sd01 (fun _ l => l) (fun t => if t =? 1 then 1%Q else 0%Q) ex_dabs ex_vw ex_v) (use3 1 1 1)) as (y & E' & K').
  { vm_compute. reflexivity. }
  exists ex_dabs, ex_vw, ex_v, (fun _ l => l), x, y. split; [exact E|]. split; [exact E'|].
  split; now apply use3_spec.
Qed.
Print Assumptions C57_uninitialised_refuted.
(** the two theorems about channels and tiles meet: uniform channels kept; a channel and a tile without data *)
Example C57_uniform_case : exists x, vis_flag sd01 (fun _ l => l) (fun _ => 0%Q) ex_dabs ex_vw ex_v = Ok x
  /\ (forall f g b, ex_dabs f b = ex_dabs g b) /\ snd (fst (snd x)) = [1; 1]%Z /\ fst (fst (snd x)) = [1; 0; 1]%Z.
Proof.
  destruct (run_check (vis_flag sd01 (fun _ l => l) (fun _ => 0%Q) ex_dabs ex_vw ex_v)
    (fun x => use3 1 0 1 x && match snd (fst (snd x)) with [a; b] => (a =? 1)%Z && (b =? 1)%Z | _ => false end)) as (x & E & K).
  { vm_compute. reflexivity. }
  apply andb_true_iff in K as [K1 K2]. exists x. split; [exact E|]. split; [reflexivity|]. split; [|now apply use3_spec].
  clear E K1. destruct (snd (fst (snd x))) as [|a [|b [|]]]; try discriminate K2. f_equal; [lia|]. f_equal. lia.
Qed.
Example C57_channel_case : exists x, vis_flag sd01 (fun _ l => l) (fun _ => 0%Q) (fun f b => if f =? 2 then 0%Q else ex_dabs f b)
    (Arr3 1 3 24 (fun _ _ _ => 1%Q)) {| v_n_pol := 1; v_n_freq := 3; v_tile_a := repeat 1%Z 24; v_tile_b := repeat 3%Z 24;
  v_tile_use := [1; 1; 1]%Z; v_freq_use := [1; 1; 1]%Z; v_time_use := [1; 1]%Z; v_bin_offset := [0; 12]; v_far := fun _ => false |} = Ok x
  /\ snd (fst (snd x)) = [1; 1; 0]%Z.
Proof.
  destruct (run_check (vis_flag sd01 (fun _ l => l) (fun _ => 0%Q) (fun f b => if f =? 2 then 0%Q else ex_dabs f b)
    (Arr3 1 3 24 (fun _ _ _ => 1%Q)) {| v_n_pol := 1; v_n_freq := 3; v_tile_a := repeat 1%Z 24; v_tile_b := repeat 3%Z 24;
  v_tile_use := [1; 1; 1]%Z; v_freq_use := [1; 1; 1]%Z; v_time_use := [1; 1]%Z; v_bin_offset := [0; 12]; v_far := fun _ => false |})
    (fun x => match snd (fst (snd x)) with [a; b; c] => (a =? 1)%Z && (b =? 1)%Z && (c =? 0)%Z | _ => false end)) as (x & E & K).
  { vm_compute. reflexivity. }
  exists x. split; [exact E|]. clear E. destruct (snd (fst (snd x))) as [|a [|b [|c [|]]]]; try discriminate K. f_equal; [lia|]. f_equal; [lia|]. f_equal. lia.
Qed.
