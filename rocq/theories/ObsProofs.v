From Coq Require Import ZifyBool ZifyNat.
From Verif Require Import Base SortLib Histogram HistogramSpec HistogramProps Utils1 Utils1Spec Utils1Proofs Cplx VisWeights PyIndex
  AutoProofs ModelFlagProofs Obs ObsSpec.
Open Scope nat_scope.
Ltac Zify.zify_post_hook ::= idtac.

(** ** Time bins *)
Lemma cumsum_nth l : forall acc k, k < length l -> nth k (cumsum acc l) 0 = acc + sum_nat (firstn (S k) l).
Proof.
  induction l as [|x l IH]; intros acc k Hk; [cbn in Hk; lia|]. cbn [cumsum]. destruct k; [cbn; lia|].
  cbn [nth]. rewrite IH by (cbn in Hk; lia). change (firstn (S (S k)) (x :: l)) with (x :: firstn (S k) l).
  cbn [sum_nat fold_right]. fold (sum_nat (firstn (S k) l)). lia.
Qed.
Lemma cumsum_length l : forall acc, length (cumsum acc l) = length l.
Proof. induction l; intros acc; cbn; auto. Qed.

Definition width (u : list nat) (k : nat) : nat := if k =? 0 then nth 0 u 0 + 1 else nth k u 0 - nth (k - 1) u 0.
Lemma width_sum u : (forall i j, i < j -> j < length u -> nth i u 0 < nth j u 0) ->
  forall k, k < length u -> sum_nat (map (width u) (seq 0 (S k))) = nth k u 0 + 1.
Proof.
  intros Inc. induction k as [|k IH]; intros Hk; [cbn; lia|].
  rewrite seq_S, map_app, sum_nat_app, IH by lia. cbn. specialize (Inc k (S k)). rewrite Nat.sub_0_r. lia.
Qed.
Lemma firstn_map_seq {A} (f : nat -> A) n k : k <= n -> firstn k (map f (seq 0 n)) = map f (seq 0 k).
Proof.
  intros H. replace n with (k + (n - k)) by lia. rewrite seq_app, map_app, firstn_app, map_length, seq_length, Nat.sub_diag.
  cbn [firstn]. rewrite app_nil_r. apply firstn_all2. now rewrite map_length, seq_length.
Qed.

Definition offs_of (u : list nat) : list nat := 0 :: cumsum 0 (firstn (length u - 1) (map (width u) (seq 0 (length u)))).
Lemma offs_length u : u <> [] -> length (offs_of u) = length u.
Proof.
  intros H. unfold offs_of. cbn [length]. rewrite cumsum_length, firstn_length, map_length, seq_length.
  destruct u; [congruence|]. cbn [length]. lia.
Qed.
Lemma offs_nth u : (forall i j, i < j -> j < length u -> nth i u 0 < nth j u 0) -> forall i, i < length u ->
  nth i (offs_of u) 0 = if i =? 0 then 0 else S (nth (i - 1) u 0).
Proof.
  intros Inc i Hi. unfold offs_of. destruct i as [|i]; [reflexivity|]. cbn [nth Nat.eqb].
  rewrite firstn_map_seq by lia. rewrite cumsum_nth by (rewrite map_length, seq_length; lia).
  rewrite firstn_map_seq by lia. rewrite width_sum by (auto; lia). rewrite Nat.sub_succ, Nat.sub_0_r. lia.
Qed.

Lemma run_of (u : list nat) q : (exists i, i < length u /\ q <= nth i u 0) ->
  exists i, i < length u /\ q <= nth i u 0 /\ (if i =? 0 then 0 else S (nth (i - 1) u 0)) <= q.
Proof.
  intros (i & Hi & Hq). revert Hi Hq. induction i as [|i IH]; intros Hi Hq; [exists 0; cbn; repeat split; auto; lia|].
  destruct (Nat.le_gt_cases q (nth i u 0)) as [H|H]; [apply IH; auto; lia|].
  exists (S i). cbn [Nat.eqb]. rewrite Nat.sub_succ, Nat.sub_0_r. repeat split; auto; lia.
Qed.

Definition strictly_up (l : list nat) : Prop := forall i j, i < j -> j < length l -> nth i l 0 < nth j l 0.

Lemma obs_times_spec time : nondecreasing time -> (exists x y, In x time /\ In y time /\ x <> y) ->
  exists n offs nb, obs_times time = Ok (n, offs, nb)
  /\ distinct_count time n /\ length offs = n /\ 2 <= n /\ nth 0 offs 0 = 0 /\ nb = nth 1 offs 0
  /\ strictly_up offs
  /\ (forall i, i < n -> nth i offs 0 < length time)
  /\ (forall i j, i < j -> j < n -> (nth (nth i offs 0%nat) time 0 < nth (nth j offs 0%nat) time 0)%Z)
  /\ (forall i q, i < n -> q < length time ->
        (in_time_bin offs (length time) i q <-> nth q time 0%Z = nth (nth i offs 0) time 0%Z)).
Proof.
  intros Hs (x & y & Hx & Hy & Nxy). set (u := idl_argunique time).
  destruct (argunique_runs time Hs) as (R1 & Inc & R3). fold u in R1, Inc, R3. fold (strictly_up u) in Inc.
  assert (Ne : time <> []) by (intros ->; destruct Hx). destruct (R1 Ne) as [Nu Last]. clear R1.
  assert (Lt : 0 < length time) by (destruct time; [congruence|cbn; lia]).
  assert (Ln : length u = length (np_unique time)) by (unfold u, idl_argunique; now rewrite map_length).
  assert (L2 : 2 <= length u).
  { rewrite Ln. assert (incl [x; y] (np_unique time)) by (intros z [<-|[<-|[]]]; now apply np_unique_In).
    assert (ND : NoDup [x; y]) by (constructor; [intros [E|[]]; congruence|constructor; [intros []|constructor]]).
    exact (NoDup_incl_length ND H). }
  assert (Lu : forall i, i < length u -> nth i u 0 < length time).
  { intros i Hi. destruct (Nat.eq_dec i (length u - 1)) as [->|Ni]; [lia|]. specialize (Inc i (length u - 1) ltac:(lia) ltac:(lia)). lia. }
  set (st := fun i => if i =? 0 then 0 else S (nth (i - 1) u 0)).
  assert (St : forall i, i < length u -> st i <= nth i u 0).
  { intros i Hi. unfold st. destruct i; [apply Nat.le_0_l|]. cbn [Nat.eqb]. rewrite Nat.sub_succ, Nat.sub_0_r. specialize (Inc i (S i) (Nat.lt_succ_diag_r i) Hi). lia. }
  assert (Ev : forall i, i < length u -> nth (st i) time 0%Z = nth (nth i u 0) time 0%Z).
  { intros i Hi. apply R3; auto; apply Nat.le_refl. }
  assert (Dif : forall i, S i < length u -> (nth (nth i u 0%nat) time 0 < nth (nth (S i) u 0%nat) time 0)%Z).
  { intros i Hi. assert (Hin : In (nth i u 0) u) by (apply nth_In; lia).
    unfold u in Hin at 2. rewrite (argunique_exact time Hs) in Hin. apply filter_In in Hin as [_ Hin].
    unfold ends_run in Hin. pose proof (Lu (S i) Hi). pose proof (Inc i (S i) ltac:(lia) Hi).
    apply orb_true_iff in Hin as [Hin|Hin]; [apply Nat.eqb_eq in Hin; lia|]. apply negb_true_iff, Z.eqb_neq in Hin.
    rewrite <- (Ev (S i) Hi). unfold st. cbn [Nat.eqb]. rewrite Nat.sub_succ, Nat.sub_0_r.
    pose proof (Hs (nth i u 0) (S (nth i u 0)) ltac:(lia) ltac:(lia)). lia. }
  assert (Up : forall i j, i < j -> j < length u -> (nth (nth i u 0%nat) time 0 < nth (nth j u 0%nat) time 0)%Z).
  { intros i j Hij. induction Hij as [|j Hij IH]; intros Hj; [now apply Dif|].
    specialize (IH ltac:(lia)). pose proof (Dif j Hj). lia. }
  assert (On : forall i, i < length u -> nth i (offs_of u) 0 = st i) by exact (offs_nth u Inc). pose proof (offs_length u Nu) as Ol.
  exists (length u), (offs_of u), (nth 0 u 0 + 1). split.
  { unfold obs_times. fold u. rewrite (proj2 (Nat.leb_gt _ _)) by lia. fold (width u). unfold offs_of.
    rewrite (nth_map_seq (width u)) by lia. reflexivity. }
  split.
  { exists (np_unique time). split; [apply np_unique_NoDup|]. split; [intros; apply np_unique_In|auto]. }
  split; auto. split; auto. split; auto. split.
  { rewrite On by lia. unfold st. cbn. lia. }
  split.
  { intros i j Hij Hj. rewrite Ol in Hj. rewrite !On by lia. pose proof (St i ltac:(lia)). unfold st at 2.
    destruct j; [lia|]. cbn [Nat.eqb]. rewrite Nat.sub_succ, Nat.sub_0_r.
    destruct (Nat.eq_dec i j) as [->|]; [lia|]. specialize (Inc i j). lia. }
  split.
  { intros i Hi. rewrite On by auto. pose proof (St i Hi). pose proof (Lu i Hi). lia. }
  split.
  { intros i j Hij Hj. rewrite !On, !Ev by lia. now apply Up. }
  intros i q Hi Hq. unfold in_time_bin. rewrite Ol, On, Ev by auto.
  assert (En : (if S i <? length u then nth (S i) (offs_of u) 0 else length time) = S (nth i u 0)).
  { destruct (Nat.ltb_spec (S i) (length u)).
    - rewrite On by auto. unfold st. cbn [Nat.eqb]. now rewrite Nat.sub_succ, Nat.sub_0_r.
    - replace i with (length u - 1) by lia. rewrite Last. lia. }
  rewrite En. split.
  - intros [H1 H2]. apply R3; auto. lia.
  - intros E. destruct (run_of u q) as (k & Hk & K1 & K2).
    { exists (length u - 1). rewrite Last. split; lia. }
    change (st k <= q) in K2. assert (Eq : nth q time 0%Z = nth (nth k u 0) time 0%Z) by (apply R3; auto).
    assert (k = i).
    { destruct (Nat.lt_trichotomy k i) as [L|[L|L]]; auto; [pose proof (Up k i L Hi)|pose proof (Up i k L Hk)]; lia. }
    subst k. lia.
Qed.

Lemma obs_times_single time : (forall x y, In x time -> In y time -> x = y) -> obs_times time = Err TypeError.
Proof.
  intros H. unfold obs_times. replace (length (idl_argunique time) <=? 1) with true; auto. symmetry. apply Nat.leb_le.
  unfold idl_argunique. rewrite map_length.
  pose proof (np_unique_NoDup time) as N. pose proof (np_unique_In time) as I.
  destruct (np_unique time) as [|a [|b l]]; cbn; try lia. exfalso. inversion N as [|? ? Ha _]; subst. apply Ha. left.
  apply H; apply I; cbn; auto.
Qed.

(** ** Frequency bins *)
Lemma fold_upd_nth {A} idx (v : A) d : forall fb k, (forall i, In i idx -> i < length fb) ->
  length (fold_left (fun fb k => upd fb k v) idx fb) = length fb
  /\ (In k idx -> nth k (fold_left (fun fb k => upd fb k v) idx fb) d = v)
  /\ (~ In k idx -> nth k (fold_left (fun fb k => upd fb k v) idx fb) d = nth k fb d).
Proof.
  induction idx as [|i idx IH]; intros fb k H; [cbn; tauto|]. cbn [fold_left].
  destruct (IH (upd fb i v) k) as (I1 & I2 & I3); [intros j Hj; rewrite upd_length; apply H; now right|].
  rewrite upd_length in I1. split; auto. split.
  - intros [->|Hk]; auto. destruct (in_dec Nat.eq_dec k idx) as [Hk|Hk]; auto. rewrite I3 by auto. apply upd_same, H. now left.
  - intros Hk. rewrite I3 by (intros X; apply Hk; now right). apply upd_other. intros ->. apply Hk. now left.
Qed.

Definition slot (ri : list nat) (b : nat) : list nat := slice ri (nth b ri 0) (nth (S b) ri 0).
Lemma slice_empty {A} (l : list A) lo hi : hi <= lo -> slice l lo hi = [].
Proof. intros H. unfold slice. now replace (hi - lo) with 0 by lia. Qed.

Lemma fbin_loop_spec n_freq ri : forall n_bins, (forall b k, b < n_bins -> In k (slot ri b) -> k < n_freq) ->
  exists fb, fbin_loop n_freq n_bins ri = Ok fb /\ length fb = n_freq
  /\ forall k, (forall b, b < n_bins -> In k (slot ri b) ->
                  (forall b', b' < n_bins -> In k (slot ri b') -> b' = b) -> nth k fb 0 = b)
            /\ ((forall b, b < n_bins -> ~ In k (slot ri b)) -> nth k fb 0 = 0).
Proof.
  induction n_bins as [|n IH]; intros H.
  - exists (repeat 0 n_freq). split; [reflexivity|]. split; [apply repeat_length|]. intros k. split; [intros; lia|].
    intros _. destruct (Nat.lt_ge_cases k n_freq); [now apply nth_repeat_lt|apply nth_overflow; now rewrite repeat_length].
  - destruct IH as (fb & E & L & Hfb); [intros b k Hb; apply H; lia|].
    unfold fbin_loop in *. rewrite seq_S, fold_res_app. rewrite E. cbn [bind fold_res Nat.add].
    set (lo := nth n ri 0). set (hi := nth (S n) ri 0).
    assert (Sl : slice ri lo hi = slot ri n) by reflexivity.
    assert (X : exists fb', (if lo <? hi then
        let idx := slice ri lo hi in
        if forallb (fun k => k <? n_freq) idx then Ok (fold_left (fun fb k => upd fb k n) idx fb) else Err IndexError
      else Ok fb) = Ok fb' /\ length fb' = n_freq
      /\ forall k, (In k (slot ri n) -> nth k fb' 0 = n) /\ (~ In k (slot ri n) -> nth k fb' 0 = nth k fb 0)).
    { destruct (Nat.ltb_spec lo hi) as [Hl|Hl].
      - cbv zeta. rewrite Sl. rewrite (proj2 (forallb_forall _ _)) by (intros k Hk; apply Nat.ltb_lt; apply (H n k); auto).
        eexists. split; [reflexivity|]. assert (B : forall i, In i (slot ri n) -> i < length fb) by (intros i Hi; rewrite L; apply (H n i); auto).
        split; [rewrite (proj1 (fold_upd_nth (slot ri n) n 0 fb 0 B)); auto|].
        intros k. destruct (fold_upd_nth (slot ri n) n 0 fb k B) as (_ & F1 & F2). auto.
      - exists fb. split; auto. split; auto. intros k. rewrite <- Sl, slice_empty by auto. split; [intros []|auto]. }
    destruct X as (fb' & E' & L' & H'). cbv zeta in E'. rewrite E'. cbn [bind]. exists fb'. split; auto. split; auto.
    intros k. destruct (H' k) as [H1 H2]. destruct (Hfb k) as [F1 F2]. split.
    + intros b Hb Hk U. destruct (in_dec Nat.eq_dec k (slot ri n)) as [Hn|Hn].
      * rewrite (H1 Hn). apply U; auto.
      * rewrite (H2 Hn). apply F1; auto. assert (b <> n) by (intros ->; auto). lia.
    + intros N. rewrite H2 by (apply N; auto). apply F2. intros b Hb. apply N. lia.
Qed.

Lemma fbin_hist freq b : (0 < b)%Q -> freq <> [] ->
  exists lo hi hist bins ri, least freq lo /\ In hi freq /\ (forall x, In x freq -> (x <= hi)%Q)
  /\ histogram freq b None None None = Ok (hist, bins, ri)
  /\ length hist = length bins /\ in_bin lo b (length hist - 1) hi /\ 0 < length hist
  /\ (forall i, i < length hist -> slot ri i = bin_positions lo hi b freq i)
  /\ (forall k, k < length freq -> exists i, i < length hist /\ In k (slot ri i) /\ in_bin lo b i (nth k freq 0%Q)
        /\ (forall j, j < length hist -> In k (slot ri j) -> j = i)
        /\ (forall j, in_bin lo b j (nth k freq 0%Q) -> j = i)).
Proof.
  intros Hb Hne. destruct (C01_histogram_default_limits freq b Hb Hne) as (lo & hi & hist & bins & ri & Hlo & Hhi & Hr & E1 & E2 & _).
  assert (Hle : (lo <= hi)%Q) by (apply Hr in Hlo; tauto).
  destruct (C01_histogram_counts freq b lo hi Hb Hle) as (hist1 & bins1 & ri1 & E3 & L & _ & Lst & _ & U & _).
  rewrite E2 in E3. injection E3 as <- <- <-.
  destruct (C02_reverse_indices freq b lo hi Hb Hle) as (hist2 & bins2 & ri2 & E3 & _ & _ & _ & Sl & Un & _).
  rewrite E2 in E3. injection E3 as <- <- <-.
  exists lo, hi, hist, bins, ri. split; [split; auto; intros x Hx; apply Hr in Hx; tauto|]. split; auto.
  split; [intros x Hx; apply Hr in Hx; tauto|]. split; auto. split; auto.
  rewrite L. split; auto. destruct (U lo) as (i0 & [Hi0 _] & _); [split; auto; apply Qle_refl|].
  split; [lia|].
  assert (Sl' : forall i, i < length bins -> slot ri i = bin_positions lo hi b freq i) by (intros i Hi; now apply Sl).
  split; auto. intros k Hk.
  assert (W : within lo hi (nth k freq 0%Q)) by (apply Hr, nth_In; auto).
  destruct (Un k Hk W) as (i & Hi & Hin & Hu). exists i. split; auto. split; auto.
  fold (slot ri i) in Hin. rewrite (Sl' i Hi) in Hin. apply filter_In in Hin as [_ Hin]. apply andb_true_iff in Hin as [_ Hin].
  apply in_bin_b_spec in Hin. split; auto. split; [exact Hu|].
  intros j Hj. destruct (U (nth k freq 0%Q) W) as (i1 & _ & U1). rewrite (U1 j Hj). symmetry. now apply U1.
Qed.

(** ** Tile numbers *)
Definition renumber_step (nums : list Z) (a : Z) (i : nat) : Z := if (nth i nums 0 =? a)%Z then Z.of_nat (i + 1) else a.
Lemma renumber_map nums n : n <= length nums -> forall s col, s + n <= length nums ->
  fold_res (fun col i => if i <? length nums
      then Ok (map (fun a => if (nth i nums 0 =? a)%Z then Z.of_nat (i + 1) else a) col) else Err IndexError)
    (seq s n) col = Ok (map (fun a => fold_left (renumber_step nums) (seq s n) a) col).
Proof.
  induction n as [|n IH]; intros Hn s col Hs; cbn [seq fold_res fold_left]; [now rewrite map_id|].
  rewrite (proj2 (Nat.ltb_lt _ _)) by lia. cbn [bind]. rewrite IH by lia. rewrite map_map. reflexivity.
Qed.
Lemma renumber_short nums n col : length nums < n -> renumber nums n col = Err IndexError.
Proof.
  intros H. unfold renumber. replace n with (length nums + (n - length nums)) by lia. rewrite seq_app, fold_res_app.
  rewrite renumber_map by lia. cbn [bind Nat.add]. destruct (n - length nums) as [|k] eqn:E; [lia|]. cbn [seq fold_res].
  rewrite (proj2 (Nat.ltb_ge _ _)) by lia. reflexivity.
Qed.
Lemma renumber_safe nums : NoDup nums -> (forall i j, i < j -> j < length nums -> nth j nums 0%Z <> Z.of_nat (i + 1)) ->
  forall n a, n <= length nums ->
  let b := fold_left (renumber_step nums) (seq 0 n) a in
  (forall i, i < n -> nth i nums 0%Z = a -> b = Z.of_nat (i + 1))
  /\ ((forall i, i < n -> nth i nums 0%Z <> a) -> b = a).
Proof.
  intros Nd Hs. induction n as [|n IH]; intros a Hn; cbv zeta; [cbn; split; [intros; lia|auto]|].
  rewrite seq_S, fold_left_app. cbn [fold_left Nat.add]. destruct (IH a ltac:(lia)) as [I1 I2]. cbv zeta in I1, I2.
  set (b := fold_left _ _ _) in *. clearbody b. unfold renumber_step.
  destruct (in_dec Z.eq_dec a (firstn n nums)) as [Hin|Hin].
  - apply In_nth with (d := 0%Z) in Hin as (i & Hi & Ei). rewrite firstn_length in Hi. rewrite nth_firstn in Ei by lia.
    rewrite (I1 i) by (auto; lia). destruct (Z.eqb_spec (nth n nums 0%Z) (Z.of_nat (i + 1))) as [E|E].
    { exfalso. apply (Hs i n); auto; lia. }
    split; [|intros X; exfalso; apply (X i); auto; lia].
    intros j Hj Ej. assert (j = i); [|congruence]. apply (proj1 (NoDup_nth nums 0%Z) Nd); try lia.
  - assert (N : forall i, i < n -> nth i nums 0%Z <> a).
    { intros i Hi E. apply Hin. rewrite <- E. rewrite <- (nth_firstn nums n i) by auto. apply nth_In. rewrite firstn_length. lia. }
    rewrite (I2 N). destruct (Z.eqb_spec (nth n nums 0%Z) a) as [E|E].
    + split; [|intros X; exfalso; apply (X n); auto]. intros j Hj Ej. destruct (Nat.eq_dec j n) as [->|]; auto.
      exfalso. apply (N j); auto; lia.
    + split; auto. intros j Hj Ej. exfalso. destruct (Nat.eq_dec j n) as [->|]; auto. apply (N j); auto; lia.
Qed.
Lemma renumber_zero_based n m a : m <= n -> (0 <= a)%Z ->
  fold_left (renumber_step (map Z.of_nat (seq 0 n))) (seq 0 m) a = if (a <? Z.of_nat m)%Z then Z.of_nat m else a.
Proof.
  intros Hm Ha. induction m as [|m IH]; [cbn [seq fold_left]; change (Z.of_nat 0) with 0%Z; destruct (Z.ltb_spec a 0); auto; lia|].
  rewrite seq_S, fold_left_app. cbn [fold_left Nat.add]. rewrite IH by lia. unfold renumber_step.
  rewrite (nth_map_lt Z.of_nat _ m 0) by (rewrite seq_length; lia). rewrite seq_nth by lia. cbn [Nat.add].
  destruct (Z.ltb_spec a (Z.of_nat m)).
  - rewrite Z.eqb_refl. destruct (Z.ltb_spec a (Z.of_nat (S m))); lia.
  - destruct (Z.eqb_spec (Z.of_nat m) a); destruct (Z.ltb_spec a (Z.of_nat (S m))); lia.
Qed.

(** ** Baseline numbers *)
Lemma fold_min l : forall x, (fold_left Z.min l x <= x)%Z /\ (forall y, In y l -> (fold_left Z.min l x <= y)%Z)
  /\ (fold_left Z.min l x = x \/ In (fold_left Z.min l x) l).
Proof.
  induction l as [|a l IH]; intros x; cbn [fold_left]; [split; [lia|split; [intros y []|now left]]|].
  destruct (IH (Z.min x a)) as (H1 & H2 & H3). split; [lia|]. split.
  - intros y [<-|Hy]; [lia|auto].
  - destruct H3 as [H3|H3]; [|right; now right]. rewrite H3. destruct (Z.min_spec x a) as [[? ->]|[? ->]]; [now left|right; now left].
Qed.
Lemma zmin_is l m : In m l -> (forall y, In y l -> (m <= y)%Z) -> zmin l = Ok m.
Proof.
  destruct l as [|a l]; [intros []|]. intros Hm H. unfold zmin. f_equal. destruct (fold_min l a) as (H1 & H2 & H3).
  assert (A : (fold_left Z.min l a <= m)%Z) by (destruct Hm as [->|Hm]; auto).
  assert (B : (m <= fold_left Z.min l a)%Z) by (destruct H3 as [->|H3]; apply H; [now left|now right]).
  lia.
Qed.
Lemma log2_256 b : (0 <= b < 256)%Z -> Z.log2 (256 + b) = 8%Z.
Proof. intros H. apply Z.log2_unique; [lia|]. change (2 ^ 8)%Z with 256%Z. change (2 ^ Z.succ 8)%Z with 512%Z. lia. Qed.
Lemma mod_256 b : (0 <= b < 256)%Z -> ((256 + b) mod 256 = b)%Z.
Proof. intros H. replace (256 + b)%Z with (b + 1 * 256)%Z by ring. rewrite Z.mod_add, Z.mod_small by lia. reflexivity. Qed.
Lemma mod2_256 b : ((256 + b) mod 2 = b mod 2)%Z.
Proof. replace (256 + b)%Z with (b + 128 * 2)%Z by ring. now rewrite Z.mod_add by lia. Qed.
Lemma mod_index_good b : (0 <= b < 256)%Z -> b = 1%Z \/ (b mod 2 = 0)%Z -> antenna_mod_index (256 + b) = 256%Z.
Proof.
  intros H G. unfold antenna_mod_index. rewrite log2_256 by auto. change (2 ^ 8)%Z with 256%Z.
  rewrite mod_256, mod2_256 by auto. destruct G as [->|G]; [reflexivity|]. rewrite G.
  cbn [Z.eqb]. rewrite andb_false_r. reflexivity.
Qed.
Lemma mod_index_bad b : (3 <= b < 256)%Z -> (b mod 2 = 1)%Z ->
  (0 < antenna_mod_index (256 + b) <= 128)%Z.
Proof.
  intros H G. unfold antenna_mod_index. rewrite log2_256 by lia. change (2 ^ 8)%Z with 256%Z.
  rewrite mod_256, mod2_256 by lia. rewrite G. rewrite (proj2 (Z.ltb_lt 1 b)) by lia. cbn [Z.eqb Pos.eqb andb].
  assert (L : (1 <= Z.log2 b <= 7)%Z).
  { split; [apply Z.log2_le_pow2; cbn; lia|]. assert (Z.log2 b < 8)%Z by (apply Z.log2_lt_pow2; cbn; lia). lia. }
  replace 256%Z with (2 ^ 8)%Z by reflexivity. rewrite <- Z.pow_sub_r by lia.
  split; [apply Z.pow_pos_nonneg; lia|]. change 128%Z with (2 ^ 7)%Z. apply Z.pow_le_mono_r; lia.
Qed.

(** ** Visibilities *)
Lemma unsqueeze_ones k rest idx : unsqueeze (repeat 1 k ++ rest) idx = repeat 0 k ++ unsqueeze rest idx.
Proof. induction k; cbn [repeat app unsqueeze Nat.eqb]; [auto|now rewrite IHk]. Qed.
Lemma filter_ones k rest : filter (fun n => negb (n =? 1)) (repeat 1 k ++ rest) = filter (fun n => negb (n =? 1)) rest.
Proof. induction k; cbn [repeat app filter Nat.eqb negb]; auto. Qed.
