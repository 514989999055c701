From Coq Require Import ZifyBool ZifyNat Permutation Sorting.Sorted QArith Qcanon Lqa.
From Verif Require Import Base SortLib NpArr PyIndex VisWeights WeightInvert WeightInvertProofs AutoProofs ModelFlag ModelFlagSpec.
Open Scope nat_scope.
Ltac Zify.zify_post_hook ::= idtac.

(** ** Lists *)
Lemma where_nth {A} (p : A -> bool) (l : list A) d : map (fun k => nth k l d) (where_ p l) = filter p l.
Proof.
  unfold where_. rewrite map_map.
  assert (G : forall l0 l s, (forall k, k < length l -> nth (s + k) l0 d = nth k l d) ->
    map (fun x => nth (fst x) l0 d) (filter (fun kv => p (snd kv)) (combine (seq s (length l)) l)) = filter p l).
  { intros l0 l1. induction l1 as [|a l1 IH]; intros s H; auto. cbn [length seq combine filter snd].
    assert (X : forall k, k < length l1 -> nth (S s + k) l0 d = nth k l1 d).
    { intros k Hk. specialize (H (S k) ltac:(cbn; lia)). cbn [nth] in H. now rewrite <- Nat.add_succ_comm in H. }
    destruct (p a); cbn [map fst]; rewrite (IH (S s) X); auto. f_equal.
    specialize (H 0 ltac:(cbn; lia)). now rewrite Nat.add_0_r in H. }
  apply G. reflexivity.
Qed.
Lemma where_length {A} (p : A -> bool) (l : list A) : length (where_ p l) = length (filter p l).
Proof. destruct l as [|a l]; auto. rewrite <- (where_nth p (a :: l) a). now rewrite map_length. Qed.
Lemma where_NoDup {A} (p : A -> bool) (l : list A) : NoDup (where_ p l).
Proof.
  unfold where_. assert (G : forall (l : list A) s, NoDup (map fst (filter (fun kv => p (snd kv)) (combine (seq s (length l)) l)))
    /\ forall k, In k (map fst (filter (fun kv => p (snd kv)) (combine (seq s (length l)) l))) -> s <= k).
  { induction l0 as [|a l0 IH]; intros s; [cbn; split; [constructor|tauto]|]. cbn [length seq combine filter snd].
    destruct (IH (S s)) as [I1 I2]. destruct (p a); cbn [map fst].
    - split; [constructor; auto; intros X; apply I2 in X; lia|]. intros k [<-|X]; [lia|apply I2 in X; lia].
    - split; auto. intros k X. apply I2 in X. lia. }
  apply G.
Qed.
Lemma where_lt {A} (p : A -> bool) (l : list A) k : In k (where_ p l) -> k < length l.
Proof. destruct l as [|a l]; [intros []|]. intros H. apply (proj1 (In_where p _ a k)) in H. tauto. Qed.

Lemma flat_const_length {A B} (X : list A) (ts : list B) : length (flat_map (fun _ => X) ts) = length ts * length X.
Proof. induction ts; auto. cbn [flat_map length]. rewrite app_length, IHts. lia. Qed.
Lemma flat_const_nth {A B} (X : list A) (ts : list B) d t r : t < length ts -> r < length X ->
  nth (t * length X + r) (flat_map (fun _ => X) ts) d = nth r X d.
Proof.
  revert t. induction ts as [|b ts IH]; intros t Ht Hr; [cbn in Ht; lia|]. cbn [flat_map].
  destruct t; [rewrite app_nth1 by lia; f_equal; lia|].
  rewrite app_nth2 by nia. rewrite <- (IH t) by (cbn in Ht; lia). f_equal. nia.
Qed.
Lemma flat_rep_length {A} n (ts : list A) : length (flat_map (fun t => repeat t n) ts) = length ts * n.
Proof. induction ts; auto. cbn [flat_map length]. rewrite app_length, IHts, repeat_length. lia. Qed.
Lemma flat_rep_nth {A} n (ts : list A) d t r : t < length ts -> r < n ->
  nth (t * n + r) (flat_map (fun t => repeat t n) ts) d = nth t ts d.
Proof.
  revert t. induction ts as [|b ts IH]; intros t Ht Hr; [cbn in Ht; lia|]. cbn [flat_map].
  destruct t; [rewrite app_nth1 by (rewrite repeat_length; lia); cbn [nth]; apply nth_repeat_lt; lia|].
  rewrite app_nth2 by (rewrite repeat_length; nia). cbn [nth]. rewrite <- (IH t) by (cbn in Ht; lia). f_equal.
  rewrite repeat_length. nia.
Qed.

(** ** Times *)
Lemma tdedup_In l v : In v (tdedup l) <-> In v l.
Proof.
  induction l as [|x l IH]; [tauto|]. cbn [tdedup]. destruct l as [|y l]; [tauto|].
  destruct (Qc_eq_dec x y) as [->|N]; rewrite ?IH; [cbn; tauto|]. cbn [In] in *. rewrite IH. tauto.
Qed.
Lemma tdedup_sorted l : StronglySorted Qcle l -> StronglySorted Qclt (tdedup l).
Proof.
  induction 1 as [|x l Hs IH Hx]; [constructor|]. cbn [tdedup]. destruct l as [|y l]; [repeat constructor|].
  destruct (Qc_eq_dec x y) as [->|N]; auto. constructor; auto. apply Forall_forall. intros v Hv. apply (proj1 (tdedup_In _ _)) in Hv.
  rewrite Forall_forall in Hx. inversion Hs as [|? ? _ Hy]; subst. rewrite Forall_forall in Hy.
  assert (Hxy : (x < y)%Qc).
  { destruct (Qcle_lt_or_eq _ _ (Hx y (or_introl eq_refl))); auto. contradiction. }
  destruct Hv as [<-|Hv]; auto. eapply Qclt_le_trans; eauto.
Qed.
Lemma tunique_In l v : In v (tunique l) <-> In v l.
Proof. unfold tunique. rewrite tdedup_In. apply isort_In. Qed.
Lemma Qcleb_total x y : Qcleb x y = true \/ Qcleb y x = true.
Proof. rewrite !Qcleb_true. destruct (Qclt_le_dec x y); auto. left. now apply Qclt_le_weak. Qed.
Lemma tunique_sorted l : StronglySorted Qclt (tunique l).
Proof.
  unfold tunique. apply tdedup_sorted.
  assert (H : StronglySorted (le_ Qcleb) (isort Qcleb l)).
  { apply isort_sorted; [apply Qcleb_total|]. intros x y z. rewrite !Qcleb_true. apply Qcle_trans. }
  clear - H. induction H; constructor; auto. eapply Forall_impl; [|exact H0]. intros a0 E. now apply Qcleb_true.
Qed.
Lemma sorted_Qc_ext (l1 l2 : list Qc) : StronglySorted Qclt l1 -> StronglySorted Qclt l2 ->
  (forall x, In x l1 <-> In x l2) -> l1 = l2.
Proof.
  intros S1. revert l2. induction S1 as [|a l1 S1 IH H1]; intros l2 S2 E.
  - destruct l2 as [|b l2]; auto. destruct (proj2 (E b)). now left.
  - destruct l2 as [|b l2]; [destruct (proj1 (E a)); now left|].
    inversion S2 as [|? ? S2' H2]; subst. rewrite Forall_forall in H1, H2.
    assert (a = b).
    { destruct (proj1 (E a) (or_introl eq_refl)) as [|Ha]; auto. destruct (proj2 (E b) (or_introl eq_refl)) as [|Hb]; auto.
      exfalso. apply H1 in Hb. apply H2 in Ha. apply (Qclt_not_le _ _ Ha). now apply Qclt_le_weak. }
    subst b. f_equal. apply IH; auto. intros x. split; intros Hx.
    + destruct (proj1 (E x) (or_intror Hx)) as [->|]; auto. exfalso. apply H1 in Hx. now apply Qclt_not_eq in Hx.
    + destruct (proj2 (E x) (or_intror Hx)) as [->|]; auto. exfalso. apply H2 in Hx. now apply Qclt_not_eq in Hx.
Qed.
Lemma tunique_rep n ts : StronglySorted Qclt ts -> 0 < n -> tunique (flat_map (fun t => repeat t n) ts) = ts.
Proof.
  intros Hs Hn. apply sorted_Qc_ext; auto; [apply tunique_sorted|]. intros x. rewrite tunique_In, in_flat_map. split.
  - intros (t & Ht & Hx). apply repeat_spec in Hx. now subst.
  - intros Hx. exists x. split; auto. destruct n; [lia|]. now left.
Qed.

(** ** Baselines *)
Lemma baselines_length l : 2 * length (baselines false l) = length l * (length l - 1).
Proof.
  induction l as [|a l IH]; auto. cbn [baselines length]. rewrite app_length, map_length.
  destruct l as [|b l]; [cbn in *; lia|]. cbn [length] in *. nia.
Qed.
Lemma baselines_auto_length l : length (baselines true l) = length (baselines false l) + length l.
Proof.
  induction l as [|a l IH]; auto. cbn [baselines length]. rewrite !app_length, !map_length, IH. cbn [length]. lia.
Qed.
Lemma baselines_In autos l a b : In (a, b) (baselines autos l) -> In a l /\ In b l.
Proof.
  induction l as [|x l IH]; [intros []|]. cbn [baselines]. rewrite in_app_iff, in_map_iff.
  intros [(y & E & Hy)|H]; [|apply IH in H; cbn; tauto]. injection E as <- <-. cbn [In].
  destruct autos; cbn [In] in *; tauto.
Qed.
Lemma baselines_covers autos l x : 2 <= length l -> In x l ->
  exists y, In (x, y) (baselines autos l) \/ In (y, x) (baselines autos l).
Proof.
  induction l as [|a l IH]; [cbn; lia|]. cbn [length baselines]. intros L [->|H].
  - destruct l as [|b l]; [cbn in L; lia|]. exists b. left. apply in_app_iff. left. apply in_map_iff. exists b.
    split; auto. destruct autos; cbn; auto.
  - exists a. right. apply in_app_iff. left. apply in_map_iff. exists x. split; auto. destruct autos; cbn; auto.
Qed.
Lemma filter_map {A B} (f : A -> B) p l : filter p (map f l) = map f (filter (fun x => p (f x)) l).
Proof. induction l as [|a l IH]; auto. cbn [map filter]. destruct (p (f a)); cbn [map]; now rewrite IH. Qed.
Lemma filter_app_ {A} (p : A -> bool) l1 l2 : filter p (l1 ++ l2) = filter p l1 ++ filter p l2.
Proof. induction l1 as [|a l IH]; auto. cbn [app filter]. destruct (p a); cbn [app]; now rewrite IH. Qed.

(** The cross-correlations of a file with auto-correlations. *)
Lemma baselines_cross autos l : NoDup l -> filter (fun ab => negb (fst ab =? snd ab)%Z) (baselines autos l) = baselines false l.
Proof.
  induction 1 as [|a l Ha Hl IH]; auto. cbn [baselines]. rewrite filter_app_, IH. f_equal.
  assert (X : filter (fun ab => negb (fst ab =? snd ab)%Z) (map (pair a) l) = map (pair a) l).
  { apply filter_all. intros ab H. apply in_map_iff in H as (b & <- & Hb). cbn [fst snd].
    destruct (Z.eqb_spec a b); auto. now subst. }
  destruct autos; auto. cbn [map filter fst snd]. now rewrite Z.eqb_refl.
Qed.
Lemma baselines_autos autos l : NoDup l ->
  filter (fun ab => fst ab =? snd ab)%Z (baselines autos l) = if autos then map (fun a => (a, a)) l else [].
Proof.
  induction 1 as [|a l Ha Hl IH]; [destruct autos; auto|]. cbn [baselines]. rewrite filter_app_, IH.
  assert (X : filter (fun ab => fst ab =? snd ab)%Z (map (pair a) l) = []).
  { apply filter_none. intros ab H. apply in_map_iff in H as (b & <- & Hb). cbn [fst snd].
    apply Z.eqb_neq. congruence. }
  destruct autos; [|now rewrite X]. cbn [map filter fst snd]. now rewrite Z.eqb_refl, X.
Qed.
(** Removing tiles from the file. *)
Lemma baselines_filter autos (q : Z -> bool) l :
  filter (fun ab => q (fst ab) && q (snd ab)) (baselines autos l) = baselines autos (filter q l).
Proof.
  induction l as [|a l IH]; auto. cbn [baselines filter]. rewrite filter_app_, IH, filter_map. cbn [fst snd].
  destruct (q a) eqn:E; cbn [baselines].
  - f_equal. f_equal. destruct autos; cbn [filter andb]; rewrite ?E; auto.
  - rewrite filter_none by auto. reflexivity.
Qed.
Lemma baselines_map autos (f : Z -> Z) l :
  baselines autos (map f l) = map (fun ab => (f (fst ab), f (snd ab))) (baselines autos l).
Proof.
  induction l as [|a l IH]; auto. cbn [map baselines]. rewrite map_app, IH, map_map. f_equal. cbn [fst snd].
  destruct autos; cbn [map]; now rewrite !map_map.
Qed.

(** ** The counts of a laid-out file *)
Lemma np_unique_NoDup l : NoDup (np_unique l).
Proof.
  pose proof (np_unique_sorted l) as H. induction H as [|a l' Hs IH Ha]; constructor; auto.
  intros X. rewrite Forall_forall in Ha. apply Ha in X. lia.
Qed.
Lemma same_length_set {A} (l1 l2 : list A) : NoDup l1 -> NoDup l2 -> (forall x, In x l1 <-> In x l2) -> length l1 = length l2.
Proof. intros N1 N2 H. apply Permutation_length. now apply NoDup_Permutation. Qed.

Definition names_of (p : params) : list Z := np_unique (np_unique (pm_a1 p) ++ np_unique (pm_a2 p)).
Lemma names_In autos ants times p : layout autos ants times p -> 2 <= length ants -> times <> [] ->
  forall x, In x (names_of p) <-> In x ants.
Proof.
  intros (_ & _ & E1 & E2) L T x. unfold names_of. rewrite np_unique_In, in_app_iff, !np_unique_In, E1, E2, !in_flat_map.
  split.
  - intros [(t & _ & H)|(t & _ & H)]; apply in_map_iff in H as ((a, b) & <- & H); now apply baselines_In in H.
  - intros H. destruct times as [|t ts]; [congruence|]. destruct (baselines_covers autos ants x L H) as (y & [Hy|Hy]).
    + left. exists t. split; [now left|]. apply in_map_iff. exists (x, y). auto.
    + right. exists t. split; [now left|]. apply in_map_iff. exists (y, x). auto.
Qed.

Lemma combine_map_fst_snd {A B} (l : list (A * B)) : combine (map fst l) (map snd l) = l.
Proof. induction l as [|[a b] l IH]; auto. cbn [map combine fst snd]. now rewrite IH. Qed.
Lemma combine_app_ {A B} (l1 l2 : list A) (m1 m2 : list B) : length l1 = length m1 ->
  combine (l1 ++ l2) (m1 ++ m2) = combine l1 m1 ++ combine l2 m2.
Proof. revert m1. induction l1 as [|a l1 IH]; intros [|b m1] H; try discriminate H; auto. cbn [app combine]. rewrite IH; auto. Qed.
Lemma same_at_flat (bl : list (Z * Z)) (times : list Qc) :
  same_at (flat_map (fun _ => map fst bl) times) (flat_map (fun _ => map snd bl) times)
  = flat_map (fun _ => map (fun ab => fst ab =? snd ab)%Z bl) times.
Proof.
  unfold same_at. induction times as [|t ts IH]; auto. cbn [flat_map].
  rewrite combine_app_ by now rewrite !map_length. rewrite map_app, IH, combine_map_fst_snd. reflexivity.
Qed.
Lemma firstn_flat {A B} (X : list A) (ts : list B) : ts <> [] -> firstn (length X) (flat_map (fun _ => X) ts) = X.
Proof.
  destruct ts as [|b ts]; [congruence|]. intros _. cbn [flat_map]. rewrite firstn_app, Nat.sub_diag, firstn_all.
  now rewrite app_nil_r.
Qed.
Lemma where_map {A B} (f : A -> B) p (l : list A) : where_ p (map f l) = where_ (fun x => p (f x)) l.
Proof.
  unfold where_. rewrite map_length. generalize 0. induction l as [|a l IH]; intros s; auto.
  cbn [map length seq combine filter snd]. destruct (p (f a)); cbn [map fst]; now rewrite IH.
Qed.

Lemma counter_layout autos ants times p : layout autos ants times p -> NoDup ants -> 2 <= length ants -> times <> [] ->
  exists i, counter p = Ok i
  /\ i_times i = times /\ i_num_visis i = length (pm_a1 p)
  /\ (forall x, In x (i_names i) <-> In x ants) /\ length (i_names i) = length ants
  /\ (i_num_autos i = if autos then length times * length ants else 0)
  /\ i_per_time i = length (baselines autos ants)
  /\ i_cross i = where_ (fun ab => negb (fst ab =? snd ab)%Z) (baselines autos ants)
  /\ i_auto i = where_ (fun ab => fst ab =? snd ab)%Z (baselines autos ants)
  /\ i_a1 i = map fst (baselines autos ants) /\ i_a2 i = map snd (baselines autos ants).
Proof.
  intros H N L T. pose proof (names_In _ _ _ _ H L T) as Hn.
  destruct H as (Hs & Ht & E1 & E2). unfold counter. fold (names_of p). rewrite E1, E2.
  rewrite !flat_const_length, !map_length, Nat.eqb_refl. cbn [negb].
  assert (Ln : length (names_of p) = length ants).
  { apply same_length_set; auto. apply np_unique_NoDup. }
  set (bl := baselines autos ants) in *.
  assert (Na : length (where_ (fun b : bool => b) (same_at (flat_map (fun _ => map fst bl) times) (flat_map (fun _ => map snd bl) times)))
               = if autos then length times * length ants else 0).
  { rewrite same_at_flat, where_length.
    assert (G : forall ts : list Qc, length (filter (fun b : bool => b) (flat_map (fun _ => map (fun ab => (fst ab =? snd ab)%Z) bl) ts))
                = if autos then length ts * length ants else 0).
    { induction ts as [|t ts IH]; [destruct autos; auto|]. cbn [flat_map]. rewrite filter_app_, app_length, IH, filter_map, map_length.
      unfold bl. rewrite (baselines_autos autos ants N). destruct autos; cbn [length]; rewrite ?map_length; lia. }
    apply G. }
  assert (P : length (names_of p) * (length (names_of p) - 1) / 2
              + (if length (where_ (fun b : bool => b) (same_at (flat_map (fun _ => map fst bl) times) (flat_map (fun _ => map snd bl) times))) =? 0
                 then 0 else length (names_of p)) = length bl).
  { rewrite Na, Ln, <- baselines_length, Nat.mul_comm, Nat.div_mul by lia. unfold bl. destruct autos.
    - rewrite baselines_auto_length. destruct times as [|t ts]; [congruence|]. cbn [length].
      rewrite (proj2 (Nat.eqb_neq _ _)) by nia. reflexivity.
    - cbn. lia. }
  eexists. split; [reflexivity|]. cbn [i_times i_num_visis i_names i_num_autos i_per_time i_cross i_auto i_a1 i_a2].
  rewrite P. repeat split.
  - rewrite Ht. apply tunique_rep; auto. destruct ants as [|a [|b ants]]; cbn in L; try lia. unfold bl. cbn [baselines].
    rewrite app_length, map_length. destruct autos; cbn [length]; lia.
  - apply Hn.
  - apply Hn.
  - exact Ln.
  - exact Na.
  - rewrite same_at_flat. rewrite <- (map_length (fun ab : Z * Z => (fst ab =? snd ab)%Z) bl), firstn_flat by auto. apply where_map.
  - rewrite same_at_flat. rewrite <- (map_length (fun ab : Z * Z => (fst ab =? snd ab)%Z) bl), firstn_flat by auto. apply where_map.
  - rewrite <- (map_length fst bl). now apply firstn_flat.
  - rewrite <- (map_length snd bl). now apply firstn_flat.
Qed.

(** ** Nearest times *)
Lemma tabs_dist a b : tabs (a - b)%Qc = dist a b.
Proof.
  unfold tabs, dist. destruct (Qcleb 0 (a - b)) eqn:E; destruct (Qclt_le_dec a b) as [H|H]; auto; try ring.
  - apply Qcleb_true in E. exfalso. apply (Qclt_not_le _ _ H). apply Qcle_minus_iff. exact E.
  - apply Qcle_minus_iff in H. apply Qcleb_true in H. unfold Qcminus in E. congruence.
Qed.

Lemma argmin_aux_spec d : forall l pre best m,
  best < length pre -> nth best pre d = m -> (forall x, In x pre -> (m <= x)%Qc) ->
  let r := argmin_aux l (length pre) best m in
  r < length (pre ++ l) /\ forall x, In x (pre ++ l) -> (nth r (pre ++ l) d <= x)%Qc.
Proof.
  induction l as [|y l IH]; intros pre best m Hb Em Hm; cbn [argmin_aux].
  - cbv zeta. rewrite app_nil_r. split; auto. intros x Hx. rewrite Em. auto.
  - specialize (IH (pre ++ [y])). rewrite app_length, <- app_assoc in IH. cbn [length app] in IH. rewrite Nat.add_1_r in IH.
    destruct (Qcleb m y) eqn:E.
    + apply IH; [lia|rewrite app_nth1; auto|]. intros x Hx. apply in_app_iff in Hx as [Hx|[<-|[]]]; auto. now apply Qcleb_true.
    + apply IH; [lia|rewrite app_nth2, Nat.sub_diag; auto|]. intros x Hx.
      assert (L : (y <= m)%Qc).
      { destruct (Qclt_le_dec m y) as [L|L]; auto. apply Qclt_le_weak in L. apply Qcleb_true in L. congruence. }
      apply in_app_iff in Hx as [Hx|[<-|[]]]; [eapply Qcle_trans; eauto|apply Qcle_refl].
Qed.
Lemma argmin_spec l : l <> [] -> exists r, argmin l = Ok r /\ r < length l /\ forall d x, In x l -> (nth r l d <= x)%Qc.
Proof.
  destruct l as [|a l]; [congruence|]. intros _. eexists. split; [reflexivity|].
  assert (G : forall d, argmin_aux l 1 0 a < length (a :: l) /\ forall x, In x (a :: l) -> (nth (argmin_aux l 1 0 a) (a :: l) d <= x)%Qc).
  { intros d. apply (argmin_aux_spec d l [a] 0 a); [cbn; lia|reflexivity|]. intros x [<-|[]]. apply Qcle_refl. }
  split; [apply (G 0%Qc)|]. intros d. apply (G d).
Qed.

(** A run of match_times gives nearest times. *)
Definition is_nearest (times : list Qc) (shift t : Qc) (k : nat) : Prop :=
  k < length times /\ nearest (map (fun m => m + shift)%Qc times) t (nth k times 0 + shift)%Qc.
Lemma argmin_nearest times shift t : times <> [] ->
  exists k, argmin (map (fun m => tabs (m + shift - t)%Qc) times) = Ok k /\ is_nearest times shift t k.
Proof.
  intros T. destruct (argmin_spec (map (fun m => tabs (m + shift - t)%Qc) times)) as (k & E & Lk & H).
  { now destruct times. }
  exists k. split; auto. rewrite map_length in Lk. split; auto. split.
  - apply in_map_iff. exists (nth k times 0%Qc). split; auto. now apply nth_In.
  - intros m' Hm. apply in_map_iff in Hm as (m & <- & Hm).
    specialize (H (tabs (0 + shift - t)%Qc) (tabs (m + shift - t)%Qc)).
    rewrite (nth_map_lt _ times k 0%Qc) in H by auto. rewrite !tabs_dist in H. apply H.
    rewrite <- tabs_dist. apply in_map_iff. eauto.
Qed.
Lemma match_times_spec model shift : model <> [] -> forall data,
  exists use, match_times data model shift = Ok use /\ length use = length data
    /\ forall i, i < length data -> is_nearest model shift (nth i data 0%Qc) (nth i use 0).
Proof.
  intros T. induction data as [|t data IH]; [exists []; cbn; repeat split; auto; intros; lia|].
  destruct IH as (use & E & L & H). destruct (argmin_nearest model shift t T) as (k & Ek & Nk).
  exists (k :: use). unfold match_times in *. cbn [map_res]. rewrite Ek. cbn [bind]. rewrite E. cbn [bind]. split; [reflexivity|]. split; [cbn; auto|]. cbn [length nth].
  intros [|i] Hlt; auto. apply H. lia.
Qed.

Lemma time_shift_ok data model time_res : model <> [] ->
  exists s, time_shift data model time_res = Ok s
  /\ (s = 0%Qc \/ (Q2Qc (1#4) <= s * day)%Qc /\ (s * day <= time_res / Q2Qc 2)%Qc).
Proof.
  intros T. unfold time_shift.
  assert (R : exists offs, map_res (fun t => k <- argmin (map (fun m => tabs (m - t)%Qc) model) ;;
                            Ok (tabs (nth k model 0 - t)%Qc * day)%Qc) data = Ok offs).
  { clear - T. induction data as [|t data (offs & IH)]; [eexists; reflexivity|]. cbn [map_res].
    destruct (argmin_spec (map (fun m => tabs (m - t)%Qc) model)) as (k & E & _); [now destruct model|].
    rewrite E. cbn [bind]. rewrite IH. cbn [bind]. eauto. }
  destruct R as (offs & ->). cbn [bind]. destruct offs as [|o offs]; [eauto|].
  set (r := round2 _). clearbody r. eexists. split; [reflexivity|].
  destruct (_ && _)%bool eqn:E; auto. right. apply andb_true_iff in E as [E1 E2]. apply Qcleb_true in E1, E2.
  assert (X : (r / day * day)%Qc = r) by (unfold Qcdiv; rewrite <- Qcmult_assoc, (Qcmult_comm (/ day)), Qcmult_inv_r; [ring|discriminate]).
  now rewrite X.
Qed.

Lemma rint_near x : (-(1#2) <= inject_Z (rint x) - x /\ inject_Z (rint x) - x <= 1#2)%Q.
Proof.
  unfold rint. pose proof (Qfloor_le x) as L. pose proof (Qlt_floor x) as U. set (n := Qfloor x) in *. clearbody n. rewrite inject_Z_plus in U.
  change (inject_Z 1) with 1%Q in *.
  destruct (Qcompare (x - inject_Z n) (1#2)) eqn:E.
  - apply Qeq_alt in E. destruct (Z.even n); [|rewrite inject_Z_plus]; change (inject_Z 1) with 1%Q in *; split; lra.
  - apply Qlt_alt in E. split; lra.
  - apply Qgt_alt in E. rewrite inject_Z_plus. change (inject_Z 1) with 1%Q in *. split; lra.
Qed.
Lemma round2_near x : (dist (round2 x) x <= Q2Qc (1#200))%Qc.
Proof.
  pose proof (rint_near (x * 100)%Q) as H. unfold round2. set (k := rint _) in *. clearbody k.
  destruct H as [H1 H2].
  unfold dist. destruct (Qclt_le_dec _ _); unfold Qcle, Qcminus, Qcplus, Qcopp; cbn [this Q2Qc]; rewrite !Qred_correct; unfold Qdiv;
    change (/ 100)%Q with (1#100)%Q; lra.
Qed.
Lemma time_shift_spec data model time_res s : model <> [] -> data <> [] -> time_shift data model time_res = Ok s ->
  model_shift data model time_res s.
Proof.
  intros T D. unfold time_shift.
  destruct (map_res _ data) as [offs|] eqn:R; [|discriminate]. cbn [bind].
  assert (F : Forall2 (fun t o => exists m, nearest model t m /\ o = (ModelFlagSpec.dist m t * Q2Qc 86400)%Qc) data offs).
  { clear D. revert offs R. induction data as [|t data IH]; intros offs R; cbn [map_res] in R; [injection R as <-; constructor|].
    destruct (argmin_spec (map (fun m => tabs (m - t)%Qc) model)) as (k & E & Lk & H); [now destruct model|].
    rewrite E in R. cbn [bind] in R. destruct (map_res _ data) as [r|]; [|discriminate R]. cbn [bind] in R. injection R as <-.
    constructor; [|auto]. rewrite map_length in Lk. exists (nth k model 0%Qc). split; [|now rewrite tabs_dist]. split; [now apply nth_In|].
    intros m Hm. specialize (H (tabs (0 - t)%Qc) (tabs (m - t)%Qc)). rewrite (nth_map_lt _ model k 0%Qc) in H by auto. rewrite !tabs_dist in H.
    apply H. apply in_map_iff. exists m. split; [now rewrite tabs_dist|auto]. }
  assert (L : length data = length offs) by (clear - F; induction F; cbn; congruence). destruct offs as [|o offs]; [now destruct data|]. set (mean := (qsum (o :: offs) / _)%Qc).
  intros [= <-]. exists (o :: offs), mean, (round2 mean), (rint (mean * 100)%Q). split; [exact F|]. split.
  { unfold mean. rewrite <- L. unfold qsum. rewrite L. unfold Qcdiv. rewrite <- Qcmult_assoc, (Qcmult_comm (/ _)), Qcmult_inv_r; [apply Qcmult_1_r|].
    rewrite <- L. intros X. apply (f_equal this) in X. cbn [this Q2Qc] in X. assert (Y : (inject_Z (Z.of_nat (length data)) == 0)%Q) by (rewrite <- (Qred_correct (inject_Z _)), X; reflexivity).
    destruct data; [congruence|]. unfold Qeq in Y. cbn in Y. lia. }
  split. { unfold round2. apply Qc_is_canon. cbn [this Q2Qc]. rewrite !Qred_correct. generalize (rint (mean * 100)%Q) as k. intros k. unfold Qdiv, Qeq, inject_Z, Qinv, Qmult. cbn [Qnum Qden]. lia. }
  split; [apply round2_near|].
  destruct (Qcleb (Q2Qc (1#4)) (round2 mean) && Qcleb (round2 mean) (time_res / Q2Qc 2)%Qc)%bool eqn:E.
  - left. apply andb_true_iff in E as [E1 E2]. apply Qcleb_true in E1, E2. split; auto. split; auto.
    change (Q2Qc 86400) with day. unfold Qcdiv. rewrite <- Qcmult_assoc, (Qcmult_comm (/ day)), Qcmult_inv_r; [ring|discriminate].
  - right. split; auto. intros [E1 E2]. apply Qcleb_true in E1, E2. rewrite E1, E2 in E. discriminate.
Qed.

(** ** Flagged tiles *)
Lemma zmem_In z l : zmem z l = true <-> In z l.
Proof. unfold zmem. rewrite existsb_exists. split; [intros (x & Hx & E); apply Z.eqb_eq in E; congruence|].
  intros H. exists z. split; auto. apply Z.eqb_refl. Qed.
Lemma fold_max l : forall x, (x <= fold_left Z.max l x)%Z /\ (forall y, In y l -> (y <= fold_left Z.max l x)%Z)
  /\ (fold_left Z.max l x = x \/ In (fold_left Z.max l x) l).
Proof.
  induction l as [|a l IH]; intros x; cbn [fold_left]; [split; [lia|split; [intros y []|now left]]|].
  destruct (IH (Z.max x a)) as (H1 & H2 & H3). split; [lia|]. split.
  - intros y [<-|Hy]; [lia|auto].
  - destruct H3 as [H3|H3]; [|right; now right]. rewrite H3. destruct (Z.max_spec x a) as [[? ->]|[? ->]]; [right; now left|now left].
Qed.
Lemma zmax_spec l : l <> [] -> exists m, zmax l = Ok m /\ In m l /\ forall y, In y l -> (y <= m)%Z.
Proof.
  destruct l as [|a l]; [congruence|]. intros _. eexists. split; [reflexivity|]. destruct (fold_max l a) as (H1 & H2 & H3).
  split; [destruct H3 as [->|]; [now left|now right]|]. intros y [<-|Hy]; auto.
Qed.

Lemma flag_indexes_spec names tile_names by_name kept :
  unflagged tile_names kept -> naming by_name tile_names kept ->
  (forall x, In x names <-> In x (map (number by_name tile_names) kept)) ->
  exists fl, flag_indexes names tile_names = Ok fl
  /\ forall k, In k (all_tiles tile_names) -> zmem k fl = negb (zmem k kept).
Proof.
  intros (Sk & Lk & Rk) Nm Hn.
  assert (Nn : names <> []).
  { destruct kept as [|k kept]; [cbn in Lk; lia|]. intros ->. apply (Hn (number by_name tile_names k)). now left. }
  destruct (zmax_spec names Nn) as (mx & E & Hmx & Hm). unfold flag_indexes. rewrite E. cbn [bind].
  assert (B : forall b c, (b = true <-> c = true) -> b = c) by (intros [] []; intuition congruence).
  destruct by_name.
  - destruct (Nm eq_refl) as (Nd & k0 & Hk0 & Big).
    assert (Lt : (Z.of_nat (length tile_names) < mx)%Z).
    { eapply Z.lt_le_trans; [exact Big|]. apply Hm, Hn, in_map_iff. eauto. }
    rewrite (proj2 (Z.ltb_lt _ _) Lt). eexists. split; [reflexivity|]. intros k Hk.
    unfold all_tiles in Hk. apply in_map_iff in Hk as (j & <- & Hj). apply in_seq in Hj.
    apply B. rewrite negb_true_iff, <- not_true_iff_false, !zmem_In, in_map_iff. split.
    + intros (i & Ei & Hi'). apply filter_In in Hi' as [_ Hi']. assert (i = j - 1) by lia. subst i.
      apply negb_true_iff in Hi'. rewrite <- not_true_iff_false, zmem_In in Hi'. intros X. apply Hi', Hn, in_map_iff.
      exists (Z.of_nat j). split; auto. unfold number. f_equal. lia.
    + intros X. exists (j - 1). split; [lia|]. apply filter_In. split; [apply in_seq; lia|].
      apply negb_true_iff. rewrite <- not_true_iff_false, zmem_In. intros Y. apply X. apply Hn, in_map_iff in Y as (k & Ek & Hk).
      pose proof (Rk k Hk). unfold number in Ek.
      apply (proj1 (NoDup_nth tile_names 0%Z) Nd) in Ek; try lia. replace (Z.of_nat j) with k by lia. auto.
  - replace ((Z.of_nat (length tile_names) <? mx)%Z) with false.
    2:{ symmetry. apply Z.ltb_ge. apply Hn, in_map_iff in Hmx as (k & <- & Hk). apply Rk in Hk. unfold number. lia. }
    eexists. split; [reflexivity|]. intros k Hk. apply B.
    rewrite negb_true_iff, <- not_true_iff_false, !zmem_In, filter_In, negb_true_iff, <- not_true_iff_false, zmem_In, Hn.
    unfold number. rewrite map_id. fold (all_tiles tile_names). tauto.
Qed.

Lemma all_tiles_sorted tn : StronglySorted Z.lt (all_tiles tn).
Proof.
  unfold all_tiles. generalize 1 at 1. induction (length tn) as [|n IH]; intros s; [constructor|]. cbn [seq map].
  constructor; auto. apply Forall_forall. intros x Hx. apply in_map_iff in Hx as (k & <- & Hk). apply in_seq in Hk. lia.
Qed.
Lemma sorted_Z_NoDup l : StronglySorted Z.lt l -> NoDup l.
Proof. induction 1 as [|a l Hs IH Ha]; constructor; auto. intros X. rewrite Forall_forall in Ha. apply Ha in X. lia. Qed.
Lemma sorted_Z_filter p l : StronglySorted Z.lt l -> StronglySorted Z.lt (filter p l).
Proof.
  induction 1 as [|a l Hs IH Ha]; [constructor|]. cbn [filter]. destruct (p a); auto. constructor; auto.
  apply Forall_forall. intros x Hx. apply filter_In in Hx. rewrite Forall_forall in Ha. now apply Ha.
Qed.
Lemma sorted_Z_ext (l1 l2 : list Z) : StronglySorted Z.lt l1 -> StronglySorted Z.lt l2 ->
  (forall x, In x l1 <-> In x l2) -> l1 = l2.
Proof.
  intros S1. revert l2. induction S1 as [|a l1 S1 IH H1]; intros l2 S2 E.
  - destruct l2 as [|b l2]; auto. destruct (proj2 (E b)). now left.
  - destruct l2 as [|b l2]; [destruct (proj1 (E a)); now left|].
    inversion S2 as [|? ? S2' H2]; subst. rewrite Forall_forall in H1, H2.
    assert (a = b).
    { destruct (proj1 (E a) (or_introl eq_refl)) as [|Ha]; auto. destruct (proj2 (E b) (or_introl eq_refl)) as [|Hb]; auto.
      exfalso. apply H1 in Hb. apply H2 in Ha. lia. }
    subst b. f_equal. apply IH; auto. intros x. split; intros Hx.
    + destruct (proj1 (E x) (or_intror Hx)) as [->|]; auto. exfalso. apply H1 in Hx. lia.
    + destruct (proj2 (E x) (or_intror Hx)) as [->|]; auto. exfalso. apply H2 in Hx. lia.
Qed.
Lemma kept_filter tn kept : unflagged tn kept -> filter (fun k => zmem k kept) (all_tiles tn) = kept.
Proof.
  intros (Sk & _ & Rk). apply sorted_Z_ext; auto; [apply sorted_Z_filter, all_tiles_sorted|].
  intros x. rewrite filter_In, zmem_In. split; [tauto|]. intros H. split; auto. apply Rk in H.
  unfold all_tiles. apply in_map_iff. exists (Z.to_nat x). split; [lia|]. apply in_seq. lia.
Qed.
Lemma all_tiles_length tn : length (all_tiles tn) = length tn.
Proof. unfold all_tiles. now rewrite map_length, seq_length. Qed.
Lemma number_inj by_name tn kept : unflagged tn kept -> naming by_name tn kept ->
  NoDup (map (number by_name tn) kept).
Proof.
  intros (Sk & _ & Rk) Nm. assert (Nk := sorted_Z_NoDup _ Sk).
  assert (I : forall a b, In a kept -> In b kept -> number by_name tn a = number by_name tn b -> a = b).
  { intros a b Ha Hb. apply Rk in Ha, Hb. destruct by_name; auto. destruct (Nm eq_refl) as (Nd & _). unfold number. intros E.
    apply (proj1 (NoDup_nth tn 0%Z) Nd) in E; lia. }
  clear - Nk I. induction Nk as [|a l Ha Nl IH]; [constructor|]. cbn [map]. constructor.
  - intros X. apply in_map_iff in X as (b & E & Hb). apply Ha. rewrite (I a b); auto; now (left + right).
  - apply IH. intros x y Hx Hy. apply I; now right.
Qed.

(** ** Copying columns *)
Lemma put_cols_spec {V} (out src : arr3 V) dst idx : length idx = length dst ->
  (forall k, In k idx -> k < d_bl src) -> (forall k, In k dst -> k < d_bl out) ->
  d_pol src = d_pol out -> d_freq src = d_freq out -> NoDup dst ->
  exists o, put_cols out dst src idx = Ok o /\ d_pol o = d_pol out /\ d_freq o = d_freq out /\ d_bl o = d_bl out
  /\ (forall p f j, j < length dst -> at3 o p f (nth j dst 0) = at3 src p f (nth j idx 0))
  /\ (forall p f b, ~ In b dst -> at3 o p f b = at3 out p f b).
Proof.
  intros L Hi Hd Ep Ef Nd. unfold put_cols.
  rewrite (proj2 (forallb_forall _ _)) by (intros k Hk; apply Nat.ltb_lt; auto).
  rewrite (proj2 (forallb_forall (fun k => k <? d_bl out) dst)) by (intros k Hk; apply Nat.ltb_lt; auto).
  rewrite L, Ep, Ef, !Nat.eqb_refl. cbn [negb orb andb]. eexists. split; [reflexivity|]. cbn [d_pol d_freq d_bl at3].
  do 3 (split; [reflexivity|]). split.
  - intros p f j Hj. destruct (find _ _) as [j'|] eqn:E.
    + apply find_some in E as [E1 E2]. apply in_rev, in_seq in E1. apply Nat.eqb_eq in E2.
      apply (proj1 (NoDup_nth dst 0) Nd) in E2; try lia. now subst.
    + exfalso. pose proof (List.find_none _ _ E j) as X. cbn beta in X. rewrite Nat.eqb_refl in X.
      discriminate X. apply -> in_rev. apply in_seq. lia.
  - intros p f b Hb. destruct (find _ _) as [j'|] eqn:E; auto. exfalso.
    apply find_some in E as [E1 E2]. apply in_rev, in_seq in E1. apply Nat.eqb_eq in E2. apply Hb. rewrite <- E2. apply nth_In. lia.
Qed.

(** The loop over the time steps. *)
Lemma time_loop {V} (vis : arr3 V) per_d per_m cross_d cross_m n_d :
  length cross_m = length cross_d -> NoDup cross_d ->
  (forall k, In k cross_d -> k < per_d) -> (forall k, In k cross_m -> k < per_m) ->
  forall n s use (out : arr3 V), length use = n -> d_pol vis = d_pol out -> d_freq vis = d_freq out ->
  d_bl out = n_d * per_d -> s + n <= n_d ->
  (forall t, In t use -> t * per_m + per_m <= d_bl vis) ->
  exists o, fold_res (fun o ij => let '(t_data, t_model) := ij in
      o <- put_cols o (map (fun k => t_data * per_d + k) cross_d) vis (map (fun k => t_model * per_m + k) cross_m) ;; Ok o)
      (combine (seq s n) use) out = Ok o
  /\ d_pol o = d_pol out /\ d_freq o = d_freq out /\ d_bl o = d_bl out
  /\ (forall p f t j, t < n -> j < length cross_d ->
        at3 o p f ((s + t) * per_d + nth j cross_d 0) = at3 vis p f (nth t use 0 * per_m + nth j cross_m 0))
  /\ (forall p f b, (forall t k, t < n -> In k cross_d -> b <> (s + t) * per_d + k) -> at3 o p f b = at3 out p f b).
Proof.
  intros L Nd Bd Bm. induction n as [|n IH]; intros s use out Lu Ep Ef Eb Hs Hu.
  - destruct use; [|discriminate]. exists out. cbn. repeat split; auto. intros; lia.
  - destruct use as [|t0 use]; [discriminate|]. cbn [seq combine fold_res].
    destruct (put_cols_spec out vis (map (fun k => s * per_d + k) cross_d) (map (fun k => t0 * per_m + k) cross_m))
      as (o1 & E1 & P1 & F1 & B1 & V1 & N1); auto.
    + now rewrite !map_length.
    + intros k Hk. apply in_map_iff in Hk as (j & <- & Hj). apply Bm in Hj. specialize (Hu t0 (or_introl eq_refl)). lia.
    + intros k Hk. apply in_map_iff in Hk as (j & <- & Hj). apply Bd in Hj. nia.
    + clear - Nd. induction Nd as [|a l Ha Nl IH]; [constructor|]. cbn [map]. constructor; auto.
      intros X. apply in_map_iff in X as (b & E & Hb). assert (a = b) by lia. now subst.
    + rewrite E1. cbn [bind].
      destruct (IH (S s) use o1) as (o & E & P & F & B & VV & NN); try congruence; try lia.
      * cbn in Lu. lia.
      * intros t Ht. apply Hu. now right.
      * exists o. split; [exact E|]. repeat split; try congruence.
        -- intros p f [|t] j Ht Hj.
           ++ rewrite NN.
              ** specialize (V1 p f j). rewrite map_length in V1. specialize (V1 Hj).
                 rewrite (nth_map_lt _ cross_d j 0) in V1 by auto. rewrite (nth_map_lt _ cross_m j 0) in V1 by lia.
                 cbn [nth]. rewrite Nat.add_0_r. exact V1.
              ** intros t' k Ht' Hk X. assert (nth j cross_d 0 < per_d) by (apply Bd, nth_In; auto). nia.
           ++ rewrite <- Nat.add_succ_comm. apply VV; auto. lia.
        -- intros p f b Hb. rewrite NN; [apply N1|].
           ++ intros X. apply in_map_iff in X as (k & <- & Hk). apply (Hb 0 k); auto; lia.
           ++ intros t k Ht Hk. rewrite Nat.add_succ_comm. apply Hb; auto. lia.
Qed.

(** ** The whole function on laid-out files, model without auto-correlations *)
Lemma filter_combine {A} (g : A -> bool) (l : list A) : map fst (filter snd (combine l (map g l))) = filter g l.
Proof. induction l as [|a l IH]; auto. cbn [map combine filter snd]. destruct (g a); cbn [map fst]; now rewrite IH. Qed.
Lemma fold_res_ext {A S} (f g : S -> A -> result S) l s : (forall s a, f s a = g s a) -> fold_res f l s = fold_res g l s.
Proof. intros H. revert s. induction l as [|a l IH]; intros s; auto. cbn [fold_res]. rewrite H. destruct (g s a); auto. cbn [bind]. auto. Qed.

Definition distinct_use (use : list nat) : bool := length use =? length (np_unique (map Z.of_nat use)).
Lemma distinct_NoDup use : NoDup use -> distinct_use use = true.
Proof.
  intros N. unfold distinct_use. apply Nat.eqb_eq. rewrite <- (map_length Z.of_nat use). apply same_length_set.
  - clear - N. induction N as [|a l Ha Nl IH]; [constructor|]. cbn [map]. constructor; auto.
    intros X. apply in_map_iff in X as (b & E & Hb). apply Nat2Z.inj in E. now subst.
  - apply np_unique_NoDup.
  - intros x. now rewrite np_unique_In.
Qed.

Lemma matched_index autos by_name tn kept :
  unflagged tn kept -> naming by_name tn kept ->
  let bd := baselines autos (map (number by_name tn) kept) in
  let bm := baselines false (all_tiles tn) in
  let cross_d := where_ (fun ab => negb (fst ab =? snd ab)%Z) bd in
  let cross_m := where_ (fun ab => zmem (fst ab) kept && zmem (snd ab) kept) bm in
  length cross_m = length cross_d
  /\ forall j, j < length cross_d ->
     nth (nth j cross_d 0) bd (0, 0)%Z
     = (number by_name tn (fst (nth (nth j cross_m 0) bm (0, 0)%Z)), number by_name tn (snd (nth (nth j cross_m 0) bm (0, 0)%Z))).
Proof.
  intros Hu Hn bd bm cross_d cross_m.
  pose proof (where_nth (fun ab => negb (fst ab =? snd ab)%Z) bd (0, 0)%Z) as Ed. fold cross_d in Ed.
  pose proof (where_nth (fun ab => zmem (fst ab) kept && zmem (snd ab) kept) bm (0, 0)%Z) as Em. fold cross_m in Em.
  unfold bd in Ed at 2. rewrite baselines_cross in Ed by now apply number_inj. rewrite baselines_map in Ed.
  unfold bm in Em at 2. rewrite (baselines_filter false (fun k => zmem k kept)), kept_filter in Em by auto. rewrite <- Em in Ed.
  assert (L : length cross_m = length cross_d).
  { apply (f_equal (@length _)) in Ed. rewrite !map_length in Ed. congruence. }
  split; auto. intros j Hj. rewrite map_map in Ed.
  apply (f_equal (fun l => nth j l (0, 0)%Z)) in Ed.
  rewrite (nth_map_lt _ cross_d j 0) in Ed by auto. rewrite (nth_map_lt _ cross_m j 0) in Ed by lia. exact Ed.
Qed.

Lemma flag_model_run {V} (zero : V) time_res tn (vis : arr3 V) autos_d by_name kept times_d times_m data model :
  unflagged tn kept -> naming by_name tn kept ->
  layout autos_d (map (number by_name tn) kept) times_d data -> layout false (all_tiles tn) times_m model ->
  times_d <> [] -> times_m <> [] -> d_bl vis = length (pm_a1 model) ->
  exists shift use,
    time_shift times_d times_m time_res = Ok shift /\ match_times times_d times_m shift = Ok use
    /\ length use = length times_d
    /\ (forall i, i < length times_d -> is_nearest times_m shift (nth i times_d 0%Qc) (nth i use 0))
    /\ if distinct_use use then
         exists out, flag_model_visibilities zero (d_pol vis) (d_freq vis) time_res tn vis data model = Ok out
         /\ d_pol out = d_pol vis /\ d_freq out = d_freq vis /\ d_bl out = length (pm_a1 data)
         /\ forall p f k, k < length (pm_a1 data) ->
              (a1_at data k = a2_at data k -> at3 out p f k = zero)
              /\ (a1_at data k <> a2_at data k ->
                  exists j, matched by_name tn times_m shift data model k j /\ at3 out p f k = at3 vis p f j)
       else flag_model_visibilities zero (d_pol vis) (d_freq vis) time_res tn vis data model = Err SystemExit.
Proof.
  intros Hu Hn Hd Hm Td Tm Bv.
  pose proof (number_inj _ _ _ Hu Hn) as Nd. pose proof (sorted_Z_NoDup _ (all_tiles_sorted tn)) as Nm.
  pose proof Hu as (Sk & Lk & Rk).
  assert (Ld : 2 <= length (map (number by_name tn) kept)) by now rewrite map_length.
  assert (Kl : length kept <= length tn).
  { rewrite <- (all_tiles_length tn). apply NoDup_incl_length; [now apply sorted_Z_NoDup|]. intros k Hk.
    rewrite <- (kept_filter tn kept Hu) in Hk. now apply filter_In in Hk. }
  assert (Lm : 2 <= length (all_tiles tn)) by (rewrite all_tiles_length; lia).
  destruct (counter_layout _ _ _ _ Hd Nd Ld Td) as (d & Cd & D1 & D2 & D3 & D4 & D5 & D6 & D7 & D8 & D9 & D10).
  destruct (counter_layout _ _ _ _ Hm Nm Lm Tm) as (m & Cm & M1 & M2 & M3 & M4 & M5 & M6 & M7 & M8 & M9 & M10).
  destruct (time_shift_ok times_d times_m time_res Tm) as (shift & Es & _).
  destruct (match_times_spec times_m shift Tm times_d) as (use & Eu & Lu & Hnear).
  exists shift, use. split; auto. split; auto. split; auto. split; auto.
  unfold flag_model_visibilities. rewrite Cd, Cm. cbn [bind]. rewrite D1, M1, Es. cbn [bind]. rewrite Eu. cbn [bind].
  rewrite <- Lu. fold (distinct_use use). destruct (distinct_use use); [|reflexivity]. cbn [negb].
  rewrite D4, M4, map_length, all_tiles_length. rewrite (proj2 (Nat.ltb_ge _ _) Kl).
  destruct (flag_indexes_spec (i_names d) tn by_name kept Hu Hn D3) as (fl & -> & Hfl). cbn [bind].
  rewrite M5. cbn [Nat.eqb negb andb].
  rewrite M9, M10, combine_map_fst_snd.
  set (bd := baselines autos_d (map (number by_name tn) kept)) in *. set (bm := baselines false (all_tiles tn)) in *.
  assert (Ec : where_ (fun b : bool => b) (map (fun ab => negb (zmem (fst ab) fl) && negb (zmem (snd ab) fl)) bm)
               = where_ (fun ab => zmem (fst ab) kept && zmem (snd ab) kept) bm).
  { rewrite where_map. unfold where_. f_equal. apply filter_ext_in. intros (i, (a, b)) Hi. cbn [fst snd].
    apply in_combine_r in Hi. apply baselines_In in Hi as [Ha Hb]. rewrite (Hfl a Ha), (Hfl b Hb), !negb_involutive. reflexivity. }
  rewrite Ec, D2, D6, M6, D7.
  destruct (matched_index autos_d by_name tn kept Hu Hn) as [Lc Hc]. fold bd bm in Lc, Hc.
  set (cross_d := where_ (fun ab => negb (fst ab =? snd ab)%Z) bd) in *.
  set (cross_m := where_ (fun ab => zmem (fst ab) kept && zmem (snd ab) kept) bm) in *.
  destruct Hd as (Sd & Etd & Ea1d & Ea2d). destruct Hm as (Sm & Etm & Ea1m & Ea2m). fold bd in Etd, Ea1d, Ea2d. fold bm in Etm, Ea1m, Ea2m.
  assert (L1d : length (pm_a1 data) = length times_d * length bd) by (rewrite Ea1d, flat_const_length, map_length; auto).
  assert (L1m : length (pm_a1 model) = length times_m * length bm) by (rewrite Ea1m, flat_const_length, map_length; auto).
  destruct (time_loop vis (length bd) (length bm) cross_d cross_m (length times_d) Lc (where_NoDup _ _)
              (fun k H => where_lt _ _ _ H) (fun k H => where_lt _ _ _ H) (length use) 0 use
              (Arr3 (d_pol vis) (d_freq vis) (length (pm_a1 data)) (fun _ _ _ => zero)) eq_refl eq_refl eq_refl L1d)
    as (out & Eo & Po & Fo & Bo & Vo & No); [lia| |].
  { intros t Ht. apply In_nth with (d := 0) in Ht as (i & Hi & <-). rewrite Bv, L1m.
    destruct (Hnear i) as [X _]; [lia|]. nia. }
  exists out. split; [exact Eo|]. cbn [d_pol d_freq d_bl] in *. split; auto. split; auto. split; auto.
  intros p f k Hk.
  set (t := k / length bd). set (r := k mod length bd).
  assert (Pos : length bd <> 0) by (intros Z0; rewrite L1d, Z0 in Hk; lia).
  assert (Ek : k = t * length bd + r) by (unfold t, r; rewrite Nat.mul_comm; apply Nat.div_mod; auto).
  assert (Hr : r < length bd) by (apply Nat.mod_upper_bound; auto).
  assert (Ht : t < length times_d) by (apply Nat.div_lt_upper_bound; auto; rewrite Nat.mul_comm, <- L1d; auto).
  clearbody t r.
  assert (A1 : a1_at data k = fst (nth r bd (0, 0)%Z)).
  { unfold a1_at. rewrite Ea1d, Ek. rewrite <- (map_length fst bd). rewrite flat_const_nth by (rewrite ?map_length; auto).
    apply (nth_map_lt fst); auto. }
  assert (A2 : a2_at data k = snd (nth r bd (0, 0)%Z)).
  { unfold a2_at. rewrite Ea2d, Ek. rewrite <- (map_length snd bd). rewrite flat_const_nth by (rewrite ?map_length; auto).
    apply (nth_map_lt snd); auto. }
  assert (T : t_at data k = nth t times_d 0%Qc).
  { unfold t_at. rewrite Etd, Ek. now apply flat_rep_nth. }
  rewrite A1, A2. split.
  - intros E. rewrite No; [reflexivity|]. cbn [Nat.add]. intros t' k' Ht' Hk' X.
    pose proof (where_lt _ _ _ Hk'). rewrite Ek in X. assert (t = t') by nia. subst t'. assert (r = k') by lia. subst k'.
    unfold cross_d in Hk'. apply (proj1 (In_where _ _ (0, 0)%Z _)) in Hk' as [_ Hk'].
    rewrite E, Z.eqb_refl in Hk'. discriminate.
  - intros N. assert (Hi : In r cross_d).
    { apply (proj2 (In_where _ _ (0, 0)%Z _)). split; auto. apply negb_true_iff, Z.eqb_neq. exact N. }
    apply In_nth with (d := 0) in Hi as (i & Hi & Er).
    destruct (Hnear t Ht) as (Ht2 & Nr). set (t2 := nth t use 0) in *.
    assert (Hj : nth i cross_m 0 < length bm) by (apply (where_lt (fun ab => zmem (fst ab) kept && zmem (snd ab) kept)), nth_In; fold cross_m; rewrite Lc; exact Hi).
    exists (t2 * length bm + nth i cross_m 0). split.
    + specialize (Hc i Hi). rewrite Er in Hc. split; [rewrite L1m; nia|].
      assert (B1 : a1_at model (t2 * length bm + nth i cross_m 0) = fst (nth (nth i cross_m 0) bm (0, 0)%Z)).
      { unfold a1_at. rewrite Ea1m. rewrite <- (map_length fst bm). rewrite flat_const_nth by (rewrite ?map_length; auto).
        apply (nth_map_lt fst); auto. }
      assert (B2 : a2_at model (t2 * length bm + nth i cross_m 0) = snd (nth (nth i cross_m 0) bm (0, 0)%Z)).
      { unfold a2_at. rewrite Ea2m. rewrite <- (map_length snd bm). rewrite flat_const_nth by (rewrite ?map_length; auto).
        apply (nth_map_lt snd); auto. }
      rewrite A1, A2, B1, B2, Hc. split; auto. split; auto.
      rewrite T. unfold t_at. rewrite Etm, flat_rep_nth by auto. exact Nr.
    + rewrite Ek. rewrite <- Er. apply (Vo p f t i); lia.
Qed.
