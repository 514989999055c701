From Coq Require Import ZifyBool ZifyNat Sorting.Sorted.
From Verif Require Import Base SortLib NpArr PyIndex Cplx WeightInvert WeightInvertProofs
  VisWeights CalApply CalApplySpec CalApplyProofs.
Open Scope nat_scope.
Ltac Zify.zify_post_hook ::= idtac.

(** ** Strictly increasing lists are determined by their elements *)
Lemma sorted_lt_ext (l1 l2 : list nat) : StronglySorted lt l1 -> StronglySorted lt l2 ->
  (forall x, In x l1 <-> In x l2) -> l1 = l2.
Proof.
  revert l2. induction l1 as [|a l1 IH]; intros [|b l2] S1 S2 H; auto.
  - exfalso. apply (proj2 (H b)). now left.
  - exfalso. apply (proj1 (H a)). now left.
  - inversion S1 as [|? ? S1' F1]; inversion S2 as [|? ? S2' F2]; subst.
    rewrite Forall_forall in F1, F2.
    assert (a = b).
    { destruct (proj1 (H a) (or_introl eq_refl)) as [|Ha]; auto.
      destruct (proj2 (H b) (or_introl eq_refl)) as [|Hb]; auto.
      specialize (F1 b Hb). specialize (F2 a Ha). lia. }
    subst b. f_equal. apply IH; auto. intros x. split; intros Hx.
    + destruct (proj1 (H x) (or_intror Hx)) as [<-|]; auto. specialize (F1 a Hx). lia.
    + destruct (proj2 (H x) (or_intror Hx)) as [<-|]; auto. specialize (F2 a Hx). lia.
Qed.

Lemma seq_sorted n s : StronglySorted lt (seq s n).
Proof.
  revert s; induction n as [|n IH]; intros s; cbn [seq]; constructor; auto.
  apply Forall_forall. intros x Hx. apply in_seq in Hx. lia.
Qed.
Lemma filter_sorted (p : nat -> bool) l : StronglySorted lt l -> StronglySorted lt (filter p l).
Proof.
  induction 1 as [|a l S1 IH F]; cbn [filter]; [constructor|].
  destruct (p a); auto. constructor; auto. rewrite Forall_forall in *. intros x Hx.
  apply filter_In in Hx. now apply F.
Qed.
Lemma map_sorted (g : nat -> nat) n : (forall i j, i < j < n -> g i < g j) ->
  StronglySorted lt (map g (seq 0 n)).
Proof.
  intros H. assert (G : forall k s, s + k <= n -> StronglySorted lt (map g (seq s k))).
  { induction k as [|k IH]; intros s Hs; cbn [seq map]; constructor; [apply IH; lia|].
    apply Forall_forall. intros x Hx. apply in_map_iff in Hx as (j & <- & Hj). apply in_seq in Hj.
    apply H. lia. }
  apply G. lia.
Qed.

(** Selecting the positions at which a mapped list has a value, then the elements there. *)
Lemma nth_where_map (f : nat -> Z) (v : Z) (l : list nat) (d : Z) :
  map (fun k => nth k l 0) (where_ (fun t => (t =? v)%Z) (map f l)) = filter (fun b => (f b =? v)%Z) l.
Proof.
  rewrite (where_spec _ _ d), map_length.
  assert (G : forall pre, map (fun k => nth k (pre ++ l) 0)
             (filter (fun k => (nth k (map f (pre ++ l)) d =? v)%Z) (seq (length pre) (length l)))
             = filter (fun b => (f b =? v)%Z) l).
  { induction l as [|a l IH]; intros pre; cbn [length seq filter]; auto.
    specialize (IH (pre ++ [a])). rewrite <- app_assoc in IH. cbn [app] in IH.
    rewrite app_length in IH. cbn [length] in IH. rewrite Nat.add_1_r in IH.
    rewrite map_app. cbn [map]. rewrite app_nth2 by (rewrite map_length; lia).
    rewrite map_length, Nat.sub_diag. cbn [nth].
    rewrite map_app in IH. cbn [map] in IH.
    destruct (f a =? v)%Z; cbn [map]; rewrite IH; auto. f_equal.
    rewrite app_nth2 by lia. now rewrite Nat.sub_diag. }
  apply (G []).
Qed.

(** ** The autocorrelation ratio *)
Lemma find_last (tiles : list nat) t : forall n, n <= length tiles ->
  match find (fun k => nth k tiles 0 =? t) (rev (seq 0 n)) with
  | Some k => k < n /\ nth k tiles 0 = t /\ forall j, k < j < n -> nth j tiles 0 <> t
  | None => forall j, j < n -> nth j tiles 0 <> t
  end.
Proof.
  induction n as [|n IH]; intros Hn; [cbn; intros; lia|].
  rewrite seq_S, rev_app_distr. cbn [rev app find Nat.add].
  destruct (nth n tiles 0 =? t) eqn:E.
  - apply Nat.eqb_eq in E. repeat (split; auto). intros; lia.
  - apply Nat.eqb_neq in E. specialize (IH ltac:(lia)).
    destruct (find _ _) as [k|].
    + destruct IH as (H1 & H2 & H3). split; [lia|]. split; auto. intros j Hj.
      destruct (Nat.eq_dec j n) as [->|]; auto. apply H3. lia.
    + intros j Hj. destruct (Nat.eq_dec j n) as [->|]; auto. apply IH. lia.
Qed.

Definition tile_list (n : nat) (l : list Z) : Prop := forall v, In v l -> (0 <= v < Z.of_nat n)%Z.

Lemma norm_pos n v : (0 <= v < Z.of_nat n)%Z -> norm_index n v = Ok (Z.to_nat v).
Proof.
  intros H. unfold norm_index. replace ((0 <=? v)%Z && (v <? Z.of_nat n)%Z) with true; auto.
  symmetry. apply andb_true_intro. split; [apply Z.leb_le|apply Z.ltb_lt]; lia.
Qed.
Lemma tile_list_ok n l : tile_list n l -> map_res (norm_index n) l = Ok (map Z.to_nat l).
Proof. intros H. apply map_res_map. intros v Hv. now apply norm_pos, H. Qed.

Lemma find_last_pos n l t k : tile_list n l -> last_pos l t k ->
  find (fun k => nth k (map Z.to_nat l) 0 =? t) (rev (seq 0 (length l))) = Some k.
Proof.
  intros TL (H1 & H2 & H3).
  assert (N : forall j, j < length l -> nth j (map Z.to_nat l) 0 = Z.to_nat (nth j l 0%Z)).
  { intros j Hj. rewrite (nth_indep _ 0 (Z.to_nat 0%Z)) by now rewrite map_length.
    apply (map_nth Z.to_nat). }
  pose proof (find_last (map Z.to_nat l) t (length l)) as F. rewrite map_length in F.
  specialize (F (le_n _)). destruct (find _ _) as [j|].
  - destruct F as (F1 & F2 & F3). f_equal. destruct (Nat.lt_trichotomy j k) as [L|[|L]]; auto.
    + exfalso. apply (F3 k); [lia|]. rewrite N, H2 by lia. lia.
    + exfalso. apply (H3 j); [lia|]. rewrite N in F2 by lia.
      assert (In (nth j l 0%Z) l) by (apply nth_In; lia). apply TL in H. lia.
  - exfalso. apply (F k); auto. rewrite N, H2 by lia. lia.
Qed.

Lemma find_none n l t : tile_list n l -> ~ In (Z.of_nat t) l ->
  find (fun k => nth k (map Z.to_nat l) 0 =? t) (rev (seq 0 (length l))) = None.
Proof.
  intros TL H. pose proof (find_last (map Z.to_nat l) t (length l)) as F. rewrite map_length in F.
  specialize (F (le_n _)). destruct (find _ _) as [j|]; auto. exfalso.
  destruct F as (F1 & F2 & _). apply H.
  rewrite (nth_indep _ 0 (Z.to_nat 0%Z)) in F2 by now rewrite map_length.
  rewrite (map_nth Z.to_nat) in F2. assert (I : In (nth j l 0%Z) l) by now apply nth_In.
  pose proof (TL _ I). replace (Z.of_nat t) with (nth j l 0%Z) by lia. auto.
Qed.

Record ratio_input (n_pol n_freq n_tile : nat) (gain : arr3 C) (vis_auto : arr3 Qc) (tiles : list Z)
    (ref : nat) : Prop := {
  ri_pol : 0 < n_pol;
  ri_gain : d_pol gain = n_pol /\ d_freq gain = n_freq /\ d_bl gain = n_tile;
  ri_auto : d_pol vis_auto = n_pol /\ d_freq vis_auto = n_freq /\ d_bl vis_auto = length tiles;
  ri_tiles : tile_list n_tile tiles;
  ri_ref : ref < length tiles;
  ri_col : (nth ref tiles 0 < Z.of_nat (length tiles))%Z }.

Lemma divide_ok sqrt_ junk n_pol n_freq n_tile gain va tiles ref :
  ratio_input n_pol n_freq n_tile gain va tiles ref ->
  exists g r, cal_auto_ratio_divide sqrt_ junk n_pol n_freq n_tile gain va tiles (Z.of_nat ref) = Ok (g, r)
    /\ d_pol g = n_pol /\ d_freq g = n_freq /\ d_bl g = n_tile /\ d_bl r = n_tile
    /\ (forall p f t, p < n_pol -> at3 g p f t = Cscale (Qcinv (at3 r p f t)) (at3 gain p f t))
    /\ (forall p f t k, last_pos tiles t k ->
          at3 r p f t = sqrt_ (at3 va p f k * Qcinv (at3 va p f (Z.to_nat (nth ref tiles 0%Z))))%Qc)
    /\ (forall p f t, ~ In (Z.of_nat t) tiles -> at3 r p f t = junk p f t).
Proof.
  intros [P (G1 & G2 & G3) (A1 & A2 & A3) T R Rc]. unfold cal_auto_ratio_divide.
  replace (n_pol =? 0) with false by (symmetry; apply Nat.eqb_neq; lia).
  rewrite A1, Nat.ltb_irrefl. rewrite norm_index_nat by auto. cbn [bind].
  assert (I : In (nth ref tiles 0%Z) tiles) by now apply nth_In. pose proof (T _ I) as TI.
  rewrite A3. rewrite norm_pos by lia. cbn [bind].
  rewrite Nat.ltb_irrefl. rewrite (tile_list_ok _ _ T). cbn [bind]. rewrite A2, Nat.eqb_refl. cbn [negb].
  rewrite G1, G2, G3, Nat.ltb_irrefl, !Nat.eqb_refl. cbn [andb negb]. rewrite map_length.
  eexists _, _. split; [reflexivity|]. cbn [d_pol d_freq d_bl at3]. repeat (split; auto).
  - intros p f t Hp. apply Nat.ltb_lt in Hp. now rewrite Hp.
  - intros p f t k Hk. now rewrite (find_last_pos _ _ _ _ T Hk).
  - intros p f t Ht. now rewrite (find_none _ _ _ T Ht).
Qed.

Lemma remultiply_ok n_pol n_tile g r tiles : d_bl g = n_tile -> d_bl r = n_tile -> tile_list n_tile tiles ->
  exists g', cal_auto_ratio_remultiply n_pol g r tiles = Ok g'
    /\ d_pol g' = d_pol g /\ d_freq g' = d_freq g /\ d_bl g' = d_bl g
    /\ (forall p f t k, p < n_pol -> last_pos tiles t k -> at3 g' p f t = Cscale (Qcabs0 (at3 r p f t)) (at3 g p f t))
    /\ (forall p f t, ~ In (Z.of_nat t) tiles -> at3 g' p f t = at3 g p f t).
Proof.
  intros E1 E2 T. unfold cal_auto_ratio_remultiply. rewrite E1, E2, (tile_list_ok _ _ T). cbn [bind].
  rewrite map_length. eexists. split; [reflexivity|]. cbn [d_pol d_freq d_bl at3].
  repeat (split; auto).
  - intros p f t k Hp Hk. rewrite (find_last_pos _ _ _ _ T Hk). destruct Hk as (H1 & H2 & _).
    rewrite (nth_indep _ 0 (Z.to_nat 0%Z)) by now rewrite map_length.
    rewrite (map_nth Z.to_nat), H2, Nat2Z.id. apply Nat.ltb_lt in Hp. now rewrite Hp.
  - intros p f t Ht. now rewrite (find_none _ _ _ T Ht).
Qed.

Lemma scale_back x (g : C) : (0 < x)%Qc -> Cscale (Qcabs0 x) (Cscale (Qcinv x) g) = g.
Proof.
  intros H. unfold Qcabs0. destruct (Qclt_le_dec x 0) as [L|L].
  - exfalso. eapply Qclt_not_le; [exact H|]. now apply Qclt_le_weak.
  - assert (x <> 0%Qc) by (intros ->; eapply Qclt_not_eq; eauto).
    apply C_ext; cbn [Cscale re im]; field; auto.
Qed.

Lemma Qc_pos_div (a b : Qc) : (0 < a)%Qc -> (0 < b)%Qc -> (0 < a * Qcinv b)%Qc.
Proof.
  intros Ha Hb.
  assert (N : b <> 0%Qc) by (intros ->; eapply Qclt_not_eq; eauto).
  destruct (Qclt_le_dec 0 (a * / b)%Qc) as [|L]; auto. exfalso.
  apply (Qclt_not_le _ _ Ha). replace a with (a * / b * b)%Qc by (field; auto).
  replace 0%Qc with (0 * b)%Qc by ring. apply Qcmult_le_compat_r; auto. now apply Qclt_le_weak.
Qed.

(** ** np.unique *)
Lemma dedup_In l v : In v (dedup l) <-> In v l.
Proof.
  induction l as [|x t IH]; [tauto|]. cbn [dedup]. destruct t as [|y t]; [tauto|].
  destruct (Z.eqb_spec x y) as [->|N].
  - rewrite IH. cbn [In]. tauto.
  - change (In v (x :: dedup (y :: t)) <-> In v (x :: y :: t)). cbn [In] in *. rewrite IH. tauto.
Qed.
Lemma dedup_sorted l : StronglySorted Z.le l -> StronglySorted Z.lt (dedup l).
Proof.
  induction l as [|x t IH]; intros H; cbn [dedup]; [constructor|].
  inversion H as [|? ? H1 H2]; subst. destruct t as [|y t]; [repeat constructor|].
  destruct (Z.eqb_spec x y) as [->|N]; auto.
  constructor; auto. apply Forall_forall. intros z Hz. rewrite dedup_In in Hz.
  rewrite Forall_forall in H2. pose proof (H2 z Hz). pose proof (H2 y (or_introl eq_refl)).
  destruct Hz as [<-|Hz]; [lia|]. inversion H1 as [|? ? _ Hf3]; subst.
  rewrite Forall_forall in Hf3. specialize (Hf3 z Hz). lia.
Qed.
Lemma np_unique_In l v : In v (np_unique l) <-> In v l.
Proof. unfold np_unique. rewrite dedup_In. apply isort_In. Qed.
Lemma np_unique_sorted l : StronglySorted Z.lt (np_unique l).
Proof.
  apply dedup_sorted. unfold np_sort.
  assert (T : forall x y, Z.leb x y = true \/ Z.leb y x = true) by (intros; lia).
  pose proof (isort_sorted Z.leb) as S0.
  induction (S0 ltac:(intros; lia) ltac:(intros; lia) l) as [|a t H IH F]; constructor; auto.
  rewrite Forall_forall in *. intros z Hz. specialize (F z Hz). unfold le_ in F. now apply Z.leb_le.
Qed.

(** ** vis_extract_autocorr *)
Definition autos (tile_a tile_b : list Z) : list nat :=
  filter (fun b => (nth b tile_a 0 =? nth b tile_b 0)%Z) (seq 0 (length tile_a)).
Lemma autos_In ta tb b : In b (autos ta tb) <-> auto ta tb b.
Proof. unfold autos, auto. rewrite filter_In, in_seq, Z.eqb_eq. intuition lia. Qed.
Lemma autos_sorted ta tb : StronglySorted lt (autos ta tb).
Proof. apply filter_sorted, seq_sorted. Qed.

Lemma autos_in_vis ta tb n : length ta = n ->
  forallb (fun b => b <? n) (autos ta tb) = true.
Proof.
  intros H. apply forallb_forall. intros b Hb. apply autos_In in Hb as [Hb _]. apply Nat.ltb_lt. lia.
Qed.

(** [obs_at v s]: where the autocorrelation of tile [v] (numbered from 1) at time [s] is stored. *)
Definition auto_layout (ta tb : list Z) (n_time : nat) (obs_at : Z -> nat -> nat) : Prop :=
  forall v, (exists b, auto ta tb b /\ nth b ta 0%Z = v) ->
  (forall s s', s < s' < n_time -> obs_at v s < obs_at v s')
  /\ forall b, (auto ta tb b /\ nth b ta 0%Z = v) <-> exists s, s < n_time /\ b = obs_at v s.

Lemma layout_list ta tb n_time obs_at v : auto_layout ta tb n_time obs_at ->
  (exists b, auto ta tb b /\ nth b ta 0%Z = v) ->
  filter (fun b => (nth b ta 0 - 1 =? v - 1)%Z) (autos ta tb) = map (obs_at v) (seq 0 n_time).
Proof.
  intros L E. destruct (L v E) as [L1 L2]. apply sorted_lt_ext.
  - apply filter_sorted, autos_sorted.
  - apply map_sorted. intros; apply L1; lia.
  - intros b. rewrite filter_In, autos_In, in_map_iff, Z.eqb_eq.
    replace (auto ta tb b /\ (nth b ta 0 - 1)%Z = (v - 1)%Z) with (auto ta tb b /\ (nth b ta 0 - 1)%Z = (v - 1)%Z) by auto.
    specialize (L2 b). split.
    + intros [H1 H2]. destruct (proj1 L2) as (s & Hs & ->). { split; auto. lia. }
      exists s. split; auto. apply in_seq. lia.
    + intros (s & <- & Hs). apply in_seq in Hs. destruct (proj2 L2) as [H1 H2].
      { exists s. split; [lia|auto]. }
      split; auto. lia.
Qed.

Lemma py_list_ok {A} (l : list A) (d : A) i : i < length l -> py_list l i = Ok (nth i l d).
Proof. intros H. unfold py_list. now rewrite (nth_error_nth' l d H). Qed.

Definition used_times (time_use : list Z) : list nat :=
  filter (fun s => negb (nth s time_use 0 =? 0)%Z) (seq 0 (length time_use)).

Lemma extract_avg_ok n_pol n_freq ta tb time_use vis obs_at :
  length tb = length ta -> d_bl vis = length ta -> d_freq vis = n_freq -> n_pol <= d_pol vis ->
  auto_layout ta tb (length time_use) obs_at ->
  (exists b, auto ta tb b) -> 2 <= length (used_times time_use) ->
  exists out tiles, vis_extract_autocorr n_pol n_freq ta tb time_use true vis = Ok (out, tiles)
    /\ d_pol out = n_pol /\ d_freq out = n_freq /\ d_bl out = length tiles
    /\ StronglySorted Z.lt tiles
    /\ (forall v, In v tiles <-> exists b, auto ta tb b /\ nth b ta 0%Z = (v + 1)%Z)
    /\ forall p f k, k < length tiles ->
         at3 out p f k
         = (Qcsum (map (fun s => at3 vis p f (obs_at (nth k tiles 0 + 1)%Z s)) (used_times time_use))
            * Qcinv (Q2Qc (inject_Z (Z.of_nat (length (used_times time_use))))))%Qc.
Proof.
  intros Lb Dv Df Dp Lay Hex Hu. unfold vis_extract_autocorr.
  rewrite Lb, Nat.eqb_refl. cbn [negb]. fold (autos ta tb).
  assert (Hne : autos ta tb <> []).
  { destruct Hex as (b & Hb). apply autos_In in Hb. intros E. rewrite E in Hb. exact Hb. }
  destruct (autos ta tb) as [|a0 al] eqn:EA; [contradiction|]. rewrite <- EA. clear EA a0 al Hne.
  rewrite (autos_in_vis ta tb (d_bl vis)) by auto. cbn [negb orb].
  replace (d_pol vis <? n_pol) with false by (symmetry; apply Nat.ltb_ge; lia).
  set (F := fun b => (nth b ta 0 - 1)%Z). set (tiles := np_unique (map F (autos ta tb))).
  rewrite (where_spec _ time_use 0%Z). change (filter _ (seq 0 (length time_use))) with (used_times time_use).
  assert (T1 : forall v, In v tiles <-> exists b, auto ta tb b /\ nth b ta 0%Z = (v + 1)%Z).
  { intros v. unfold tiles. rewrite np_unique_In, in_map_iff. unfold F. split.
    - intros (b & <- & Hb). apply autos_In in Hb. exists b. split; auto. lia.
    - intros (b & Hb & E). exists b. split; [lia|]. now apply autos_In. }
  assert (W : forall v, In v tiles ->
     map (fun k => nth k (autos ta tb) 0) (where_ (fun t => (t =? v)%Z) (map F (autos ta tb)))
     = map (obs_at (v + 1)%Z) (seq 0 (length time_use))).
  { intros v Hv. rewrite (nth_where_map F v _ 0%Z). unfold F.
    rewrite <- (layout_list ta tb _ obs_at (v + 1)%Z Lay) by now apply T1.
    apply filter_ext. intros b. f_equal. lia. }
  assert (WL : forall v, In v tiles ->
     length (where_ (fun t => (t =? v)%Z) (map F (autos ta tb))) = length time_use).
  { intros v Hv. apply W in Hv. apply (f_equal (@length nat)) in Hv.
    now rewrite !map_length, seq_length in Hv. }
  rewrite (map_res_map _ (fun v => map (fun s => nth s (where_ (fun t => (t =? v)%Z) (map F (autos ta tb))) 0)
                                       (used_times time_use))).
  2:{ intros v Hv. apply map_res_map. intros s Hs. apply py_list_ok. rewrite (WL v Hv).
      apply filter_In in Hs as [Hs _]. apply in_seq in Hs. lia. }
  cbn [bind]. rewrite Df, Nat.ltb_irrefl.
  replace (length (used_times time_use) <? 2) with false by (symmetry; apply Nat.ltb_ge; lia). cbn [andb].
  eexists _, _. split; [reflexivity|]. cbn [d_pol d_freq d_bl at3]. repeat (split; auto).
  { apply np_unique_sorted. }
  intros p f k Hk. set (G := fun v => map (fun s => nth s (where_ (fun t => (t =? v)%Z) (map F (autos ta tb))) 0) (used_times time_use)).
  rewrite (nth_indep _ [] (G 0%Z)) by now rewrite map_length. rewrite (map_nth G). unfold G. rewrite map_map.
  f_equal. f_equal. apply map_ext_in. intros s Hs. f_equal.
  set (v := nth k tiles 0%Z). assert (Hv : In v tiles) by now apply nth_In.
  pose proof (W v Hv) as E. apply (f_equal (fun l => nth s l 0)) in E.
  apply filter_In in Hs as [Hs _]. apply in_seq in Hs.
  set (H1 := fun k0 => nth k0 (autos ta tb) 0) in E.
  rewrite (nth_indep _ 0 (H1 0)) in E by (rewrite map_length, (WL v Hv); lia).
  rewrite (map_nth H1) in E. unfold H1 in E at 1. rewrite E.
  rewrite (nth_indep _ 0 (obs_at (v + 1)%Z 0)) by (rewrite map_length, seq_length; lia).
  rewrite map_nth, seq_nth by lia. reflexivity.
Qed.

Lemma extract_all_ok n_pol n_freq ta tb time_use vis :
  length tb = length ta -> d_bl vis = length ta -> n_pol <= d_pol vis -> (exists b, auto ta tb b) ->
  exists out, vis_extract_autocorr n_pol n_freq ta tb time_use false vis
              = Ok (out, map (fun b => (nth b ta 0 - 1)%Z) (autos ta tb))
    /\ d_pol out = n_pol /\ d_freq out = d_freq vis /\ d_bl out = length (autos ta tb)
    /\ forall p f k, at3 out p f k = at3 vis p f (nth k (autos ta tb) 0).
Proof.
  intros Lb Dv Dp Hex. unfold vis_extract_autocorr. rewrite Lb, Nat.eqb_refl. cbn [negb]. fold (autos ta tb).
  assert (Hne : autos ta tb <> []).
  { destruct Hex as (b & Hb). apply autos_In in Hb. intros E. rewrite E in Hb. exact Hb. }
  destruct (autos ta tb) as [|a0 al] eqn:EA; [contradiction|]. rewrite <- EA. clear EA a0 al Hne.
  rewrite (autos_in_vis ta tb (d_bl vis)) by auto. cbn [negb orb].
  replace (d_pol vis <? n_pol) with false by (symmetry; apply Nat.ltb_ge; lia).
  eexists. split; [reflexivity|]. cbn [d_pol d_freq d_bl at3]. auto.
Qed.

Lemma extract_one_err n_pol n_freq ta tb time_use vis :
  (exists b, auto ta tb b) -> length (used_times time_use) <= 1 -> 0 < n_pol -> 2 <= n_freq ->
  exists e, vis_extract_autocorr n_pol n_freq ta tb time_use true vis = Err e.
Proof.
  intros Hex Hu Hp Hf. unfold vis_extract_autocorr.
  destruct (length ta =? length tb); cbn [negb]; [|eauto]. fold (autos ta tb).
  destruct (autos ta tb) as [|a0 al] eqn:EA.
  { destruct Hex as (b & Hb). apply autos_In in Hb. rewrite EA in Hb. destruct Hb. }
  rewrite <- EA. destruct (_ || _); [eauto|]. cbn [negb].
  rewrite (where_spec _ time_use 0%Z). change (filter _ (seq 0 (length time_use))) with (used_times time_use).
  destruct (map_res _ _) as [cols|]; cbn [bind]; [|eauto].
  destruct (d_freq vis <? n_freq); [eauto|].
  replace (length (used_times time_use) <? 2) with true by (symmetry; apply Nat.ltb_lt; lia).
  replace (0 <? n_pol) with true by (symmetry; apply Nat.ltb_lt; lia).
  replace (n_freq =? 1) with false by (symmetry; apply Nat.eqb_neq; lia).
  rewrite andb_false_r. cbn [andb negb]. eauto.
Qed.
