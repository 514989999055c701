From Coq Require Import ZifyBool ZifyNat Sorting.Sorted.
From Verif Require Import Base SortLib NpArr PyIndex Cplx WeightInvert VisWeights GridLoc VisGrid VisGrid2Props CalApply CalApplySpec
  ResMean Histogram HistogramSpec HistogramProofs HistogramFinal CalApplyProofs AutoProofs CalAuto CalAutoSpec.
Open Scope nat_scope.
Ltac Zify.zify_post_hook ::= idtac.

Lemma Qcleb_spec x y : Qcleb x y = true <-> (x <= y)%Qc.
Proof. unfold Qcleb. destruct (Qclt_le_dec y x) as [H|H]; split; intros; auto; try discriminate. exfalso. eapply Qclt_not_le; eauto. Qed.
Lemma Qcleb_false x y : Qcleb x y = false <-> (y < x)%Qc.
Proof. unfold Qcleb. destruct (Qclt_le_dec y x) as [H|H]; split; intros; auto; try discriminate. exfalso. eapply Qclt_not_le; eauto. Qed.

Lemma osum_some (l : list Qc) : osum (map Some l) = Some (Qcsum l).
Proof. induction l as [|a l IH]; cbn [map osum]; auto. rewrite IH. reflexivity. Qed.
Lemma osum_none l : In None l -> osum l = None.
Proof.
  induction l as [|a l IH]; intros H; [destruct H|]. cbn [osum]. destruct H as [->|H]; auto.
  rewrite IH by auto. now destruct a.
Qed.

Lemma column_last n tiles t k : tile_list n tiles -> last_pos tiles t k -> column (map Z.to_nat tiles) t = Some k.
Proof. intros H L. unfold column. rewrite map_length. now apply (find_last_pos n). Qed.
Lemma column_none n tiles t : tile_list n tiles -> ~ In (Z.of_nat t) tiles -> column (map Z.to_nat tiles) t = None.
Proof. intros H L. unfold column. rewrite map_length. now apply (find_none n). Qed.

Lemma last_pos_ex tiles t : In (Z.of_nat t) tiles -> exists k, last_pos tiles t k.
Proof.
  induction tiles as [|v l IH]; intros H; [destruct H|].
  destruct (in_dec Z.eq_dec (Z.of_nat t) l) as [I|I].
  - destruct (IH I) as (k & H1 & H2 & H3). exists (S k). split; [cbn; lia|]. split; auto.
    intros [|j] Hj; [lia|]. cbn [nth]. apply H3. cbn in Hj. lia.
  - destruct H as [->|H]; [|contradiction]. exists 0. split; [cbn; lia|]. split; auto.
    intros [|j] Hj; [lia|]. cbn [nth]. intros E. apply I. rewrite <- E. apply nth_In. cbn in Hj. lia.
Qed.

(** ** vis_cal_auto_init *)

Definition raw_of (sqrt_ : Qc -> Qc) (va am : arr3 Qc) (tiles : list Z) (p f t : nat) : option Qc :=
  match column (map Z.to_nat tiles) t with
  | Some k => auto_amp sqrt_ va am p f k
  | None => Some 1%Qc
  end.

Lemma used_where fu : where_ (fun z => negb (z =? 0)%Z) fu = filter (fun f => negb (nth f fu 0 =? 0)%Z) (seq 0 (length fu)).
Proof. exact (where_spec (fun z => negb (z =? 0)%Z) fu 0%Z). Qed.

Lemma same3_ok n_pol n_freq n_tile va am tiles : auto_input n_pol n_freq n_tile va am tiles -> same3 va am = true.
Proof.
  intros H. destruct (ai_va _ _ _ _ _ _ H) as (A1 & A2 & A3), (ai_am _ _ _ _ _ _ H) as (B1 & B2 & B3).
  unfold same3. rewrite B1, A2, B2, A3, B3, !Nat.eqb_refl. reflexivity.
Qed.

Lemma init_ok sqrt_ abs_ n_pol n_freq n_tile fu vis vm va am tiles :
  auto_input n_pol n_freq n_tile va am tiles -> covers n_pol fu vis -> covers n_pol fu vm ->
  exists g, vis_cal_auto_init sqrt_ abs_ n_pol n_freq n_tile fu vis vm va am tiles = Ok g
    /\ (d_pol g, d_freq g, d_bl g) = (n_pol, n_freq, n_tile)
    /\ forall p f t, p < n_pol -> at3 g p f t =
         init_gain n_freq n_tile (raw_of sqrt_ va am tiles p) (cross_scale sqrt_ abs_ fu vis vm p) f t.
Proof.
  intros H V M. unfold vis_cal_auto_init.
  destruct (ai_va _ _ _ _ _ _ H) as (A1 & A2 & A3), (ai_am _ _ _ _ _ _ H) as (B1 & B2 & B3).
  destruct V as (V1 & V2), M as (M1 & M2).
  rewrite (proj2 (Nat.ltb_ge _ _) V1), (proj2 (Nat.ltb_ge _ _) M1). cbn [orb].
  replace (forallb _ _) with true.
  2:{ symmetry. apply forallb_forall. intros f Hf. apply (In_where _ _ 0%Z) in Hf. destruct Hf as (F1 & F2).
      apply negb_true_iff, Z.eqb_neq in F2. apply andb_true_intro.
      split; apply Nat.ltb_lt; auto. }
  cbn [negb]. destruct (n_pol =? 0) eqn:E0.
  - apply Nat.eqb_eq in E0. subst. eexists. split; [reflexivity|]. split; auto. intros; lia.
  - rewrite B1, (proj2 (Nat.ltb_ge _ _) A1). cbn [orb].
    rewrite (same3_ok _ _ _ _ _ _ H). cbn [negb].
    rewrite (tile_list_ok n_tile tiles (ai_tiles _ _ _ _ _ _ H)). cbn [bind].
    rewrite A2, A3, !Nat.eqb_refl. cbn [andb negb].
    eexists. split; [reflexivity|]. split; auto.
Qed.

Lemma init_gain_pos n_freq n_tile raw s f t : (0 < init_gain n_freq n_tile raw s f t)%Qc.
Proof.
  unfold init_gain. destruct (raw f t), s; try reflexivity.
  destruct (Qcleb _ 0) eqn:E; [reflexivity|]. now apply Qcleb_false.
Qed.

Lemma Qc_pos_neq (x : Qc) : (0 < x)%Qc -> x <> 0%Qc.
Proof. intros H E. rewrite E in H. discriminate. Qed.

Lemma Qcsum_pos l : l <> [] -> (forall x, In x l -> (0 < x)%Qc) -> (0 < Qcsum l)%Qc.
Proof.
  destruct l as [|a l]; [congruence|]. intros _. revert a. induction l as [|b l IH]; intros a H; cbn [Qcsum fold_right].
  - rewrite Qcplus_0_r. apply H. now left.
  - fold (Qcsum (b :: l)). assert (P : (0 < Qcsum (b :: l))%Qc) by (apply IH; intros; apply H; now right).
    change (fold_right Qcplus 0%Qc l) with (Qcsum l). change (b + Qcsum l)%Qc with (Qcsum (b :: l)).
    assert (A : (0 < a)%Qc) by (apply H; now left).
    apply Qclt_le_trans with a; auto. rewrite <- (Qcplus_0_r a) at 1. apply Qcplus_le_compat; [apply Qcle_refl|now apply Qclt_le_weak].
Qed.

Lemma Qc_mul_pos (a b : Qc) : (0 < a)%Qc -> (0 < b)%Qc -> (0 < a * b)%Qc.
Proof. intros A B. rewrite <- (Qcmult_0_l b). now apply Qcmult_lt_compat_r. Qed.
Lemma Qc_inv_pos (a : Qc) : (0 < a)%Qc -> (0 < 1 / a)%Qc.
Proof. intros A. unfold Qcdiv. apply Qc_pos_div; auto. reflexivity. Qed.
Lemma qc_nat_pos n : 0 < n -> (0 < qc_nat n)%Qc.
Proof. intros H. unfold qc_nat, Qclt. cbn [this Q2Qc]. rewrite !Qred_correct. change 0%Q with (inject_Z 0). rewrite <- Zlt_Qlt. lia. Qed.

Lemma flat2_nil {A} n m (x : nat -> nat -> A) : 0 < n -> 0 < m -> flat2 n m x <> [].
Proof. intros Hn Hm. unfold flat2. destruct n; [lia|]. destruct m; [lia|]. cbn. congruence. Qed.
Lemma flat2_In {A} n m (x : nat -> nat -> A) v : In v (flat2 n m x) <-> exists f t, f < n /\ t < m /\ x f t = v.
Proof.
  unfold flat2. rewrite in_flat_map. split.
  - intros (f & Hf & H). apply in_map_iff in H. destruct H as (t & E & Ht). apply in_seq in Hf, Ht.
    exists f, t. intuition lia.
  - intros (f & t & Hf & Ht & E). exists f. split; [apply in_seq; lia|]. apply in_map_iff. exists t. split; auto. apply in_seq; lia.
Qed.
Lemma flat2_map {A B} n m (x : nat -> nat -> A) (g : A -> B) : map g (flat2 n m x) = flat2 n m (fun f t => g (x f t)).
Proof.
  unfold flat2. rewrite flat_map_concat_map, concat_map, map_map, <- flat_map_concat_map.
  apply flat_map_ext. intros f. now rewrite map_map.
Qed.
Lemma flat2_ext {A} n m (x y : nat -> nat -> A) : (forall f t, f < n -> t < m -> x f t = y f t) -> flat2 n m x = flat2 n m y.
Proof.
  intros H. unfold flat2. rewrite !flat_map_concat_map. f_equal. apply map_ext_in. intros f Hf. apply in_seq in Hf.
  apply map_ext_in. intros t Ht. apply in_seq in Ht. apply H; lia.
Qed.
Lemma Qcsum_scale c l : Qcsum (map (fun x => (c * x)%Qc) l) = (c * Qcsum l)%Qc.
Proof. unfold Qcsum. induction l as [|a l IH]; cbn [map fold_right]; [ring|]. rewrite IH. ring. Qed.

(** all raw entries positive *)
Lemma init_gain_value n_freq n_tile (raw : nat -> nat -> Qc) (s : Qc) :
  (forall f t, f < n_freq -> t < n_tile -> (0 < raw f t)%Qc) -> (0 < s)%Qc ->
  forall f t, f < n_freq -> t < n_tile ->
  init_gain n_freq n_tile (fun f t => Some (raw f t)) (Some s) f t = (s * raw f t / average n_freq n_tile raw)%Qc
  /\ (0 < average n_freq n_tile raw)%Qc.
Proof.
  intros HR HS f t Hf Ht.
  assert (A : (0 < average n_freq n_tile raw)%Qc).
  { unfold average. unfold Qcdiv. apply Qc_pos_div; [|apply qc_nat_pos; nia].
    apply Qcsum_pos; [apply flat2_nil; lia|]. intros x Hx. apply flat2_In in Hx. destruct Hx as (f' & t' & F & T & <-). now apply HR. }
  split; auto. unfold init_gain.
  replace (flat2 n_freq n_tile (fun f t => Some (raw f t))) with (map Some (flat2 n_freq n_tile raw)) by apply flat2_map.
  rewrite osum_some. fold (average n_freq n_tile raw). rewrite winvert_none.
  unfold Qceqb. destruct (Qc_eq_dec _ _) as [E|E]; [exfalso; now apply (Qc_pos_neq _ A)|].
  cbn [this]. assert (P : (0 < raw f t * (s * (1 / average n_freq n_tile raw)))%Qc).
  { apply Qc_mul_pos; auto. apply Qc_mul_pos; auto. now apply Qc_inv_pos. }
  destruct (Qcleb _ 0) eqn:L; [apply Qcleb_spec in L; exfalso; now apply (Qclt_not_le _ _ P)|].
  field. auto.
Qed.

Lemma average_scaled n_freq n_tile (x : nat -> nat -> Qc) c :
  average n_freq n_tile (fun f t => (c * x f t)%Qc) = (c * average n_freq n_tile x)%Qc.
Proof.
  unfold average. replace (flat2 n_freq n_tile (fun f t => (c * x f t)%Qc)) with (map (fun v => (c * v)%Qc) (flat2 n_freq n_tile x)) by apply flat2_map.
  rewrite Qcsum_scale. unfold Qcdiv. ring.
Qed.
Lemma average_ext n_freq n_tile x y : (forall f t, f < n_freq -> t < n_tile -> x f t = y f t) ->
  average n_freq n_tile x = average n_freq n_tile y.
Proof. intros H. unfold average. now rewrite (flat2_ext _ _ x y H). Qed.

Lemma osum_ext n m x y : (forall f t, f < n -> t < m -> x f t = y f t) -> osum (flat2 n m x) = osum (flat2 n m y).
Proof. intros H. now rewrite (flat2_ext _ _ x y H). Qed.

Lemma init_gain_ext n_freq n_tile x y s f t : (forall f t, f < n_freq -> t < n_tile -> x f t = y f t) -> f < n_freq -> t < n_tile ->
  init_gain n_freq n_tile x s f t = init_gain n_freq n_tile y s f t.
Proof. intros H Hf Ht. unfold init_gain. rewrite (osum_ext _ _ _ _ H), (H f t Hf Ht). reflexivity. Qed.

(** one NaN resets everything *)
Lemma init_gain_nan n_freq n_tile raw s f t f' t' : f' < n_freq -> t' < n_tile -> raw f' t' = None ->
  init_gain n_freq n_tile raw s f t = 1%Qc.
Proof.
  intros Hf Ht E. unfold init_gain. rewrite osum_none by (apply flat2_In; eauto).
  destruct (raw f t) as [r|], s as [q|]; auto.
  replace (r * (q * 0))%Qc with 0%Qc by ring. reflexivity.
Qed.

Lemma raw_ratio sqrt_ n_tile va am tiles p f t :
  tile_list n_tile tiles ->
  (forall f k, f < d_freq va -> k < length tiles -> (0 < at3 va p f k)%Qc /\ (0 < at3 am p f k)%Qc) ->
  (forall x, (0 < x)%Qc -> (0 < sqrt_ x)%Qc) -> f < d_freq va ->
  exists r, raw_of sqrt_ va am tiles p f t = Some r /\ tile_ratio sqrt_ va am tiles p f t r /\ (0 < r)%Qc.
Proof.
  intros TL HP HS Hf. unfold raw_of. destruct (in_dec Z.eq_dec (Z.of_nat t) tiles) as [I|I].
  - destruct (last_pos_ex _ _ I) as (k & L). rewrite (column_last _ _ _ _ TL L).
    destruct (HP f k Hf (proj1 L)) as (P1 & P2). unfold auto_amp, fsqrt. rewrite winvert_none.
    unfold Qceqb. destruct (Qc_eq_dec _ _) as [E|E]; [exfalso; now apply (Qc_pos_neq _ P2)|].
    assert (P : (0 < at3 va p f k * (1 / at3 am p f k))%Qc) by (apply Qc_mul_pos; auto; now apply Qc_inv_pos).
    destruct (Qcleb 0 _) eqn:B.
    2:{ apply Qcleb_false in B. exfalso. apply (Qclt_not_le _ _ B). now apply Qclt_le_weak. }
    eexists. split; [reflexivity|].
    replace (at3 va p f k * (1 / at3 am p f k))%Qc with (at3 va p f k / at3 am p f k)%Qc in * by (field; auto).
    split; [left; eauto|]. now apply HS.
  - rewrite (column_none _ _ _ TL I). exists 1%Qc. split; auto. split; [right; auto|]. reflexivity.
Qed.

Lemma cross_scale_eq sqrt_ abs_ fu vis vm p d m :
  resistant_mean (used_amps abs_ fu vis p) 2 = Some d -> resistant_mean (used_amps abs_ fu vm p) 2 = Some m ->
  (0 < d)%Q -> (0 < m)%Q -> cross_scale sqrt_ abs_ fu vis vm p = Some (sqrt_ (Q2Qc (d / m))).
Proof.
  intros Hd Hm Pd Pm. unfold cross_scale. rewrite used_where. unfold used_amps in *. rewrite Hd, Hm.
  destruct (Qeq_bool m 0) eqn:E; [apply Qeq_bool_eq in E; exfalso; apply (Qlt_not_eq _ _ Pm); now symmetry|].
  unfold fsqrt. destruct (Qcleb 0 _) eqn:B; auto. apply Qcleb_false in B. exfalso.
  unfold Qclt in B. cbn [this Q2Qc] in B. rewrite Qred_correct in B. apply (Qlt_not_le _ _ B). unfold Qdiv. apply Qlt_le_weak.
  apply Qlt_shift_div_l; auto. now rewrite Qmult_0_l.
Qed.

(** ** vis_cal_auto_fit *)

Lemma fit_flags n (flagged : list nat) : forall fl, length fl = n ->
  length (fold_left (clear_around n) flagged fl) = n
  /\ forall f, f < n -> nth f (fold_left (clear_around n) flagged fl) false = true <->
    nth f fl false = true /\ forall g, In g flagged -> ~ (g <= f + 1 /\ f <= g + 1).
Proof.
  induction flagged as [|i l IH]; intros fl Hl; cbn [fold_left].
  - split; auto. intros f Hf. split; [intros H; split; auto; intros g []|tauto].
  - set (fl' := clear_around n fl i).
    assert (L' : length fl' = n) by (unfold fl', clear_around; now rewrite map_length, seq_length).
    destruct (IH fl' L') as (H1 & H2). split; auto. intros f Hf. rewrite (H2 f Hf).
    unfold fl', clear_around. rewrite (nth_map_seq _ n f false Hf).
    destruct ((Nat.max 0 (i - 1) <=? f) && (f <? Nat.min n (i + 2))) eqn:E.
    + apply andb_true_iff in E. destruct E as (E1 & E2). apply Nat.leb_le in E1. apply Nat.ltb_lt in E2.
      split; [intros [? _]; discriminate|]. intros (_ & H). exfalso. apply (H i); [now left|]. lia.
    + apply andb_false_iff in E.
      assert (W : ~ (i <= f + 1 /\ f <= i + 1)).
      { destruct E as [E|E]; [apply Nat.leb_gt in E|apply Nat.ltb_ge in E]; lia. }
      split.
      * intros (A & B). split; auto. intros g [<-|G]; auto.
      * intros (A & B). split; auto. intros g G. apply B. now right.
Qed.

Lemma where_sorted {A} (p : A -> bool) l (d : A) : StronglySorted lt (where_ p l).
Proof. rewrite (where_spec p l d). apply filter_sorted, seq_sorted. Qed.

Lemma fit_channels_spec fu :
  StronglySorted lt (fit_channels (length fu) fu) /\ forall f, In f (fit_channels (length fu) fu) <-> safe_channel fu f.
Proof.
  unfold fit_channels. set (n := length fu).
  destruct (where_ (fun z => (z =? 0)%Z) fu) as [|i l] eqn:E.
  - split; [apply (where_sorted _ _ 0%Z)|]. intros f. rewrite (In_where _ _ 0%Z).
    assert (U : forall g, g < n -> nth g fu 0%Z <> 0%Z).
    { intros g Hg Z0. assert (I : In g (where_ (fun z => (z =? 0)%Z) fu)) by (apply (In_where _ _ 0%Z); split; auto; now rewrite Z0).
      rewrite E in I. destruct I. }
    unfold safe_channel. split.
    + intros (H1 & _). split; auto.
    + intros (H1 & _). split; auto. apply negb_true_iff, Z.eqb_neq. now apply U.
  - rewrite <- E. clear i l E. split; [apply (where_sorted _ _ false)|]. intros f. rewrite (In_where _ _ false).
    match goal with |- context [fold_left ?g ?l ?x] =>
      pose proof (fit_flags n l x) as FP end.
    rewrite map_length, seq_length in FP. destruct (FP eq_refl) as (L & P).
    unfold n in *. rewrite L. unfold safe_channel. split.
    + intros (H1 & H2). split; auto. apply (P f H1) in H2. destruct H2 as (_ & H2). intros g Hg G1 G2 Z0.
      apply (H2 g); [|lia]. apply (In_where _ _ 0%Z). split; auto. now rewrite Z0.
    + intros (H1 & H2). split; auto. apply (P f H1). split.
      * rewrite (nth_map_seq _ _ f false H1). unfold memn. apply existsb_exists. exists f.
        split; [|apply Nat.eqb_refl]. apply (In_where _ _ 0%Z). split; auto. apply negb_true_iff, Z.eqb_neq. apply H2; lia.
      * intros g G (G1 & G2). apply (In_where _ _ 0%Z) in G. destruct G as (G3 & G4). apply Z.eqb_eq in G4.
        apply (H2 g); auto; lia.
Qed.

Definition pairs_eqb (a b : nat * nat) : bool := (fst a =? fst b) && (snd a =? snd b).

Lemma fit_fold abs_ phase_ lstsq chan auto : forall l st, NoDup l ->
  let out := fold_left (fit_step abs_ phase_ lstsq chan auto) l st in
  forall p t,
  (In (p, t) l -> let r := fit_tile abs_ phase_ lstsq chan (fun f => auto p f t) (fun f => s_gain st p f t) in
     (forall f, s_gain out p f t = fst r f) /\ s_slope out p t = fst (snd r) /\ s_offset out p t = snd (snd r))
  /\ (~ In (p, t) l -> (forall f, s_gain out p f t = s_gain st p f t) /\ s_slope out p t = s_slope st p t
        /\ s_offset out p t = s_offset st p t).
Proof.
  induction l as [|[q u] l IH]; intros st ND out p t.
  - split; [intros []|]. intros _. unfold out. cbn. auto.
  - inversion ND as [|? ? N1 N2]; subst. unfold out. clear out. cbn [fold_left].
    set (st' := fit_step abs_ phase_ lstsq chan auto st (q, u)).
    assert (ST : (p, t) <> (q, u) -> (forall f, s_gain st' p f t = s_gain st p f t) /\ s_slope st' p t = s_slope st p t
        /\ s_offset st' p t = s_offset st p t).
    { intros NE. unfold st', fit_step. destruct (fit_tile _ _ _ _ _ _) as (g & sl & off). cbn [s_gain s_slope s_offset].
      unfold set2. replace ((p =? q) && (t =? u)) with false; auto. symmetry. apply not_true_is_false. intros H.
      apply andb_true_iff in H. destruct H as (A & B). apply Nat.eqb_eq in A, B. congruence. }
    assert (SE : (p, t) = (q, u) -> let r := fit_tile abs_ phase_ lstsq chan (fun f => auto p f t) (fun f => s_gain st p f t) in
       (forall f, s_gain st' p f t = fst r f) /\ s_slope st' p t = fst (snd r) /\ s_offset st' p t = snd (snd r)).
    { intros [= -> ->]. unfold st', fit_step. destruct (fit_tile _ _ _ _ _ _) as (g & sl & off). cbn [s_gain s_slope s_offset fst snd].
      unfold set2. rewrite !Nat.eqb_refl. cbn [andb]. auto. }
    destruct (IH st' N2 p t) as (I1 & I2). split.
    + intros [E|I].
      * symmetry in E. destruct (SE E) as (S1 & S2 & S3). rewrite E in *. destruct (I2 N1) as (J1 & J2 & J3).
        cbv zeta. split; [|split]; [intros f; rewrite J1; apply S1|congruence|congruence].
      * assert (NE : (p, t) <> (q, u)) by (intros E; apply N1; now rewrite <- E).
        destruct (ST NE) as (S1 & S2 & S3). specialize (I1 I). cbv zeta in I1 |- *.
        assert (P : flat_map (fun f => match auto p f t, s_gain st' p f t with Some a, Some g => [(a, abs_ g)] | _, _ => [] end) chan
                  = flat_map (fun f => match auto p f t, s_gain st p f t with Some a, Some g => [(a, abs_ g)] | _, _ => [] end) chan)
          by (apply flat_map_ext; intros f; now rewrite S1).
        unfold fit_tile in *. rewrite P in I1. destruct (lstsq _) as (sl, off). cbn [fst snd] in *.
        destruct I1 as (J1 & J2 & J3). split; [|split]; auto. intros f. rewrite J1, S1. reflexivity.
    + intros NI. assert (NE : (p, t) <> (q, u)) by (intros E; apply NI; left; congruence).
      destruct (ST NE) as (S1 & S2 & S3). destruct I2 as (J1 & J2 & J3); [intros I; apply NI; now right|].
      split; [|split]; [intros f; rewrite J1; apply S1|congruence|congruence].
Qed.

Lemma NoDup_pairs (l1 l2 : list nat) : NoDup l1 -> NoDup l2 -> NoDup (flat_map (fun p => map (fun t => (p, t)) l2) l1).
Proof.
  intros H1 H2. induction H1 as [|a l N H IH]; cbn [flat_map]; [constructor|].
  assert (G : forall (x y : list (nat * nat)), NoDup x -> NoDup y -> (forall e, In e x -> ~ In e y) -> NoDup (x ++ y)).
  { intros x y X Y D. induction X as [|b x Nb X IHx]; cbn [app]; auto. constructor.
    - rewrite in_app_iff. intros [I|I]; [contradiction|]. apply (D b); auto. now left.
    - apply IHx. intros e He. apply D. now right. }
  apply G; auto.
  - apply FinFun.Injective_map_NoDup; auto. intros x y [= E]. exact E.
  - intros e He I. apply in_map_iff in He. destruct He as (t & <- & _). apply in_flat_map in I.
    destruct I as (q & Hq & I). apply in_map_iff in I. destruct I as (t' & [= -> ->] & _). contradiction.
Qed.

Definition spec_pairs (abs_ : C -> Qc) (auto : nat -> option Qc) (gain : nat -> option C) (f : nat) : Qc * Qc :=
  (match auto f with Some a => a | None => 0%Qc end, match gain f with Some g => abs_ g | None => 0%Qc end).

Lemma pairs_filter abs_ (auto : nat -> option Qc) (gain : nat -> option C) chan :
  flat_map (fun f => match auto f, gain f with Some a, Some g => [(a, abs_ g)] | _, _ => [] end) chan
  = map (spec_pairs abs_ auto gain)
      (filter (fun f => match auto f, gain f with Some _, Some _ => true | _, _ => false end) chan).
Proof.
  induction chan as [|f l IH]; cbn [flat_map filter map]; auto. rewrite IH.
  destruct (auto f) eqn:Ea, (gain f) eqn:Eg; cbn [map app]; auto. f_equal. unfold spec_pairs. now rewrite Ea, Eg.
Qed.

Lemma amplitude_model sqrt_ va am p f k :
  (forall x, (0 <= x)%Qc -> (0 <= sqrt_ x)%Qc) ->
  amplitude sqrt_ va am p f k
    (match auto_amp sqrt_ va am p f k with Some a => Some (Qcabs0 a) | None => None end).
Proof.
  intros HS. unfold amplitude, auto_amp, fsqrt. rewrite winvert_none. unfold Qceqb.
  assert (AB : forall x, (0 <= x)%Qc -> Qcabs0 (sqrt_ x) = sqrt_ x).
  { intros x Hx. unfold Qcabs0. destruct (Qclt_le_dec _ 0) as [L|]; auto. exfalso. apply (Qclt_not_le _ _ L). auto. }
  destruct (Qc_eq_dec _ _) as [E|E].
  - replace (at3 va p f k * 0)%Qc with 0%Qc by ring. cbn. split; [|split; intros; contradiction].
    intros _. f_equal. apply AB, Qcle_refl.
  - replace (at3 va p f k * (1 / at3 am p f k))%Qc with (at3 va p f k / at3 am p f k)%Qc by (field; auto).
    split; [intros; contradiction|]. split; intros _ H.
    + rewrite (proj2 (Qcleb_spec _ _) H). f_equal. now apply AB.
    + rewrite (proj2 (Qcleb_false _ _) H). reflexivity.
Qed.

Lemma amplitude_fun sqrt_ va am p f k a b : amplitude sqrt_ va am p f k a -> amplitude sqrt_ va am p f k b -> a = b.
Proof.
  intros (A1 & A2 & A3) (B1 & B2 & B3). destruct (Qc_eq_dec (at3 am p f k) 0%Qc) as [E|E].
  - now rewrite A1, B1.
  - destruct (Qclt_le_dec (at3 va p f k / at3 am p f k) 0) as [L|L].
    + now rewrite A3, B3.
    + now rewrite A2, B2.
Qed.

(** What vis_cal_auto_fit computed for tile [t], column [k]. *)
Definition fitted (sqrt_ : Qc -> Qc) (abs_ : C -> Qc) (phase_ : C -> C) (lstsq : list (Qc * Qc) -> Qc * Qc)
    (freq_use : list Z) (gain : arr3 (option C)) (va am : arr3 Qc) (p k t : nat)
    (out : nat -> option C) (slope offset : Qc) : Prop :=
  exists (amp : nat -> option Qc) (chan : list nat),
    (forall f, f < length freq_use -> amplitude sqrt_ va am p f k (amp f))
    /\ StronglySorted lt chan
    /\ (forall f, In f chan <-> safe_channel freq_use f /\ amp f <> None /\ at3 gain p f t <> None)
    /\ lstsq (map (spec_pairs abs_ amp (fun f => at3 gain p f t)) chan) = (slope, offset)
    /\ forall f, f < length freq_use -> out f =
         match amp f, at3 gain p f t with
         | Some a, Some g => Some (Cscale (a * slope + offset)%Qc (phase_ g))
         | _, _ => None
         end.

Lemma fit_ok sqrt_ abs_ phase_ lstsq junk junk' n_pol n_freq n_tile fu gain va am tiles :
  auto_input n_pol n_freq n_tile va am tiles -> length fu = n_freq ->
  d_pol gain = n_pol -> d_freq gain = n_freq -> d_bl gain = n_tile -> NoDup tiles ->
  (forall x, (0 <= x)%Qc -> (0 <= sqrt_ x)%Qc) ->
  exists g sl off,
    vis_cal_auto_fit sqrt_ abs_ phase_ lstsq junk junk' n_pol n_freq n_tile fu gain va am tiles =
      (if n_pol <? 2 then Err IndexError else
       Ok {| af_gain := Arr3 n_pol n_freq n_tile g;
             af_scale := map (fun p => (Qcsum (map (sl p) (seq 0 n_tile)) / qc_nat (length tiles))%Qc) (seq 0 n_pol);
             af_offset := Arr2 n_pol n_tile off; af_slope := Arr2 n_pol n_tile sl |})
    /\ (forall p k, p < n_pol -> k < length tiles ->
          let t := Z.to_nat (nth k tiles 0%Z) in
          fitted sqrt_ abs_ phase_ lstsq fu gain va am p k t (fun f => g p f t) (sl p t) (off p t))
    /\ (forall p f t, ~ In (Z.of_nat t) tiles -> g p f t = at3 gain p f t /\ sl p t = junk p t /\ off p t = junk' p t).
Proof.
  intros H Lf Dp Df Db ND HS. unfold vis_cal_auto_fit.
  destruct (ai_va _ _ _ _ _ _ H) as (A1 & A2 & A3), (ai_am _ _ _ _ _ _ H) as (B1 & B2 & B3).
  pose proof (ai_tiles _ _ _ _ _ _ H) as TL.
  rewrite Lf, Nat.eqb_refl. cbn [negb]. rewrite B1, (proj2 (Nat.ltb_ge _ _) A1). cbn [orb].
  rewrite (same3_ok _ _ _ _ _ _ H). cbn [negb]. rewrite (tile_list_ok _ _ TL). cbn [bind].
  rewrite A2, A3, !Nat.eqb_refl. cbn [andb negb]. rewrite Dp, Db, !Nat.ltb_irrefl. cbn [orb].
  rewrite Df, Nat.eqb_refl. cbn [negb].
  set (auto := fun p f t => match column (map Z.to_nat tiles) t with
                      | Some k => match auto_amp sqrt_ va am p f k with Some a => Some (Qcabs0 a) | None => None end
                      | None => None end).
  set (l := flat_map _ (seq 0 n_pol)). set (st0 := {| s_gain := at3 gain; s_slope := junk; s_offset := junk' |}).
  set (st := fold_left _ l st0).
  exists (s_gain st), (s_slope st), (s_offset st). split; [reflexivity|].
  assert (ND' : NoDup (map Z.to_nat tiles)).
  { clear - ND TL. induction ND as [|v l N _ IH]; cbn [map]; constructor.
    - intros I. apply in_map_iff in I. destruct I as (w & E & I). apply N.
      assert ((0 <= v < Z.of_nat n_tile)%Z) by (apply TL; now left).
      assert ((0 <= w < Z.of_nat n_tile)%Z) by (apply TL; now right). replace v with w by lia. auto.
    - apply IH. intros w Hw. apply TL. now right. }
  assert (NDl : NoDup l) by (apply NoDup_pairs; auto; apply seq_NoDup).
  assert (Inl : forall p t, In (p, t) l <-> p < n_pol /\ In t (map Z.to_nat tiles)).
  { intros p t. unfold l. rewrite in_flat_map. split.
    - intros (q & Hq & I). apply in_map_iff in I. destruct I as (u & [= -> ->] & I). apply in_seq in Hq. split; auto. lia.
    - intros (Hp & I). exists p. split; [apply in_seq; lia|]. apply in_map_iff. eauto. }
  split.
  - intros p k Hp Hk. set (t := Z.to_nat (nth k tiles 0%Z)).
    assert (I : In (p, t) l).
    { apply Inl. split; auto. apply in_map. now apply nth_In. }
    assert (TV : (0 <= nth k tiles 0 < Z.of_nat n_tile)%Z) by (apply TL; now apply nth_In).
    assert (LP : last_pos tiles t k).
    { split; auto. split; [unfold t; lia|]. intros j Hj E. rewrite NoDup_nth with (d := 0%Z) in ND.
      assert (j = k); [|lia]. apply ND; try lia. }
    pose proof (fit_fold abs_ phase_ lstsq (fit_channels n_freq fu) auto l st0 NDl p t) as F. cbv zeta in F.
    destruct F as (F & _). specialize (F I). fold st in F.
    destruct (fit_channels_spec fu) as (CS & CI). rewrite Lf in CS, CI.
    exists (fun f => auto p f t). cbn [s_gain st0] in F. unfold fit_tile in F. rewrite pairs_filter in F.
    exists (filter (fun f => match auto p f t, at3 gain p f t with Some _, Some _ => true | _, _ => false end) (fit_channels n_freq fu)).
    split; [|split; [|split; [|split]]].
    + intros f Hf. unfold auto. rewrite (column_last n_tile tiles t k TL LP). now apply amplitude_model.
    + now apply filter_sorted.
    + intros f. rewrite filter_In, CI. destruct (auto p f t), (at3 gain p f t); intuition congruence.
    + cbn [s_gain st0] in F. destruct (lstsq _) as (sl, off). cbn [fst snd] in F. destruct F as (_ & -> & ->). reflexivity.
    + intros f Hf. destruct (lstsq _) as (sl, off). cbn [fst snd] in F. destruct F as (-> & -> & ->). reflexivity.
  - intros p f t NI. pose proof (fit_fold abs_ phase_ lstsq (fit_channels n_freq fu) auto l st0 NDl p t) as F. cbv zeta in F.
    destruct F as (_ & F). fold st in F. destruct F as (F1 & F2 & F3).
    + rewrite Inl. intros (_ & I). apply in_map_iff in I. destruct I as (v & E & I). apply NI.
      pose proof (TL v I). replace (Z.of_nat t) with v by lia. auto.
    + rewrite F1, F2, F3. auto.
Qed.

(** ** vis_baseline_hist *)
Open Scope Q_scope.

Lemma flat2_len {A} n m (x : nat -> nat -> A) : length (flat2 n m x) = (n * m)%nat.
Proof.
  unfold flat2. rewrite flat_map_concat_map. 
  assert (G : forall l, length (concat (map (fun i => map (x i) (seq 0 m)) l)) = (length l * m)%nat).
  { induction l as [|a l IH]; cbn [map concat length]; auto. rewrite app_length, IH, map_length, seq_length. lia. }
  rewrite G, seq_length. reflexivity.
Qed.
Lemma flat2_nth {A} n m (x : nat -> nat -> A) d f b : (f < n)%nat -> (b < m)%nat -> nth (f * m + b) (flat2 n m x) d = x f b.
Proof.
  intros Hf Hb. unfold flat2. rewrite flat_map_concat_map.
  assert (G : forall k s, (f < k)%nat -> nth (f * m + b) (concat (map (fun i => map (x i) (seq 0 m)) (seq s k))) d = x (s + f)%nat b).
  { clear Hf. revert f. induction f as [|f IH]; intros [|k] s Hk; try lia; cbn [seq map concat].
    - rewrite app_nth1 by (rewrite map_length, seq_length; lia). cbn [Nat.mul Nat.add].
      rewrite (nth_map_seq (x s) m b d Hb). now rewrite Nat.add_0_r.
    - rewrite app_nth2 by (rewrite map_length, seq_length; lia). rewrite map_length, seq_length.
      replace (S f * m + b - m)%nat with (f * m + b)%nat by lia. rewrite IH by lia. f_equal. lia. }
  rewrite (G n 0%nat Hf). reflexivity.
Qed.

Lemma distances_lengths sqrt_ kpix uu vv freq : lists_lengths sqrt_ kpix uu vv freq (distances sqrt_ kpix uu vv freq).
Proof. split; [apply flat2_len|]. intros f b Hf Hb. unfold distances. now rewrite flat2_nth. Qed.

Lemma lengths_eq sqrt_ kpix uu vv freq l : lists_lengths sqrt_ kpix uu vv freq l -> distances sqrt_ kpix uu vv freq = l.
Proof.
  intros (L1 & L2). destruct (distances_lengths sqrt_ kpix uu vv freq) as (D1 & D2).
  apply (list_ext 0); [congruence|]. intros k Hk. rewrite D1 in Hk.
  assert (Hu : (0 < length uu)%nat) by lia.
  rewrite (Nat.div_mod k (length uu)) by lia. rewrite (Nat.mul_comm (length uu)).
  assert ((k / length uu < length freq)%nat) by (apply Nat.div_lt_upper_bound; lia).
  assert ((k mod length uu < length uu)%nat) by (apply Nat.mod_upper_bound; lia).
  now rewrite L2, D2.
Qed.

(** The value of one bin, when no bin mixes zero and nonzero model visibilities. *)
Definition vdiff (v m : arr3 C) (nb p k : nat) : C := (vis_at v nb p k - vis_at m nb p k)%C.

Lemma where_all {A} (p : A -> bool) l (d : A) : (forall x, In x l -> p x = true) -> where_ p l = seq 0 (length l).
Proof.
  intros H. rewrite (where_spec p l d).
  assert (G : forall s, (forall k, In k s -> p (nth k l d) = true) -> filter (fun k => p (nth k l d)) s = s).
  { induction s as [|a s IH]; intros Hs; cbn [filter]; auto. rewrite Hs by now left. f_equal. apply IH. intros; apply Hs; now right. }
  apply G. intros k Hk. apply in_seq in Hk. apply H, nth_In. lia.
Qed.
Lemma where_nil {A} (p : A -> bool) l (d : A) : (forall x, In x l -> p x = false) -> where_ p l = [].
Proof.
  intros H. destruct (where_ p l) as [|k t] eqn:E; auto. exfalso.
  assert (I : In k (where_ p l)) by (rewrite E; now left). apply (In_where p l d) in I. destruct I as (I1 & I2).
  rewrite H in I2; [discriminate|]. now apply nth_In.
Qed.

Lemma map_nth_seq {A} (l : list A) d : map (fun k => nth k l d) (seq 0 (length l)) = l.
Proof.
  induction l as [|a l IH]; cbn [length seq map]; auto. f_equal. rewrite <- seq_shift, map_map. exact IH.
Qed.

Lemma filter_all {A} (p : A -> bool) l : (forall x, In x l -> p x = true) -> filter p l = l.
Proof. induction l as [|a l IH]; intros H; cbn [filter]; auto. rewrite H by now left. f_equal. apply IH. intros; apply H; now right. Qed.
Lemma filter_none {A} (p : A -> bool) l : (forall x, In x l -> p x = false) -> filter p l = [].
Proof. induction l as [|a l IH]; intros H; cbn [filter]; auto. rewrite H by now left. apply IH. intros; apply H; now right. Qed.

Lemma abs_nonzero abs_ c : good_abs abs_ -> negb (Qle_bool (abs_ c) 0) = negb (Ceqb c C0).
Proof.
  intros G. destruct (G c) as (G1 & G2). unfold Ceqb. destruct (C_eq_dec c C0) as [E|E].
  - rewrite (proj2 (Qle_bool_iff _ _) (G1 E)). reflexivity.
  - specialize (G2 E). destruct (Qle_bool _ 0) eqn:B; auto. apply Qle_bool_iff in B. exfalso. now apply (Qlt_not_le _ _ G2).
Qed.

(** what one bin yields *)
Definition bin_value (sqrt_ : Q -> Q) (abs_ : C -> Q) (vc vm : arr3 C) (nb p : nat) (s : list nat) : option (Q * Q) :=
  match s with
  | [] => None
  | _ => let m := Qmean (map (fun k => abs_ (vis_at vm nb p k)) s) in
         Some (Qmean (map (fun k => abs_ (vdiff vc vm nb p k)) s) / m,
               sqrt_ (Qvar (map (fun k => abs_ (vdiff vc vm nb p k)) s)) / m)
  end.

Lemma where_filter {A} (q : A -> bool) (inds : list A) (d : A) :
  map (fun k => nth k inds d) (where_ q inds) = filter q inds.
Proof.
  rewrite (where_spec q inds d). replace (filter q inds) with (filter q (map (fun k => nth k inds d) (seq 0 (length inds)))) by now rewrite map_nth_seq.
  generalize (seq 0 (length inds)). induction l as [|a l IH]; cbn [filter map]; auto.
  destruct (q (nth a inds d)); cbn [map]; now rewrite IH.
Qed.

Lemma where_map {A B} (g : A -> B) (q : B -> bool) l (d : A) : where_ q (map g l) = where_ (fun x => q (g x)) l.
Proof.
  rewrite (where_spec q _ (g d)), (where_spec (fun x => q (g x)) l d), map_length. apply filter_ext. intros k. now rewrite map_nth.
Qed.

(** the bin in general: [s] its unflagged members *)
Lemma hist_bin_eq sqrt_ abs_ vc vm p nf nb inds :
  good_abs abs_ -> d_freq vc = nf -> d_freq vm = nf -> d_bl vc = nb -> d_bl vm = nb ->
  (forall i, In i inds -> (i < nf * nb)%nat) ->
  let s := filter (fun k => negb (Ceqb (vis_at vm nb p k) C0)) inds in
  hist_bin sqrt_ abs_ vc vm p inds =
  match s with
  | [] => Ok None
  | _ => diff <- vsub (map (vis_at vc nb p) s) (map (vis_at vm nb p) inds) ;;
         let m := Qmean (map abs_ (map (vis_at vm nb p) inds)) in
         Ok (Some (Qmean (map abs_ diff) / m, sqrt_ (Qvar (map abs_ diff)) / m))
  end.
Proof.
  intros G F1 F2 B1 B2 Hi s. unfold hist_bin. rewrite F1, F2, B1, B2.
  assert (FV : forall l, map (flat_vis vm p) l = map (vis_at vm nb p) l) by (intros; apply map_ext; intros; unfold flat_vis, vis_at; now rewrite B2).
  assert (FC : forall l, map (flat_vis vc p) l = map (vis_at vc nb p) l) by (intros; apply map_ext; intros; unfold flat_vis, vis_at; now rewrite B1).
  rewrite FV. replace (forallb _ inds) with true.
  2:{ symmetry. apply forallb_forall. intros i I. apply Nat.ltb_lt. auto. }
  cbn [negb]. rewrite (where_map _ _ inds 0%nat).
  assert (S1 : map (fun k => nth k inds 0%nat) (where_ (fun x => negb (Qle_bool (abs_ (vis_at vm nb p x)) 0)) inds) = s).
  { rewrite where_filter. unfold s. apply filter_ext. intros k. now apply abs_nonzero. }
  rewrite S1. rewrite FC.
  replace (forallb _ s) with true.
  2:{ symmetry. apply forallb_forall. intros i I. apply Nat.ltb_lt. unfold s in I. apply filter_In in I. apply Hi. tauto. }
  cbn [negb]. destruct (where_ _ inds) as [|k l] eqn:E.
  - cbn [map] in S1. rewrite <- S1. reflexivity.
  - cbn [map] in S1. rewrite <- S1. reflexivity.
Qed.

Lemma hist_bin_pure sqrt_ abs_ vc vm p nf nb inds :
  good_abs abs_ -> d_freq vc = nf -> d_freq vm = nf -> d_bl vc = nb -> d_bl vm = nb ->
  (forall i, In i inds -> (i < nf * nb)%nat) ->
  (forall i j, In i inds -> In j inds -> vis_at vm nb p i = C0 -> vis_at vm nb p j = C0) ->
  hist_bin sqrt_ abs_ vc vm p inds =
  Ok (bin_value sqrt_ abs_ vc vm nb p (filter (fun k => negb (Ceqb (vis_at vm nb p k) C0)) inds)).
Proof.
  intros G F1 F2 B1 B2 Hi Hp. rewrite (hist_bin_eq sqrt_ abs_ vc vm p nf nb inds G F1 F2 B1 B2 Hi).
  destruct (filter _ inds) as [|a s] eqn:E; auto.
  assert (Ia : In a inds /\ vis_at vm nb p a <> C0).
  { assert (I : In a (a :: s)) by now left. rewrite <- E in I. apply filter_In in I. destruct I as (I1 & I2). split; auto.
    unfold Ceqb in I2. destruct (C_eq_dec _ _); auto; discriminate. }
  assert (F : a :: s = inds).
  { rewrite <- E. apply filter_all. intros x Hx. unfold Ceqb. destruct (C_eq_dec _ _) as [Z0|]; auto.
    exfalso. apply (proj2 Ia). apply (Hp x a); tauto. }
  rewrite <- F. unfold vsub. rewrite !map_length, Nat.eqb_refl. cbn [bind bin_value].
  set (s' := a :: s). f_equal. f_equal.
  assert (D : map (fun k => (nth k (map (vis_at vc nb p) s') C0 - nth k (map (vis_at vm nb p) s') C0)%C) (seq 0 (length s'))
            = map (vdiff vc vm nb p) s').
  { transitivity (map (vdiff vc vm nb p) (map (fun k => nth k s' 0%nat) (seq 0 (length s')))); [|now rewrite map_nth_seq]. rewrite map_map. apply map_ext_in. intros k Hk. apply in_seq in Hk.
    rewrite (nth_indep (map (vis_at vc nb p) s') C0 (vis_at vc nb p 0%nat)) by (rewrite map_length; lia).
    rewrite (nth_indep (map (vis_at vm nb p) s') C0 (vis_at vm nb p 0%nat)) by (rewrite map_length; lia).
    rewrite !map_nth. reflexivity. }
  rewrite D, !map_map. reflexivity.
Qed.

Lemma hist_bin_mixed sqrt_ abs_ vc vm p nf nb inds :
  good_abs abs_ -> d_freq vc = nf -> d_freq vm = nf -> d_bl vc = nb -> d_bl vm = nb ->
  (forall i, In i inds -> (i < nf * nb)%nat) ->
  let s := filter (fun k => negb (Ceqb (vis_at vm nb p k) C0)) inds in
  (2 <= length s)%nat -> (length s < length inds)%nat ->
  hist_bin sqrt_ abs_ vc vm p inds = Err ValueError.
Proof.
  intros G F1 F2 B1 B2 Hi s L1 L2. rewrite (hist_bin_eq sqrt_ abs_ vc vm p nf nb inds G F1 F2 B1 B2 Hi). fold s.
  destruct s as [|a s'] eqn:E; [cbn in L1; lia|]. unfold vsub. rewrite !map_length.
  rewrite (proj2 (Nat.eqb_neq _ _)) by lia. rewrite (proj2 (Nat.eqb_neq _ _)) by lia.
  rewrite (proj2 (Nat.eqb_neq _ _)) by lia. reflexivity.
Qed.

Lemma hist_bin_err sqrt_ abs_ vc vm p nf nb inds e :
  good_abs abs_ -> d_freq vc = nf -> d_freq vm = nf -> d_bl vc = nb -> d_bl vm = nb ->
  (forall i, In i inds -> (i < nf * nb)%nat) ->
  hist_bin sqrt_ abs_ vc vm p inds = Err e -> e = ValueError.
Proof.
  intros G F1 F2 B1 B2 Hi. rewrite (hist_bin_eq sqrt_ abs_ vc vm p nf nb inds G F1 F2 B1 B2 Hi).
  destruct (filter _ _); [discriminate|]. unfold vsub. destruct (_ =? _)%nat; [discriminate|].
  destruct (_ =? _)%nat; [discriminate|]. destruct (_ =? _)%nat; [discriminate|]. cbn. congruence.
Qed.

Lemma map_res_err {A B} (f : A -> result B) l a e0 : In a l -> f a = Err e0 -> (forall x e, In x l -> f x = Err e -> e = e0) ->
  map_res f l = Err e0.
Proof.
  induction l as [|x l IH]; intros I E H; [destruct I|]. cbn [map_res]. destruct (f x) as [b|e] eqn:Fx; cbn [bind].
  - destruct I as [->|I]; [congruence|]. rewrite IH; auto. intros y e Y. apply H. now right.
  - f_equal. apply (H x); auto. now left.
Qed.

Lemma map_res_ext_ok {A B} (f : A -> result B) (g : A -> B) l : (forall x, In x l -> f x = Ok (g x)) -> map_res f l = Ok (map g l).
Proof.
  induction l as [|x l IH]; intros H; cbn [map_res map]; auto. rewrite H by now left. cbn [bind]. rewrite IH; auto. intros; apply H; now right.
Qed.

Lemma nth_map_in {A B} (f : A -> B) l i (dA : A) (dB : B) : (i < length l)%nat -> nth i (map f l) dB = f (nth i l dA).
Proof. intros H. rewrite (nth_indep _ dB (f dA)) by now rewrite map_length. apply map_nth. Qed.

Lemma last_bin lo hi n i d : (0 < n)%nat -> in_bin lo 5 (n - 1) hi -> in_bin lo 5 i d -> within lo hi d -> (i < n)%nat.
Proof.
  intros Hn (_ & H) (D & _) (_ & W). destruct (Nat.lt_ge_cases i n) as [|G]; auto. exfalso.
  assert (X : lo + inject_Z (Z.of_nat i) * 5 < lo + inject_Z (Z.of_nat (n - 1) + 1) * 5).
  { eapply Qle_lt_trans; [exact D|]. eapply Qle_lt_trans; [exact W|exact H]. }
  apply Qplus_lt_r in X. apply Qmult_lt_r in X; [|reflexivity]. rewrite <- Zlt_Qlt in X. lia.
Qed.

Lemma hist_run sqrt_ abs_ n_pol kpix lo hi uu vv freq lengths vc vm :
  hist_input n_pol uu vv freq lo hi vc vm -> lists_lengths sqrt_ kpix uu vv freq lengths ->
  exists n, (0 < n)%nat /\ in_bin lo 5 (n - 1) hi /\
  vis_baseline_hist sqrt_ abs_ n_pol kpix lo hi uu vv freq vc vm =
    (cells <- map_res (fun p => map_res (fun i =>
        match bin_positions lo hi 5 lengths i with [] => Ok None | _ => hist_bin sqrt_ abs_ vc vm p (bin_positions lo hi 5 lengths i) end)
        (seq 0 n)) (seq 0 n_pol) ;;
     let cell p i := nth i (nth p cells []) None in
     Ok {| bh_length := n;
          bh_mean := Arr2 n_pol n (fun p i => match cell p i with Some (m, _) => m | None => 0 end);
          bh_sigma := Arr2 n_pol n (fun p i => match cell p i with Some (_, s) => s | None => 0 end) |}).
Proof.
  intros [E1 E2 (V1 & V2 & V3) (M1 & M2 & M3)] LL. unfold vis_baseline_hist. rewrite (lengths_eq _ _ _ _ _ _ LL).
  rewrite E1, Nat.eqb_refl. cbn [negb].
  destruct (reverse_indices lengths 5 lo hi ltac:(reflexivity) E2) as (h & b & ri & R & _ & _ & _ & R4 & _).
  destruct (histogram_counts lengths 5 lo hi ltac:(reflexivity) E2) as (h' & b' & ri' & R' & C1 & _ & C3 & C4 & C5).
  rewrite R in R'. injection R' as <- <- <-. rewrite R. cbn [bind].
  rewrite (proj2 (Nat.ltb_ge _ _) V1), (proj2 (Nat.ltb_ge _ _) M1). cbn [orb].
  exists (length b). split; [|split; auto].
  - destruct (proj1 C5 hi) as (i & (Hi & _) & _); [split; [auto|apply Qle_refl]|]. lia.
  - assert (MR : forall {A B} (f g : A -> result B) l, (forall x, In x l -> f x = g x) -> map_res f l = map_res g l).
    { intros A B f g l. induction l as [|x l IH]; intros Hx; cbn [map_res]; auto. rewrite (Hx x (or_introl eq_refl)), IH; auto.
      intros y Y. apply Hx. now right. }
    f_equal. apply MR. intros p Hp. apply MR. intros i Hi. apply in_seq in Hi.
    destruct (R4 i ltac:(lia)) as (R5 & R6). rewrite R6.
    destruct (bin_positions lo hi 5 lengths i) as [|k l] eqn:BP.
    + destruct (0 <? nth i h 0)%nat; reflexivity.
    + replace (0 <? nth i h 0)%nat with true; auto. symmetry. apply Nat.ltb_lt.
      destruct (nth i h 0%nat) eqn:Z0; [|lia]. exfalso. rewrite R5, Nat.add_0_r in R6. unfold slice in R6. rewrite Nat.sub_diag in R6. discriminate.
Qed.
