(** Proofs about the model of resistant_mean. *)
From Coq Require Import Qabs Permutation Lqa Sorting.Sorted.
From Verif Require Import Base SortLib GridLoc GridLocProofs VisWeights ResMean ResMeanSpec.
Open Scope Q_scope.
Ltac Zify.zify_post_hook ::= idtac.

(** ** Sorting *)
Lemma Qle_total_b x y : Qle_bool x y = true \/ Qle_bool y x = true.
Proof. rewrite !Qle_bool_iff. destruct (Qlt_le_dec x y); [left; now apply Qlt_le_weak|now right]. Qed.
Lemma Qle_trans_b x y z : Qle_bool x y = true -> Qle_bool y z = true -> Qle_bool x z = true.
Proof. rewrite !Qle_bool_iff. apply Qle_trans. Qed.
Definition sortedQ (s : list Q) : Prop :=
  forall i j, (i <= j)%nat -> (j < length s)%nat -> nth i s 0 <= nth j s 0.
Lemma isort_sortedQ l : sortedQ (isort Qle_bool l).
Proof.
  intros i j H1 H2. destruct (Nat.eq_dec i j) as [->|]; [apply Qle_refl|].
  apply Qle_bool_iff. apply (sorted_nth Qle_bool Qle_total_b Qle_trans_b (isort Qle_bool l) 0); [|lia|lia].
  apply (isort_sorted Qle_bool Qle_total_b Qle_trans_b).
Qed.

Lemma np_median_med l m : np_median l = Some m -> is_med l m.
Proof.
  intros H. exists (isort Qle_bool l). split; [apply isort_perm|]. split; [apply isort_sortedQ|].
  rewrite isort_length. destruct l as [|x l]; [discriminate H|]. split; [discriminate|].
  unfold np_median in H. injection H as <-. reflexivity.
Qed.
Lemma np_median_some l : l <> [] -> exists m, np_median l = Some m.
Proof. destruct l; [congruence|]. intros _. eexists. reflexivity. Qed.

(** Order statistics depend only on how many elements are below each level. *)
Definition cnt (c : Q) (l : list Q) : nat := length (filter (fun x => Qle_bool x c) l).
Lemma cnt_perm c l l' : Permutation l l' -> cnt c l = cnt c l'.
Proof.
  unfold cnt. induction 1 as [|x l l' H IH|x y l|l l' l'' H IH H' IH']; cbn [filter]; auto.
  - destruct (Qle_bool x c); cbn [length]; auto.
  - destruct (Qle_bool x c), (Qle_bool y c); auto.
  - congruence.
Qed.
Lemma cnt_app c l l' : cnt c (l ++ l') = (cnt c l + cnt c l')%nat.
Proof. unfold cnt. now rewrite filter_app, app_length. Qed.
Lemma cnt_all c l : (forall x, In x l -> x <= c) -> cnt c l = length l.
Proof.
  intros H. unfold cnt. f_equal. apply filter_all. intros x Hx. apply Qle_bool_iff. auto.
Qed.
Lemma cnt_none c l : (forall x, In x l -> c < x) -> cnt c l = 0%nat.
Proof.
  intros H. unfold cnt. rewrite filter_none; auto. intros x Hx. apply not_true_iff_false.
  rewrite Qle_bool_iff. apply Qlt_not_le. auto.
Qed.
Lemma sorted_below s k c : sortedQ s -> (k < length s)%nat -> nth k s 0 <= c -> (S k <= cnt c s)%nat.
Proof.
  intros HS Hk Hc. rewrite <- (firstn_skipn (S k) s), cnt_app.
  rewrite (cnt_all c (firstn (S k) s)); [rewrite firstn_length; lia|].
  intros x Hx. apply (In_nth _ _ 0) in Hx as (i & Hi & <-). rewrite firstn_length in Hi.
  rewrite nth_firstn by lia. eapply Qle_trans; [|exact Hc]. apply HS; lia.
Qed.
Lemma sorted_above s k c : sortedQ s -> (k < length s)%nat -> c < nth k s 0 -> (cnt c s <= k)%nat.
Proof.
  intros HS Hk Hc. rewrite <- (firstn_skipn k s), cnt_app.
  rewrite (cnt_none c (skipn k s)).
  - unfold cnt. pose proof (filter_length_le (fun x => Qle_bool x c) (firstn k s)). rewrite firstn_length in H. lia.
  - intros x Hx. apply (In_nth _ _ 0) in Hx as (i & Hi & <-). rewrite skipn_length in Hi.
    rewrite nth_skipn. eapply Qlt_le_trans; [exact Hc|]. apply HS; lia.
Qed.
Lemma rank_eq s s' : length s = length s' -> (forall c, cnt c s = cnt c s') -> sortedQ s -> sortedQ s' ->
  forall k, (k < length s)%nat -> nth k s 0 == nth k s' 0.
Proof.
  intros HL HC HS HS' k Hk.
  assert (G : forall s s', length s = length s' -> (forall c, cnt c s = cnt c s') -> sortedQ s -> sortedQ s' ->
     (k < length s)%nat -> nth k s 0 <= nth k s' 0).
  { clear. intros s s' HL HC HS HS' Hk. apply Qnot_lt_le. intros H.
    pose proof (sorted_below s' k _ HS' ltac:(lia) (Qle_refl _)) as A.
    pose proof (sorted_above s k _ HS Hk H) as B. rewrite HC in B. lia. }
  apply Qle_antisym; apply G; auto. lia.
Qed.
Lemma is_med_unique l l' m m' : length l = length l' -> (forall c, cnt c l = cnt c l') ->
  is_med l m -> is_med l' m' -> m == m'.
Proof.
  intros HL HC (s & P & S & N & E) (s' & P' & S' & N' & E').
  assert (L1 : length s = length l) by (symmetry; now apply Permutation_length).
  assert (L2 : length s' = length l') by (symmetry; now apply Permutation_length).
  assert (LE : length s = length s') by congruence.
  assert (C : forall c, cnt c s = cnt c s') by (intros c; rewrite <- (cnt_perm c l s), <- (cnt_perm c l' s'); auto).
  assert (L0 : (0 < length l)%nat) by (destruct l; [congruence|cbn; lia]).
  rewrite E, E', <- LE. rewrite (rank_eq s s' LE C S S' ((length s - 1) / 2)).
  - rewrite (rank_eq s s' LE C S S' (length s / 2)); [reflexivity|]. apply Nat.div_lt; lia.
  - apply Nat.div_lt_upper_bound; lia.
Qed.

(** ** Means *)
Lemma sum_bounds l lo hi : (forall x, In x l -> lo <= x <= hi) ->
  inject_Z (Z.of_nat (length l)) * lo <= Qsum l <= inject_Z (Z.of_nat (length l)) * hi.
Proof.
  unfold Qsum. induction l as [|x l IH]; intros H; cbn [fold_right length].
  - change (inject_Z (Z.of_nat 0)) with 0. lra.
  - rewrite Nat2Z.inj_succ. unfold Z.succ. rewrite inject_Z_plus. change (inject_Z 1) with 1.
    specialize (IH ltac:(intros; apply H; now right)). specialize (H x (or_introl eq_refl)). lra.
Qed.
Lemma len_pos {A} (l : list A) : l <> [] -> 0 < inject_Z (Z.of_nat (length l)).
Proof. intros H. change 0 with (inject_Z 0). rewrite <- Zlt_Qlt. destruct l; [congruence|cbn [length]; lia]. Qed.
Lemma Qmean_mean l : l <> [] -> is_mean l (Qmean l).
Proof.
  intros H. split; auto. unfold Qmean. pose proof (len_pos l H). fold (Qsum l). field. lra.
Qed.
Lemma Qvar_var l : l <> [] -> is_var l (Qvar l).
Proof.
  intros H. exists (Qmean l). split; [now apply Qmean_mean|]. unfold Qvar. apply Qmean_mean.
  destruct l; [congruence|discriminate].
Qed.
Lemma mean_between l m : is_mean l m -> exists lo hi, In lo l /\ In hi l /\ lo <= m <= hi.
Proof.
  intros [N E].
  assert (X : exists lo hi, In lo l /\ In hi l /\ forall x, In x l -> lo <= x <= hi).
  { clear E. induction l as [|a l IH]; [congruence|]. destruct l as [|b l].
    - exists a, a. split; [now left|]. split; [now left|]. intros x [<-|[]]. split; apply Qle_refl.
    - destruct IH as (lo & hi & I1 & I2 & B); [discriminate|].
      exists (if Qlt_le_dec a lo then a else lo), (if Qlt_le_dec hi a then a else hi).
      split; [destruct (Qlt_le_dec a lo); [now left|now right]|].
      split; [destruct (Qlt_le_dec hi a); [now left|now right]|].
      intros x [<-|Hx].
      + destruct (Qlt_le_dec a lo), (Qlt_le_dec hi a); split; auto; apply Qle_refl.
      + specialize (B x Hx). destruct (Qlt_le_dec a lo), (Qlt_le_dec hi a); lra. }
  destruct X as (lo & hi & I1 & I2 & B). exists lo, hi. split; auto. split; auto.
  pose proof (sum_bounds l lo hi B) as [S1 S2]. pose proof (len_pos l N) as P. unfold Qsum in *. rewrite <- E in S1, S2.
  split.
  - apply (Qmult_le_l _ _ _ P). rewrite (Qmult_comm _ m). exact S1.
  - apply (Qmult_le_l _ _ _ P). rewrite (Qmult_comm _ m). exact S2.
Qed.

Lemma sigma_poly_pos x : 1 <= x -> 0 < sigma_poly x.
Proof.
  intros H. unfold sigma_poly.
  assert (Q : 21 # 100 <= ((20142 # 1000000) * x - (23584 # 100000)) * x + (90723 # 100000)).
  { assert (0 <= ((20142 # 1000000) * x - (11792 # 100000)) * ((20142 # 1000000) * x - (11792 # 100000))).
    { destruct (Qlt_le_dec ((20142 # 1000000) * x - (11792 # 100000)) 0); [|apply Qmult_le_0_compat; auto].
      setoid_replace (((20142 # 1000000) * x - (11792 # 100000)) * ((20142 # 1000000) * x - (11792 # 100000)))
        with ((- ((20142 # 1000000) * x - (11792 # 100000))) * (- ((20142 # 1000000) * x - (11792 # 100000)))) by ring.
      apply Qmult_le_0_compat; lra. }
    nra. }
  nra.
Qed.

Lemma Qabs_sq x : Qabs x * Qabs x == x * x.
Proof. rewrite <- Qabs_Qmult. apply Qabs_pos. apply Qsq_nonneg. Qed.

Lemma var_nonneg l : 0 <= Qvar l.
Proof.
  unfold Qvar. destruct l as [|a l]; [discriminate|].
  set (m := map _ (a :: l)). assert (N : m <> []) by discriminate.
  destruct (mean_between m (Qmean m) (Qmean_mean m N)) as (lo & hi & I & _ & B & _).
  apply in_map_iff in I as (x & <- & _). eapply Qle_trans; [apply Qsq_nonneg|exact B].
Qed.

(** The squared second threshold. *)
Definition thr2 (var d : Q) : Q :=
  (let dx := if Qle_bool d 1 then 1 else d in
   if Qle_bool dx (9 # 2) then var / (sigma_poly dx * sigma_poly dx) else var) * (d * d).

Lemma thr2_correction d : exists c, correction d c /\ 0 < c /\ forall v, thr2 v d * (c * c) == v * (d * d).
Proof.
  unfold thr2, correction. cbv zeta.
  set (dx := if Qle_bool d 1 then 1 else d).
  assert (DX : (d <= 1 /\ dx == 1 \/ 1 < d /\ dx == d) /\ 1 <= dx).
  { unfold dx. destruct (Qle_bool d 1) eqn:E.
    - apply Qle_bool_iff in E. split; [left; split; auto; reflexivity|lra].
    - rewrite <- not_true_iff_false, Qle_bool_iff in E. apply Qnot_le_lt in E. split; [right; split; auto; reflexivity|lra]. }
  destruct DX as [DX D1].
  destruct (Qle_bool dx (9 # 2)) eqn:E.
  - apply Qle_bool_iff in E. exists (sigma_poly dx). pose proof (sigma_poly_pos dx D1) as P. split; [left; split|split; auto].
    + destruct DX as [[? ?]|[? X]]; [lra|]. rewrite <- X. lra.
    + exists dx. split; auto. unfold sigma_poly. ring.
    + intros v. field. lra.
  - rewrite <- not_true_iff_false, Qle_bool_iff in E. apply Qnot_le_lt in E. exists 1. split; [right; split|split].
    + destruct DX as [[? X]|[? X]]; rewrite X in E; lra.
    + reflexivity. + lra. + intros v. ring.
Qed.
Lemma thr2_nonneg v d : 0 <= v -> 0 <= thr2 v d.
Proof.
  intros H. destruct (thr2_correction d) as (c & _ & P & E). specialize (E v).
  assert (A : 0 <= v * (d * d)). { apply Qmult_le_0_compat; auto. apply Qsq_nonneg. }
  rewrite <- E in A. apply Qnot_lt_le. intros N. assert (0 < c * c) by nra. nra.
Qed.

(** A readable form of the function. *)
Definition inner (a : list Q) (med mad d : Q) : list Q :=
  filter (fun x => Qle_bool (Qabs (x - med)) (d * (mad / mad_scale))) a.
Definition kept (a : list Q) (med t : Q) : list Q :=
  filter (fun x => Qle_bool (Qabs (x - med) * Qabs (x - med)) t) a.
Lemma resistant_mean_eq a d : resistant_mean a d =
  match np_median a with
  | None => None
  | Some med => match np_median (map (fun x => Qabs (x - med)) a) with
    | None => None
    | Some mad => match inner a med mad d with
      | [] => None
      | _ => match kept a med (thr2 (Qvar (inner a med mad d)) d) with
             | [] => None | _ => Some (Qmean (kept a med (thr2 (Qvar (inner a med mad d)) d))) end
      end
    end
  end.
Proof.
  unfold resistant_mean. destruct (np_median a) as [med|]; auto.
Qed.

Lemma resistant_inv a d v : resistant_mean a d = Some v ->
  exists med mad, np_median a = Some med /\ np_median (map (fun x => Qabs (x - med)) a) = Some mad
    /\ inner a med mad d <> [] /\ kept a med (thr2 (Qvar (inner a med mad d)) d) <> []
    /\ v = Qmean (kept a med (thr2 (Qvar (inner a med mad d)) d)).
Proof.
  rewrite resistant_mean_eq. destruct (np_median a) as [med|] eqn:E1; [|discriminate].
  destruct (np_median (map _ a)) as [mad|] eqn:E2; [|discriminate].
  intros H. exists med, mad. split; auto. split; auto.
  destruct (inner a med mad d) as [|y l] eqn:EI; [discriminate H|]. split; [discriminate|].
  destruct (kept _ _ _) as [|z k] eqn:EK; [discriminate H|]. split; [discriminate|]. congruence.
Qed.

Lemma filter_decides {A} (p q : A -> bool) l : (forall x, p x = true <-> q x = true) -> filter p l = filter q l.
Proof. intros H. apply filter_ext. intros x. apply eq_true_iff_eq, H. Qed.

(** An element equal to the median survives both cuts. *)
Lemma median_kept a d x med : np_median a = Some med -> In x a -> x == med -> 0 <= d ->
  exists v, resistant_mean a d = Some v.
Proof.
  intros HM Hx E Hd. rewrite resistant_mean_eq, HM.
  destruct (np_median_some (map (fun x => Qabs (x - med)) a)) as (mad & HD).
  { intros H. apply map_eq_nil in H. subst a. destruct Hx. }
  rewrite HD.
  assert (Z : Qabs (x - med) == 0). { rewrite E. setoid_replace (med - med) with 0 by ring. reflexivity. }
  assert (M0 : 0 <= mad).
  { apply np_median_med in HD as (s & P & S & N & Em).
    assert (NN : forall k, (k < length s)%nat -> 0 <= nth k s 0).
    { intros k Hk. assert (I : In (nth k s 0) (map (fun x => Qabs (x - med)) a)).
      { eapply Permutation_in; [apply Permutation_sym, P|]. now apply nth_In. }
      apply in_map_iff in I as (y & <- & _). apply Qabs_nonneg. }
    assert (L : (0 < length s)%nat). { rewrite <- (Permutation_length P). destruct (map _ a); [congruence|cbn; lia]. }
    assert (L1 : ((length s - 1) / 2 < length s)%nat) by (apply Nat.div_lt_upper_bound; lia).
    assert (L2 : (length s / 2 < length s)%nat) by (apply Nat.div_lt; lia).
    pose proof (NN _ L1). pose proof (NN _ L2). rewrite Em. apply Qle_shift_div_l; [reflexivity|]. lra. }
  assert (I1 : In x (inner a med mad d)).
  { unfold inner. apply filter_In. split; auto. apply Qle_bool_iff. rewrite Z.
    apply Qmult_le_0_compat; auto. apply Qle_shift_div_l; [reflexivity|]. lra. }
  assert (I2 : In x (kept a med (thr2 (Qvar (inner a med mad d)) d))).
  { unfold kept. apply filter_In. split; auto. apply Qle_bool_iff. rewrite Z.
    pose proof (thr2_nonneg (Qvar (inner a med mad d)) d (var_nonneg _)). lra. }
  destruct (inner a med mad d) as [|y l]; [destruct I1|].
  destruct (kept _ _ _) as [|z k]; [destruct I2|]. eexists. reflexivity.
Qed.

(** ** Permutations *)
Lemma Qsum_perm l l' : Permutation l l' -> Qsum l == Qsum l'.
Proof.
  unfold Qsum. induction 1; cbn [fold_right]; try lra.
Qed.
Lemma Qmean_perm l l' : Permutation l l' -> Qmean l == Qmean l'.
Proof. intros H. unfold Qmean. rewrite (Qsum_perm _ _ H), (Permutation_length H). reflexivity. Qed.
Lemma Qsum_pointwise (f g : Q -> Q) l : (forall x, f x == g x) -> Qsum (map f l) == Qsum (map g l).
Proof. intros H. unfold Qsum. induction l as [|x l IH]; cbn [map fold_right]; [reflexivity|]. rewrite IH, H. reflexivity. Qed.
Lemma Qvar_perm l l' : Permutation l l' -> Qvar l == Qvar l'.
Proof.
  intros H. unfold Qvar. rewrite (Qmean_perm _ _ (Permutation_map (fun x => (x - Qmean l) * (x - Qmean l)) H)).
  unfold Qmean at 1 4. rewrite !map_length.
  rewrite (Qsum_pointwise _ (fun x => (x - Qmean l') * (x - Qmean l'))); [reflexivity|].
  intros x. rewrite (Qmean_perm _ _ H). reflexivity.
Qed.
Lemma filter_perm {A} (p q : A -> bool) l l' : Permutation l l' -> (forall x, p x = q x) -> Permutation (filter p l) (filter q l').
Proof.
  intros H E. rewrite (filter_ext _ _ E l). clear E p. induction H as [|x l l' H IH|x y l|l l' l'' H IH H' IH']; cbn [filter]; auto.
  - destruct (q x); auto.
  - destruct (q x), (q y); auto. constructor.
  - eapply perm_trans; eassumption.
Qed.
Lemma Qle_bool_ext a b c d : a == b -> c == d -> Qle_bool a c = Qle_bool b d.
Proof. intros H1 H2. apply eq_true_iff_eq. rewrite !Qle_bool_iff, H1, H2. reflexivity. Qed.
Lemma thr2_ext v v' d : v == v' -> thr2 v d == thr2 v' d.
Proof. intros H. unfold thr2. cbv zeta. destruct (Qle_bool (if Qle_bool d 1 then 1 else d) (9 # 2)); rewrite H; reflexivity. Qed.
