From Coq Require Import ZifyBool ZifyNat.
From Verif Require Import Base SortLib PyIndex Cplx WeightInvert WeightInvertProofs AutoProofs CalFlag CalFlagSpec.
Open Scope nat_scope.
Ltac Zify.zify_post_hook ::= idtac.

Lemma clear_at_length l idx : length (clear_at l idx) = length l.
Proof.
  unfold clear_at. revert l. induction idx as [|k idx IH]; intros l; auto. cbn [fold_left]. rewrite IH. apply upd_length.
Qed.

Lemma nth_clear_at l idx k : nth k (clear_at l idx) 0%Z = if existsb (Nat.eqb k) idx then 0%Z else nth k l 0%Z.
Proof.
  unfold clear_at. revert l. induction idx as [|j idx IH]; intros l; auto. cbn [fold_left existsb]. rewrite IH.
  destruct (existsb (Nat.eqb k) idx) eqn:E; [now rewrite orb_true_r|]. rewrite orb_false_r, nth_upd.
  destruct (Nat.eqb k j) eqn:F.
  - apply Nat.eqb_eq in F. subst j. rewrite Nat.eqb_refl. cbn [andb]. destruct (k <? length l) eqn:G; auto.
    rewrite nth_overflow; auto. lia.
  - replace (j =? k) with false by lia. reflexivity.
Qed.

Lemma only_refl l : only_removes l l.
Proof. split; auto. Qed.
Lemma only_trans a b c : only_removes a b -> only_removes b c -> only_removes a c.
Proof.
  intros [L1 H1] [L2 H2]. split; [congruence|]. intros k. destruct (H2 k) as [E|E]; auto. rewrite E. apply H1.
Qed.
Lemma clear_removes l idx : only_removes l (clear_at l idx).
Proof.
  split; [apply clear_at_length|]. intros k. rewrite nth_clear_at. destruct (existsb _ _); auto.
Qed.

Lemma nonzero_in_use l : in_use l (nonzero l).
Proof.
  split.
  - intros k. unfold nonzero. rewrite (In_where _ _ 0%Z). rewrite negb_true_iff, Z.eqb_neq. reflexivity.
  - unfold nonzero. rewrite (where_spec _ _ 0%Z). apply filter_sorted, seq_sorted.
Qed.

Lemma in_use_unique l idx : in_use l idx -> idx = nonzero l.
Proof.
  intros [H S1]. destruct (nonzero_in_use l) as [H' S2]. apply sorted_lt_ext; auto. intros x. now rewrite H, H'.
Qed.

(** ** The loops stop *)
Lemma amp_loop_ok std median : forall fuel iter n_addl n_cut ff tf ta fu tu fc tc, 3 <= iter + fuel ->
  exists fc' tc' k, amp_loop std median fuel iter n_addl n_cut ff tf ta fu tu fc tc = Ok (fc', tc', k)
    /\ (k <= 3 \/ k = iter).
Proof.
  induction fuel as [|fuel IH]; intros iter n_addl n_cut ff tf ta fu tu fc tc H; cbn [amp_loop].
  - replace (iter <? 3) with false by lia. rewrite andb_false_r. eauto 6.
  - destruct (_ && _) eqn:E; [|eauto 6].
    edestruct IH as (fc' & tc' & k & R & K); [|exists fc', tc', k; split; [exact R|lia]]. lia.
Qed.

Lemma phase_loop_ok median nanstd : forall fuel iter n_addl n_cut sl sg tc, 3 <= iter + fuel ->
  exists tc' k, phase_loop median nanstd fuel iter n_addl n_cut sl sg tc = Ok (tc', k).
Proof.
  induction fuel as [|fuel IH]; intros iter n_addl n_cut sl sg tc H; cbn [phase_loop].
  - replace (iter <? 3) with false by lia. rewrite andb_false_r. eauto.
  - destruct (_ && _) eqn:E; [|eauto]. apply IH. lia.
Qed.

(** ** Amplitudes *)
Definition amp_test (median : list xf -> xf) (ta : list xf) (k : nat) : bool :=
  xgt (xdiv (median ta) q2) (nth k ta NaN) || xgt (nth k ta NaN) (xmul (median ta) q2).

Lemma amp_loop_cuts std median k : forall fuel iter n_addl n_cut ff tf ta fu tu fc tc fc' tc' p,
  k < length tf -> amp_test median ta k = true ->
  (0 <? n_addl)%Z && (iter <? 3) = true \/ In k tc ->
  amp_loop std median fuel iter n_addl n_cut ff tf ta fu tu fc tc = Ok (fc', tc', p) -> In k tc'.
Proof.
  induction fuel as [|fuel IH]; intros iter n_addl n_cut ff tf ta fu tu fc tc fc' tc' p Hk T C H; cbn [amp_loop] in H.
  - destruct (_ && _) eqn:E; [discriminate|]. injection H as <- <- <-. destruct C; [discriminate|auto].
  - destruct (_ && _) eqn:E.
    + eapply IH in H; eauto. right. apply filter_In. split; [apply in_seq; lia|].
      unfold amp_test in T. rewrite T. apply orb_true_r.
    + injection H as <- <- <-. destruct C; [discriminate|auto].
Qed.

Lemma pol_removes std median nanstd fuel st t f t' f' :
  flag_pol std median nanstd fuel st (t, f) = Ok (t', f') -> only_removes t t' /\ only_removes f f'.
Proof.
  unfold flag_pol. intros H.
  destruct (st_tile_fom _ _ _) as [tf|]; cbn [bind] in H; [|discriminate].
  destruct (amp_loop _ _ _ _ _ _ _ _ _ _ _ _ _) as [[[fc tc] p]|]; cbn [bind] in H; [|discriminate].
  destruct (st_phase _ _ _) as [ph|]; cbn [bind] in H; [|discriminate].
  destruct (phase_loop _ _ _ _ _ _ _ _ _) as [[c q]|]; cbn [bind] in H; [|discriminate].
  injection H as <- <-. split; [|apply clear_removes]. eapply only_trans; apply clear_removes.
Qed.

Lemma pols_remove std median nanstd fuel sts : forall u u',
  fold_res (fun u st => flag_pol std median nanstd fuel st u) sts u = Ok u' ->
  only_removes (fst u) (fst u') /\ only_removes (snd u) (snd u').
Proof.
  induction sts as [|st sts IH]; intros [t f] u' H; cbn [fold_res] in H.
  - injection H as <-. split; apply only_refl.
  - destruct (flag_pol _ _ _ _ _ _) as [[t1 f1]|] eqn:E; cbn [bind] in H; [|discriminate].
    apply pol_removes in E as [E1 E2]. apply IH in H as [H1 H2]. cbn [fst snd] in *.
    split; eapply only_trans; eauto.
Qed.

Lemma in_pick {A} (l : list A) idx d k : In k idx -> In (nth k l d) (pick l idx d).
Proof. intros H. unfold pick. apply in_map_iff. eauto. Qed.


Lemma removed_stays a b k : only_removes a b -> nth k a 0%Z = 0%Z -> nth k b 0%Z = 0%Z.
Proof. intros [_ H] E. destruct (H k); congruence. Qed.

Lemma bad_test median ta k typ amp : median ta = Fin typ -> nth k ta NaN = Fin amp -> bad_amplitude typ amp ->
  amp_test median ta k = true.
Proof.
  intros M E B. unfold amp_test. rewrite M, E. unfold q2, xdiv, xmul, xgt.
  destruct (Qc_eq_dec (Q2Qc 2) 0) as [X|_]; [discriminate X|]. cbn [xge].
  apply orb_true_iff. destruct B as [B|B]; [left|right]; apply andb_true_iff; split.
  - apply Qcleb_true. now apply Qclt_le_weak.
  - apply negb_true_iff. destruct (Qcleb _ _) eqn:F; auto. apply Qcleb_true in F. exfalso. eapply Qclt_not_le; eauto.
  - apply Qcleb_true. now apply Qclt_le_weak.
  - apply negb_true_iff. destruct (Qcleb _ _) eqn:F; auto. apply Qcleb_true in F. exfalso. eapply Qclt_not_le; eauto.
Qed.

(** ** Equal statistics *)
Lemma where_repeat {A} (p : A -> bool) (x : A) n : where_ p (repeat x n) = if p x then seq 0 n else [].
Proof.
  rewrite (where_spec p _ x), repeat_length. destruct (p x) eqn:E.
  - apply filter_all. intros k Hk. apply in_seq in Hk. now rewrite nth_repeat_lt by lia.
  - apply filter_none. intros k Hk. apply in_seq in Hk. now rewrite nth_repeat_lt by lia.
Qed.
Lemma pick_repeat {A} (x d : A) n : pick (repeat x n) (seq 0 n) d = repeat x n.
Proof.
  apply (list_ext d); unfold pick; rewrite map_length, seq_length; [now rewrite repeat_length|].
  intros k Hk. rewrite nth_map_seq by auto. reflexivity.
Qed.
Lemma map_nan0 c n : map nan0 (repeat (Fin c) n) = repeat (Fin c) n.
Proof. induction n as [|n IH]; auto. cbn [repeat map nan0]. now rewrite IH. Qed.

Lemma q5_0 c : xsub (xsub (Fin c) (Fin c)) (xmul q5 (Fin 0%Qc)) = Fin 0%Qc.
Proof.
  unfold q5. unfold xsub. cbn [xadd xopp xmul]. f_equal. ring.
Qed.

Lemma uniform_tiles std median nanstd c a n : fair std median nanstd -> (0 <= a)%Qc ->
  filter (fun k =>
    xgt0 (xsub (xsub (nth k (repeat (Fin c) n) NaN) (median (repeat (Fin c) n))) (xmul q5 (std (repeat (Fin c) n))))
    || (xgt (xdiv (median (repeat (Fin a) n)) q2) (nth k (repeat (Fin a) n) NaN)
        || xgt (nth k (repeat (Fin a) n) NaN) (xmul (median (repeat (Fin a) n)) q2)))
    (seq 0 (length (repeat (Fin c) n))) = [].
Proof.
  intros F Ha. rewrite repeat_length. apply filter_none. intros k Hk. apply in_seq in Hk.
  destruct n as [|n]; [lia|]. rewrite !(fair_median _ _ _ F), (fair_std _ _ _ F), !nth_repeat_lt, q5_0 by lia.
  unfold q2, xdiv, xmul, xgt. destruct (Qc_eq_dec (Q2Qc 2) 0) as [X|_]; [discriminate X|]. cbn [xge].
  assert (E1 : Qcleb (a / Q2Qc 2) a = true).
  { apply Qcleb_true. unfold Qcdiv. apply Qc_sub_nonneg.
    replace (a - a * / Q2Qc 2)%Qc with (a * (1 - / Q2Qc 2))%Qc by ring. apply Qcmul_nonneg; auto. discriminate. }
  assert (E2 : Qcleb a (a * Q2Qc 2) = true).
  { apply Qcleb_true. apply Qc_sub_nonneg. replace (a * Q2Qc 2 - a)%Qc with (a * (Q2Qc 2 - 1))%Qc by ring.
    apply Qcmul_nonneg; auto. discriminate. }
  rewrite E1, E2. cbn [negb]. rewrite !andb_false_r. reflexivity.
Qed.

Lemma uniform_freqs std median nanstd c n : fair std median nanstd ->
  where_ (fun x => xgt0 (xsub (xsub x (median (repeat (Fin c) n))) (xmul q5 (std (repeat (Fin c) n))))) (repeat (Fin c) n) = [].
Proof.
  intros F. destruct n as [|n]; [reflexivity|]. rewrite where_repeat, (fair_median _ _ _ F), (fair_std _ _ _ F), q5_0.
  reflexivity.
Qed.

Lemma without_nil l : without l [] = l.
Proof. unfold without. apply filter_all. reflexivity. Qed.

Lemma uniform_amp std median nanstd f c a nf nt : fair std median nanstd -> (0 <= a)%Qc ->
  forall fuel iter n_addl n_cut, 3 <= iter + fuel -> 
  exists k, amp_loop std median fuel iter n_addl n_cut (repeat (Fin f) nf) (repeat (Fin c) nt) (repeat (Fin a) nt)
    (seq 0 nf) (seq 0 nt) [] [] = Ok ([], [], k).
Proof.
  intros F Ha. induction fuel as [|fuel IH]; intros iter n_addl n_cut H; cbn [amp_loop].
  - replace (iter <? 3) with false by lia. rewrite andb_false_r. eauto.
  - destruct (_ && _); [|eauto]. rewrite !pick_repeat.
    rewrite (uniform_freqs std median nanstd f nf F), (uniform_tiles std median nanstd c a nt F Ha), !without_nil.
    apply IH. lia.
Qed.

Lemma uniform_phase std median nanstd s p nt : fair std median nanstd ->
  forall fuel iter n_addl n_cut, 3 <= iter + fuel ->
  exists k, phase_loop median nanstd fuel iter n_addl n_cut (repeat (Fin s) nt) (repeat (Fin p) nt) [] = Ok ([], k).
Proof.
  intros F. induction fuel as [|fuel IH]; intros iter n_addl n_cut H; cbn [phase_loop].
  - replace (iter <? 3) with false by lia. rewrite andb_false_r. eauto.
  - destruct (_ && _); [|eauto].
    replace (filter _ _) with (@nil nat); [apply IH; lia|]. symmetry.
    rewrite repeat_length. apply filter_none. intros k Hk. apply in_seq in Hk. destruct nt as [|nt]; [lia|].
    assert (M : map xabs (repeat (Fin s) (S nt)) = repeat (xabs (Fin s)) (S nt)).
    { generalize (S nt). intros m. induction m as [|m IHm]; auto. cbn [repeat map]. now rewrite IHm. }
    rewrite M. cbn [xabs]. rewrite !(fair_median _ _ _ F), !(fair_nanstd _ _ _ F), !nth_repeat_lt by lia.
    assert (Z : forall x, xgt (xsub (Fin x) (Fin x)) (xmul q5 (Fin 0%Qc)) = false).
    { intros x. unfold xsub, q5, xgt. cbn [xadd xopp xmul xge].
      replace (x + - x)%Qc with 0%Qc by ring. replace (Q2Qc 5 * 0)%Qc with 0%Qc by ring. reflexivity. }
    rewrite !Z. reflexivity.
Qed.

Lemma uniform_pol std median nanstd fuel st t f : fair std median nanstd -> uniform st -> 3 <= fuel ->
  flag_pol std median nanstd fuel st (t, f) = Ok (t, f).
Proof.
  intros F (qf & qt & a & s & p & Pf & Pt & Ha & U) H. unfold flag_pol.
  destruct (U (nonzero t) (nonzero f)) as (U1 & U2 & U3 & U4). rewrite U1, U2, U3. cbn [bind].
  rewrite !map_nan0, !where_repeat.
  assert (Nz : forall q, (0 < q)%Qc -> xnonz (Fin q) = true).
  { intros q Hq. cbn [xnonz]. apply negb_true_iff. unfold Qceqb. destruct (Qc_eq_dec q 0) as [->|]; auto.
    exfalso. now apply Qclt_not_eq in Hq. }
  rewrite (Nz qf Pf), (Nz qt Pt). cbn [negb length].
  destruct (uniform_amp std median nanstd qf qt a (length (nonzero f)) (length (nonzero t)) F Ha fuel 0 (Z.max (Z.of_nat (0 + 0)) 1) (Z.of_nat (0 + 0)) ltac:(lia)) as [k ->].
  cbn [bind pick map clear_at fold_left]. rewrite U4. cbn [bind fst snd].
  destruct (uniform_phase std median nanstd s p (length (nonzero t)) F fuel 0 1%Z 0%Z ltac:(lia)) as [k' ->].
  reflexivity.
Qed.

(** ** Phases *)
Definition out_test (median nanstd : list xf -> xf) (sl sg : list xf) (k : nat) : bool :=
  xgt (xsub (nth k (map xabs sl) NaN) (median (map xabs sl))) (xmul q5 (nanstd sl))
  || xgt (xsub (nth k sg NaN) (median sg)) (xmul q5 (nanstd sg)).

Lemma phase_loop_cuts median nanstd k : forall fuel iter n_addl n_cut sl sg tc tc' p,
  k < length sl -> out_test median nanstd sl sg k = true ->
  (0 <? n_addl)%Z && (iter <? 3) = true \/ In k tc ->
  phase_loop median nanstd fuel iter n_addl n_cut sl sg tc = Ok (tc', p) -> In k tc'.
Proof.
  induction fuel as [|fuel IH]; intros iter n_addl n_cut sl sg tc tc' p Hk T C H; cbn [phase_loop] in H.
  - destruct (_ && _) eqn:E; [discriminate|]. injection H as <- <-. destruct C; [discriminate|auto].
  - destruct (_ && _) eqn:E.
    + eapply IH in H; eauto. right. apply filter_In. split; [apply in_seq; lia|exact T].
    + injection H as <- <-. destruct C; [discriminate|auto].
Qed.

Lemma xgt_out median nanstd vs sp k : is_out median nanstd vs sp k ->
  xgt (xsub (nth k vs NaN) (median vs)) (xmul q5 (nanstd sp)) = true.
Proof.
  intros (typ & sd & v & -> & -> & -> & O). unfold stands_out in O.
  unfold xsub, q5, xgt. cbn [xadd xopp xmul xge]. apply andb_true_iff. split.
  - apply Qcleb_true. now apply Qclt_le_weak.
  - apply negb_true_iff. destruct (Qcleb _ _) eqn:F; auto. apply Qcleb_true in F. exfalso. eapply Qclt_not_le; eauto.
Qed.

Lemma pol_stages std median nanstd fuel st t f t' f' : shaped st ->
  flag_pol std median nanstd fuel st (t, f) = Ok (t', f') ->
  exists t1, only_removes t t1 /\ only_removes t1 t'
    /\ (forall k, k < length (nonzero t) -> amp_test median (st_tile_avg st (nonzero t) (nonzero f)) k = true ->
          nth (nth k (nonzero t) 0) t1 0%Z = 0%Z)
    /\ exists sl sg, st_phase st (nonzero t1) (nonzero f') = Ok (sl, sg)
         /\ forall k, k < length (nonzero t1) -> out_test median nanstd sl sg k = true ->
              nth (nth k (nonzero t1) 0) t' 0%Z = 0%Z.
Proof.
  unfold flag_pol. intros Sh H.
  destruct (st_tile_fom _ _ _) as [tf|] eqn:Et; cbn [bind] in H; [|discriminate].
  destruct (Sh (nonzero t) (nonzero f)) as (_ & L & _). specialize (L tf Et).
  destruct (amp_loop _ _ _ _ _ _ _ _ _ _ _ _ _) as [[[fc tc] p]|] eqn:Ea; cbn [bind] in H; [|discriminate].
  set (f1 := clear_at f _) in H. set (t1 := clear_at t _) in H.
  destruct (st_phase _ _ _) as [[sl sg]|] eqn:Ep; cbn [bind fst snd] in H; [|discriminate].
  destruct (phase_loop _ _ _ _ _ _ _ _ _) as [[c q]|] eqn:El; cbn [bind] in H; [|discriminate].
  injection H as <- <-. exists t1. split; [apply clear_removes|]. split; [apply clear_removes|]. split.
  - intros k Hk T.
    eapply (amp_loop_cuts std median k) in Ea; [|rewrite map_length; lia|exact T|left].
    2:{ rewrite andb_true_r. apply Z.ltb_lt. lia. }
    unfold t1. rewrite nth_clear_at. replace (existsb _ _) with true; auto. symmetry. apply existsb_exists.
    exists (nth k (nonzero t) 0). split; [now apply in_pick|apply Nat.eqb_refl].
  - exists sl, sg. split; [exact Ep|]. intros k Hk T.
    destruct (Sh (nonzero t1) (nonzero f1)) as (_ & _ & _ & L4). destruct (L4 _ _ Ep) as [L5 _].
    eapply (phase_loop_cuts median nanstd k) in El; [|lia|exact T|left; reflexivity].
    rewrite nth_clear_at. replace (existsb _ _) with true; auto. symmetry. apply existsb_exists.
    exists (nth k (nonzero t1) 0). split; [now apply in_pick|apply Nat.eqb_refl].
Qed.

(** ** Why something was flagged *)
Lemma xgt0_spec x : xgt0 x = true <-> positive x.
Proof.
  destruct x; cbn [xgt0 positive]; try tauto; try (split; [discriminate|tauto]). rewrite negb_true_iff.
  split; intros H.
  - apply Qcnot_le_lt. intros K. apply Qcleb_true in K. congruence.
  - destruct (Qcleb q 0) eqn:E; auto. apply Qcleb_true in E. exfalso. exact (Qclt_not_le _ _ H E).
Qed.
Lemma xgt_spec a b : xgt a b = true <-> greater a b.
Proof.
  unfold xgt. destruct a as [x| | |], b as [y| | |]; cbn [xge greater negb andb]; try tauto; try (split; [discriminate|tauto]).
  rewrite andb_true_iff, negb_true_iff. split.
  - intros [_ H]. apply Qcnot_le_lt. intros K. apply Qcleb_true in K. congruence.
  - intros H. split; [apply Qcleb_true; now apply Qclt_le_weak|].
    destruct (Qcleb x y) eqn:E; auto. apply Qcleb_true in E. exfalso. exact (Qclt_not_le _ _ H E).
Qed.
Lemma nan0_statistic x : nan0 x = statistic x. Proof. now destruct x. Qed.
Lemma xnonz_spec x : xnonz x = true <-> x <> Fin 0%Qc.
Proof.
  destruct x as [q| | |]; cbn [xnonz]; try (split; [intros _; discriminate|reflexivity]).
  rewrite negb_true_iff. split.
  - intros H K. injection K as ->. now apply Qceqb_false in H.
  - intros H. apply Qceqb_false. congruence.
Qed.
Lemma uncut_first std median vs other : screened std median vs other (where_ xnonz vs).
Proof.
  apply screened_first.
  - rewrite (where_spec _ _ NaN). apply filter_sorted, seq_sorted.
  - intros k. rewrite (In_where _ _ NaN), xnonz_spec. reflexivity.
Qed.
Lemma screened_sorted std median vs other pool : screened std median vs other pool -> StronglySorted lt pool.
Proof. now destruct 1. Qed.
Lemma In_without k u c : In k (without u c) <-> In k u /\ ~ In k c.
Proof.
  unfold without. rewrite filter_In, negb_true_iff. split; intros [A B]; split; auto.
  - intros K. assert (existsb (Nat.eqb k) c = true) by (apply existsb_exists; exists k; split; auto; apply Nat.eqb_refl). congruence.
  - destruct (existsb _ _) eqn:E; auto. apply existsb_exists in E as (j & J & E). apply Nat.eqb_eq in E. now subst j.
Qed.
Lemma screened_lt std median vs other pool k : screened std median vs other pool -> In k pool -> k < length vs.
Proof. induction 1 as [p S H|p p' _ IH S H]; intros I; apply H in I; [tauto|]. apply IH. tauto. Qed.
Definition no_other (_ : nat) : Prop := False.

Lemma amp_loop_reasons std median : forall fuel iter n_addl n_cut ff tf ta fu tu fc tc fc' tc' p,
  let f_out := fun k => k < length ff /\ exists pool, screened std median ff no_other pool /\ exceeds std median ff pool (nth k ff NaN) in
  let a_out := fun k => amplitude_out (median ta) (nth k ta NaN) in
  let t_out := fun k => k < length tf /\ ((exists pool, screened std median tf a_out pool
                                          /\ exceeds std median tf pool (nth k tf NaN)) \/ a_out k) in
  screened std median ff no_other fu -> screened std median tf a_out tu ->
  (0 <? n_addl)%Z && (iter <? 3) = true \/ ((forall k, In k fc -> f_out k) /\ forall k, In k tc -> t_out k) ->
  amp_loop std median fuel iter n_addl n_cut ff tf ta fu tu fc tc = Ok (fc', tc', p) ->
  (forall k, In k fc' -> f_out k) /\ forall k, In k tc' -> t_out k.
Proof.
  induction fuel as [|fuel IH]; intros iter n_addl n_cut ff tf ta fu tu fc tc fc' tc' p f_out a_out t_out Sf St C H; cbn [amp_loop] in H.
  - destruct (_ && _) eqn:E; [discriminate|]. injection H as <- <- <-. destruct C; [discriminate|auto].
  - destruct (_ && _) eqn:E; [|injection H as <- <- <-; destruct C; [discriminate|auto]].
    set (fc1 := where_ _ ff) in H. set (tc1 := filter _ _) in H.
    assert (If : forall k, In k fc1 <-> k < length ff /\ exceeds std median ff fu (nth k ff NaN)).
    { intros k. unfold fc1. rewrite (In_where _ _ NaN), xgt0_spec. reflexivity. }
    assert (It : forall k, In k tc1 <-> k < length tf /\ (exceeds std median tf tu (nth k tf NaN) \/ a_out k)).
    { intros k. unfold tc1. rewrite filter_In, in_seq, !orb_true_iff, xgt0_spec, !xgt_spec. unfold exceeds, values_at, pick, a_out, amplitude_out, q5, q2.
      intuition lia. }
    eapply IH in H; [exact H| | |right; split].
    + eapply screened_next; [exact Sf|apply filter_sorted; eapply screened_sorted; exact Sf|]. intros k. rewrite In_without, If.
      split; [intros [A B]; repeat split; auto; intros K; apply B; split; auto; eapply screened_lt; eauto|].
      intros (A & B & _). split; auto. tauto.
    + eapply screened_next; [exact St|apply filter_sorted; eapply screened_sorted; exact St|]. intros k. rewrite In_without, It.
      split; [intros [A B]; repeat split; auto; intros K; apply B; (split; [eapply screened_lt; eauto|auto])|].
      intros (A & B & D). split; auto. tauto.
    + intros k K. apply If in K as [K1 K2]. split; eauto.
    + intros k K. apply It in K as [K1 [K2|K2]]; split; eauto.
Qed.
Lemma phase_loop_reasons median nanstd : forall fuel iter n_addl n_cut sl sg tc tc' p,
  (forall k, In k tc -> k < length sl /\ phase_out median nanstd sl sg k) ->
  phase_loop median nanstd fuel iter n_addl n_cut sl sg tc = Ok (tc', p) ->
  forall k, In k tc' -> k < length sl /\ phase_out median nanstd sl sg k.
Proof.
  induction fuel as [|fuel IH]; intros iter n_addl n_cut sl sg tc tc' p C H; cbn [phase_loop] in H.
  - destruct (_ && _) eqn:E; [discriminate|]. injection H as <- <-. exact C.
  - destruct (_ && _) eqn:E; [|injection H as <- <-; exact C].
    refine (IH _ _ _ _ _ _ _ _ _ H). intros k K. apply filter_In in K as [K1 K2]. apply in_seq in K1. split; [lia|].
    rewrite orb_true_iff, !xgt_spec in K2. exact K2.
Qed.
Lemma cleared l idx j : nth j l 0%Z <> 0%Z -> nth j (clear_at l idx) 0%Z = 0%Z -> In j idx.
Proof.
  intros A B. rewrite nth_clear_at in B. destruct (existsb _ _) eqn:E; [|contradiction].
  apply existsb_exists in E as (x & X & E). apply Nat.eqb_eq in E. now subst x.
Qed.
Lemma map_statistic l : map nan0 l = map statistic l. Proof. apply map_ext, nan0_statistic. Qed.

Lemma pol_reasons std median nanstd fuel st t f t' f' : flag_pol std median nanstd fuel st (t, f) = Ok (t', f') ->
  exists t1 tf sl sg, st_tile_fom st (nonzero t) (nonzero f) = Ok tf /\ st_phase st (nonzero t1) (nonzero f') = Ok (sl, sg)
  /\ only_removes t t1 /\ only_removes t1 t'
  /\ (forall j, nth j f 0%Z <> 0%Z -> nth j f' 0%Z = 0%Z -> exists k pool,
        k < length (st_freq_fom st (nonzero t) (nonzero f)) /\ nth k (nonzero f) 0 = j
        /\ let ff := map statistic (st_freq_fom st (nonzero t) (nonzero f)) in
           screened std median ff no_other pool /\ exceeds std median ff pool (nth k ff NaN))
  /\ (forall j, nth j t 0%Z <> 0%Z -> nth j t1 0%Z = 0%Z -> exists k, k < length tf /\ nth k (nonzero t) 0 = j
        /\ let ta := st_tile_avg st (nonzero t) (nonzero f) in
           let out := fun k => amplitude_out (median ta) (nth k ta NaN) in
           (out k \/ exists pool, screened std median (map statistic tf) out pool
                      /\ exceeds std median (map statistic tf) pool (nth k (map statistic tf) NaN)))
  /\ (forall j, nth j t1 0%Z <> 0%Z -> nth j t' 0%Z = 0%Z -> exists k, k < length sl /\ nth k (nonzero t1) 0 = j
        /\ phase_out median nanstd sl sg k).
Proof.
  unfold flag_pol. intros H.
  destruct (st_tile_fom _ _ _) as [tf|] eqn:Et; cbn [bind] in H; [|discriminate].
  destruct (amp_loop _ _ _ _ _ _ _ _ _ _ _ _ _) as [[[fc tc] p]|] eqn:Ea; cbn [bind] in H; [|discriminate].
  set (f1 := clear_at f _) in H. set (t1 := clear_at t _) in H.
  destruct (st_phase _ _ _) as [[sl sg]|] eqn:Ep; cbn [bind fst snd] in H; [|discriminate].
  destruct (phase_loop _ _ _ _ _ _ _ _ _) as [[c q]|] eqn:El; cbn [bind] in H; [|discriminate].
  injection H as <- <-. exists t1, tf, sl, sg. split; [reflexivity|]. split; [exact Ep|].
  split; [apply clear_removes|]. split; [apply clear_removes|].
  rewrite !map_statistic in Ea.
  apply (amp_loop_reasons std median) in Ea as [Ef Eg]; [|apply uncut_first|apply uncut_first|left; rewrite andb_true_r; apply Z.ltb_lt; lia].
  split; [|split].
  - intros j J0 J. apply cleared in J; [|exact J0]. apply in_map_iff in J as (k & J & K). apply Ef in K as (L & pool & S & X).
    rewrite map_length in L. exists k, pool. repeat split; auto.
  - intros j J0 J. apply cleared in J; [|exact J0]. apply in_map_iff in J as (k & J & K). apply Eg in K as [L X].
    rewrite map_length in L. exists k. split; [exact L|]. split; [exact J|]. cbn zeta. destruct X as [X|X]; [right; exact X|left; exact X].
  - intros j J0 J. apply cleared in J; [|exact J0]. apply in_map_iff in J as (k & J & K).
    eapply phase_loop_reasons in El; [|intros k' []|exact K]. destruct El as [L X]. exists k. repeat split; auto.
Qed.

Lemma pols_step std median nanstd fuel (lost : list Z * list Z -> Prop) : forall sts u u',
  fold_res (fun u st => flag_pol std median nanstd fuel st u) sts u = Ok u' -> ~ lost u -> lost u' ->
  (forall v, lost v \/ ~ lost v) ->
  exists pre st post u0 u1, sts = pre ++ st :: post
    /\ fold_res (fun u st => flag_pol std median nanstd fuel st u) pre u = Ok u0
    /\ flag_pol std median nanstd fuel st u0 = Ok u1
    /\ fold_res (fun u st => flag_pol std median nanstd fuel st u) post u1 = Ok u' /\ ~ lost u0 /\ lost u1.
Proof.
  induction sts as [|st sts IH]; intros u u' H A B D; cbn [fold_res] in H; [injection H as <-; contradiction|].
  destruct (flag_pol _ _ _ _ st u) as [u1|] eqn:E; cbn [bind] in H; [|discriminate H].
  destruct (D u1) as [L|L].
  - exists [], st, sts, u, u1. repeat split; auto.
  - destruct (IH _ _ H L B D) as (pre & s & post & v0 & v1 & -> & P1 & P2 & P3 & P4 & P5).
    exists (st :: pre), s, post, v0, v1. repeat split; auto. cbn [fold_res]. now rewrite E.
Qed.
