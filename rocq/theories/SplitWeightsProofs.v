From Coq Require Import ZifyBool ZifyNat Lqa Sorted.
From Verif Require Import Base NpArr VisWeights VisWeightsSpec VisWeightsProofs.
Open Scope nat_scope.

(** ** Increasing lists of numbers *)
Definition incr (l : list nat) : Prop := forall i j, i < j -> j < length l -> nth i l 0 < nth j l 0.

Lemma incr_cons a l : incr (a :: l) -> incr l /\ forall x, In x l -> a < x.
Proof.
  intros H. split.
  - intros i j Hij Hj. apply (H (S i) (S j)); simpl; lia.
  - intros x Hx. destruct (In_nth _ _ 0 Hx) as (k & Hk & <-). apply (H 0 (S k)); simpl; lia.
Qed.

Lemma incr_ext l1 : forall l2, incr l1 -> incr l2 -> (forall x, In x l1 <-> In x l2) -> l1 = l2.
Proof.
  induction l1 as [|a l1 IH]; intros [|b l2] H1 H2 HE; auto.
  - exfalso. apply (HE b). now left.
  - exfalso. apply (HE a). now left.
  - apply incr_cons in H1, H2. destruct H1 as [H1 L1], H2 as [H2 L2].
    assert (a = b).
    { destruct (proj1 (HE a) (or_introl eq_refl)) as [|Ha]; auto.
      destruct (proj2 (HE b) (or_introl eq_refl)) as [|Hb]; auto.
      apply L2 in Ha. apply L1 in Hb. lia. }
    subst b. f_equal. apply IH; auto. intros x. split; intros Hx.
    + destruct (proj1 (HE x) (or_intror Hx)) as [<-|]; auto. apply L1 in Hx. lia.
    + destruct (proj2 (HE x) (or_intror Hx)) as [<-|]; auto. apply L2 in Hx. lia.
Qed.

Lemma incr_filter_seq p a n : incr (filter p (seq a n)).
Proof.
  revert a. induction n as [|n IH]; intros a; simpl.
  { intros i j _ Hj. simpl in Hj. lia. }
  destruct (p a); auto. intros [|i] [|j] Hij Hj; try lia; simpl in *.
  - assert (In (nth j (filter p (seq (S a) n)) 0) (filter p (seq (S a) n))) by (apply nth_In; lia).
    apply filter_In in H. rewrite in_seq in H. lia.
  - apply IH; lia.
Qed.

Lemma incr_firstn l n : incr l -> incr (firstn n l).
Proof.
  intros H i j Hij Hj. rewrite firstn_length in Hj. rewrite !nth_firstn by lia. apply H; lia.
Qed.

Lemma incr_map_seq g n : (forall i j, i < j -> j < n -> g i < g j) -> incr (map g (seq 0 n)).
Proof.
  intros H i j Hij Hj. rewrite map_length, seq_length in Hj. rewrite !nth_map_seq by lia. auto.
Qed.

Lemma incr_NoDup l : incr l -> NoDup l.
Proof.
  intros H. apply (NoDup_nth l 0). intros i j Hi Hj E.
  destruct (Nat.lt_trichotomy i j) as [L|[L|L]]; auto; apply H in L; auto; lia.
Qed.

Lemma In_firstn {A} (x : A) n l : In x (firstn n l) -> In x l.
Proof. rewrite <- (firstn_skipn n l) at 2. rewrite in_app_iff. auto. Qed.

(** ** Bin numbers *)
Lemma bin_stop_app n_time nb offs t : length offs = n_time -> t < n_time ->
  bin_stop n_time nb offs t = nth (S t) (offs ++ [nb]) 0.
Proof.
  intros H Ht. unfold bin_stop. destruct (t =? n_time - 1) eqn:E.
  - apply Nat.eqb_eq in E. rewrite app_nth2 by lia. replace (S t - length offs) with 0 by lia. reflexivity.
  - apply Nat.eqb_neq in E. rewrite app_nth1 by lia. reflexivity.
Qed.

Lemma bin_number_spec n_time nb offs b : length offs = n_time -> good_offsets offs nb -> b < nb ->
  exists t, holds_baseline offs nb t b
    /\ nth b (bin_numbers n_time nb offs) 0%Z = if t <? n_time / 2 then Z.of_nat t else (-1)%Z.
Proof.
  intros HL G Hb. destruct (holds_exists _ _ G b Hb) as (t & Ht). exists t. split; auto.
  unfold bin_numbers. rewrite nth_map_seq by auto.
  assert (Hh : forall n, n <= n_time ->
    fold_left (fun acc t0 => if (nth t0 offs 0 <=? b) && (b <? bin_stop n_time nb offs t0) then Z.of_nat t0 else acc)
      (seq 0 n) (-1)%Z = if t <? n then Z.of_nat t else (-1)%Z).
  { induction n as [|n IH]; intros Hn; [reflexivity|].
    rewrite seq_S, fold_left_app, IH by lia. cbn [fold_left Nat.add].
    rewrite bin_stop_app by (auto; lia).
    destruct ((nth n offs 0 <=? b) && (b <? nth (S n) (offs ++ [nb]) 0)) eqn:E.
    - assert (n = t).
      { eapply holds_unique; eauto. split; [lia|]. apply andb_true_iff in E. destruct E as [E1 E2].
        apply Nat.leb_le in E1. apply Nat.ltb_lt in E2. lia. }
      subst n. rewrite (proj2 (Nat.ltb_lt t (S t))) by lia. reflexivity.
    - assert (n <> t).
      { intros ->. destruct Ht as [_ Ht]. apply andb_false_iff in E.
        destruct E as [E|E]; [apply Nat.leb_gt in E|apply Nat.ltb_ge in E]; lia. }
      destruct (t <? n) eqn:E1, (t <? S n) eqn:E2; auto; apply Nat.ltb_lt in E1 || apply Nat.ltb_ge in E1;
        apply Nat.ltb_lt in E2 || apply Nat.ltb_ge in E2; lia. }
  apply Hh. apply Nat.div_le_upper_bound; lia.
Qed.

Lemma bin_numbers_length n_time nb offs : length (bin_numbers n_time nb offs) = nb.
Proof. unfold bin_numbers. now rewrite map_length, seq_length. Qed.

(** A time keeps its place when it and its partner are usable. *)
Definition kept (n_time start : nat) (time_use : list Z) (t : nat) : bool :=
  (0 <? nth t (paired_use n_time time_use start) 0)%Z.

Lemma paired_use_length n tu s : length (paired_use n tu s) = length tu.
Proof. unfold paired_use. now rewrite map_length, seq_length. Qed.

(** The number of baseline b after the cut. *)
Lemma cut_number n_time nb offs tu start b t :
  length offs = n_time -> length tu = n_time -> good_offsets offs nb -> b < nb -> holds_baseline offs nb t b ->
  nth b (map (fun z => if existsb (fun c => (z =? Z.of_nat c)%Z) (where_ (fun z => (z <=? 0)%Z) (paired_use n_time tu start))
                       then (-1)%Z else z) (bin_numbers n_time nb offs)) 0%Z
  = if (t <? n_time / 2) && kept n_time start tu t then Z.of_nat t else (-1)%Z.
Proof.
  intros HL HT G Hb Ht. rewrite (nth_map_lt _ _ _ 0%Z) by now rewrite bin_numbers_length.
  destruct (bin_number_spec n_time nb offs b HL G Hb) as (t' & Ht' & ->).
  assert (t' = t) by (eapply holds_unique; eauto). subst t'.
  destruct (t <? n_time / 2) eqn:E.
  - assert (Hin : existsb (fun c => (Z.of_nat t =? Z.of_nat c)%Z) (where_ (fun z => (z <=? 0)%Z) (paired_use n_time tu start))
             = negb (kept n_time start tu t)).
    { apply eq_true_iff_eq. rewrite existsb_exists, negb_true_iff. unfold kept. rewrite Z.ltb_ge. split.
      - intros (c & Hc & Ec). assert (c = t) by lia. subst c. apply (In_where _ _ 0%Z) in Hc. lia.
      - intros H. exists t. split; [|lia]. apply (In_where _ _ 0%Z). rewrite paired_use_length.
        destruct Ht. split; [lia|]. lia. }
    rewrite Hin. cbn [andb]. destruct (kept n_time start tu t); reflexivity.
  - cbn [andb]. match goal with |- (if ?x then _ else _) = _ => destruct x; reflexivity end.
Qed.

Lemma existsb_ext_ {A} (f g : A -> bool) l : (forall x, f x = g x) -> existsb f l = existsb g l.
Proof. intros H. induction l; simpl; auto. now rewrite H, IHl. Qed.

(** ** Writing through the two index lists *)
Lemma find_spec l n b : NoDup l -> length l = n ->
  match hd_error (filter (fun i => nth i l 0 =? b) (seq 0 n)) with
  | Some i => i < n /\ nth i l 0 = b
  | None => ~ In b l
  end.
Proof.
  intros ND HL. destruct (filter (fun i => nth i l 0 =? b) (seq 0 n)) as [|i r] eqn:E; cbn [hd_error].
  - intros H. destruct (In_nth _ _ 0 H) as (k & Hk & Ek).
    assert (In k []) as []. rewrite <- E. apply filter_In. rewrite in_seq, Nat.eqb_eq. split; auto. lia.
  - assert (H : In i (i :: r)) by now left. rewrite <- E in H. apply filter_In in H.
    rewrite in_seq, Nat.eqb_eq in H. intuition lia.
Qed.

Section Split.
  Variables (n_time n_pol : nat) (offs : list nat) (tu : list Z) (w : arr3 Q).
  Hypothesis HT : 2 <= n_time.
  Hypothesis HL : length offs = n_time.
  Hypothesis HU : length tu = n_time.
  Hypothesis G : good_offsets offs (d_bl w).
  Hypothesis HP : n_pol <= d_pol w.
  Hypothesis Hsome : exists t, t < n_time /\ nth t tu 0%Z <> 0%Z.

  Lemma split_ok : exists start even odd w',
    start < n_time /\ nth start tu 0%Z <> 0%Z /\ (forall t, t < start -> nth t tu 0%Z = 0%Z)
    /\ split_vis_weights n_time n_pol offs tu w = Ok (w', Some (even, odd))
    /\ (let E := filter (fun b => existsb (fun t => (nth t offs 0 <=? b) && (b <? nth (S t) (offs ++ [d_bl w]) 0)
                                          && Nat.even t && kept n_time start tu t) (seq 0 (n_time / 2))) (seq 0 (d_bl w)) in
        let O := filter (fun b => existsb (fun t => (nth t offs 0 <=? b) && (b <? nth (S t) (offs ++ [d_bl w]) 0)
                                          && negb (Nat.even t && (t <? n_time / 2) && kept n_time start tu t)) (seq 0 n_time)) (seq 0 (d_bl w)) in
        even = firstn (Nat.min (length E) (length O)) E /\ odd = firstn (Nat.min (length E) (length O)) O)
    /\ d_pol w' = d_pol w /\ d_freq w' = d_freq w /\ d_bl w' = d_bl w
    /\ (forall p f i, p < n_pol -> i < length even ->
          let v := Qmin (Qmax0 (at3 w p f (nth i even 0))) (Qmin (at3 w p f (nth i odd 0)) 1) in
          at3 w' p f (nth i even 0) = v /\ at3 w' p f (nth i odd 0) = v)
    /\ (forall p f b, p < n_pol -> ~ In b even -> ~ In b odd -> at3 w' p f b = 0%Q)
    /\ (forall p f b, n_pol <= p -> at3 w' p f b = at3 w p f b).
  Proof.
    destruct (where_ (fun z => negb (is0 z)) tu) as [|start rest] eqn:Est.
    { exfalso. destruct Hsome as (t & Ht & Hn). assert (In t []) as []. rewrite <- Est.
      apply (In_where _ _ 0%Z). unfold is0. split; [lia|]. lia. }
    exists start. unfold split_vis_weights.
    rewrite (proj2 (Nat.ltb_ge n_time 2)) by lia. cbv zeta.
    rewrite (proj2 (Nat.ltb_ge (length offs) n_time)) by lia. rewrite Est.
    rewrite (proj2 (Nat.ltb_ge (d_pol w) n_pol)) by lia.
    set (bn := map _ (bin_numbers _ _ _)).
    set (E0 := where_ (fun z => (z mod 2 =? 0)%Z) bn). set (O0 := where_ (fun z => (z mod 2 =? 1)%Z) bn).
    assert (Hbl : length bn = d_bl w) by (unfold bn; now rewrite map_length, bin_numbers_length).
    set (n := Nat.min (length E0) (length O0)).
    assert (LE : length (firstn n E0) = n) by (rewrite firstn_length; lia).
    assert (LO : length (firstn n O0) = n) by (rewrite firstn_length; lia).
    assert (IE : incr E0) by (unfold E0; rewrite (where_spec _ _ 0%Z); apply incr_filter_seq).
    assert (IO : incr O0) by (unfold O0; rewrite (where_spec _ _ 0%Z); apply incr_filter_seq).
    assert (Dis : forall b, In b E0 -> In b O0 -> False).
    { intros b H1 H2. apply (In_where _ _ 0%Z) in H1, H2. lia. }
    assert (Hst : In start (where_ (fun z => negb (is0 z)) tu)) by (rewrite Est; now left).
    eexists (firstn n E0), (firstn n O0), _.
    split; [apply (In_where _ _ 0%Z) in Hst; lia|].
    split; [apply (In_where _ _ 0%Z) in Hst; unfold is0 in Hst; lia|].
    split.
    { intros t Ht. destruct (Z.eq_dec (nth t tu 0%Z) 0) as [|Hn]; auto. exfalso.
      assert (Hi : In t (where_ (fun z => negb (is0 z)) tu)).
      { apply (In_where _ _ 0%Z) in Hst. apply (In_where _ _ 0%Z). unfold is0. split; lia. }
      pose proof (incr_filter_seq (fun k => negb (is0 (nth k tu 0%Z))) 0 (length tu)) as I0.
      rewrite <- (where_spec (fun z => negb (is0 z)) tu 0%Z), Est in I0. rewrite Est in Hi.
      apply incr_cons in I0. destruct Hi as [|Hi]; [lia|]. apply I0 in Hi. lia. }
    split; [reflexivity|]. split.
    { assert (X : forall (b : nat) (f : nat -> bool) N, b < d_bl w -> n_time / 2 <= n_time -> N <= n_time ->
         existsb (fun t => (nth t offs 0 <=? b) && (b <? nth (S t) (offs ++ [d_bl w]) 0) && f t) (seq 0 N) = true
         <-> exists t, t < N /\ holds_baseline offs (d_bl w) t b /\ f t = true).
      { intros b f N Hb _ HN. rewrite existsb_exists. split.
        - intros (t & Ht & E). apply in_seq in Ht. apply andb_true_iff in E. destruct E as [E Ef].
          apply andb_true_iff in E. destruct E as [E1 E2]. apply Nat.leb_le in E1. apply Nat.ltb_lt in E2.
          exists t. unfold holds_baseline. repeat split; auto; lia.
        - intros (t & Ht & (H1 & H2 & H3) & Hf). exists t. rewrite in_seq. split; [lia|].
          rewrite (proj2 (Nat.leb_le _ _) H2), (proj2 (Nat.ltb_lt _ _) H3). exact Hf. }
      assert (Hhalf : n_time / 2 <= n_time) by (apply Nat.div_le_upper_bound; lia).
      match goal with |- _ = firstn _ ?e /\ _ = firstn _ ?o => assert (EE : E0 = e); [|assert (EO : O0 = o)] end.
      - unfold E0. rewrite (where_spec _ _ 0%Z), Hbl. apply filter_ext_in. intros b Hb%in_seq.
        apply eq_true_iff_eq.
        rewrite (existsb_ext_ _ (fun t => (nth t offs 0 <=? b) && (b <? nth (S t) (offs ++ [d_bl w]) 0)
                                          && (Nat.even t && kept n_time start tu t))).
        2:{ intros t. now rewrite !andb_assoc. }
        rewrite X by lia. destruct (holds_exists _ _ G b ltac:(lia)) as (t & Ht).
        unfold bn. rewrite (cut_number _ _ _ _ _ _ t) by (auto; lia). split.
        + intros H. exists t. destruct (t <? n_time / 2) eqn:E1; [|cbn in H; discriminate].
          destruct (kept n_time start tu t) eqn:E2; [|cbn in H; discriminate]. cbn [andb] in H.
          apply Nat.ltb_lt in E1. split; [auto|]. split; [auto|]. cbv beta. rewrite ?E2, andb_true_r. rewrite Z.eqb_eq in H.
          apply Nat.even_spec. exists (t / 2). lia.
        + intros (t' & H1 & H2 & H3). assert (t' = t) by (eapply holds_unique; eauto). subst t'.
          apply andb_true_iff in H3. destruct H3 as [H3 H4]. rewrite (proj2 (Nat.ltb_lt _ _) H1), H4. cbn [andb].
          apply Nat.even_spec in H3. destruct H3 as (q & ->). apply Z.eqb_eq. lia.
      - unfold O0. rewrite (where_spec _ _ 0%Z), Hbl. apply filter_ext_in. intros b Hb%in_seq.
        apply eq_true_iff_eq. rewrite X by lia. destruct (holds_exists _ _ G b ltac:(lia)) as (t & Ht).
        unfold bn. rewrite (cut_number _ _ _ _ _ _ t) by (auto; lia). split.
        + intros H. exists t. split; [destruct Ht; lia|]. split; auto. apply negb_true_iff.
          destruct (t <? n_time / 2) eqn:E1; [|now rewrite andb_false_r].
          destruct (kept n_time start tu t) eqn:E2; [|now rewrite andb_false_r].
          cbn [andb] in H. rewrite !andb_true_r. apply not_true_is_false. intros H1%Nat.even_spec.
          destruct H1 as (q & ->). lia.
        + intros (t' & H1 & H2 & H3). assert (t' = t) by (eapply holds_unique; eauto). subst t'.
          apply negb_true_iff in H3.
          destruct (t <? n_time / 2) eqn:E1; [|reflexivity].
          destruct (kept n_time start tu t) eqn:E2; [|reflexivity]. cbn [andb]. rewrite !andb_true_r in H3.
          apply Z.eqb_eq. destruct (Nat.Even_or_Odd t) as [Ev|(q & ->)]; [|lia].
          apply Nat.even_spec in Ev. congruence.
      - rewrite <- EE, <- EO. split; reflexivity. }
    do 3 (split; [reflexivity|]). cbn [at3].
    assert (NE : NoDup (firstn n E0)) by (apply incr_NoDup, incr_firstn, IE).
    assert (NO : NoDup (firstn n O0)) by (apply incr_NoDup, incr_firstn, IO).
    split; [|split].
    - intros p f i Hp Hi. rewrite LE in Hi. rewrite (proj2 (Nat.ltb_lt p n_pol)) by auto. split.
      + pose proof (find_spec (firstn n O0) n (nth i (firstn n E0) 0) NO LO) as F1.
        destruct (hd_error _) as [j|].
        { exfalso. apply (Dis (nth i (firstn n E0) 0)).
          - apply (In_firstn _ n). apply nth_In. lia.
          - apply (In_firstn _ n). destruct F1 as [F1 <-]. apply nth_In. lia. }
        pose proof (find_spec (firstn n E0) n (nth i (firstn n E0) 0) NE LE) as F2.
        destruct (hd_error _) as [j|].
        * destruct F2 as [F2 F3]. assert (j = i) by (apply (proj1 (NoDup_nth _ 0) NE); lia). subst j. reflexivity.
        * exfalso. apply F2, nth_In. lia.
      + pose proof (find_spec (firstn n O0) n (nth i (firstn n O0) 0) NO LO) as F1.
        destruct (hd_error _) as [j|].
        * destruct F1 as [F1 F3]. assert (j = i) by (apply (proj1 (NoDup_nth _ 0) NO); lia). subst j. reflexivity.
        * exfalso. apply F1, nth_In. lia.
    - intros p f b Hp HnE HnO. rewrite (proj2 (Nat.ltb_lt p n_pol)) by auto.
      pose proof (find_spec (firstn n O0) n b NO LO) as F1. destruct (hd_error _) as [j|].
      { exfalso. apply HnO. destruct F1 as [F1 <-]. apply nth_In. lia. }
      pose proof (find_spec (firstn n E0) n b NE LE) as F2. destruct (hd_error _) as [j|]; auto.
      exfalso. apply HnE. destruct F2 as [F2 <-]. apply nth_In. lia.
    - intros p f b Hp. now rewrite (proj2 (Nat.ltb_ge p n_pol)) by auto.
  Qed.
End Split.
