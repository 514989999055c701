(** Proofs about the model of vis_flag. *)
From Coq Require Import Qabs ZifyBool ZifyNat Lqa.
From Verif Require Import Base SortLib Histogram ArrayMatch NpArr PyIndex GridLoc GridLocProofs VisWeights VisWeightsSpec VisWeightsProofs Flagging FlaggingSpec FlaggingProofs.
Open Scope nat_scope.
Ltac Zify.zify_post_hook ::= idtac.

Lemma NoDup_app_disj {A} (l l' : list A) : NoDup l -> NoDup l' -> (forall x, In x l -> ~ In x l') -> NoDup (l ++ l').
Proof.
  intros H H' D. induction H as [|a l N H IH]; cbn [app]; auto. constructor.
  - intros I. apply in_app_or in I as [I|I]; auto. exact (D a (or_introl eq_refl) I).
  - apply IH. intros x Hx. apply D. now right.
Qed.
Lemma NoDup_list_prod {A B} (l : list A) (l' : list B) : NoDup l -> NoDup l' -> NoDup (list_prod l l').
Proof.
  intros H H'. induction H as [|a l N H IH]; cbn [list_prod]; [constructor|].
  apply NoDup_app_disj; auto.
  - apply NoDup_map_inj; auto. intros; congruence.
  - intros x Hx Hy. apply in_map_iff in Hx as (y & <- & _). apply in_prod_iff in Hy as [Hy _]. auto.
Qed.
Lemma median_point_small l : length l <= 1 -> median_point l = Err IndexError.
Proof.
  intros H. unfold median_point. destruct (nth_error _ _) eqn:E; auto.
  assert (X : nth_error (isort Qle_bool l) ((length l + 1) / 2) <> None) by (rewrite E; discriminate).
  apply nth_error_Some in X. rewrite isort_length in X.
  destruct l as [|a [|b l]]; cbn [length] in *; cbn in X; lia.
Qed.

  Lemma zero_use_ok l cut u : zero_use l cut = Ok u ->
    length u = length l /\ (forall i, In i cut -> i < length l)
    /\ forall i, i < length l -> (In i cut -> nth i u 0%Z = 0%Z) /\ (~ In i cut -> nth i u 0%Z = nth i l 0%Z).
  Proof.
    unfold zero_use, in_axis. destruct (forallb _ _) eqn:E; cbn [bind]; [|discriminate].
    rewrite forallb_forall in E. intros H.
    match type of H with Ok (map ?g _) = _ => set (G := g) in H end.
    assert (HU : u = map G (combine (seq 0 (length l)) l)) by congruence.
    assert (L : length u = length l) by (rewrite HU, map_length, combine_length, seq_length; lia).
    split; auto. split. { intros i Hi. apply E in Hi. lia. }
    intros i Hi. rewrite HU. rewrite (nth_indep _ 0%Z (G (0, 0%Z))) by (rewrite <- HU; lia).
    rewrite map_nth, combine_nth by now rewrite seq_length. rewrite seq_nth by auto. unfold G. cbn [fst snd plus].
    destruct (memn i cut) eqn:M.
    - apply memn_In in M. split; auto. contradiction.
    - rewrite <- not_true_iff_false, memn_In in M. split; auto. contradiction.
  Qed.

  Lemma outliers_ok std k foms cut : outliers std k foms = Ok cut ->
    2 <= length foms
    /\ NoDup cut
    /\ (forall i, In i cut -> i < length foms)
    /\ (forall i, i < length foms -> (nth i foms 0 == 0)%Q -> In i cut).
  Proof.
    unfold outliers. intros H. cbv zeta in H.
    destruct (median_point (filter Qnz foms)) as [m|] eqn:E1; [|discriminate H]. cbn [bind] in H.
    destruct (median_point (filter _ foms)) as [m2|] eqn:E2 in H; [|discriminate H]. cbn [bind] in H.
    assert (E : cut = where_ (fun x => Qltb (k * std (filter (fun x => Qle_bool (Qabs (m - x)) (6 * std (filter Qnz foms)) || Qnz x)%Q foms)) (Qabs (m2 - x)) || Qeq_bool x 0)%Q foms) by congruence.
    clear H. split.
    - destruct (le_lt_dec 2 (length foms)) as [|L]; auto. exfalso.
      rewrite median_point_small in E1; [discriminate E1|].
      pose proof (filter_length_le Qnz foms). lia.
    - split; [|split].
      + rewrite E, where_spec with (d := 0%Q). apply NoDup_filter, seq_NoDup.
      + intros i Hi. rewrite E, where_spec with (d := 0%Q) in Hi. apply filter_In in Hi as [Hi _]. apply in_seq in Hi. lia.
      + intros i Hi H0. rewrite E, where_spec with (d := 0%Q). apply filter_In. rewrite in_seq. split; [lia|].
        apply orb_true_iff. right. now apply Qeq_bool_iff.
  Qed.

  Lemma fom_zero std dabs td n_pol w cells :
    (forall p, p < n_pol -> p < 2 -> length (filter (fun x => Qltb 0 (at3 w p (fst x) (snd x))) cells) <= 10) ->
    (fom std dabs td n_pol w cells == 0)%Q.
  Proof.
    intros H. unfold fom.
    assert (G : forall p, In p (seq 0 (Nat.min n_pol 2)) -> fom_term std dabs td w cells p = 0%Q).
    { intros p Hp%in_seq. unfold fom_term. cbv zeta. specialize (H p ltac:(lia) ltac:(lia)).
      match goal with |- (if 10 <? length ?l then _ else _) = _ => assert (X : length l <= 10) end.
      { etransitivity; [|exact H].
        clear. induction cells as [|a l IH]; [apply le_n|]. cbn [filter].
        destruct (Qltb 0 (at3 w p (fst a) (snd a))); cbn [andb].
        - destruct (negb td || Qltb 0 (dabs (fst a) (snd a))); cbn [length]; lia.
        - exact IH. }
      destruct (10 <? _) eqn:E; auto. apply Nat.ltb_lt in E. exfalso. apply (Nat.lt_irrefl 10). eapply Nat.lt_le_trans; eassumption. }
    induction (seq 0 (Nat.min n_pol 2)) as [|p ps IH]; cbn [map fold_right]; [reflexivity|].
    rewrite G by now left. rewrite IH; [reflexivity|]. intros; apply G; now right.
  Qed.

  Lemma zero_at_lowers n m w p f b : at3 (zero_at n m w) p f b = at3 w p f b \/ at3 (zero_at n m w) p f b = 0%Q.
  Proof. unfold zero_at. cbn [at3]. destruct (_ && _); auto. Qed.

  (** What a successful call has done. *)
  Lemma Z2Nat_mono a b : (a <= b)%Z -> Z.to_nat a <= Z.to_nat b.
  Proof. lia. Qed.
  Lemma vis_flag_ok std smooth junk dabs w o w' tu fu n : vis_flag std smooth junk dabs w o = Ok (w', (tu, fu, n)) ->
    exists tc fc w3,
      w' = w3 /\ zero_use (v_tile_use o) tc = Ok tu /\ zero_use (v_freq_use o) fc = Ok fu
      /\ w3 = zero_at (v_n_pol o) (fun f _ => memn f fc)
               (zero_at (v_n_pol o) (fun _ b => existsb (fun t =>
                  (nth b (v_tile_a o) 0 =? Z.of_nat t + 1)%Z || (nth b (v_tile_b o) 0 =? Z.of_nat t + 1)%Z) tc)
                 (zero_at (v_n_pol o) (fun _ b => v_far o b) w))
      /\ outliers std 6 (map (time_fom std dabs o (v_bin_offset o ++ [length (v_tile_a o)]) w3) (seq 0 (length (v_time_use o)))) = Ok []
      /\ n = length (filter (fun x => Qltb 0 (at3 w' 0 (fst x) (snd x))) (list_prod (seq 0 (d_freq w')) (seq 0 (d_bl w'))))
      /\ (exists n_tiles, (forall z, In z (v_tile_a o) \/ In z (v_tile_b o) -> Z.to_nat z <= n_tiles)
          /\ outliers std 3 (map (tile_fom std junk dabs o (zero_at (v_n_pol o) (fun _ b => v_far o b) w)) (seq 0 n_tiles)) = Ok tc)
      /\ freq_outliers std smooth (v_n_freq o)
           (map (freq_fom std dabs o (zero_at (v_n_pol o) (fun _ b => v_far o b) w)) (seq 0 (v_n_freq o))) = Ok fc.
  Proof.
    unfold vis_flag. destruct (v_tile_a o ++ v_tile_b o) as [|t0 ts] eqn:E0; [discriminate|]. cbv zeta. intros H.
    destruct (outliers std 3 _) as [tc|] eqn:E1 in H; [|discriminate H]. cbn [bind] in H.
    destruct (freq_outliers _ _ _ _) as [fc|] eqn:E2 in H; [|discriminate H]. cbn [bind] in H.
    destruct (zero_use (v_tile_use o) tc) as [tu'|] eqn:E3; [|discriminate H]. cbn [bind] in H.
    destruct (zero_use (v_freq_use o) fc) as [fu'|] eqn:E4; [|discriminate H]. cbn [bind] in H.
    destruct (_ <=? _) eqn:E5 in H; [discriminate H|].
    destruct (outliers std 6 _) as [[|x l]|] eqn:E6 in H; cbn [bind] in H; try discriminate H.
    apply (f_equal (fun r => match r with Ok x => Some x | Err _ => None end)) in H.
    exists tc, fc. eexists. injection H as H1 H2 H3 H4. subst tu' fu'. split; [exact (eq_sym H1)|].
    split; [exact E3|]. split; [exact E4|]. split; [reflexivity|]. split; [exact E6|].
    split; [rewrite <- H1; exact (eq_sym H4)|]. split; [|exact E2].
    eexists. split; [|exact E1]. intros z Iz. rewrite <- in_app_iff, E0 in Iz. apply Z2Nat_mono.
    clear -Iz. revert t0 Iz. induction ts as [|u ts IH]; intros t0 [<-|Iz]; cbn [fold_right]; try easy; try lia.
    - specialize (IH t0 (or_introl eq_refl)). lia.
    - destruct Iz as [<-|Iz]; [lia|]. specialize (IH t0 (or_intror Iz)). lia.
  Qed.

Lemma fom_zero2 std dabs n_pol w cells :
  (forall p, p < n_pol -> p < 2 ->
     length (filter (fun x => Qltb 0 (at3 w p (fst x) (snd x)) && Qltb 0 (dabs (fst x) (snd x))) cells) <= 10) ->
  (fom std dabs true n_pol w cells == 0)%Q.
Proof.
  intros H. unfold fom.
  assert (G : forall p, In p (seq 0 (Nat.min n_pol 2)) -> fom_term std dabs true w cells p = 0%Q).
  { intros p Hp%in_seq. unfold fom_term. cbn [negb orb]. specialize (H p ltac:(lia) ltac:(lia)).
    match goal with |- (if 10 <? ?l then _ else _) = _ => destruct (Nat.ltb_spec 10 l); [lia|reflexivity] end. }
  induction (seq 0 (Nat.min n_pol 2)) as [|p ps IH]; cbn [map fold_right]; [reflexivity|].
  rewrite G by now left. rewrite IH; [reflexivity|]. intros; apply G; now right.
Qed.
(** a channel without merit is cut *)
Lemma freq_outliers_zero std smooth n foms cut f : freq_outliers std smooth n foms = Ok cut ->
  f < length foms -> (nth f foms 0 == 0)%Q -> In f cut.
Proof.
  unfold freq_outliers. intros H Hf Z. cbv zeta in H. destruct (run_median _ _ (filter Qnz foms)) as [m1|]; [|discriminate H]. cbn [bind] in H.
  destruct (run_median _ _ foms) as [m2|]; [|discriminate H]. cbn [bind] in H. injection H as <-.
  apply filter_In. rewrite in_seq. split; [lia|]. apply orb_true_iff. right. now apply Qeq_bool_iff.
Qed.
Lemma median_point_const c n m : median_point (repeat c n) = Ok m -> m = c.
Proof.
  unfold median_point. destruct (nth_error _ _) as [v|] eqn:E; [|discriminate]. intros [= <-].
  apply nth_error_In in E. apply isort_In in E. now apply repeat_spec in E.
Qed.
Lemma filter_none {X} (g : X -> bool) l : (forall x, In x l -> g x = false) -> filter g l = [].
Proof.
  induction l as [|x l IH]; intros G; [reflexivity|]. cbn [filter]. rewrite (G x (or_introl eq_refl)). apply IH. intros; apply G; now right.
Qed.
(** channels of one and the same merit are all cut, if it is 0, or none *)
Lemma freq_outliers_uniform std smooth n c k cut : (forall l, (0 <= std l)%Q) ->
  (forall j x m, smooth j (repeat x m) = repeat x m) ->
  freq_outliers std smooth n (repeat c k) = Ok cut -> ~ (c == 0)%Q -> cut = [].
Proof.
  unfold freq_outliers. intros Hs Hm H C. cbv zeta in H. destruct (run_median _ _ (filter Qnz _)) as [m1|]; [|discriminate H]. cbn [bind] in H.
  destruct (run_median smooth n (repeat c k)) as [m2|] eqn:E; [|discriminate H]. cbn [bind] in H. injection H as <-.
  assert (M : forall f, f < k -> m2 f = c).
  { intros f Hf. unfold run_median in E. destruct (n / 20 =? 0).
    - destruct (median_point (repeat c k)) as [m|] eqn:E1; [|discriminate E]. cbn [bind] in E. injection E as <-. now apply median_point_const in E1.
    - injection E as <-. rewrite Hm. now apply nth_repeat_lt. }
  rewrite repeat_length. match goal with |- filter ?g ?l = [] => assert (G : forall f, In f l -> g f = false) end.
  { intros f Hf%in_seq. rewrite M by lia. rewrite nth_repeat_lt by lia. apply orb_false_iff. split.
    - apply not_true_iff_false. rewrite Qltb_true. match goal with |- ~ (3 * std ?l < _)%Q => pose proof (Hs l) as P; generalize dependent (std l) end.
      intros d P L. assert (Z : (Qabs (c - c) == 0)%Q) by (setoid_replace (c - c)%Q with 0%Q by ring; reflexivity). rewrite Z in L. lra.
    - apply not_true_iff_false. rewrite Qeq_bool_iff. exact C. }
  exact (filter_none _ _ G).
Qed.
Lemma freq_fom_ext std dabs o w f g : (forall b, dabs f b = dabs g b) -> (forall p b, at3 w p f b = at3 w p g b) ->
  freq_fom std dabs o w f = freq_fom std dabs o w g.
Proof.
  intros D W. unfold freq_fom, fom. f_equal. apply map_ext. intros p. unfold fom_term. cbv zeta.
  assert (F : forall l, map (fun x => dabs (fst x) (snd x)) (filter (fun x => Qltb 0 (at3 w p (fst x) (snd x)) && (negb true || Qltb 0 (dabs (fst x) (snd x)))) (map (fun b => (f, b)) l))
            = map (fun x => dabs (fst x) (snd x)) (filter (fun x => Qltb 0 (at3 w p (fst x) (snd x)) && (negb true || Qltb 0 (dabs (fst x) (snd x)))) (map (fun b => (g, b)) l))).
  { induction l as [|b l IH]; [reflexivity|]. cbn [map filter fst snd]. rewrite W, D. destruct (_ && _); cbn [map fst snd]; rewrite ?IH, ?D; auto. }
  specialize (F (seq 0 (d_bl w))). rewrite F. pose proof (f_equal (@length Q) F) as L. rewrite !map_length in L. now rewrite L.
Qed.
