(** C33: property theorems about flag_model_visibilities, for visibilities of any type. *)
From Coq Require Import ZifyBool ZifyNat Sorting.Sorted QArith Qcanon.
From Verif Require Import Base SortLib NpArr PyIndex VisWeights WeightInvert WeightInvertProofs VisWeightsProps
  ModelFlag ModelFlagSpec ModelFlagProofs.
Open Scope nat_scope.
Ltac Zify.zify_post_hook ::= idtac.

(** A model without auto-correlations: every cross-correlation of the data is given the model visibility
    of the same two tiles at the nearest (shifted) model time, auto-correlations are zero. The shift is the rounded mean
    distance of the times, or 0 if that is below 1/4 s or above half an integration. *)
Theorem C33_matched_partial : forall V (zero : V) n_pol n_freq time_res tile_names vis autos_d by_name kept
    times_d times_m data model out,
  unflagged tile_names kept -> naming by_name tile_names kept ->
  layout autos_d (map (number by_name tile_names) kept) times_d data ->
  layout false (all_tiles tile_names) times_m model ->
  times_d <> [] -> times_m <> [] ->
  d_bl vis = length (pm_a1 model) -> d_pol vis = n_pol -> d_freq vis = n_freq ->
  flag_model_visibilities zero n_pol n_freq time_res tile_names vis data model = Ok out ->
  d_pol out = n_pol /\ d_freq out = n_freq /\ d_bl out = length (pm_a1 data)
  /\ exists shift, model_shift times_d times_m time_res shift
  /\ forall p f k, k < length (pm_a1 data) ->
       (a1_at data k = a2_at data k -> at3 out p f k = zero)
       /\ (a1_at data k <> a2_at data k ->
           exists j, matched by_name tile_names times_m shift data model k j /\ at3 out p f k = at3 vis p f j).
Proof.
  intros V zero np nf tr tn vis ad bn kept td tm data model out Hu Hn Hd Hm Td Tm Bv <- <- R.
  destruct (flag_model_run zero tr tn vis ad bn kept td tm data model Hu Hn Hd Hm Td Tm Bv)
    as (shift & use & Es & _ & _ & _ & H).
  destruct (distinct_use use); [|congruence]. destruct H as (o & Eo & P & F & B & H).
  assert (o = out) by congruence. subst o. do 3 (split; auto). exists shift. split; [|exact H]. now apply time_shift_spec.
Qed.
Print Assumptions C33_matched_partial.

Lemma dist_nonneg a b : (0 <= dist a b)%Qc.
Proof.
  unfold dist. destruct (Qclt_le_dec a b) as [H|H]; [apply Qclt_le_weak in H|]; now apply Qcle_minus_iff in H.
Qed.
Lemma dist_zero a b : (dist a b <= 0)%Qc -> a = b.
Proof.
  intros H. assert (E : dist a b = 0%Qc) by (apply Qcle_antisym; auto; apply dist_nonneg).
  unfold dist in E. destruct (Qclt_le_dec a b).
  - rewrite <- (Qcplus_0_r a), <- E. ring.
  - rewrite <- (Qcplus_0_r b), <- E. ring.
Qed.
Lemma dist_self a : dist a a = 0%Qc.
Proof. unfold dist. destruct (Qclt_le_dec a a); ring. Qed.

Lemma shift_same data model time_res : (forall t, In t data -> In t model) -> model <> [] ->
  time_shift data model time_res = Ok 0%Qc.
Proof.
  intros Sub T. unfold time_shift.
  assert (R : map_res (fun t => k <- argmin (map (fun m => tabs (m - t)%Qc) model) ;;
                            Ok (tabs (nth k model 0 - t)%Qc * day)%Qc) data = Ok (repeat 0%Qc (length data))).
  { induction data as [|t data IH]; [reflexivity|]. cbn [map_res length repeat].
    destruct (argmin_spec (map (fun m => tabs (m - t)%Qc) model)) as (k & E & Lk & H); [now destruct model|].
    rewrite E. cbn [bind]. rewrite IH by (intros; apply Sub; now right). cbn [bind]. do 2 f_equal.
    rewrite map_length in Lk. specialize (H (tabs (0 - t)%Qc) (tabs (t - t)%Qc)).
    rewrite (nth_map_lt _ model k 0%Qc) in H by auto. rewrite !tabs_dist, dist_self in H.
    replace (nth k model 0%Qc) with t; [rewrite tabs_dist, dist_self; apply Qcmult_0_l|]. symmetry. apply dist_zero, H.
    replace 0%Qc with (tabs (t - t)%Qc) by now rewrite tabs_dist, dist_self.
    apply in_map_iff. exists t. split; auto. apply Sub. now left. }
  rewrite R. cbn [bind]. destruct (length data); [reflexivity|]. cbn [repeat].
  replace (qsum (0%Qc :: repeat 0%Qc n)) with 0%Qc.
  2:{ clear R. unfold qsum. cbn [fold_right]. induction n as [|n IH]; [reflexivity|]. cbn [repeat fold_right]. rewrite Qcplus_0_l. exact IH. }
  unfold Qcdiv at 1. rewrite Qcmult_0_l. replace (round2 0) with 0%Qc by (apply Qc_is_canon; reflexivity). reflexivity.
Qed.

(** When every time of the data is a time of the model the call succeeds and the times agree exactly. *)
Theorem C33_same_times : forall V (zero : V) n_pol n_freq time_res tile_names vis autos_d by_name kept
    times_d times_m data model,
  unflagged tile_names kept -> naming by_name tile_names kept ->
  layout autos_d (map (number by_name tile_names) kept) times_d data ->
  layout false (all_tiles tile_names) times_m model ->
  times_d <> [] -> (forall t, In t times_d -> In t times_m) ->
  d_bl vis = length (pm_a1 model) -> d_pol vis = n_pol -> d_freq vis = n_freq ->
  exists out, flag_model_visibilities zero n_pol n_freq time_res tile_names vis data model = Ok out
  /\ d_pol out = n_pol /\ d_freq out = n_freq /\ d_bl out = length (pm_a1 data)
  /\ forall p f k, k < length (pm_a1 data) ->
       (a1_at data k = a2_at data k -> at3 out p f k = zero)
       /\ (a1_at data k <> a2_at data k -> exists j, j < length (pm_a1 model)
             /\ a1_at data k = number by_name tile_names (a1_at model j)
             /\ a2_at data k = number by_name tile_names (a2_at model j)
             /\ t_at data k = t_at model j
             /\ at3 out p f k = at3 vis p f j).
Proof.
  intros V zero np nf tr tn vis ad bn kept td tm data model Hu Hn Hd Hm Td Sub Bv <- <-.
  assert (Tm : tm <> []). { destruct td as [|t td]; [congruence|]. intros ->. apply (Sub t). now left. }
  destruct (flag_model_run zero tr tn vis ad bn kept td tm data model Hu Hn Hd Hm Td Tm Bv)
    as (shift & use & Es & _ & Lu & Hnear & H).
  rewrite (shift_same td tm tr Sub Tm) in Es. injection Es as <-.
  assert (Ex : forall t m, In t tm -> nearest (map (fun m => m + 0)%Qc tm) t (m + 0)%Qc -> m = t).
  { intros t m Ht [_ X]. specialize (X (t + 0)%Qc). rewrite !Qcplus_0_r, dist_self in X. apply dist_zero, X.
    apply in_map_iff. exists t. split; auto. ring. }
  assert (N : NoDup use).
  { apply (NoDup_nth use 0). intros i j Hi Hj E. rewrite Lu in Hi, Hj.
    destruct (Hnear i Hi) as [_ X]. destruct (Hnear j Hj) as [_ Y]. rewrite E in X.
    apply Ex in X; [|apply Sub, nth_In; auto]. apply Ex in Y; [|apply Sub, nth_In; auto].
    destruct Hd as (Sd & _). clear - Sd Hi Hj X Y. rewrite X in Y. clear X. revert i j Hi Hj Y.
    induction Sd as [|a l Hs IH Ha]; intros i j Hi Hj Y; [cbn in Hi; lia|]. rewrite Forall_forall in Ha.
    destruct i, j; auto; cbn [nth length] in *.
    - exfalso. specialize (Ha (nth j l 0%Qc)). rewrite <- Y in Ha. apply (Qclt_not_eq a a); auto. apply Ha. rewrite Y. apply nth_In. lia.
    - exfalso. specialize (Ha (nth i l 0%Qc)). rewrite Y in Ha. apply (Qclt_not_eq a a); auto. apply Ha. rewrite <- Y. apply nth_In. lia.
    - f_equal. apply IH; auto; lia. }
  rewrite (distinct_NoDup use N) in H. destruct H as (out & Eo & P & F & B & H).
  exists out. do 4 (split; auto). intros p f k Hk. destruct (H p f k Hk) as [H1 H2]. split; auto. intros Nk.
  destruct (H2 Nk) as (j & (J1 & J2 & J3 & J4) & E). exists j. do 3 (split; auto). split; auto. symmetry. apply Ex; auto.
  apply Sub. destruct Hd as (_ & Etd & Ea1 & _). assert (X : In (t_at data k) (pm_time data)).
  { apply nth_In. rewrite Etd, flat_rep_length. now rewrite Ea1, flat_const_length, map_length in Hk. }
  rewrite Etd in X. apply in_flat_map in X as (t & Ht & X). apply repeat_spec in X. congruence.
Qed.
Print Assumptions C33_same_times.

(** A model with auto-correlations is never accepted: the auto-correlations are selected together with
    the cross-correlations and the copy fails. *)
Theorem C33_autos_refuted : forall V (zero : V) n_pol n_freq time_res tile_names vis autos_d by_name kept
    times_d times_m data model,
  unflagged tile_names kept -> naming by_name tile_names kept ->
  layout autos_d (map (number by_name tile_names) kept) times_d data ->
  layout true (all_tiles tile_names) times_m model ->
  times_d <> [] -> times_m <> [] -> d_bl vis = length (pm_a1 model) ->
  exists e, flag_model_visibilities zero n_pol n_freq time_res tile_names vis data model = Err e.
Proof.
  intros V zero np nf tr tn vis ad bn kept td tm data model Hu Hn Hd Hm Td Tm Bv.
  pose proof (number_inj _ _ _ Hu Hn) as Nd. pose proof (sorted_Z_NoDup _ (all_tiles_sorted tn)) as Nm.
  pose proof Hu as (Sk & Lk & Rk).
  assert (Ld : 2 <= length (map (number bn tn) kept)) by now rewrite map_length.
  assert (Kl : length kept <= length tn).
  { rewrite <- (all_tiles_length tn). apply NoDup_incl_length; [now apply sorted_Z_NoDup|]. intros k Hk.
    rewrite <- (kept_filter tn kept Hu) in Hk. now apply filter_In in Hk. }
  assert (Lm : 2 <= length (all_tiles tn)) by (rewrite all_tiles_length; lia).
  destruct (counter_layout _ _ _ _ Hd Nd Ld Td) as (d & Cd & D1 & D2 & D3 & D4 & D5 & D6 & D7 & D8 & D9 & D10).
  destruct (counter_layout _ _ _ _ Hm Nm Lm Tm) as (m & Cm & M1 & M2 & M3 & M4 & M5 & M6 & M7 & M8 & M9 & M10).
  destruct (time_shift_ok td tm tr Tm) as (shift & Es & _).
  destruct (match_times_spec tm shift Tm td) as (use & Eu & Lu & Hnear).
  unfold flag_model_visibilities. rewrite Cd, Cm. cbn [bind]. rewrite D1, M1, Es. cbn [bind]. rewrite Eu. cbn [bind].
  destruct (negb (_ =? _)); [eauto|]. destruct (_ <? _); [eauto|].
  destruct (flag_indexes_spec (i_names d) tn bn kept Hu Hn D3) as (fl & -> & Hfl). cbn [bind].
  rewrite M9, M10, combine_map_fst_snd, D7.
  set (bd := baselines ad (map (number bn tn) kept)) in *. set (bm := baselines true (all_tiles tn)) in *.
  assert (Ec : where_ (fun b : bool => b) (map (fun ab => negb (zmem (fst ab) fl) && negb (zmem (snd ab) fl)) bm)
               = where_ (fun ab => zmem (fst ab) kept && zmem (snd ab) kept) bm).
  { rewrite where_map. unfold where_. f_equal. apply filter_ext_in. intros (i, (a, b)) Hi. cbn [fst snd].
    apply in_combine_r in Hi. apply baselines_In in Hi as [Ha Hb]. rewrite (Hfl a Ha), (Hfl b Hb), !negb_involutive. reflexivity. }
  rewrite Ec.
  assert (L1 : length (where_ (fun ab => zmem (fst ab) kept && zmem (snd ab) kept) bm) = length (baselines false kept) + length kept).
  { rewrite where_length. unfold bm. rewrite (baselines_filter true (fun k => zmem k kept)), kept_filter by auto.
    apply baselines_auto_length. }
  assert (L2 : length (where_ (fun ab => negb (fst ab =? snd ab)%Z) bd) = length (baselines false kept)).
  { rewrite where_length. unfold bd. rewrite baselines_cross by auto. rewrite baselines_map. apply map_length. }
  destruct use as [|t0 use]; [destruct td; [congruence|discriminate Lu]|].
  cbn [length seq combine fold_res]. unfold put_cols at 1. rewrite !map_length, L1, L2.
  destruct (_ || _); [eexists; reflexivity|]. destruct (_ || _); [eexists; reflexivity|].
  rewrite (proj2 (Nat.eqb_neq _ _)) by lia. rewrite (proj2 (Nat.eqb_neq _ 1)) by lia. eexists. reflexivity.
Qed.
Print Assumptions C33_autos_refuted.

(** Concrete files: three tiles of which tile 2 is flagged, two data times, three model times. *)
Definition demo_file (autos : bool) (ants : list Z) (times : list Qc) : params :=
  let bl := baselines autos ants in
  {| pm_time := flat_map (fun t => repeat t (length bl)) times;
     pm_a1 := flat_map (fun _ => map fst bl) times; pm_a2 := flat_map (fun _ => map snd bl) times |}.
Lemma demo_layout autos ants times : StronglySorted Qclt times -> layout autos ants times (demo_file autos ants times).
Proof. intros H. repeat split; auto. Qed.
Definition sec (s : Q) : Qc := Q2Qc (s / 86400)%Q.
Definition demo_vis (n : nat) : arr3 nat := Arr3 1 1 n (fun _ _ b => 100 + b).
Definition demo_names : list Z := [11; 12; 13]%Z.

Lemma demo_unflagged : unflagged demo_names [1; 3]%Z.
Proof. split; [repeat constructor|]. split; [cbn; lia|]. cbn. intros k [<-|[<-|[]]]; lia. Qed.
Lemma demo_naming : naming true demo_names [1; 3]%Z.
Proof. intros _. split; [repeat constructor; cbn; lia|]. exists 1%Z. split; [now left|]. cbn. lia. Qed.

(** Data at 0 s and 4 s, with auto-correlations, tiles named; model at 0, 2 and 4 s. *)
Example C33_demo : exists r, flag_model_visibilities 0 1 1 (Q2Qc 2) demo_names (demo_vis 9)
    (demo_file true (map (number true demo_names) [1; 3]%Z) [sec 0; sec 4])
    (demo_file false (all_tiles demo_names) [sec 0; sec 2; sec 4]) = Ok r
  /\ forallb (fun k => at3 r 0 0 k =? nth k [0; 101; 0; 0; 107; 0] 0) (seq 0 6) = true.
Proof. apply run_check. vm_compute. reflexivity. Qed.
Example C33_demo_hyps : unflagged demo_names [1; 3]%Z /\ naming true demo_names [1; 3]%Z
  /\ layout true (map (number true demo_names) [1; 3]%Z) [sec 0; sec 4] (demo_file true (map (number true demo_names) [1; 3]%Z) [sec 0; sec 4])
  /\ layout false (all_tiles demo_names) [sec 0; sec 2; sec 4] (demo_file false (all_tiles demo_names) [sec 0; sec 2; sec 4])
  /\ layout true (all_tiles demo_names) [sec 0] (demo_file true (all_tiles demo_names) [sec 0]).
Proof.
  split; [exact demo_unflagged|]. split; [exact demo_naming|].
  repeat split; repeat constructor.
Qed.

(** The shift is always added, also when the model is late: here the data time is 2 s, the model times 0.75 s and
    2.75 s. The nearest is 2.75 s; with the shift of 0.75 s the other one is used. *)
Theorem C33_nearest_refuted : exists time_res data model (vis out : arr3 nat),
  layout false (all_tiles demo_names) [sec 2] data /\ layout false (all_tiles demo_names) [sec (3#4); sec (11#4)] model
  /\ d_bl vis = length (pm_a1 model)
  /\ flag_model_visibilities 0 1 1 time_res demo_names vis data model = Ok out
  /\ nearest [sec (3#4); sec (11#4)] (sec 2) (sec (11#4))
  /\ forall k j, k < 3 -> j < 6 -> t_at model j = sec (11#4) -> at3 out 0 0 k <> at3 vis 0 0 j.
Proof.
  exists (Q2Qc 2), (demo_file false (all_tiles demo_names) [sec 2]), (demo_file false (all_tiles demo_names) [sec (3#4); sec (11#4)]), (demo_vis 6).
  assert (R : exists r, flag_model_visibilities 0 1 1 (Q2Qc 2) demo_names (demo_vis 6) (demo_file false (all_tiles demo_names) [sec 2])
      (demo_file false (all_tiles demo_names) [sec (3#4); sec (11#4)]) = Ok r
    /\ forallb (fun k => at3 r 0 0 k <? 103) (seq 0 3) = true).
  { apply run_check. vm_compute. reflexivity. }
  destruct R as (out & R & H). exists out. split; [apply demo_layout; repeat constructor|].
  split; [apply demo_layout; repeat constructor|]. split; [reflexivity|]. split; [exact R|]. split.
  - split; [right; now left|]. intros m [<-|[<-|[]]]; apply Qcleb_true; vm_compute; reflexivity.
  - clear R. rewrite forallb_forall in H. intros k j Hk Hj Ht. specialize (H k). cbn beta in H.
    rewrite Nat.ltb_lt in H. specialize (H ltac:(apply in_seq; lia)).
    assert (3 <= j).
    { destruct (Nat.lt_ge_cases j 3) as [L|L]; auto. exfalso.
      assert (E : t_at (demo_file false (all_tiles demo_names) [sec (3#4); sec (11#4)]) j = sec (3#4)).
      { destruct j as [|[|[|j]]]; [reflexivity..|lia]. }
      rewrite E in Ht. apply (f_equal this) in Ht. vm_compute in Ht. congruence. }
    unfold demo_vis. cbn [at3]. lia.
Qed.
Print Assumptions C33_nearest_refuted.
