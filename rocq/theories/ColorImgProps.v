(** C111, C112, C113: property theorems about quick_image and log_color_calc. *)
From Coq Require Import String Ascii Reals Lra.
From Verif Require Import Base ColorImg ColorImgSpec ColorImgProofs.
Import ListNotations.
Open Scope list_scope.
Open Scope R_scope.

(** C111. On the logarithmic scale without missing values: negative pixels have colour 0, zeros colour 1, and positive ones
    the colour of their logarithm from [m] (2 if there are zeros, otherwise 1) at the lower end of the scale to 255 at the
    upper end. The array of the caller is kept. *)
Theorem C111_colors : forall vs whole_ dr a b p m, drawn_range vs dr a b -> lower_end vs a b p -> 0 < b -> p < b ->
  (In 0 vs /\ m = 2) \/ (~ In 0 vs /\ m = 1) ->
  exists colors ticks labels,
    quick_image {| pixels := map Fin vs; whole := whole_ |} dr None None true "log_cut" = Ok (colors, ticks, labels, map Fin vs)
    /\ log_color_calc (map Fin vs) dr "log_cut" None None (Some O) [] 0 false = Ok (colors, ticks, labels)
    /\ length colors = length vs
    /\ forall i v, nth_error vs i = Some v -> exists c, nth_error colors i = Some (Fin c)
       /\ (v < 0 -> c = 0) /\ (v = 0 -> c = 1) /\ (0 < v -> c = log_color m p b v).
Proof.
  intros vs w dr a b p m D Lo B PB M. pose proof (log_color_calc_ok vs dr a b p D Lo B PB) as E.
  assert (M' : first_pos vs = m).
  { unfold first_pos. destruct (anyb zero (map Fin vs)) eqn:Z.
    - apply anyb_zero in Z. destruct M as [[_ ->]|[N _]]; [reflexivity|easy].
    - destruct M as [[I _]|[_ ->]]; [|reflexivity]. apply anyb_zero in I. congruence. }
  do 3 eexists. split; [|split; [exact E|split; [now rewrite map_length|]]].
  - unfold quick_image. cbn [pixels length Nat.ltb Nat.leb bind]. rewrite E. cbn [bind]. reflexivity.
  - intros i v I. rewrite (nth_map_fin _ _ _ _ I). destruct (rltb v 0) eqn:N.
    + apply rltb_iff in N. exists 0. repeat split; intros; lra.
    + apply rltb_niff in N. destruct (reqb v 0) eqn:Z.
      * apply reqb_iff in Z. subst v. exists 1. repeat split; intros; lra.
      * rewrite M'. eexists. split; [reflexivity|]. repeat split; intros H; try lra. subst v. rewrite reqb_true in Z. discriminate.
Qed.
Print Assumptions C111_colors.

(** On that scale colours stay between [m] and 255, grow with the value, and are [m] and 255 at and beyond the ends. *)
Theorem C111_scale : forall m p b, 0 < p -> p < b -> m = 1 \/ m = 2 ->
  (forall v, m <= log_color m p b v <= 255)
  /\ (forall v w, p <= v -> v < w -> w <= b -> log_color m p b v < log_color m p b w)
  /\ (forall v, v <= p -> log_color m p b v = m) /\ (forall v, b <= v -> log_color m p b v = 255)
  /\ (forall v w, p <= v <= b -> p <= w <= b -> v * w = p * b -> log_color m p b v + log_color m p b w = m + 255).
Proof.
  intros m p b P PB M. assert (m < 255) by (destruct M; lra). split; [|split; [|split; [|split]]].
  - intros v. apply log_color_range; lra.
  - intros v w H1 H2 H3. now apply log_color_incr.
  - now apply log_color_ends.
  - now apply (log_color_ends m p b).
  - intros v w V W E. unfold log_color. rewrite !within_id by assumption.
    assert (L : ln v + ln w = ln p + ln b) by (rewrite <- !ln_mult by lra; now f_equal).
    replace (ln w) with (ln p + ln b - ln v) by lra. pose proof (ln_increasing p b P PB). field. lra.
Qed.
Print Assumptions C111_scale.

Definition ex_vs : list R := [-3; 0; 1; 10; 100].
Lemma ex_extremes : extremes ex_vs (-3) 100.
Proof. unfold ex_vs, extremes. split; [cbn; tauto|]. split; [cbn; tauto|]. intros v H. cbn in H. decompose [or] H; subst; try lra; tauto. Qed.
Lemma ex_lower : lower_end ex_vs (-3) 100 1.
Proof.
  right. left. split; [lra|]. split; [cbn; tauto|]. split; [lra|]. intros v H V. cbn in H. decompose [or] H; subst; try lra; tauto.
Qed.
(** colours 0, 1, 2, half way, 255 *)
Example C111_case : exists colors t l,
  quick_image {| pixels := map Fin ex_vs; whole := false |} None None None true "log_cut" = Ok (colors, t, l, map Fin ex_vs)
  /\ colors = [Fin 0; Fin 1; Fin 2; Fin (257 / 2); Fin 255].
Proof.
  destruct (C111_colors ex_vs false None (-3) 100 1 2 ex_extremes ex_lower ltac:(lra) ltac:(lra)) as (cs & t & l & E & _ & L & H).
  { left. split; [cbn; tauto|reflexivity]. }
  exists cs, t, l. split; [exact E|].
  destruct (C111_scale 2 1 100 ltac:(lra) ltac:(lra) ltac:(tauto)) as (_ & _ & S1 & S2 & S3).
  pose proof (S3 10 10 ltac:(lra) ltac:(lra) ltac:(lra)) as S4. pose proof (S1 1 ltac:(lra)) as S5. pose proof (S2 100 ltac:(lra)) as S6.
  destruct (H 0%nat (-3) eq_refl) as (c0 & N0 & A0 & _). destruct (H 1%nat 0 eq_refl) as (c1 & N1 & _ & A1 & _).
  destruct (H 2%nat 1 eq_refl) as (c2 & N2 & _ & _ & A2). destruct (H 3%nat 10 eq_refl) as (c3 & N3 & _ & _ & A3).
  destruct (H 4%nat 100 eq_refl) as (c4 & N4 & _ & _ & A4).
  destruct cs as [|d0 [|d1 [|d2 [|d3 [|d4 [|]]]]]]; try discriminate. cbn in N0, N1, N2, N3, N4.
  injection N0 as ->. injection N1 as ->. injection N2 as ->. injection N3 as ->. injection N4 as ->.
  repeat f_equal; [apply A0|apply A1|rewrite A2|rewrite A3|rewrite A4]; lra.
Qed.

(** C112. The colour bar of the logarithmic scale: below the upper end, the number at a pixel's own colour is larger than
    the pixel, and the first number, at colour 0, is the lower end of the scale although colour 0 is that of negative pixels. *)
Theorem C112_labels_refuted : forall vs dr a b p, drawn_range vs dr a b -> lower_end vs a b p -> 0 < b -> p < b ->
  exists colors t l, log_color_calc (map Fin vs) dr "log_cut" None None (Some O) [] 0 false = Ok (colors, t, l)
    /\ nth_error t 0 = Some 0 /\ nth_error l 0 = Some (Fin p)
    /\ forall i v c k, nth_error vs i = Some v -> p <= v < b -> nth_error colors i = Some (Fin c) -> nth_error t k = Some c ->
       exists y, nth_error l k = Some (Fin y) /\ v < y.
Proof.
  intros vs dr a b p D Lo B PB. pose proof (log_color_calc_ok vs dr a b p D Lo B PB) as E. destruct (cut_ok vs a b p Lo B) as [P _].
  do 3 eexists. split; [exact E|]. split; [|split].
  - unfold ticks. cbn [map nth_error]. f_equal. cbn [INR]. unfold last_color. lra.
  - unfold ticks. cbn [map nth_error]. f_equal. unfold log_label. cbn [INR sub opp add mul div]. rewrite reqb_false by lra. cbn [add pow10].
    f_equal. transitivity (exp (l10 p * ln 10)); [f_equal; unfold last_color; field|now apply pow10_l10].
  - intros i v c k I V Ci Tk. rewrite (nth_map_fin _ _ _ _ I) in Ci. assert (0 < v) by lra.
    rewrite rltb_false in Ci by lra. rewrite reqb_false in Ci by lra. injection Ci as <-.
    rewrite (map_nth_error _ _ _ Tk). rewrite label_of by lra. eexists. split; [reflexivity|].
    rewrite <- (exp_ln v) at 1 by lra. apply exp_increasing. pose proof (first_pos_pos vs). pose proof (ln_increasing v b ltac:(lra) ltac:(lra)).
    assert (0 < first_pos vs / 255 * (ln b - ln v)) by (apply Rmult_lt_0_compat; lra). lra.
Qed.
Print Assumptions C112_labels_refuted.

(** On the symmetric scale a value and its opposite have the same colour. *)
Theorem C112_sym_refuted : forall vs v colors t l i j, 0 < v -> nth_error vs i = Some v -> nth_error vs j = Some (- v) ->
  log_color_calc (map Fin vs) None "sym_log" None None (Some O) [] 0 false = Ok (colors, t, l) ->
  nth_error colors i = nth_error colors j /\ nth_error colors i <> None.
Proof.
  intros vs v colors t l i j V Hi Hj E. unfold log_color_calc in E. replace (profile_of "sym_log") with (Ok SymLog) in E by reflexivity.
  cbn [bind] in E.
  assert (N : vs <> []) by (intros ->; destruct i; discriminate). destruct (extremes_ex vs N) as (a & b & X).
  rewrite (proj1 (data_range_ok vs None a b X)) in E. cbn [bind] in E. destruct X as (_ & _ & X). pose proof (X _ (nth_error_In _ _ Hj)) as A.
  destruct (lt (Fin b) (Fin a)); [discriminate|]. cbn [bind] in E. replace (pos (Fin a)) with false in E by (symmetry; apply rltb_false; lra).
  cbn [color_range bind] in E. unfold sym_log in E. destruct (neg (Fin b)); [discriminate|].
  match type of E with context [log10 ?m] => set (lo := log10 m) in E end. cbn [bind] in E. injection E as <- _ _.
  unfold clip, put. rewrite !map_map. rewrite (map_nth_error _ _ _ Hi), (map_nth_error _ _ _ Hj). split; [|discriminate].
  assert (P : pos (Fin v) = true) by now apply rltb_true. assert (P' : pos (Fin (- v)) = false) by (apply rltb_false; lra).
  assert (Ng : neg (Fin (- v)) = true) by (apply rltb_true; lra). rewrite P, P', Ng.
  replace (abs (Fin (- v))) with (Fin v); [reflexivity|]. unfold abs. cbn [lt]. rewrite rltb_true by lra. cbn [opp]. f_equal. lra.
Qed.
Print Assumptions C112_sym_refuted.
(** What the symmetric scale draws instead, for values of both signs: the logarithm of the absolute value, from 0 at the
    smallest magnitude to 255 at the largest value. *)
Theorem C112_sym_scale : forall vs a b m, extremes vs a b -> a < 0 -> 0 < m -> m < b ->
  (In m vs \/ In (- m) vs) -> (forall v, In v vs -> v = 0 \/ m <= Rabs v) ->
  exists colors t l, log_color_calc (map Fin vs) None "sym_log" None None (Some O) [] 0 false = Ok (colors, t, l)
    /\ forall i v, nth_error vs i = Some v -> nth_error colors i = Some (Fin (if reqb v 0 then 0 else log_color 0 m b (Rabs v))).
Proof.
  intros vs a b m X A M MB IM LM. destruct (data_range_ok vs None a b X) as (E & L). destruct X as (Ia & Ib & H). unfold log_color_calc.
  replace (profile_of "sym_log") with (Ok SymLog) by reflexivity. cbn [bind]. rewrite E. cbn [bind lt]. rewrite rltb_false by exact L. cbn [bind].
  replace (pos (Fin a)) with false by (symmetry; apply rltb_false; lra). cbn [color_range bind]. unfold sym_log.
  replace (neg (Fin b)) with false by (symmetry; apply rltb_false; lra).
  assert (CP : anyb pos (map Fin vs) = true). { apply existsb_exists. exists (Fin b). split; [now apply in_map|apply rltb_true; lra]. }
  assert (CN : anyb neg (map Fin vs) = true). { apply existsb_exists. exists (Fin a). split; [now apply in_map|now apply rltb_true]. }
  rewrite CP, CN. cbn [andb].
  assert (FN : filter neg (map Fin vs) = map Fin (filter (fun v => rltb v 0) vs)).
  { clear. induction vs as [|v vs IH]; [reflexivity|]. cbn [map filter]. unfold neg at 1. cbn [lt]. destruct (rltb v 0); cbn [map]; now rewrite IH. }
  assert (PN : exists p, least_positive vs p).
  { destruct (filter (rltb 0) vs) as [|x t] eqn:F.
    - assert (In b (filter (rltb 0) vs)) by (apply filter_In; split; [exact Ib|apply rltb_true; lra]). rewrite F in H0. destruct H0.
    - destruct (fold_min t x) as (p & _ & P1 & P2). exists p. rewrite <- F in P1, P2. apply filter_In in P1 as (P1 & P3). apply rltb_iff in P3.
      split; [exact P1|]. split; [exact P3|]. intros v Hv V. apply P2. apply filter_In. split; [exact Hv|now apply rltb_true]. }
  destruct PN as (p & PP). rewrite (min_pos_ok vs p _ _ PP). destruct PP as (P1 & P2 & P3).
  assert (QN : exists q, In q vs /\ q < 0 /\ (forall v, In v vs -> v < 0 -> v <= q) /\ max_neg (map Fin vs) (Fin a) (Fin b) = Fin q).
  { unfold max_neg. rewrite FN. destruct (filter (fun v => rltb v 0) vs) as [|x t] eqn:F.
    - assert (In a (filter (fun v => rltb v 0) vs)) by (apply filter_In; split; [exact Ia|now apply rltb_true]). rewrite F in H0. destruct H0.
    - cbn [map np_max]. destruct (fold_max t x) as (q & -> & Q1 & Q2). exists q. rewrite <- F in Q1, Q2. apply filter_In in Q1 as (Q1 & Q3). apply rltb_iff in Q3.
      split; [exact Q1|]. split; [exact Q3|]. split; [|reflexivity]. intros v Hv V. apply Q2. apply filter_In. split; [exact Hv|now apply rltb_true]. }
  destruct QN as (q & Q1 & Q2 & Q3 & ->).
  assert (AB : abs (Fin q) = Fin (- q)). { unfold abs. cbn [lt]. rewrite rltb_true by exact Q2. reflexivity. }
  rewrite AB. cbn [lt].
  assert (ME : (if rltb (- q) p then Fin (- q) else Fin p) = Fin m).
  { assert (Mp : m <= p). { destruct (LM p P1) as [->|G]; [lra|]. rewrite Rabs_right in G by lra. exact G. }
    assert (Mq : m <= - q). { destruct (LM q Q1) as [->|G]; [lra|]. rewrite Rabs_left in G by lra. exact G. }
    destruct IM as [IM|IM].
    - pose proof (P3 m IM M). assert (p = m) by lra. subst p. rewrite rltb_false by lra. reflexivity.
    - pose proof (Q3 (- m) IM ltac:(lra)). destruct (rltb (- q) p) eqn:R; [f_equal; lra|]. apply rltb_niff in R. f_equal. lra. }
  rewrite ME. rewrite !log10_pos by lra. cbn [bind]. do 3 eexists. split; [reflexivity|].
  intros i v I. unfold clip, put. rewrite !map_map, (map_nth_error _ _ _ I). f_equal.
  pose proof (H v (nth_error_In _ _ I)) as V. pose proof (l10_incr m b M MB) as LI.
  assert (K : forall x, m <= x -> forall c, c = add (div (mul (sub (log10 (Fin x)) (Fin (l10 m))) (Fin (256 - 1))) (sub (Fin (l10 b)) (Fin (l10 m)))) (Fin 0) ->
    (let c1 := if lt c (Fin 0) then Fin 0 else c in if lt (Fin last_color) c1 then Fin last_color else c1) = Fin (log_color 0 m b x)).
  { intros x Hx c ->. rewrite log10_pos by lra. cbn [sub opp add mul div]. rewrite reqb_false by lra. cbn [add lt].
    set (c := (l10 x + - l10 m) * (256 - 1) / (l10 b + - l10 m) + 0).
    assert (EC : c = 255 * ((ln x - ln m) / (ln b - ln m))).
    { rewrite <- (ln_l10 x m m b) by lra. unfold c. field. lra. }
    pose proof (ln_increasing m b M MB) as LB. pose proof (ln_le m x M Hx) as LX.
    assert (C0 : 0 <= (ln x - ln m) / (ln b - ln m)) by (apply Rmult_le_pos; [lra|left; apply Rinv_0_lt_compat; lra]).
    rewrite (rltb_false c 0) by lra. cbn [lt]. unfold last_color. destruct (Rle_lt_dec x b) as [XB|XB].
    - assert (C1 : (ln x - ln m) / (ln b - ln m) <= 1).
      { pose proof (ln_le x b ltac:(lra) XB). apply Rmult_le_reg_r with (ln b - ln m); [lra|]. unfold Rdiv. rewrite Rmult_assoc, Rinv_l by lra. lra. }
      rewrite rltb_false by lra. f_equal. unfold log_color. rewrite within_id by lra. rewrite EC. unfold Rdiv. ring.
    - rewrite (proj2 (log_color_ends 0 m b M MB) x) by lra. rewrite rltb_true; [reflexivity|]. rewrite EC.
      pose proof (ln_increasing b x ltac:(lra) XB) as LBX.
      assert (C1 : 1 < (ln x - ln m) / (ln b - ln m)).
      { apply Rmult_lt_reg_r with (ln b - ln m); [lra|]. unfold Rdiv. rewrite Rmult_assoc, Rinv_l by lra. lra. }
      lra. }
  cbn zeta in K. destruct (reqb v 0) eqn:Z.
  - apply reqb_iff in Z. subst v. replace (pos (Fin 0)) with false by (symmetry; apply rltb_false; lra).
    replace (neg (Fin 0)) with false by (symmetry; apply rltb_false; lra). replace (zero (Fin 0)) with true by (symmetry; apply reqb_true).
    cbn [lt]. rewrite rltb_false by lra. cbn [lt]. rewrite rltb_false by (unfold last_color; lra). reflexivity.
  - destruct (LM v (nth_error_In _ _ I)) as [->|G]; [rewrite reqb_true in Z; discriminate|].
    destruct (Rlt_le_dec 0 v) as [PV|PV].
    + replace (pos (Fin v)) with true by (symmetry; now apply rltb_true). rewrite Rabs_right in G |- * by lra. apply (K v G). reflexivity.
    + replace (pos (Fin v)) with false by (symmetry; now apply rltb_false). assert (v < 0).
      { destruct PV as [PV| ->]; [exact PV|]. rewrite reqb_true in Z. discriminate. }
      replace (neg (Fin v)) with true by (symmetry; now apply rltb_true).
      replace (abs (Fin v)) with (Fin (- v)) by (unfold abs; cbn [lt]; rewrite rltb_true by assumption; reflexivity).
      rewrite Rabs_left in G |- * by lra. apply (K (- v) G). reflexivity.
Qed.
Print Assumptions C112_sym_scale.
Example C112_sym_scale_case : extremes [-10; 1; 0; 10] (-10) 10 /\ forall v, In v [-10; 1; 0; 10] -> v = 0 \/ 1 <= Rabs v.
Proof.
  split; [split; [cbn; tauto|]; split; [cbn; tauto|]|]; intros v Hv; cbn in Hv; decompose [or] Hv; subst; try lra; try tauto.
  - right. rewrite Rabs_left by lra. lra.
  - right. rewrite Rabs_right by lra. lra.
  - right. rewrite Rabs_right by lra. lra.
Qed.
(** values of both signs for which the symmetric scale does return *)
Example C112_sym_case : exists colors t l,
  log_color_calc (map Fin [-10; 1; 10]) None "sym_log" None None (Some O) [] 0 false = Ok (colors, t, l).
Proof.
  unfold log_color_calc. replace (profile_of "sym_log") with (Ok SymLog) by reflexivity. cbn [bind data_range_of].
  rewrite (np_min_ok [-10; 1; 10] (-10)), (np_max_ok [-10; 1; 10] 10);
    try (cbn; tauto); try (intros v H; cbn in H; decompose [or] H; subst; lra || tauto).
  cbn [bind lt]. rewrite rltb_false by lra. cbn [bind]. unfold pos at 1. cbn [lt]. rewrite rltb_false by lra. cbn [color_range bind].
  unfold sym_log. unfold neg at 1. cbn [lt]. rewrite (rltb_false 10 0) by lra.
  match goal with |- context [log10 ?m] => set (lo := log10 m) end. cbn [bind]. eauto.
Qed.

(** On the scale of absolute values the range is that of the values with sign: if the most negative value is the larger
    one, every value at least as large as the positive end has colour 255, and 0 is in the upper half. *)
Theorem C112_abs_refuted : forall vs a b, extremes vs a b -> 0 < b -> a < - b ->
  exists colors t l, log_color_calc (map Fin vs) None "abs" None None (Some O) [] 0 false = Ok (colors, t, l)
    /\ forall i v, nth_error vs i = Some v ->
       (b <= Rabs v -> nth_error colors i = Some (Fin 255))
       /\ (v = 0 -> exists c, nth_error colors i = Some (Fin c) /\ 127 < c).
Proof.
  intros vs a b X B A. destruct (data_range_ok vs None a b X) as (E & L). unfold log_color_calc.
  replace (profile_of "abs") with (Ok Abs) by reflexivity. cbn [bind]. rewrite E. cbn [bind lt]. rewrite rltb_false by exact L. cbn [bind color_range].
  do 3 eexists. split; [reflexivity|]. intros i v I. unfold abs_profile, clip, put. rewrite !map_map.
  rewrite (map_nth_error _ _ _ I).
  assert (Ab : abs (Fin v) = Fin (Rabs v)).
  { unfold abs. cbn [lt]. destruct (Rle_or_lt 0 v).
    - rewrite rltb_false by assumption. now rewrite Rabs_right by lra.
    - rewrite rltb_true by assumption. cbn [opp]. now rewrite Rabs_left by lra. }
  rewrite Ab. cbn [sub opp add mul div]. rewrite reqb_false by lra. cbn [add lt].
  set (c := (Rabs v + - a) * (256 - 1) / (b + - a) + 0).
  assert (C : c = 255 + 255 * (Rabs v - b) / (b - a)) by (unfold c; field; lra). split.
  - intros V. assert (0 <= 255 * (Rabs v - b) / (b - a)).
    { apply Rmult_le_pos; [|left; apply Rinv_0_lt_compat; lra]. apply Rmult_le_pos; lra. }
    rewrite (rltb_false c 0) by lra. destruct (rltb last_color c) eqn:R; [reflexivity|].
    apply rltb_niff in R. unfold last_color in R. do 2 f_equal. lra.
  - intros ->. assert (C' : c = 255 * ((- a) / (b - a))) by (unfold c; rewrite Rabs_R0; field; lra).
    assert (1 / 2 < (- a) / (b - a)).
    { apply Rmult_lt_reg_r with (b - a); [lra|]. unfold Rdiv at 2. rewrite Rmult_assoc, Rinv_l by lra. lra. }
    assert ((- a) / (b - a) < 1).
    { apply Rmult_lt_reg_r with (b - a); [lra|]. unfold Rdiv. rewrite Rmult_assoc, Rinv_l by lra. lra. }
    rewrite (rltb_false c 0) by lra. rewrite rltb_false by (unfold last_color; lra). eexists. split; [reflexivity|]. lra.
Qed.
Print Assumptions C112_abs_refuted.

(** The linear scale is cut at the values of the range instead of the colours: whatever the image, if its largest value
    [b] is below 255, every pixel whose colour should be above [b] is drawn in colour 255. *)
Theorem C112_linear_refuted : forall vs w a b, extremes vs a b -> a < b -> b < 255 ->
  exists colors t l, quick_image {| pixels := map Fin vs; whole := w |} None None None false "log_cut" = Ok (colors, t, l, map Fin vs)
    /\ forall i v, nth_error vs i = Some v -> b < 255 * (v - a) / (b - a) -> nth_error colors i = Some (Fin 255).
Proof.
  intros vs w a b (Ia & Ib & H) AB B. unfold quick_image. cbn [pixels length Nat.ltb Nat.leb bind]. unfold linear.
  rewrite (nanmin_ok vs a), (nanmax_ok vs b); try assumption; try (intros; now apply H). cbn [bind color_range].
  do 3 eexists. split; [reflexivity|]. intros i v I C. unfold put. rewrite !map_map, (map_nth_error _ _ _ I).
  cbn [sub opp add mul div]. rewrite reqb_false by lra. cbn [add lt].
  set (c := (v + - a) * (256 - 1) / (b + - a) + 0). assert (E : c = 255 * (v - a) / (b - a)) by (unfold c; field; lra).
  rewrite <- E in C. rewrite (rltb_false c a) by lra. rewrite rltb_true by assumption. reflexivity.
Qed.
Print Assumptions C112_linear_refuted.
(** It is right for images that reach from 0 or below to 255 or above. *)
Theorem C112_linear_partial : forall vs w dr a b, a <= 0 -> 255 <= b ->
  (dr = None /\ extremes vs a b) \/ (exists more, dr = Some (Fin a :: Fin b :: more)) ->
  exists colors t l, quick_image {| pixels := map Fin vs; whole := w |} dr None None false "log_cut" = Ok (colors, t, l, map Fin vs)
    /\ (forall i v, nth_error vs i = Some v -> a <= v <= b -> nth_error colors i = Some (Fin (255 * (v - a) / (b - a))))
    /\ List.length t = 5%nat /\ List.length l = 5%nat
    /\ forall k, (k < 5)%nat -> exists y, nth_error l k = Some (Fin y) /\ y = a + INR k * (b - a) / 4
         /\ nth_error t k = Some (255 * (y - a) / (b - a)).
Proof.
  intros vs w dr a b A B DR.
  assert (RG : match dr with
             | None => a <- nanmin (map Fin vs) ;; b <- nanmax (map Fin vs) ;; Ok (a, b)
             | Some (a :: b :: _) => Ok (a, b)
             | Some _ => Err IndexError
             end = Ok (Fin a, Fin b)).
  { destruct DR as [(-> & Ia & Ib & H)|(more & ->)]; [|reflexivity].
    rewrite (nanmin_ok vs a), (nanmax_ok vs b); try assumption; try (intros; now apply H). reflexivity. }
  unfold quick_image. cbn [pixels length Nat.ltb Nat.leb bind]. unfold linear. rewrite RG. cbn [bind color_range].
  do 3 eexists. split; [reflexivity|]. split; [|split; [reflexivity|split; [reflexivity|]]].
  - intros i v I V. unfold put. rewrite !map_map, (map_nth_error _ _ _ I).
    cbn [sub opp add mul div]. rewrite reqb_false by lra. cbn [add lt].
    set (c := (v + - a) * (256 - 1) / (b + - a) + 0). assert (E : c = 255 * (v - a) / (b - a)) by (unfold c; field; lra).
    assert (T : 0 <= (v - a) / (b - a) <= 1).
    { split; [apply Rmult_le_pos; [lra|left; apply Rinv_0_lt_compat; lra]|].
      apply Rmult_le_reg_r with (b - a); [lra|]. unfold Rdiv. rewrite Rmult_assoc, Rinv_l by lra. lra. }
    assert (E' : c = 255 * ((v - a) / (b - a))) by (rewrite E; unfold Rdiv; ring).
    rewrite (rltb_false c a) by lra. rewrite rltb_false by lra. now rewrite E.
  - intros k Hk. exists (a + INR k * (b - a) / 4). unfold ticks. rewrite map_map.
    assert (N : nth_error [0; 1; 2; 3; 4]%nat k = Some k) by (do 5 (destruct k as [|k]; [reflexivity|]); lia).
    rewrite !(map_nth_error _ _ _ N). unfold lin_label. cbn [sub opp add mul div]. rewrite reqb_false by lra. cbn [add]. unfold last_color.
    split; [f_equal; f_equal; field|]. split; [reflexivity|]. f_equal. field. lra.
Qed.
Print Assumptions C112_linear_partial.
(** With missing values, where the colours are not cut as above: they get colour 0, the others 1 to 255 in proportion. The
    colour bar is then wrong: at the colour of the smallest value it shows a larger one. *)
Theorem C112_linear_missing : forall vs m a b, In m vs -> m <> a -> extremes (filter (fun v => negb (reqb v m)) vs) a b -> a <= 1 -> 255 <= b ->
  exists colors t l px,
    quick_image {| pixels := map Fin vs; whole := false |} None None (Some (Fin m)) false "log_cut" = Ok (colors, t, l, px)
    /\ (forall i v, nth_error vs i = Some v ->
        nth_error colors i = Some (Fin (if reqb v m then 0 else 1 + 254 * (v - a) / (b - a))))
    /\ (forall k, (k < 5)%nat -> nth_error t k = Some (1 + 254 * INR k / 4))
    /\ exists y, nth_error l 0 = Some (Fin y) /\ a < y.
Proof.
  intros vs m a b Im Na (Ia & Ib & H) A B. unfold quick_image. cbn [pixels whole]. fold (places (Fin m) (map Fin vs)).
  rewrite places_some by assumption. rewrite marked. cbn [bind]. set (data := map (fun v => if reqb v m then NaN else Fin v) vs).
  assert (NM : numbers data = map Fin (filter (fun v => negb (reqb v m)) vs)).
  { unfold data, numbers. clear. induction vs as [|v vs IH]; [reflexivity|]. cbn [map filter]. destruct (reqb v m); cbn [is_nan negb filter map]; now rewrite IH. }
  assert (DN : exists x t, data = x :: t). { unfold data. destruct vs as [|x vs]; [destruct Im|]. cbn [map]. eauto. }
  assert (MI : nanmin data = Ok (Fin a) /\ nanmax data = Ok (Fin b)).
  { pose proof (nanmin_ok _ a Ia (fun v Hv => proj1 (H v Hv))) as E1. pose proof (nanmax_ok _ b Ib (fun v Hv => proj2 (H v Hv))) as E2.
    unfold nanmin, nanmax in *. rewrite NM. rewrite numbers_fin in E1, E2. destruct DN as (x & t & ->).
    destruct (map Fin (filter (fun v => negb (reqb v m)) vs)); [discriminate|]. auto. }
  destruct MI as (E1 & E2). unfold linear. rewrite E1, E2. cbn [bind].
  pose proof (places_some m vs Im) as Pl.
  set (colors0 := put (fun v => lt (Fin b) v) (Fin last_color) (put (fun v => lt v (Fin a)) (Fin 1)
                   (map (fun v => add (div (mul (sub v (Fin a)) (Fin (255 - 1))) (sub (Fin b) (Fin a))) (Fin 1)) data))).
  assert (CR : exists n, List.length (places (Fin m) (map Fin vs)) = S n).
  { destruct (List.length (places (Fin m) (map Fin vs))); [discriminate|eauto]. }
  destruct CR as (n & CR). rewrite CR. cbn [color_range bind]. fold colors0.
  do 4 eexists. split; [reflexivity|]. split; [|split].
  - intros i v I. assert (L : (i < List.length colors0)%nat).
    { unfold colors0, put, data. rewrite !map_length. apply nth_error_Some. congruence. }
    rewrite (nth_error_nth' _ NaN) by (rewrite put_at_length; exact L). rewrite put_at_nth by exact L.
    rewrite (places_iff m vs i v I). destruct (reqb v m) eqn:R; [reflexivity|]. f_equal. apply nth_error_nth. unfold colors0, put, data.
    rewrite !map_map. rewrite (map_nth_error _ _ _ I). rewrite R. cbn [sub opp add mul div]. rewrite reqb_false by lra. cbn [add lt].
    assert (V : a <= v <= b). { apply H. apply filter_In. split; [eapply nth_error_In; exact I|now rewrite R]. }
    set (c := (v + - a) * (255 - 1) / (b + - a) + 1). assert (E : c = 1 + 254 * (v - a) / (b - a)) by (unfold c; field; lra).
    assert (T : 0 <= (v - a) / (b - a) <= 1).
    { split; [apply Rmult_le_pos; [lra|left; apply Rinv_0_lt_compat; lra]|].
      apply Rmult_le_reg_r with (b - a); [lra|]. unfold Rdiv. rewrite Rmult_assoc, Rinv_l by lra. lra. }
    assert (E' : c = 1 + 254 * ((v - a) / (b - a))) by (rewrite E; unfold Rdiv; ring).
    rewrite (rltb_false c a) by lra. cbn [lt]. rewrite rltb_false by lra. now rewrite E.
  - intros k Hk. unfold ticks. assert (N : nth_error [0; 1; 2; 3; 4]%nat k = Some k) by (do 5 (destruct k as [|k]; [reflexivity|]); lia).
    rewrite (map_nth_error _ _ _ N). unfold last_color. f_equal. field.
  - unfold ticks. cbn [map nth_error]. unfold lin_label. cbn [sub opp add mul div]. rewrite reqb_false by lra. cbn [add]. eexists. split; [reflexivity|].
    unfold last_color. cbn [INR]. assert (0 < (b + - a) / 254) by (apply Rmult_lt_0_compat; [lra|apply Rinv_0_lt_compat; lra]).
    replace ((1 + 0 * (255 - 1) / 4) * (b + - a) / (255 - 1) + a) with (a + (b + - a) / 254) by field. lra.
Qed.
Print Assumptions C112_linear_missing.
Example C112_linear_missing_case : extremes (filter (fun v => negb (reqb v (-9))) [0; -9; 300; 51]) 0 300.
Proof.
  cbn [filter]. rewrite (reqb_false 0 (-9)), reqb_true, (reqb_false 300 (-9)), (reqb_false 51 (-9)) by lra. cbn [negb].
  split; [cbn; tauto|]. split; [cbn; tauto|]. intros v Hv. cbn in Hv. decompose [or] Hv; subst; try lra; tauto.
Qed.
(** A constant image has no colours at all. *)
Theorem C112_constant_refuted : forall n v w, exists t l,
  quick_image {| pixels := repeat (Fin v) (S n); whole := w |} None None None false "log_cut" = Ok (repeat NaN (S n), t, l, repeat (Fin v) (S n)).
Proof.
  intros n v w. assert (R : repeat (Fin v) (S n) = map Fin (repeat v (S n))) by now rewrite map_repeat.
  unfold quick_image. cbn [pixels length Nat.ltb Nat.leb bind]. unfold linear. rewrite R.
  rewrite (nanmin_ok _ v), (nanmax_ok _ v); try (now left); try (intros x I; apply repeat_spec in I; lra). cbn [bind color_range].
  do 2 eexists. do 4 f_equal. unfold put. rewrite !map_map, map_repeat. f_equal.
  cbn [sub opp add mul div]. replace (v + - v) with 0 by lra. rewrite reqb_true. unfold sign. cbn [lt].
  rewrite !rltb_false by lra. reflexivity.
Qed.
Print Assumptions C112_constant_refuted.

(** With a missing value, without a range, no positive pixel has a colour on the logarithmic scale. *)
Theorem C112_missing_refuted : forall vs m colors t l px, In m vs ->
  quick_image {| pixels := map Fin vs; whole := false |} None None (Some (Fin m)) true "log_cut" = Ok (colors, t, l, px) ->
  forall i v, nth_error vs i = Some v -> 0 < v -> v <> m -> nth_error colors i = Some NaN.
Proof.
  intros vs m colors t l px Im E i v I V N. unfold quick_image in E. cbn [pixels whole] in E. fold (places (Fin m) (map Fin vs)) in E.
  pose proof (places_some m vs Im) as Pl. pose proof (places_iff m vs i v I) as Ni. rewrite reqb_false in Ni by exact N. rewrite Pl in E. cbn [bind] in E.
  rewrite marked in E. set (data := map (fun v => if reqb v m then NaN else Fin v) vs) in E.
  destruct (List.length (places (Fin m) (map Fin vs))) as [|n] eqn:Ln; [discriminate|]. cbn [bind] in E.
  assert (Nan : In NaN data). { apply in_map_iff. exists m. cbn beta. rewrite (reqb_true m). now split. }
  unfold log_color_calc in E. replace (profile_of "log_cut") with (Ok LogCut) in E by reflexivity. cbn [bind data_range_of] in E.
  rewrite (np_min_nan _ Nan), (np_max_nan _ Nan) in E. cbn [bind lt color_range] in E.
  destruct (log_cut data NaN NaN None 1 255) as [[norm [lo hi]]|] eqn:Lc; [|discriminate]. cbn [bind] in E. injection E as <- _ _ _.
  assert (Di : nth_error data i = Some (Fin v)).
  { unfold data. rewrite (map_nth_error _ _ _ I). now rewrite reqb_false. }
  pose proof (log_cut_nan _ _ _ _ _ Di V _ Lc) as Q. cbn [fst] in Q.
  assert (Hl : (i < List.length norm)%nat) by (apply nth_error_Some; congruence).
  rewrite (nth_error_nth' _ NaN) by (rewrite put_at_length; exact Hl). f_equal. rewrite put_at_nth by exact Hl. rewrite Ni.
  now apply nth_error_nth.
Qed.
Print Assumptions C112_missing_refuted.
(** A missing value that the image does not contain is an error on the logarithmic scale, for every image; one that it
    does contain is an error for every image of integers, and otherwise becomes NaN in the array of the caller. *)
Theorem C112_absent_refuted : forall vs m w dr ma prof, ~ In m vs ->
  quick_image {| pixels := map Fin vs; whole := w |} dr ma (Some (Fin m)) true prof = Err UnboundLocal.
Proof.
  intros. unfold quick_image. cbn [pixels whole]. fold (places (Fin m) (map Fin vs)). rewrite places_none by assumption. reflexivity.
Qed.
Print Assumptions C112_absent_refuted.
Theorem C112_integers_refuted : forall vs m dr ma log prof, In m vs ->
  quick_image {| pixels := map Fin vs; whole := true |} dr ma (Some (Fin m)) log prof = Err ValueError.
Proof.
  intros. unfold quick_image. cbn [pixels whole]. fold (places (Fin m) (map Fin vs)). rewrite places_some by assumption. reflexivity.
Qed.
Print Assumptions C112_integers_refuted.
Theorem C112_caller_refuted : forall vs m dr ma log prof c t l px, In m vs ->
  quick_image {| pixels := map Fin vs; whole := false |} dr ma (Some (Fin m)) log prof = Ok (c, t, l, px) ->
  px <> map Fin vs /\ forall i v, nth_error vs i = Some v -> nth_error px i = Some (if reqb v m then NaN else Fin v).
Proof.
  intros vs m dr ma log prof c t l px Im E. unfold quick_image in E. cbn [pixels whole] in E. fold (places (Fin m) (map Fin vs)) in E.
  rewrite places_some in E by assumption. rewrite marked in E. cbn [bind] in E. set (data := map (fun v => if reqb v m then NaN else Fin v) vs) in E.
  destruct (if log then _ else _) as [[[c' t'] l']|]; [|discriminate]. cbn [bind] in E. injection E as _ _ _ <-. split.
  - intros E. apply In_nth_error in Im as [i I].
    assert (X : nth_error data i = nth_error (map Fin vs) i) by now rewrite E.
    unfold data in X. rewrite !(map_nth_error _ _ _ I), reqb_true in X. discriminate.
  - intros i v I. unfold data. now rewrite (map_nth_error _ _ _ I).
Qed.
Print Assumptions C112_caller_refuted.
(** log_color_calc called without the number of missing values always fails. *)
Theorem C112_default_refuted : forall data dr prof cut ma wh mc inv, exists e,
  log_color_calc data dr prof cut ma None wh mc inv = Err e.
Proof.
  intros. unfold log_color_calc. destruct (profile_of prof) as [p|e]; [|exists e; reflexivity]. cbn [bind].
  destruct (data_range_of data dr) as [[a b]|e]; [|exists e; reflexivity]. cbn [bind]. destruct (lt b a); cbn [bind color_range]; eauto.
Qed.
Print Assumptions C112_default_refuted.
Example C112_missing_case : exists c t l px,
  quick_image {| pixels := map Fin [5; 7]; whole := false |} None None (Some (Fin 7)) true "log_cut" = Ok (c, t, l, px)
  /\ nth_error c 0 = Some NaN.
Proof.
  assert (X : exists r, quick_image {| pixels := map Fin [5; 7]; whole := false |} None None (Some (Fin 7)) true "log_cut" = Ok r).
  { unfold quick_image. cbn [pixels whole]. fold (places (Fin 7) (map Fin [5; 7])). rewrite places_some by (cbn; tauto). rewrite marked. cbn [bind].
    pose proof (places_some 7 [5; 7] ltac:(cbn; tauto)) as P. destruct (List.length (places (Fin 7) (map Fin [5; 7]))) as [|n]; [discriminate|].
    cbn [bind]. set (data := map (fun v => if reqb v 7 then NaN else Fin v) [5; 7]). assert (Nan : In NaN data). { apply in_map_iff. exists 7. cbn beta. rewrite (reqb_true 7). split; [reflexivity|cbn; tauto]. }
    unfold log_color_calc. replace (profile_of "log_cut") with (Ok LogCut) by reflexivity. cbn [bind data_range_of].
    rewrite (np_min_nan _ Nan), (np_max_nan _ Nan). cbn [bind lt color_range]. unfold log_cut at 1. cbn [neg lt]. cbn [bind]. eauto. }
  destruct X as [[[[c t] l] px] X]. exists c, t, l, px. split; [exact X|].
  apply (C112_missing_refuted [5; 7] 7 c t l px) with (v := 5); [cbn; tauto|exact X|reflexivity|lra|lra].
Qed.

(** C113. With one format asked for, the file is the name given and the ending of that format; without a name, the name is
    idl_quick_image. Without name and format the picture is shown. *)
Theorem C113_name_partial : forall name png eps pdf e, one_format png eps pdf e ->
  save_name (Some name) png eps pdf = Some ((if String.eqb name "" then "idl_quick_image" else name) ++ e)%string
  /\ save_name None png eps pdf = Some ("idl_quick_image" ++ e)%string
  /\ save_name None false false false = None.
Proof.
  intros name png eps pdf e [(-> & -> & -> & ->)|[(-> & -> & -> & ->)|(-> & -> & -> & ->)]];
    unfold save_name; destruct (String.eqb name ""); auto.
Qed.
Print Assumptions C113_name_partial.
Fixpoint variants (s : string) : list string :=
  match s with
  | EmptyString => [EmptyString]
  | String c s => let n := nat_of_ascii c in
      map (String c) (variants s) ++ (if (97 <=? n) && (n <=? 122) then map (String (ascii_of_nat (n - 32))) (variants s) else [])%nat
  end.
Lemma variants_in e e' : same_letters e e' -> In e (variants e').
Proof.
  induction 1 as [|c s t H IH|n s t N H IH]; [now left| |]; cbn [variants]; apply in_or_app; [left; now apply in_map|right].
  rewrite nat_ascii_embedding by lia. destruct (Nat.leb_spec 97 n); [|lia]. destruct (Nat.leb_spec n 122); [|lia]. now apply in_map.
Qed.
(** A name that already has the ending, in letters of either case, gets it again. *)
Theorem C113_ending_refuted : forall before c after e e', c <> "."%char -> c <> "/"%char -> ~ In "/"%char after ->
  In e' [".png"; ".eps"; ".pdf"]%string -> same_letters e e' ->
  let name := (string_of_list_ascii (before ++ c :: after) ++ e)%string in
  save_name (Some name) false false false = Some (name ++ e')%string.
Proof.
  intros before c after e e' D S A I SL name.
  pose proof (variants_in e e' SL) as ES. clear SL.
  assert (LE : lower e = e').
  { clear -I ES. cbn in I. destruct I as [<-|[<-|[<-|[]]]]; vm_compute in ES; decompose [or] ES; subst; try reflexivity; tauto. }
  assert (Ex : extension name = e).
  { unfold extension, name. rewrite list_ascii_app, list_ascii_of_string_of_list_ascii, rev_app_distr.
    assert (O : only_dots (rev (before ++ c :: after)) = false).
    { rewrite rev_app_distr. cbn [rev]. rewrite <- app_assoc. apply only_dots_proper; try assumption. intros K. apply A. now apply in_rev. }
    clear LE. cbn in I. destruct I as [<-|[<-|[<-|[]]]]; vm_compute in ES; decompose [or] ES; subst; try tauto;
      cbn [list_ascii_of_string rev app last_dot Ascii.eqb Bool.eqb]; rewrite O; reflexivity. }
  assert (Ne : String.eqb name "" = false).
  { apply String.eqb_neq. unfold name. destruct (before ++ c :: after) eqn:K; [now destruct before|discriminate]. }
  unfold save_name. rewrite Ne, Ex, LE. cbn [negb orb]. cbn in I. destruct I as [<-|[<-|[<-|[]]]]; reflexivity.
Qed.
Print Assumptions C113_ending_refuted.
(** Several formats are one: png. *)
Theorem C113_formats : forall name png eps pdf, name <> ""%string -> (2 <= Nat.b2n png + Nat.b2n eps + Nat.b2n pdf)%nat ->
  save_name (Some name) png eps pdf = Some (name ++ ".png")%string.
Proof.
  intros name png eps pdf N H. apply String.eqb_neq in N. unfold save_name. rewrite N. destruct png, eps, pdf; cbn in H; try lia; reflexivity.
Qed.
Print Assumptions C113_formats.
Example C113_case : save_name (Some "out/sky.png"%string) false false false = Some "out/sky.png.png"%string
  /\ save_name (Some "sky"%string) false true false = Some "sky.eps"%string /\ save_name (Some "sky.v2"%string) false false false = Some "sky.v2.png"%string
  /\ save_name (Some "out/.png"%string) false false false = Some "out/.png.png"%string.
Proof. repeat split; vm_compute; reflexivity. Qed.
Example C113_capitals : same_letters ".PnG" ".png" /\ save_name (Some "sky.PnG"%string) false false false = Some "sky.PnG.png"%string.
Proof.
  split; [|reflexivity]. apply sl_same. apply (sl_capital 112); [lia|]. apply sl_same. apply (sl_capital 103); [lia|]. constructor.
Qed.
