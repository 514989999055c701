From Coq Require Import String Ascii Reals Lra.
From Verif Require Import Base ColorImg ColorImgSpec.
Import ListNotations.
Open Scope list_scope.
Open Scope R_scope.

Lemma rltb_true a b : a < b -> rltb a b = true. Proof. unfold rltb. destruct (Rlt_dec a b); tauto. Qed.
Lemma rltb_false a b : b <= a -> rltb a b = false. Proof. unfold rltb. destruct (Rlt_dec a b); intros; [lra|tauto]. Qed.
Lemma rltb_iff a b : rltb a b = true <-> a < b. Proof. unfold rltb. destruct (Rlt_dec a b); split; congruence || tauto. Qed.
Lemma rltb_niff a b : rltb a b = false <-> b <= a. Proof. unfold rltb. destruct (Rlt_dec a b); split; intros; try congruence; lra. Qed.
Lemma reqb_true a : reqb a a = true. Proof. unfold reqb. destruct (Req_EM_T a a); tauto. Qed.
Lemma reqb_false a b : a <> b -> reqb a b = false. Proof. unfold reqb. destruct (Req_EM_T a b); tauto. Qed.
Lemma reqb_iff a b : reqb a b = true <-> a = b. Proof. unfold reqb. destruct (Req_EM_T a b); split; congruence || tauto. Qed.

Lemma ln10 : 0 < ln 10. Proof. rewrite <- ln_1. apply ln_increasing; lra. Qed.
Lemma l10_incr a b : 0 < a -> a < b -> l10 a < l10 b.
Proof. intros. unfold l10, Rdiv. apply Rmult_lt_compat_r; [apply Rinv_0_lt_compat, ln10|now apply ln_increasing]. Qed.
Lemma pow10_l10 x : 0 < x -> exp (l10 x * ln 10) = x.
Proof. intros. unfold l10, Rdiv. rewrite Rmult_assoc, Rinv_l; [|apply Rgt_not_eq, ln10]. rewrite Rmult_1_r. now apply exp_ln. Qed.
Lemma log10_pos x : 0 < x -> log10 (Fin x) = Fin (l10 x). Proof. intros. cbn. now rewrite rltb_true. Qed.

(** np.min, np.max of finite values *)
Lemma fold_min vs : forall x, exists m, fold_left min2 (map Fin vs) (Fin x) = Fin m /\ In m (x :: vs) /\ forall v, In v (x :: vs) -> m <= v.
Proof.
  induction vs as [|y vs IH]; intros x.
  - exists x. repeat split; [now left|]. intros v [->|[]]. lra.
  - cbn [map fold_left]. unfold min2 at 2. cbn [is_nan orb lt]. destruct (rltb y x) eqn:L.
    + destruct (IH y) as (m & E & I & H). exists m. split; [exact E|]. split; [right; exact I|].
      apply rltb_iff in L. intros v [->|Iv]; [|now apply H]. specialize (H y (or_introl eq_refl)). lra.
    + destruct (IH x) as (m & E & I & H). exists m. split; [exact E|]. split; [destruct I as [->|I]; [now left|right; now right]|].
      apply rltb_niff in L. intros v [->|[->|Iv]]; [apply H; now left| |apply H; now right].
      specialize (H x (or_introl eq_refl)). lra.
Qed.
Lemma fold_max vs : forall x, exists m, fold_left max2 (map Fin vs) (Fin x) = Fin m /\ In m (x :: vs) /\ forall v, In v (x :: vs) -> v <= m.
Proof.
  induction vs as [|y vs IH]; intros x.
  - exists x. repeat split; [now left|]. intros v [->|[]]. lra.
  - cbn [map fold_left]. unfold max2 at 2. cbn [is_nan orb lt]. destruct (rltb x y) eqn:L.
    + destruct (IH y) as (m & E & I & H). exists m. split; [exact E|]. split; [right; exact I|].
      apply rltb_iff in L. intros v [->|Iv]; [|now apply H]. specialize (H y (or_introl eq_refl)). lra.
    + destruct (IH x) as (m & E & I & H). exists m. split; [exact E|]. split; [destruct I as [->|I]; [now left|right; now right]|].
      apply rltb_niff in L. intros v [->|[->|Iv]]; [apply H; now left| |apply H; now right].
      specialize (H x (or_introl eq_refl)). lra.
Qed.
Lemma np_min_ok vs m : In m vs -> (forall v, In v vs -> m <= v) -> np_min (map Fin vs) = Ok (Fin m).
Proof.
  intros I H. destruct vs as [|x vs]; [easy|]. cbn [map np_min]. destruct (fold_min vs x) as (k & -> & K1 & K2).
  do 2 f_equal. apply Rle_antisym; [now apply K2|now apply H].
Qed.
Lemma np_max_ok vs m : In m vs -> (forall v, In v vs -> v <= m) -> np_max (map Fin vs) = Ok (Fin m).
Proof.
  intros I H. destruct vs as [|x vs]; [easy|]. cbn [map np_max]. destruct (fold_max vs x) as (k & -> & K1 & K2).
  do 2 f_equal. apply Rle_antisym; [now apply H|now apply K2].
Qed.
Lemma numbers_fin vs : numbers (map Fin vs) = map Fin vs.
Proof. unfold numbers. induction vs; cbn; [reflexivity|now rewrite IHvs]. Qed.
Lemma nanmin_ok vs m : In m vs -> (forall v, In v vs -> m <= v) -> nanmin (map Fin vs) = Ok (Fin m).
Proof. intros I H. pose proof (np_min_ok vs m I H) as E. destruct vs as [|x vs]; [easy|]. unfold nanmin. pose proof (numbers_fin (x :: vs)) as F. cbn [map] in *. rewrite F. exact E. Qed.
Lemma nanmax_ok vs m : In m vs -> (forall v, In v vs -> v <= m) -> nanmax (map Fin vs) = Ok (Fin m).
Proof. intros I H. pose proof (np_max_ok vs m I H) as E. destruct vs as [|x vs]; [easy|]. unfold nanmax. pose proof (numbers_fin (x :: vs)) as F. cbn [map] in *. rewrite F. exact E. Qed.

Lemma data_range_ok vs dr a b : drawn_range vs dr a b -> data_range_of (map Fin vs) dr = Ok (Fin a, Fin b) /\ a <= b.
Proof.
  unfold drawn_range, data_range_of. destruct dr as [r|].
  - intros [-> L]. now split.
  - intros (Ia & Ib & H). rewrite (np_min_ok vs a), (np_max_ok vs b); try assumption; try (intros; now apply H).
    split; [reflexivity|]. now apply H.
Qed.

Lemma filter_pos vs : filter pos (map Fin vs) = map Fin (filter (rltb 0) vs).
Proof. induction vs as [|x vs IH]; [reflexivity|]. cbn [map filter]. unfold pos at 1. cbn [lt]. destruct (rltb 0 x); cbn [map]; now rewrite IH. Qed.
Lemma min_pos_ok vs p a b : least_positive vs p -> min_pos (map Fin vs) a b = Fin p.
Proof.
  intros (I & P & H). unfold min_pos. rewrite filter_pos, (np_min_ok _ p); [reflexivity| |].
  - apply filter_In. split; [exact I|now apply rltb_true].
  - intros v Iv. apply filter_In in Iv as [Iv L]. apply rltb_iff in L. now apply H.
Qed.
Lemma filter_none {A} (f : A -> bool) l : (forall x, In x l -> f x = false) -> filter f l = [].
Proof. induction l as [|x l IH]; intros H; [reflexivity|]. cbn. rewrite (H x (or_introl eq_refl)). apply IH. intros; apply H; now right. Qed.
Lemma min_pos_none vs a b : (forall v, In v vs -> v <= 0) -> a <= 0 -> 0 < b -> min_pos (map Fin vs) (Fin a) (Fin b) = Fin (b / 10).
Proof.
  intros H La Lb. unfold min_pos. rewrite filter_pos, filter_none; [|intros; apply rltb_false; auto]. cbn [map np_min].
  unfold pos. cbn [lt]. rewrite (rltb_false 0 a), rltb_true by lra. cbn [div]. rewrite reqb_false by lra. reflexivity.
Qed.
(** the cut, 413-417 *)
Lemma cut_ok vs a b p : lower_end vs a b p -> 0 < b ->
  0 < p /\ (if pos (Fin a) then log10 (Fin a) else log10 (min_pos (map Fin vs) (Fin a) (Fin b))) = Fin (l10 p).
Proof.
  unfold pos. cbn [lt]. intros [[P ->]|[[L H]|(L & H & ->)]] B.
  - split; [exact P|]. rewrite rltb_true by exact P. now apply log10_pos.
  - destruct H as (I & P & H). split; [exact P|]. rewrite rltb_false by exact L. rewrite (min_pos_ok vs p); [now apply log10_pos|now repeat split].
  - assert (P : 0 < b / 10) by lra. split; [exact P|]. rewrite rltb_false by exact L. rewrite min_pos_none by assumption. now apply log10_pos.
Qed.

Lemma put_where_map test v (f : R -> ext) vs :
  put_where test v (map Fin vs) (map f vs) = map (fun x => if test (Fin x) then v else f x) vs.
Proof. induction vs as [|x vs IH]; [reflexivity|]. cbn [map put_where]. now rewrite IH. Qed.
Lemma put_map test v (f : R -> ext) vs : put test v (map f vs) = map (fun x => if test (f x) then v else f x) vs.
Proof. unfold put. now rewrite map_map. Qed.

Lemma anyb_zero vs : anyb zero (map Fin vs) = true <-> In 0 vs.
Proof.
  unfold anyb. rewrite existsb_exists. split.
  - intros (x & I & Z). apply in_map_iff in I as (v & <- & I). cbn in Z. apply reqb_iff in Z. now subst.
  - intros I. exists (Fin 0). split; [now apply in_map|]. cbn. apply reqb_true.
Qed.

Definition first_pos (vs : list R) : R := if anyb zero (map Fin vs) then 2 else 1.

Lemma ln_l10 x y p b : p <> b -> 0 < p -> 0 < b -> (l10 x - l10 y) / (l10 b - l10 p) = (ln x - ln y) / (ln b - ln p).
Proof.
  intros N P B. assert (ln b <> ln p) by (intros E; apply N; symmetry; now apply ln_inv). unfold l10. pose proof ln10. field. split; lra.
Qed.

(** the colours of log_cut without missing values *)
Lemma log_cut_ok vs a b p : lower_end vs a b p -> 0 < b -> p < b ->
  log_cut (map Fin vs) (Fin a) (Fin b) None 0 256 =
  Ok (map (fun v => if rltb v 0 then Fin 0 else if reqb v 0 then Fin 1 else Fin (log_color (first_pos vs) p b v)) vs, (Fin (l10 p), Fin (l10 b))).
Proof.
  intros Lo B PB. destruct (cut_ok vs a b p Lo B) as (P & C). unfold log_cut. unfold neg at 1. cbn [lt]. rewrite rltb_false by lra.
  rewrite C. rewrite (log10_pos b B). fold (first_pos vs). cbn [pow10]. rewrite pow10_l10 by exact P.
  rewrite map_map, put_where_map, put_map, map_map, !put_where_map. do 2 f_equal.
  apply map_ext. intros v. unfold zero, neg. cbn [eq lt].
  destruct (reqb v 0) eqn:Z. { apply reqb_iff in Z. subst v. now rewrite rltb_false by lra. }
  destruct (rltb v 0) eqn:N; [reflexivity|]. apply rltb_niff in N.
  assert (V : 0 < v). { destruct (Rle_lt_or_eq_dec 0 v N) as [|E]; [assumption|]. rewrite <- E, reqb_true in Z. discriminate. }
  rewrite (log10_pos v V). pose proof (l10_incr p b P PB) as LL.
  assert (K : forall w, 0 < w -> (if lt (Fin (l10 b)) (Fin (l10 w)) then Fin (l10 b) else Fin (l10 w)) = Fin (l10 (Rmin b w))).
  { intros w W. cbn [lt]. destruct (Rle_or_lt w b) as [W1|W1].
    - rewrite Rmin_right by exact W1. rewrite rltb_false; [reflexivity|]. destruct W1 as [W1| ->]; [left; now apply l10_incr|lra].
    - rewrite Rmin_left by lra. rewrite rltb_true; [reflexivity|]. now apply l10_incr. }
  assert (X : forall w, w = Rmax p v -> add (add (div (mul (sub (if lt (Fin (l10 b)) (Fin (l10 w)) then Fin (l10 b) else Fin (l10 w)) (Fin (l10 p)))
       (Fin (256 - first_pos vs - 1))) (sub (Fin (l10 b)) (Fin (l10 p)))) (Fin 0)) (Fin (first_pos vs)) = Fin (log_color (first_pos vs) p b v)).
  { intros w ->. rewrite K by (pose proof (Rmax_l p v); lra). cbn [sub opp add mul div]. rewrite reqb_false by lra. cbn [add]. f_equal.
    unfold log_color, within. replace (255 - first_pos vs) with (256 - first_pos vs - 1) by lra.
    transitivity ((256 - first_pos vs - 1) * ((l10 (Rmin b (Rmax p v)) - l10 p) / (l10 b - l10 p)) + first_pos vs).
    - field. lra.
    - rewrite ln_l10 by lra. unfold Rdiv. ring. }
  destruct (rltb v p) eqn:U.
  - apply rltb_iff in U. apply X. symmetry. apply Rmax_left. lra.
  - apply rltb_niff in U. apply X. symmetry. now apply Rmax_right.
Qed.

Lemma nth_map_fin {B} (f : R -> B) vs i v : nth_error vs i = Some v -> nth_error (map f vs) i = Some (f v).
Proof. intros. now apply map_nth_error. Qed.

Lemma log_color_calc_ok vs dr a b p : drawn_range vs dr a b -> lower_end vs a b p -> 0 < b -> p < b ->
  log_color_calc (map Fin vs) dr "log_cut" None None (Some O) [] 0 false =
  Ok (map (fun v => if rltb v 0 then Fin 0 else if reqb v 0 then Fin 1 else Fin (log_color (first_pos vs) p b v)) vs,
      ticks 0, map (log_label (Fin (l10 p)) (Fin (l10 b)) 256) (ticks 0)).
Proof.
  intros D Lo B PB. destruct (data_range_ok vs dr a b D) as (E & L). unfold log_color_calc.
  replace (profile_of "log_cut") with (Ok LogCut) by reflexivity. cbn [bind]. rewrite E. cbn [bind lt]. rewrite rltb_false by exact L. cbn [bind color_range].
  rewrite (log_cut_ok vs a b p Lo B PB). cbn [bind]. reflexivity.
Qed.

(** what the colours are worth *)
Lemma within_in p b v : p <= b -> p <= within p b v <= b.
Proof. intros. unfold within. split; [apply Rmin_glb; [assumption|apply Rmax_l]|apply Rmin_l]. Qed.
Lemma within_id p b v : p <= v <= b -> within p b v = v.
Proof. intros. unfold within. rewrite Rmax_right, Rmin_right; lra. Qed.
Lemma ln_le x y : 0 < x -> x <= y -> ln x <= ln y.
Proof. intros P [L| ->]; [left; now apply ln_increasing|lra]. Qed.

Lemma log_color_range m p b v : 0 < p -> p < b -> m <= 255 -> m <= log_color m p b v <= 255.
Proof.
  intros P PB M. unfold log_color. pose proof (within_in p b v ltac:(lra)) as W.
  pose proof (ln_increasing p b P PB). pose proof (ln_le p (within p b v) P ltac:(lra)). pose proof (ln_le (within p b v) b ltac:(lra) ltac:(lra)).
  set (t := (ln (within p b v) - ln p) / (ln b - ln p)).
  assert (T : 0 <= t <= 1).
  { unfold t. split; [apply Rmult_le_pos; [lra|left; apply Rinv_0_lt_compat; lra]|].
    apply Rmult_le_reg_r with (ln b - ln p); [lra|]. unfold Rdiv. rewrite Rmult_assoc, Rinv_l by lra. lra. }
  replace ((255 - m) * (ln (within p b v) - ln p) / (ln b - ln p)) with ((255 - m) * t) by (unfold t, Rdiv; ring).
  split; [assert (0 <= (255 - m) * t) by (apply Rmult_le_pos; lra); lra|].
  assert ((255 - m) * t <= (255 - m) * 1) by (apply Rmult_le_compat_l; lra). lra.
Qed.
Lemma log_color_incr m p b v w : 0 < p -> m < 255 -> p <= v -> v < w -> w <= b -> log_color m p b v < log_color m p b w.
Proof.
  intros P M V VW W. unfold log_color. rewrite !within_id by lra.
  pose proof (ln_increasing p b P ltac:(lra)). pose proof (ln_increasing v w ltac:(lra) VW).
  apply Rplus_lt_compat_l. unfold Rdiv. apply Rmult_lt_compat_r; [apply Rinv_0_lt_compat; lra|]. apply Rmult_lt_compat_l; lra.
Qed.
Lemma log_color_ends m p b : 0 < p -> p < b ->
  (forall v, v <= p -> log_color m p b v = m) /\ (forall v, b <= v -> log_color m p b v = 255).
Proof.
  intros P PB. pose proof (ln_increasing p b P PB). split; intros v V; unfold log_color, within.
  - rewrite Rmax_left by lra. rewrite Rmin_right by lra. field. lra.
  - rewrite Rmax_right by lra. rewrite Rmin_left by lra. field. lra.
Qed.

(** the colour bar *)
Lemma label_of vs p b v : 0 < p -> p < b -> p <= v <= b ->
  log_label (Fin (l10 p)) (Fin (l10 b)) 256 (log_color (first_pos vs) p b v) =
  Fin (exp (ln v + first_pos vs / 255 * (ln b - ln v))).
Proof.
  intros P PB V. unfold log_label. cbn [sub opp add mul div]. rewrite reqb_false by lra. cbn [add pow10]. do 2 f_equal.
  unfold log_color. rewrite within_id by lra. pose proof (ln_increasing p b P PB). pose proof ln10. unfold l10. field. lra.
Qed.
Lemma first_pos_pos vs : 0 < first_pos vs < 255.
Proof. unfold first_pos. destruct (anyb zero (map Fin vs)); lra. Qed.

(** missing values *)
Lemma put_at_length wh v : forall a, List.length (put_at wh v a) = List.length a.
Proof. induction wh as [|i wh IH]; intros a; [reflexivity|]. cbn [put_at]. now rewrite IH, upd_length. Qed.
Lemma put_at_nth wh v : forall a i d, (i < List.length a)%nat ->
  nth i (put_at wh v a) d = if existsb (Nat.eqb i) wh then v else nth i a d.
Proof.
  induction wh as [|j wh IH]; intros a i d H; [reflexivity|]. cbn [put_at existsb]. rewrite IH by now rewrite upd_length.
  destruct (existsb (Nat.eqb i) wh); [now rewrite orb_true_r|]. rewrite orb_false_r, nth_upd.
  rewrite (Nat.eqb_sym i j). apply Nat.ltb_lt in H. rewrite H, andb_true_r. reflexivity.
Qed.

(** the positions of the missing value, 158-160 *)
Definition places (m : ext) (data : list ext) : list nat :=
  filter (fun i => match nth_error data i with Some v => eq v m | None => false end) (seq 0 (List.length data)).
Lemma places_iff m vs i v : nth_error vs i = Some v -> existsb (Nat.eqb i) (places (Fin m) (map Fin vs)) = reqb v m.
Proof.
  intros H. apply Bool.eq_iff_eq_true. rewrite existsb_exists. unfold places. split.
  - intros (j & I & E). apply Nat.eqb_eq in E. subst j. apply filter_In in I as [_ I]. rewrite (map_nth_error _ _ _ H) in I. exact I.
  - intros E. exists i. split; [|apply Nat.eqb_refl]. apply filter_In. rewrite (map_nth_error _ _ _ H). split; [|exact E].
    apply in_seq. rewrite map_length. assert (i < List.length vs)%nat by (apply nth_error_Some; congruence). lia.
Qed.
Lemma places_none m vs : ~ In m vs -> places (Fin m) (map Fin vs) = [].
Proof.
  intros N. apply filter_none. intros i _. rewrite nth_error_map. destruct (nth_error vs i) as [v|] eqn:E; [|reflexivity].
  cbn. apply reqb_false. intros ->. apply N. now apply nth_error_In with i.
Qed.
Lemma places_some m vs : In m vs -> (0 <? List.length (places (Fin m) (map Fin vs)))%nat = true.
Proof.
  intros I. apply In_nth_error in I as [i I]. pose proof (places_iff m vs i m I) as E. rewrite reqb_true in E.
  destruct (places (Fin m) (map Fin vs)); [discriminate|reflexivity].
Qed.
(** the pixels once the missing ones are NaN *)
Lemma marked m vs : put_at (places (Fin m) (map Fin vs)) NaN (map Fin vs) = map (fun v => if reqb v m then NaN else Fin v) vs.
Proof.
  apply nth_ext with (d := NaN) (d' := NaN). { now rewrite put_at_length, !map_length. }
  intros i Hi. rewrite put_at_length, map_length in Hi. rewrite put_at_nth by now rewrite map_length.
  destruct (nth_error vs i) as [v|] eqn:E; [|apply nth_error_None in E; lia]. rewrite (places_iff m vs i v E).
  pose proof (map_nth_error (fun v => if reqb v m then NaN else Fin v) _ _ E) as E1. pose proof (map_nth_error Fin _ _ E) as E2.
  rewrite (nth_error_nth _ _ NaN E1), (nth_error_nth _ _ NaN E2). reflexivity.
Qed.

Lemma fold_nan (f : ext -> ext -> ext) l : (forall x, f NaN x = NaN) -> fold_left f l NaN = NaN.
Proof. intros H. induction l as [|x l IH]; [reflexivity|]. cbn. now rewrite H. Qed.
Lemma fold_nan_in f l : (forall x, f NaN x = NaN) -> (forall x, f x NaN = NaN) -> In NaN l -> forall x, fold_left f l x = NaN.
Proof.
  intros H1 H2. induction l as [|y l IH]; [easy|]. intros [->|I] x; cbn; [rewrite H2; now apply fold_nan|now apply IH].
Qed.
Lemma min2_nan_r x : min2 x NaN = NaN. Proof. unfold min2. now destruct (is_nan x). Qed.
Lemma max2_nan_r x : max2 x NaN = NaN. Proof. unfold max2. now destruct (is_nan x). Qed.
Lemma np_min_nan l : In NaN l -> np_min l = Ok NaN.
Proof.
  destruct l as [|x l]; [easy|]. cbn [np_min]. intros [->|I]; f_equal; [now apply fold_nan|]. apply fold_nan_in; try easy. apply min2_nan_r.
Qed.
Lemma np_max_nan l : In NaN l -> np_max l = Ok NaN.
Proof.
  destruct l as [|x l]; [easy|]. cbn [np_max]. intros [->|I]; f_equal; [now apply fold_nan|]. apply fold_nan_in; try easy. apply max2_nan_r.
Qed.

Lemma put_where_length test v : forall d a, List.length (put_where test v d a) = List.length a.
Proof. induction d as [|x d IH]; intros [|y a]; cbn; auto. Qed.
Lemma put_where_nth test v : forall d a i x y, nth_error d i = Some x -> nth_error a i = Some y ->
  nth_error (put_where test v d a) i = Some (if test x then v else y).
Proof.
  induction d as [|x0 d IH]; intros [|y0 a] [|i] x y; cbn; try discriminate.
  - intros [= ->] [= ->]. reflexivity.
  - apply IH.
Qed.

(** with a missing value the colours of log_cut are NaN for every positive value *)
Lemma log_cut_nan data c0 n i v : nth_error data i = Some (Fin v) -> 0 < v ->
  forall r, log_cut data NaN NaN None c0 n = Ok r -> nth_error (fst r) i = Some NaN.
Proof.
  intros I V r. unfold log_cut. cbn [neg lt pos log10]. intros [= <-]. cbn [fst].
  set (dl := put _ NaN _). assert (X : exists x, nth_error dl i = Some x).
  { destruct (nth_error dl i) eqn:E; [eauto|]. apply nth_error_None in E. unfold dl, put in E.
    rewrite map_length, put_where_length, map_length in E. assert (i < List.length data)%nat by (apply nth_error_Some; congruence). lia. }
  destruct X as [x X].
  rewrite (put_where_nth _ _ _ _ _ _ _ I (put_where_nth _ _ _ _ _ _ _ I (map_nth_error _ _ _ X))).
  unfold zero, neg. cbn [eq lt]. rewrite (reqb_false v 0) by lra. rewrite rltb_false by lra. f_equal.
  match goal with |- add (add (div ?m _) _) _ = _ => destruct m; reflexivity end.
Qed.

(** names *)
Lemma list_ascii_app s t : list_ascii_of_string (s ++ t) = list_ascii_of_string s ++ list_ascii_of_string t.
Proof. induction s as [|c s IH]; [reflexivity|]. cbn. now rewrite IH. Qed.
Lemma only_dots_proper mid c pre : ~ In "/"%char mid -> c <> "."%char -> c <> "/"%char -> only_dots (mid ++ c :: pre) = false.
Proof.
  intros N D S. induction mid as [|x mid IH]; cbn [app only_dots].
  - destruct (Ascii.eqb_spec c "/"); [easy|]. destruct (Ascii.eqb_spec c "."); [easy|]. reflexivity.
  - destruct (Ascii.eqb_spec x "/"); [subst; exfalso; apply N; now left|]. rewrite IH; [apply andb_false_r|].
    intros I. apply N. now right.
Qed.

Lemma extremes_ex vs : vs <> [] -> exists a b, extremes vs a b.
Proof.
  destruct vs as [|x vs]; [easy|]. intros _. destruct (fold_min vs x) as (a & _ & Ia & La). destruct (fold_max vs x) as (b & _ & Ib & Lb).
  exists a, b. split; [exact Ia|]. split; [exact Ib|]. intros v I. split; [now apply La|now apply Lb].
Qed.
Lemma map_repeat {A B} (f : A -> B) a n : map f (repeat a n) = repeat (f a) n.
Proof. induction n; cbn; congruence. Qed.
