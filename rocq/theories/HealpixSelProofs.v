From Coq Require Import String Reals Lra.
From Verif Require Import Base PyIndex HealpixCnv HealpixCnvSpec HealpixCnvProofs ExportSize Reflect ReflectProofs HealpixSel HealpixSelSpec.
Import ListNotations.
Open Scope nat_scope.
Open Scope R_scope.

(** ** Great circles *)
Definition unit3 (u : R * R * R) : Prop := dot u u = 1.
Lemma direction_unit ra dec : unit3 (direction ra dec).
Proof.
  unfold unit3, dot, direction. cbn [fst snd].
  set (a := ra * PI / 180). set (d := dec * PI / 180).
  pose proof (sin2_cos2 a) as A. pose proof (sin2_cos2 d) as D. unfold Rsqr in *. nra.
Qed.
Lemma gram u v w : let '(a, b, c, x, y, z) := (dot u v, dot v w, dot u w, dot u u, dot v v, dot w w) in
  0 <= x * y * z + 2 * a * b * c - x * b * b - y * c * c - z * a * a.
Proof.
  destruct u as [[u1 u2] u3], v as [[v1 v2] v3], w as [[w1 w2] w3]. unfold dot. cbn [fst snd].
  match goal with |- 0 <= ?e =>
    replace e with ((u1 * (v2 * w3 - v3 * w2) - u2 * (v1 * w3 - v3 * w1) + u3 * (v1 * w2 - v2 * w1)) ^ 2) by ring end.
  apply pow2_ge_0.
Qed.
Lemma lagrange u v : dot u v ^ 2 <= dot u u * dot v v.
Proof.
  destruct u as [[u1 u2] u3], v as [[v1 v2] v3]. unfold dot. cbn [fst snd].
  match goal with |- ?a <= ?b => enough (0 <= b - a) by lra;
    replace (b - a) with ((u1 * v2 - u2 * v1) ^ 2 + (u1 * v3 - u3 * v1) ^ 2 + (u2 * v3 - u3 * v2) ^ 2) by ring end.
  pose proof (pow2_ge_0 (u1 * v2 - u2 * v1)). pose proof (pow2_ge_0 (u1 * v3 - u3 * v1)). pose proof (pow2_ge_0 (u2 * v3 - u3 * v2)). lra.
Qed.
Lemma dot_range u v : unit3 u -> unit3 v -> -1 <= dot u v <= 1.
Proof. unfold unit3. intros U V. pose proof (lagrange u v) as L. rewrite U, V in L. nra. Qed.
Lemma acos_range x : 0 <= acos x <= PI.
Proof. apply acos_bound. Qed.
Lemma acos_triangle u v w : unit3 u -> unit3 v -> unit3 w -> acos (dot u w) <= acos (dot u v) + acos (dot v w).
Proof.
  intros U V W. pose proof (dot_range u v U V) as A. pose proof (dot_range v w V W) as B. pose proof (dot_range u w U W) as C.
  pose proof (acos_range (dot u v)) as RA. pose proof (acos_range (dot v w)) as RB. pose proof (acos_range (dot u w)) as RC.
  destruct (Rle_dec PI (acos (dot u v) + acos (dot v w))) as [G|G]; [lra|]. apply Rnot_le_lt in G.
  destruct (Rle_dec (acos (dot u w)) (acos (dot u v) + acos (dot v w))) as [K|K]; [exact K|exfalso]. apply Rnot_le_lt in K.
  assert (X : cos (acos (dot u w)) < cos (acos (dot u v) + acos (dot v w))) by (apply cos_decreasing_1; lra).
  rewrite cos_plus, !cos_acos, !sin_acos in X by assumption.
  pose proof (gram u v w) as M. unfold unit3 in U, V, W. cbn beta iota in M. rewrite U, V, W in M.
  set (a := dot u v) in *. set (b := dot v w) in *. set (c := dot u w) in *.
  assert (PA : 0 <= 1 - Rsqr a) by (unfold Rsqr; nra). assert (PB : 0 <= 1 - Rsqr b) by (unfold Rsqr; nra).
  rewrite <- sqrt_mult in X by assumption.
  assert (Y : sqrt ((1 - Rsqr a) * (1 - Rsqr b)) < a * b - c) by lra.
  assert (Z0 : 0 <= sqrt ((1 - Rsqr a) * (1 - Rsqr b))) by apply sqrt_pos.
  assert (Q0 : sqrt ((1 - Rsqr a) * (1 - Rsqr b)) * sqrt ((1 - Rsqr a) * (1 - Rsqr b)) = (1 - Rsqr a) * (1 - Rsqr b)).
  { apply sqrt_sqrt. now apply Rmult_le_pos. }
  unfold Rsqr in *. nra.
Qed.

Lemma deg_mono x y : x <= y -> x * 180 / PI <= y * 180 / PI.
Proof. intros H. pose proof PI_RGT_0. apply Rmult_le_compat_r; [left; now apply Rinv_0_lt_compat|lra]. Qed.
Lemma apart_sym u v : apart u v = apart v u.
Proof. unfold apart, dot. f_equal. f_equal. f_equal. ring. Qed.
Lemma apart_pos u v : 0 <= apart u v.
Proof. pose proof (acos_range (dot u v)). pose proof PI_RGT_0. unfold apart. apply Rmult_le_pos; [lra|left; now apply Rinv_0_lt_compat]. Qed.
Lemma apart_triangle u v w : unit3 u -> unit3 v -> unit3 w -> apart u w <= apart u v + apart v w.
Proof.
  intros U V W. unfold apart. replace (acos (dot u v) * 180 / PI + acos (dot v w) * 180 / PI) with ((acos (dot u v) + acos (dot v w)) * 180 / PI).
  - apply deg_mono. now apply acos_triangle.
  - field. apply PI_neq0.
Qed.
(** The fields are more than 45 degrees apart. *)
Lemma fields_apart : 45 < apart (centre EoR0) (centre EoR1).
Proof.
  unfold apart, centre, dot, direction. cbn [fst snd].
  replace (0 * PI / 180) with 0 by field. replace (60 * PI / 180) with (PI / 3) by field. replace (-30 * PI / 180) with (- (PI / 6)) by field.
  rewrite cos_neg, sin_neg, cos_0, sin_0, cos_PI3, sin_PI3, cos_PI6, sin_PI6.
  assert (S3 : sqrt 3 * sqrt 3 = 3) by (apply sqrt_sqrt; lra).
  replace (sqrt 3 / 2 * 1 * (sqrt 3 / 2 * (1 / 2)) + sqrt 3 / 2 * 0 * (sqrt 3 / 2 * (sqrt 3 / 2)) + - (1 / 2) * - (1 / 2)) with (5 / 8).
  2: { replace (sqrt 3 / 2 * 1 * (sqrt 3 / 2 * (1 / 2))) with (sqrt 3 * sqrt 3 / 8) by field. rewrite S3. field. }
  pose proof PI_RGT_0 as P. pose proof (acos_range (5 / 8)) as RA.
  assert (X : PI / 4 < acos (5 / 8)).
  { apply cos_decreasing_0; try lra. rewrite cos_acos by lra. rewrite cos_PI4.
    assert (S2 : sqrt 2 * sqrt 2 = 2) by (apply sqrt_sqrt; lra). assert (S0 : 0 < sqrt 2) by (apply sqrt_lt_R0; lra).
    apply Rmult_lt_reg_r with (sqrt 2); [exact S0|]. replace (1 / sqrt 2 * sqrt 2) with 1 by (field; lra). nra. }
  apply Rmult_lt_reg_r with PI; [exact P|]. unfold Rdiv. rewrite Rmult_assoc, Rinv_l by lra. lra.
Qed.

(** ** The choice of the list *)
Lemma separation_apart ra dec ra' dec' : separation (rad ra) (rad dec) (rad ra') (rad dec') = apart (direction ra dec) (direction ra' dec').
Proof.
  unfold separation, apart, deg, dot, direction, rad. cbn [fst snd]. f_equal. f_equal. f_equal. rewrite cos_minus. ring.
Qed.
Lemma beyond_false d : -90 <= d <= 90 -> beyond (rad d) = false.
Proof.
  intros H. unfold beyond, rad. pose proof PI_RGT_0. destruct (Rle_dec _ _) as [G|G]; [reflexivity|exfalso]. apply G.
  apply Rabs_le. split; nra.
Qed.
Lemma beyond_true d : ~ (-90 <= d <= 90) -> beyond (rad d) = true.
Proof.
  intros H. unfold beyond, rad. pose proof PI_RGT_0. destruct (Rle_dec _ _) as [G|G]; [|reflexivity]. exfalso. apply H.
  assert (- (PI / 2) <= d * PI / 180 <= PI / 2). { revert G. unfold Rabs. destruct (Rcase_abs _); lra. } split; nra.
Qed.
Definition fold_angle (a : R) : R := Rmax a (2 * PI - a).
Lemma fold_pos a : 0 <= a -> 0 <= fold_angle a.
Proof. intros. unfold fold_angle. eapply Rle_trans; [eassumption|apply Rmax_l]. Qed.
Lemma fold_big a : PI <= a -> fold_angle a = a.
Proof. intros. unfold fold_angle. apply Rmax_left. lra. Qed.
Lemma fold_small a : 0 <= a <= PI -> PI <= fold_angle a <= 2 * PI.
Proof. intros. unfold fold_angle. rewrite Rmax_right by lra. lra. Qed.

(** Which of two distances are kept, for distances that add up to more than 45 *)
Lemma kept_two d0 d1 : 0 <= d0 -> 0 <= d1 -> 45 < d0 + d1 ->
  let m := Rmin (fold_angle d0) (fold_angle d1) in
  (Rabs (fold_angle d0 - m) <= 1 <-> d0 <= d1 + 1) /\ (Rabs (fold_angle d1 - m) <= 1 <-> d1 <= d0 + 1).
Proof.
  intros P0 P1 D m. pose proof PI_4 as P4. pose proof PI_RGT_0 as P.
  assert (Abs : forall x y, y <= x -> Rabs (x - y) = x - y) by (intros; apply Rabs_right; lra).
  unfold m. rewrite (Abs _ _ (Rmin_l _ _)), (Abs _ _ (Rmin_r _ _)). clear Abs.
  destruct (Rle_dec PI d0) as [A|A], (Rle_dec PI d1) as [B|B].
  - rewrite !fold_big by assumption. unfold Rmin. destruct (Rle_dec d0 d1); split; split; lra.
  - apply Rnot_le_lt in B. rewrite (fold_big d0) by assumption. pose proof (fold_small d1 ltac:(lra)). unfold Rmin. destruct (Rle_dec _ _); split; split; lra.
  - apply Rnot_le_lt in A. rewrite (fold_big d1) by assumption. pose proof (fold_small d0 ltac:(lra)). unfold Rmin. destruct (Rle_dec _ _); split; split; lra.
  - lra.
Qed.

Definition the_template (f : field) (b : band) : template :=
  match f, b with
  | EoR0, High => nth 0 templates no_template
  | EoR0, Low => nth 1 templates no_template
  | EoR1, High => nth 2 templates no_template
  | EoR1, Low => nth 3 templates no_template
  end.
Lemma the_name f b : m_name (the_template f b) = list_file f b.
Proof. now destruct f, b. Qed.
Lemma the_freq f b : m_freq (the_template f b) = band_MHz b.
Proof. now destruct f, b. Qed.

Lemma within_true x : within x = true <-> x <= 1.
Proof. unfold within. destruct (Rle_dec x 1); split; intros; (assumption || reflexivity || discriminate || contradiction). Qed.
Lemma within_iff x P : (x <= 1 <-> P) -> within x = true -> P.
Proof. intros H E. apply H. now apply within_true. Qed.
Lemma within_not x P : (x <= 1 <-> P) -> within x = false -> ~ P.
Proof. intros H E K. apply H in K. apply within_true in K. congruence. Qed.

Lemma argmin_spec l : l <> [] -> (argmin l < List.length l)%nat /\ forall j, (j < List.length l)%nat -> nth (argmin l) l 0 <= nth j l 0.
Proof.
  intros N. unfold argmin. destruct (argmax_spec (map Ropp l)) as [K M].
  { intros E. apply N. now apply map_eq_nil in E. }
  rewrite map_length in K, M. split; [exact K|]. intros j J. specialize (M j J).
  assert (X : forall i, nth i (map Ropp l) 0 = - nth i l 0).
  { intros i. replace 0 with (- 0) at 1 by ring. apply map_nth. }
  rewrite !X in M. lra.
Qed.

Lemma near_cases p : (near p EoR0 <-> apart p (centre EoR0) <= apart p (centre EoR1) + 1)
  /\ (near p EoR1 <-> apart p (centre EoR1) <= apart p (centre EoR0) + 1).
Proof.
  unfold near. split; split; intros H; try (apply H); intros [|]; lra.
Qed.

Lemma choose_spec ra dec fc : -90 <= dec <= 90 ->
  exists t f b, choose ra dec fc = Ok t /\ m_name t = list_file f b /\ near (direction ra dec) f
    /\ forall b', Rabs (band_MHz b - fc / 1000000) <= Rabs (band_MHz b' - fc / 1000000).
Proof.
  intros D. set (p := direction ra dec).
  set (d0 := apart p (centre EoR0)). set (d1 := apart p (centre EoR1)).
  assert (P0 : 0 <= d0) by apply apart_pos. assert (P1 : 0 <= d1) by apply apart_pos.
  assert (S0 : 45 < d0 + d1).
  { pose proof fields_apart as F. pose proof (apart_triangle (centre EoR0) p (centre EoR1)) as T.
    rewrite (apart_sym (centre EoR0) p) in T. fold d0 d1 in T. enough (apart (centre EoR0) (centre EoR1) <= d0 + d1) by lra.
    apply T; [apply direction_unit|apply direction_unit|apply direction_unit]. }
  assert (A : forall a b, angle_difference ra dec a b true true = if beyond (rad b) then Err ValueError else Ok (fold_angle (apart p (direction a b)))).
  { intros a b. unfold angle_difference. cbn beta iota. rewrite (beyond_false dec D). cbn [orb].
    rewrite separation_apart. fold p. reflexivity. }
  assert (DI : map_res (fun f => d <- angle_difference ra dec (m_ra f) (m_dec f) true true ;; Ok (Rabs d)) templates
               = Ok [fold_angle d0; fold_angle d0; fold_angle d1; fold_angle d1]).
  { cbn [map_res templates m_ra m_dec]. rewrite !A, !(beyond_false (-30)) by lra. cbn [bind]. 
    change (direction 0 (-30)) with (centre EoR0). change (direction 60 (-30)) with (centre EoR1). fold d0 d1.
    rewrite !Rabs_right by (apply Rle_ge; now apply fold_pos). reflexivity. }
  unfold choose. rewrite DI. cbn [bind].
  assert (M : min_R [fold_angle d0; fold_angle d0; fold_angle d1; fold_angle d1] = Rmin (fold_angle d0) (fold_angle d1)).
  { cbn [min_R fold_left]. unfold Rmin. repeat destruct (Rle_dec _ _); lra. }
  rewrite M. destruct (kept_two d0 d1 P0 P1 S0) as [K0 K1]. cbn beta zeta in K0, K1.
  set (m := Rmin (fold_angle d0) (fold_angle d1)) in *.
  set (files := map (fun i => nth i templates no_template) _).
  assert (F : exists fs, files = flat_map (fun f => [the_template f High; the_template f Low]) fs /\ fs <> [] /\ forall f, In f fs -> near p f).
  { destruct (near_cases p) as [N0 N1]. fold d0 d1 in N0, N1. unfold files, where_. cbn [List.length seq combine filter map snd].
    destruct (within (Rabs (fold_angle d0 - m))) eqn:W0, (within (Rabs (fold_angle d1 - m))) eqn:W1; cbn [filter map fst].
    - exists [EoR0; EoR1]. split; [reflexivity|]. split; [discriminate|]. intros f [<-|[<-|[]]].
      + apply N0. now apply (within_iff _ _ K0). + apply N1. now apply (within_iff _ _ K1).
    - exists [EoR0]. split; [reflexivity|]. split; [discriminate|]. intros f [<-|[]]. apply N0. now apply (within_iff _ _ K0).
    - exists [EoR1]. split; [reflexivity|]. split; [discriminate|]. intros f [<-|[]]. apply N1. now apply (within_iff _ _ K1).
    - exfalso. pose proof (within_not _ _ K0 W0). pose proof (within_not _ _ K1 W1). lra. }
  destruct F as (fs & -> & NE & N). set (fl := flat_map _ fs).
  assert (NEl : fl <> []). { unfold fl. destruct fs; [congruence|discriminate]. }
  destruct (argmin_spec (map (fun f => Rabs (m_freq f - fc / 1000000)) fl)) as [L X].
  { intros E. now apply map_eq_nil in E. }
  set (k := argmin _) in *. rewrite map_length in L, X.
  assert (I : In (nth k fl no_template) fl) by now apply nth_In.
  unfold fl in I at 2. apply in_flat_map in I as (f & Hf & Hb).
  assert (exists b, the_template f b = nth k fl no_template) as (b & Eb).
  { destruct Hb as [E|[E|[]]]; eauto. }
  exists (nth k fl no_template), f, b. split; [reflexivity|]. split; [rewrite <- Eb; apply the_name|]. split; [now apply N|].
  intros b'. assert (I' : In (the_template f b') fl).
  { unfold fl. apply in_flat_map. exists f. split; [exact Hf|]. destruct b'; [now left|right; now left]. }
  destruct (In_nth _ _ no_template I') as (j & J & EJ). specialize (X j J).
  assert (Y : forall i, (i < List.length fl)%nat -> nth i (map (fun f => Rabs (m_freq f - fc / 1000000)) fl) 0 = Rabs (m_freq (nth i fl no_template) - fc / 1000000)).
  { intros i Hi. rewrite (nth_indep _ 0 ((fun f => Rabs (m_freq f - fc / 1000000)) no_template)) by now rewrite map_length.
    exact (map_nth (fun f => Rabs (m_freq f - fc / 1000000)) fl no_template i). }
  rewrite !Y in X by assumption. rewrite EJ, <- Eb, !the_freq in X. exact X.
Qed.
Lemma choose_err ra dec fc : ~ (-90 <= dec <= 90) -> choose ra dec fc = Err ValueError.
Proof.
  intros D. unfold choose. cbn [map_res templates m_ra m_dec]. unfold angle_difference at 1. cbn beta iota. rewrite (beyond_true dec D). reflexivity.
Qed.

(** ** The horizon *)
Lemma take_where {A B E} (d : B) (h : A -> B) (a : A -> E) (f : E -> bool) (l : list A) :
  take d (map h l) (where_ f (map a l)) = map h (filter (fun x => f (a x)) l).
Proof.
  unfold where_, take. rewrite map_length.
  assert (X : forall n,
    map (fun i => nth (i - n) (map h l) d) (map fst (filter (fun kv => f (snd kv)) (combine (seq n (List.length l)) (map a l)))) = map h (filter (fun x => f (a x)) l)).
  { induction l as [|x l IH]; intros n; [reflexivity|]. cbn [List.length seq map combine filter snd].
    assert (Y : map (fun i => nth (i - n) (h x :: map h l) d) (map fst (filter (fun kv : nat * E => f (snd kv)) (combine (seq (S n) (List.length l)) (map a l)))) = map h (filter (fun x => f (a x)) l)).
    { rewrite <- (IH (S n)). rewrite !map_map. apply map_ext_in. intros [i b] H. apply filter_In in H as [H _]. apply in_combine_l in H. apply in_seq in H.
      cbn [fst]. replace (i - n)%nat with (S (i - S n)) by lia. reflexivity. }
    destruct (f (a x)); [|exact Y]. cbn [map fst]. rewrite Nat.sub_diag. cbn [nth]. f_equal. exact Y. }
  rewrite <- (X 0%nat). apply map_ext. intros i. now rewrite Nat.sub_0_r.
Qed.
Lemma where_none {A} (f : A -> bool) (l : list A) : List.length (where_ f l) = 0%nat -> forall x, In x l -> f x = false.
Proof.
  intros H x X. destruct (In_nth _ _ x X) as (i & L & E). destruct (f x) eqn:F; [exfalso|reflexivity].
  assert (I : In i (where_ f l)). { apply (In_where f l x i). split; [exact L|now rewrite E]. }
  destruct (where_ f l); [contradiction|discriminate].
Qed.
Lemma filter_all {A} (f : A -> bool) (l : list A) : (forall x, In x l -> f x = true) -> filter f l = l.
Proof. induction l as [|x l IH]; intros H; [reflexivity|]. cbn [filter]. rewrite (H x (or_introl eq_refl)). f_equal. apply IH. intros y Y. apply H. now right. Qed.
Lemma below_above q : below q = negb (above q).
Proof. unfold below, above. now destruct (Qlt_le_dec 0 q). Qed.

Section Restricted.
  Context {site : Type} (L : lib site) (s : site) (o : sobs) (pos : Z -> Q * Q).
  Local Notation up p := (above (l_alt L s (o_jd0 o) (pos p))).
  Lemma place_some nside l radius : (forall p, In p l -> l_lonlat L (int_R nside) p = Ok (pos p)) ->
    place L nside (Some l) o radius = Ok (l, map pos l, map (fun p => l_xy L (pos p)) l).
  Proof.
    intros H. cbn [place]. assert (E : map_res (l_lonlat L (int_R nside)) l = Ok (map pos l)).
    { induction l as [|p l IH]; [reflexivity|]. cbn [map_res map]. rewrite (H p (or_introl eq_refl)). cbn [bind].
      rewrite IH by (intros q Q; apply H; now right). reflexivity. }
    rewrite E. cbn [bind]. now rewrite map_map.
  Qed.
  Lemma cut_ok l : List.length l <> 1%nat ->
    cut L s o (l, map pos l, map (fun p => l_xy L (pos p)) l)
    = Ok (filter (fun p => up p) l, map (fun p => l_xy L (pos p)) (filter (fun p => up p) l)).
  Proof.
    intros N. unfold cut. rewrite (proj2 (Nat.eqb_neq _ _) N). rewrite map_map.
    destruct (List.length (where_ below (map (fun x => l_alt L s (o_jd0 o) (pos x)) l)) =? 0)%nat eqn:E.
    - apply Nat.eqb_eq in E. assert (F : filter (fun p => up p) l = l).
      { apply filter_all. intros p P. assert (X := where_none _ _ E (l_alt L s (o_jd0 o) (pos p)) (in_map (fun x => l_alt L s (o_jd0 o) (pos x)) l p P)).
        rewrite below_above in X. now destruct (above _). }
      now rewrite F.
    - rewrite (take_where (0%Q, 0%Q) (fun p => l_xy L (pos p)) (fun x => l_alt L s (o_jd0 o) (pos x)) above l).
      pose proof (take_where 0%Z (fun p => p) (fun x => l_alt L s (o_jd0 o) (pos x)) above l) as T. rewrite !map_id in T. now rewrite T.
  Qed.
End Restricted.
