(** Properties C14-C16 and C51-C55: visibility_grid. *)
From Coq Require Import Permutation Lqa ZifyBool ZifyNat.
From Verif Require Import Base SortLib Cplx NpArr PyIndex SumLib Histogram ArrayMatch Utils1 WeightInvert WeightInvertProofs
  GridLoc GridSpec GridLocProofs GridCountProofs GridLocProps RebinProofs
  VisGrid VisGridSpec VisGridBoxProofs VisGridProofs VisGridLinProofs.
Open Scope nat_scope.

(** The baselines used: the given ones, or the default selection. *)
Definition selection (g : loc_input) (bi_use : option (list Z)) (bi : list Z) : Prop :=
  match bi_use with Some b => bi = b | None => default_bi_use g false = Ok bi end.
(** [good] decides which samples are griddable. *)
Definition decides (good : nat -> bool) (g : loc_input) (mask : bool) (fi bi : list Z) : Prop :=
  forall k, k < length fi * length bi -> good k = true <-> griddable g false mask (measurement g fi bi k).
(** Kernel tables in use (beams computed per baseline by an external routine excluded). *)
Definition tabulated (cfg : grid_cfg) : Prop := c_interp cfg = true \/ c_per_baseline cfg = false.

Lemma count_if_ext n p q : (forall k, k < n -> p k = q k) -> count_if n p = count_if n q.
Proof. intros H. unfold count_if. now rewrite (filter_seq_ext p q). Qed.
Lemma decides_unique g mask fi bi p q : decides p g mask fi bi -> decides q g mask fi bi ->
  forall k, k < length fi * length bi -> p k = q k.
Proof. intros Hp Hq k Hk. specialize (Hp k Hk). specialize (Hq k Hk). destruct (p k), (q k); intuition congruence. Qed.

(** *** C14 *)
(** Every plane is the sum over the griddable samples taken one by one, whether or not
    visibility_grid grouped equal ones. [looked_up_bin]: see C16. *)
Theorem C14_planes_partial : forall cfg gi uniform fi_use bi_use out,
  let g := gi_loc gi in let fi := choose_fi_use g false fi_use in
  sensible g -> (g_elements g <= g_dimension g)%Z -> tabulated cfg -> beam_ok gi -> c_uniform cfg = false ->
  visibility_grid cfg gi uniform true fi_use bi_use = Ok (Some out) ->
  exists bi, selection g bi_use bi /\
  exists good, decides good g (c_mask_mirror cfg) fi bi
    /\ 0 < o_n_vis out /\ o_n_vis out = count_if (length fi * length bi) good
    /\ rows (o_image out) = Z.to_nat (g_elements g) /\ cols (o_image out) = Z.to_nat (g_dimension g)
    /\ let fb := looked_up_bin gi fi in let it := c_interp cfg in
       forall y x,
       at2 (o_image out) y x = gridded_sum it gi fi bi fb good s_vis y x
       /\ (c_weights cfg = true -> at2 (o_weights out) y x = gridded_sum it gi fi bi fb good (fun _ => C1) y x)
       /\ (c_variance cfg = true -> at2 (o_variance out) y x = gridded_power it gi fi bi fb good y x)
       /\ (uniform = true -> at2 (o_uniform out) y x = gridded_count gi fi bi good y x)
       /\ (forall mo, o_model out = Some mo -> at2 mo y x = gridded_sum it gi fi bi fb good s_model y x).
Proof.
  intros cfg gi uniform fi_use bi_use out g fi Hs Hle Hmode Hbeam Hu E.
  destruct (grid_main _ _ _ _ _ _ _ Hs Hle Hmode Hbeam E) as (bi & good & l & st & Hbi & HG & (k0 & Hk0 & Gk0) & Hx & Hnf & Hn & Hout & Hsh & _ & HV).
  fold g in HG, Hk0, Hn, HV, Hsh. fold fi in HG, Hk0, Hn, HV.
  exists bi. split; [exact Hbi|]. exists good. split; [intros k _; apply HG|].
  split. { rewrite Hn. unfold count_if. destruct (filter good (seq 0 (length fi * length bi))) eqn:F; [|apply Nat.lt_0_succ].
    assert (In k0 []) as []. rewrite <- F. apply filter_In. split; auto. apply in_seq. lia. }
  split; [exact Hn|].
  rewrite Hout. unfold grid_finish. rewrite Hu. cbn [o_image o_weights o_variance o_uniform o_model].
  split; [apply Hsh; simpl; auto|]. split; [apply Hsh; simpl; auto|].
  intros y x. destruct (HV y x) as (V1 & V2 & V3 & V4 & V5). rewrite Hu, orb_false_r in V5.
  split; [exact V1|]. split; [|split; [|split]].
  - intros Hw. rewrite Hw in *. exact V3.
  - intros Hw. rewrite Hw in *. exact V4.
  - intros ->. cbn [orb andb negb]. exact V5.
  - destruct (gi_model gi); [|discriminate]. intros mo [= <-]. apply V2. congruence.
Qed.
Print Assumptions C14_planes_partial.

(** The same for a single bin, for planes of any shape: summing the visibilities that share
    kernel coordinates first gives what every visibility contributes on its own. *)
Theorem C14_bin : forall cfg gi l fb vis model inds bx,
  c_interp cfg = false -> c_per_baseline cfg = false ->
  (forall k, In k inds -> (0 <= flat_at (l_x_offset l) k < g_psf_resolution (gi_loc gi))%Z
                       /\ (0 <= flat_at (l_y_offset l) k < g_psf_resolution (gi_loc gi))%Z) ->
  (forall f b, (0 <= gi_group gi f b)%Z) ->
  bin_box cfg gi l fb vis model inds = Ok bx ->
  let kern k := gi_beam gi (nth (k mod length fb) fb 0) (Z.to_nat (flat_at (l_y_offset l) k)) (Z.to_nat (flat_at (l_x_offset l) k)) in
  forall c q,
    dag_dot (b_rows bx) (map (Cscale c) (b_vis bx)) q
      = dag_dot (map kern inds) (map (Cscale c) (map (flat_at vis) inds)) q
    /\ dag_dot (b_rows bx) (map (Cscale c) (b_model bx)) q
      = dag_dot (map kern inds) (map (Cscale c) (map (flat_at model) inds)) q
    /\ dag_dot (b_rows bx) (map RtoC (map (fun w => (qc_nat w * c)%Qc) (b_wt bx))) q
      = dag_dot (map kern inds) (map (fun _ => RtoC c) inds) q
    /\ abs2_dot (b_rows bx) (map (fun w => (qc_nat w * c)%Qc) (b_wt bx)) q
      = abs2_dot (map kern inds) (map (fun _ => c) inds) q.
Proof.
  intros cfg gi l fb vis model inds bx Hi Hp Hoff Hg E kern c q.
  apply bin_box_grouped in E; auto; [|intros k Hk; now apply Hoff|intros k Hk; now apply Hoff].
  assert (EK : forall k, kernel_k cfg gi l fb k = kern k) by (intros k; unfold kernel_k; now rewrite Hi).
  pose proof (sum_vis _ _ _ _ _ _ E c q) as S1. pose proof (sum_model _ _ _ _ _ _ E c q) as S2.
  pose proof (sum_weights _ _ _ _ _ _ E c q) as S3. pose proof (sum_variance _ _ _ _ _ _ E c q) as S4.
  rewrite !map_map in S3, S4. rewrite !map_map.
  split; [|split; [|split]].
  - rewrite S1, dag_dot_map, <- Csum_scale. apply Csum_ext. intros k _. rewrite EK. apply C_ext; cbn [re im Cmul Cscale]; ring.
  - rewrite S2, dag_dot_map, <- Csum_scale. apply Csum_ext. intros k _. rewrite EK. apply C_ext; cbn [re im Cmul Cscale]; ring.
  - rewrite map_map in S3. rewrite S3, dag_dot_map, <- Csum_scale. apply Csum_ext. intros k _. rewrite EK.
    apply C_ext; unfold RtoC; cbn [re im Cmul Cscale]; ring.
  - rewrite S4, abs2_dot_map, <- Qcsum_mul_l. apply Qcsum_ext. intros k _. rewrite EK. ring.
Qed.
Print Assumptions C14_bin.

(** A small observation: beam 1 in frequency bin 0, beam 2 in bin 1. *)
Definition gdemo : grid_input :=
  {| gi_loc := demo; gi_fbin := [0; 1]; gi_group := fun _ _ => 0%Z; gi_group_cols := 3;
     gi_n_baselines := 3; gi_n_time := 1;
     gi_beam := fun f y x => repeat (RtoC (qc_nat (f + 1))) 16;
     gi_beam_pb := fun _ _ _ _ => [];
     gi_vis := Arr2 2 3 (fun i j => mkC (qc_nat (3 * i + j + 1)) 1%Qc);
     gi_model := None; gi_nf_vis := [0; 0] |}.
Definition cfg0 : grid_cfg :=
  {| c_interp := false; c_per_baseline := false; c_spectral := false; c_weights := true; c_variance := true;
     c_uniform := false; c_mask_mirror := false |}.
Lemma demo_sensible : sensible demo.
Proof.
  unfold sensible, demo; cbn. repeat split; try lia; try (unfold Qlt, Qle; simpl; lia).
  intros f [<-|[<-|[]]]; unfold Qle; simpl; lia.
Qed.
Lemma gdemo_beam : beam_ok gdemo.
Proof. split; intros; cbn [gdemo gi_beam gi_group gi_loc]; [now rewrite repeat_length|lia]. Qed.

(** Boolean checks of a run. *)
Definition run_ok (r : result (option grid_out)) (P : grid_out -> bool) : bool :=
  match r with Ok (Some o) => P o | _ => false end.
Lemma run_ok_elim r P : run_ok r P = true -> exists o, r = Ok (Some o) /\ P o = true.
Proof. destruct r as [[o|]|]; cbn [run_ok]; try discriminate. eauto. Qed.

Example C14_case : sensible (gi_loc gdemo) /\ beam_ok gdemo /\ tabulated cfg0 /\
  run_ok (visibility_grid cfg0 gdemo true true None None)
    (fun o => (o_n_vis o =? 3) && Qceqb (at2 (o_uniform o) 6 5) (qc_nat 2) && negb (Ceqb (at2 (o_image o) 6 5) C0)) = true.
Proof.
  split; [exact demo_sensible|]. split; [exact gdemo_beam|]. split; [now right|]. vm_compute. reflexivity.
Qed.

(** The spectral planes do change under grouping: spectral_B (sum of kernel times channel
    index) ignores how many visibilities were merged. *)
Definition locs1 : locs :=
  {| l_bi_use := None; l_xmin := Arr2 2 2 (fun _ _ => 1%Z); l_ymin := Arr2 2 2 (fun _ _ => 1%Z);
     l_x_offset := Arr2 2 2 (fun _ _ => 0%Z); l_y_offset := Arr2 2 2 (fun _ _ => 0%Z); l_deriv := None; l_bins := None |}.
Theorem C14_spectral_refuted : exists cfg gi l fb vis model inds bx,
  c_interp cfg = false /\ c_per_baseline cfg = false
  /\ bin_box cfg gi l fb vis model inds = Ok bx
  /\ let kern k := gi_beam gi (nth (k mod length fb) fb 0) (Z.to_nat (flat_at (l_y_offset l) k)) (Z.to_nat (flat_at (l_x_offset l) k)) in
     exists q, dag_dot (b_rows bx) (map (fun f => RtoC (qc_nat f)) (b_freq bx)) q
            <> dag_dot (map kern inds) (map (fun k => RtoC (qc_nat (k mod length fb))) inds) q.
Proof.
  exists cfg0, gdemo, locs1, [0; 0], (gi_vis gdemo), (gi_vis gdemo), [1; 3].
  eexists. split; [reflexivity|]. split; [reflexivity|]. split; [vm_compute; reflexivity|].
  exists 0. intros E. apply (f_equal (fun z => Ceqb z C1)) in E. vm_compute in E. discriminate.
Qed.
Print Assumptions C14_spectral_refuted.

(** *** C15: linearity, for every configuration, plane shape and kind of beam *)
Theorem C15_linear : forall (a b : Qc) cfg gi uniform no_conjugate fi_use bi_use v1 v2 v3 m1 m2 m3 o1 o2,
  let sum_of (x1 x2 x3 : arr2 C) :=
    (rows x1 = rows x3 /\ cols x1 = cols x3) /\ (rows x2 = rows x3 /\ cols x2 = cols x3)
    /\ forall i j, at2 x3 i j = (Cscale a (at2 x1 i j) + Cscale b (at2 x2 i j))%C in
  let sum_of_opt (x1 x2 x3 : option (arr2 C)) :=
    match x1, x2, x3 with
    | Some y1, Some y2, Some y3 => sum_of y1 y2 y3 | None, None, None => True | _, _, _ => False end in
  sum_of v1 v2 v3 -> sum_of_opt m1 m2 m3 ->
  visibility_grid cfg (with_data gi v1 m1) uniform no_conjugate fi_use bi_use = Ok (Some o1) ->
  visibility_grid cfg (with_data gi v2 m2) uniform no_conjugate fi_use bi_use = Ok (Some o2) ->
  exists o3, visibility_grid cfg (with_data gi v3 m3) uniform no_conjugate fi_use bi_use = Ok (Some o3)
    /\ sum_of (o_image o1) (o_image o2) (o_image o3)
    /\ sum_of_opt (o_model o1) (o_model o2) (o_model o3)
    /\ sum_of_opt (o_spectral o1) (o_spectral o2) (o_spectral o3)
    /\ sum_of_opt (o_spectral_model o1) (o_spectral_model o2) (o_spectral_model o3)
    /\ o_weights o1 = o_weights o3 /\ o_variance o1 = o_variance o3 /\ o_uniform o1 = o_uniform o3
    /\ o_n_vis o1 = o_n_vis o3 /\ o_nf_vis o1 = o_nf_vis o3.
Proof.
  intros a b cfg gi uniform nc fi_use bi_use v1 v2 v3 m1 m2 m3 o1 o2 sum_of sum_of_opt Hv Hm E1 E2.
  assert (A1 : forall x1 x2 x3, sum_of x1 x2 x3 <-> alin a b x1 x2 x3) by (unfold sum_of, alin, lin; tauto).
  assert (A2 : forall x1 x2 x3, sum_of_opt x1 x2 x3 <-> clin a b x1 x2 x3).
  { intros [y1|] [y2|] [y3|]; unfold sum_of_opt, clin; try tauto. apply A1. }
  apply A1 in Hv. apply A2 in Hm.
  destruct (grid_lin _ _ _ _ _ _ _ _ _ _ _ _ _ _ _ _ Hv Hm E1 E2) as (o3 & E3 & HI & HM & HS & HSM & W & _ & V & U & N & NF).
  exists o3. rewrite A1, !A2. auto 12.
Qed.
Print Assumptions C15_linear.

(** Only the visibilities changed in C15_linear: with_data keeps everything else. *)
Example C15_linear_case : with_data gdemo (gi_vis gdemo) None = gdemo
  /\ run_ok (visibility_grid cfg0 (with_data gdemo (gi_vis gdemo) None) false false None None) (fun o => negb (Ceqb (at2 (o_image o) 6 5) C0)) = true.
Proof. split; [reflexivity|vm_compute; reflexivity]. Qed.

(** *** C15: order *)
Lemma filter_map_comm {A B} (p : B -> bool) (f : A -> B) l : filter p (map f l) = map f (filter (fun x => p (f x)) l).
Proof. induction l as [|a l IH]; cbn [map filter]; auto. destruct (p (f a)); cbn [map]; now rewrite IH. Qed.
Lemma Permutation_filter' {A} (p : A -> bool) l1 l2 : Permutation l1 l2 -> Permutation (filter p l1) (filter p l2).
Proof.
  induction 1; cbn [filter]; auto; repeat match goal with |- context [if ?c then _ else _] => destruct c end; auto; try constructor; auto.
  eapply perm_trans; eauto.
Qed.

(** Same plane, beam resolution and baseline limits; the same set of frequencies. *)
Definition same_setup (g g' : loc_input) : Prop :=
  g_dimension g = g_dimension g' /\ g_elements g = g_elements g' /\ g_kpix g = g_kpix g'
  /\ g_min_baseline g = g_min_baseline g' /\ g_max_baseline g = g_max_baseline g'
  /\ g_psf_dim g = g_psf_dim g' /\ g_psf_resolution g = g_psf_resolution g'
  /\ (forall f, In f (g_freq g) <-> In f (g_freq g')).

Lemma same_setup_griddable g g' mask m : same_setup g g' -> griddable g false mask m <-> griddable g' false mask m.
Proof.
  intros (E1 & E2 & E3 & E4 & E5 & E6 & E7 & E8).
  assert (MM : forall x, is_min x (g_freq g) <-> is_min x (g_freq g')).
  { intros x. unfold is_min. rewrite E8. split; intros [H1 H2]; split; auto; intros y Hy; apply H2, E8; auto. }
  assert (MX : forall x, is_max x (g_freq g) <-> is_max x (g_freq g')).
  { intros x. unfold is_max. rewrite E8. split; intros [H1 H2]; split; auto; intros y Hy; apply H2, E8; auto. }
  unfold griddable, corner_x, corner_y. rewrite E1, E2, E3, E4, E5, E6.
  split; intros (H1 & H2 & H3 & H4); (split; [exact H1|split; [exact H2|split; [|exact H4]]]); intros HF; destruct (H3 HF) as [H5 H6];
    (split; [exact H5|]); intros fmin fmax Hm HM; apply H6; try (now apply MM); now apply MX.
Qed.

(** All samples of a run, without their frequency bin. *)
Definition samples (gi : grid_input) (fi bi : list Z) : list sample :=
  map (sample_at gi fi bi (fun _ => 0)) (seq 0 (length fi * length bi)).

(** When the beam is the same in every frequency bin the planes depend only on the
    multiset of samples, not on the order of channels and baselines. *)
Theorem C15_order_partial : forall cfg gi gi' uniform fi_use bi_use fi_use' bi_use' out out' bi bi',
  let g := gi_loc gi in let g' := gi_loc gi' in
  let fi := choose_fi_use g false fi_use in let fi' := choose_fi_use g' false fi_use' in
  sensible g -> sensible g' -> (g_elements g <= g_dimension g)%Z -> tabulated cfg -> beam_ok gi -> beam_ok gi' ->
  c_uniform cfg = false ->
  same_setup g g' -> (forall f f' y x, gi_beam gi f y x = gi_beam gi' f' y x) ->
  selection g bi_use bi -> selection g' bi_use' bi' ->
  Permutation (samples gi fi bi) (samples gi' fi' bi') ->
  visibility_grid cfg gi uniform true fi_use bi_use = Ok (Some out) ->
  visibility_grid cfg gi' uniform true fi_use' bi_use' = Ok (Some out') ->
  o_n_vis out = o_n_vis out'
  /\ forall y x, at2 (o_image out) y x = at2 (o_image out') y x
    /\ (c_weights cfg = true -> at2 (o_weights out) y x = at2 (o_weights out') y x)
    /\ (c_variance cfg = true -> at2 (o_variance out) y x = at2 (o_variance out') y x)
    /\ (uniform = true -> at2 (o_uniform out) y x = at2 (o_uniform out') y x).
Proof.
  intros cfg gi gi' uniform fi_use bi_use fi_use' bi_use' out out' bi bi' g g' fi fi' Hs Hs' Hle Ht Hb Hb' Hu HS HBm Hbi Hbi' HP E E'.
  assert (Hle' : (g_elements g' <= g_dimension g')%Z) by (destruct HS as (<- & <- & _); exact Hle).
  destruct (C14_planes_partial _ _ _ _ _ _ Hs Hle Ht Hb Hu E) as (b1 & S1 & good & HD & _ & Hn & _ & _ & HV).
  destruct (C14_planes_partial _ _ _ _ _ _ Hs' Hle' Ht Hb' Hu E') as (b2 & S2 & good' & HD' & _ & Hn' & _ & _ & HV').
  assert (b1 = bi) by (unfold selection in S1, Hbi; fold g in S1; destruct bi_use; congruence).
  assert (b2 = bi') by (unfold selection in S2, Hbi'; fold g' in S2; destruct bi_use'; congruence). subst b1 b2.
  fold g in HD, Hn, HV. fold fi in HD, Hn, HV. fold g' in HD', Hn', HV'. fold fi' in HD', Hn', HV'.
  (* a decision on samples *)
  destruct (loc_main_decide gi cfg fi_use bi_use uniform true out Hs E) as (dec & Hdec).
  fold g in Hdec.
  set (ds := fun s : sample => dec (s_meas s)).
  assert (HGd : forall k, k < length fi * length bi -> good k = ds (sample_at gi fi bi (fun _ => 0) k)).
  { intros k Hk. unfold ds. cbn [sample_at s_meas]. specialize (HD k Hk). specialize (Hdec (measurement g fi bi k)).
    change (meas_at (gi_loc gi) fi bi (k / length bi) (k mod length bi)) with (measurement g fi bi k).
    destruct (good k), (dec (measurement g fi bi k)); intuition congruence. }
  assert (HGd' : forall k, k < length fi' * length bi' -> good' k = ds (sample_at gi' fi' bi' (fun _ => 0) k)).
  { intros k Hk. unfold ds. cbn [sample_at s_meas]. specialize (HD' k Hk). specialize (Hdec (measurement g' fi' bi' k)).
    rewrite (same_setup_griddable g g' _ _ HS) in Hdec.
    change (meas_at (gi_loc gi') fi' bi' (k / length bi') (k mod length bi')) with (measurement g' fi' bi' k).
    destruct (good' k), (dec (measurement g' fi' bi' k)); intuition congruence. }
  pose proof (Permutation_filter' ds _ _ HP) as HPf. unfold samples in HPf. rewrite !filter_map_comm in HPf.
  rewrite <- (filter_seq_ext good _ _ HGd) in HPf. rewrite <- (filter_seq_ext good' _ _ HGd') in HPf.
  assert (CNT : count_if (length fi * length bi) good = count_if (length fi' * length bi') good').
  { unfold count_if. apply Permutation_length in HPf. now rewrite !map_length in HPf. }
  assert (INF : forall m y x, in_footprint g m y x = in_footprint g' m y x).
  { intros m y x. destruct HS as (E1 & E2 & E3 & _ & _ & E6 & E7 & _). unfold in_footprint, corner_x, corner_y. now rewrite E1, E2, E3, E6. }
  assert (KV : forall it m y x, kernel_value it g (gi_beam gi 0) m (footprint_pixel g m y x) = kernel_value it g' (gi_beam gi' 0) m (footprint_pixel g' m y x)).
  { intros it m y x. destruct HS as (E1 & E2 & E3 & _ & _ & E6 & E7 & _). unfold kernel_value, footprint_pixel, corner_x, corner_y.
    rewrite E1, E2, E3, E6, E7. rewrite !(HBm 0 0). reflexivity. }
  assert (KB : forall it m q fb, kernel_value it g (gi_beam gi fb) m q = kernel_value it g (gi_beam gi 0) m q).
  { intros. unfold kernel_value. rewrite !(HBm fb 0), !(HBm 0 0). reflexivity. }
  assert (KB' : forall it m q fb, kernel_value it g' (gi_beam gi' fb) m q = kernel_value it g' (gi_beam gi' 0) m q).
  { intros. unfold kernel_value. rewrite <- !(HBm 0 fb), <- !(HBm 0 0). reflexivity. }
  assert (SH : forall it fb k y x, share it gi (sample_at gi fi bi fb k) y x = share it gi (sample_at gi fi bi (fun _ => 0) k) y x).
  { intros. unfold share. cbn [sample_at s_meas s_fbin]. fold g. now rewrite KB. }
  assert (SH' : forall it fb k y x, share it gi' (sample_at gi' fi' bi' fb k) y x = share it gi (sample_at gi' fi' bi' (fun _ => 0) k) y x).
  { intros. unfold share. cbn [sample_at s_meas s_fbin]. fold g g'. now rewrite KB', INF, KV. }
  assert (TOT : forall (F : sample -> C),
     total (length fi * length bi) good (fun k => F (sample_at gi fi bi (fun _ => 0) k))
     = total (length fi' * length bi') good' (fun k => F (sample_at gi' fi' bi' (fun _ => 0) k))).
  { intros F. unfold total. rewrite <- (map_map (sample_at gi fi bi (fun _ => 0)) F), <- (map_map (sample_at gi' fi' bi' (fun _ => 0)) F). now apply Csum_map_perm. }
  assert (TOTq : forall (F : sample -> Qc),
     total_q (length fi * length bi) good (fun k => F (sample_at gi fi bi (fun _ => 0) k))
     = total_q (length fi' * length bi') good' (fun k => F (sample_at gi' fi' bi' (fun _ => 0) k))).
  { intros F. unfold total_q. rewrite <- (map_map (sample_at gi fi bi (fun _ => 0)) F), <- (map_map (sample_at gi' fi' bi' (fun _ => 0)) F). now apply Qcsum_map_perm. }
  assert (GS : forall v : sample -> C, (forall m z w f1 f2, v {| s_meas := m; s_vis := z; s_model := w; s_fbin := f1 |} = v {| s_meas := m; s_vis := z; s_model := w; s_fbin := f2 |}) ->
     forall y x, gridded_sum (c_interp cfg) gi fi bi (looked_up_bin gi fi) good v y x = gridded_sum (c_interp cfg) gi' fi' bi' (looked_up_bin gi' fi') good' v y x).
  { intros v Hv y x. unfold gridded_sum. rewrite CNT. f_equal.
    transitivity (total (length fi * length bi) good (fun k => (fun s => share (c_interp cfg) gi s y x * v s)%C (sample_at gi fi bi (fun _ => 0) k))).
    - unfold total. apply Csum_ext. intros k _. cbv beta zeta. rewrite SH. f_equal. apply Hv.
    - rewrite (TOT (fun s => share (c_interp cfg) gi s y x * v s)%C). unfold total. apply Csum_ext. intros k _. cbv beta zeta. rewrite SH'. f_equal. apply Hv. }
  split; [congruence|]. intros y x. destruct (HV y x) as (V1 & V2 & V3 & V4 & _). destruct (HV' y x) as (V1' & V2' & V3' & V4' & _).
  split; [|split; [|split]].
  - rewrite V1, V1'. now apply GS.
  - intros Hw. rewrite V2, V2' by auto. now apply GS.
  - intros Hw. rewrite V3, V3' by auto. unfold gridded_power. rewrite CNT. f_equal.
    transitivity (total_q (length fi * length bi) good (fun k => (fun s => Cnorm2 (share (c_interp cfg) gi s y x)) (sample_at gi fi bi (fun _ => 0) k))).
    + unfold total_q. apply Qcsum_ext. intros k _. cbv beta. now rewrite SH.
    + rewrite (TOTq (fun s => Cnorm2 (share (c_interp cfg) gi s y x))). unfold total_q. apply Qcsum_ext. intros k _. cbv beta. now rewrite SH'.
  - intros Hw. rewrite V4, V4' by auto. unfold gridded_count.
    transitivity (total_q (length fi * length bi) good (fun k => (fun s => if in_footprint g (s_meas s) y x then 1%Qc else 0%Qc) (sample_at gi fi bi (fun _ => 0) k))).
    + reflexivity.
    + rewrite (TOTq (fun s => if in_footprint g (s_meas s) y x then 1%Qc else 0%Qc)). unfold total_q. apply Qcsum_ext. intros k _. cbv beta. cbn [sample_at s_meas].
      now rewrite INF.
Qed.
Print Assumptions C15_order_partial.
