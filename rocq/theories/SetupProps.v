(** C37: property theorems about pyfhd_setup. *)
From Coq Require Import String ZifyBool.
From Verif Require Import Base Setup SetupSpec.
Import ListNotations.
Open Scope nat_scope.
Ltac Zify.zify_post_hook ::= idtac.

Lemma sum_zero l : sum_nat l = 0 <-> forall x, In x l -> x = 0.
Proof.
  induction l as [|a l IH]; cbn [sum_nat fold_right In]; [tauto|]. fold (sum_nat l). split.
  - intros H x [<-|Hx]; [lia|]. apply IH; auto. lia.
  - intros H. assert (a = 0) by auto. assert (sum_nat l = 0) by (apply IH; auto). lia.
Qed.
Lemma file_zero fs f : file_error fs f = 0 <-> ~ missing fs f.
Proof.
  unfold file_error, check_file, missing. destruct f as [p|].
  - destruct (exists_ fs p) eqn:E; cbn [fst]; split; intros H; auto; try discriminate.
    + intros (p' & X & Y). congruence.
    + exfalso. apply H. eauto.
  - cbn [fst]. split; [intros _ (p & X & _); discriminate|auto].
Qed.
Lemma b2n_zero b : b2n b = 0 <-> b = false.
Proof. destruct b; cbn; split; congruence. Qed.
Lemma isset_spec f : isset f = true <-> f <> None.
Proof. destruct f; cbn; split; congruence. Qed.
Lemma psf_zero fs f : psf_error fs f = 0 <->
  ~ ((suffix4 f <> ".sav"%string /\ suffix4 f <> ".npz"%string) \/ exists_ fs f = false).
Proof.
  unfold psf_error. destruct (String.eqb_spec (suffix4 f) ".sav") as [E|E];
    [|destruct (String.eqb_spec (suffix4 f) ".npz") as [E2|E2]]; cbn [orb].
  - rewrite file_zero. unfold missing. split.
    + intros H [[X _]|X]; [contradiction|]. apply H. eauto.
    + intros H (p & X & Y). injection X as <-. apply H. now right.
  - rewrite file_zero. unfold missing. split.
    + intros H [[_ X]|X]; [contradiction|]. apply H. eauto.
    + intros H (p & X & Y). injection X as <-. apply H. now right.
  - split; [discriminate|]. intros H. exfalso. apply H. left. auto.
Qed.

(** C37. The call returns exactly when there is no documented error, as far as enhance_eor is left at 1. *)
Theorem C37_accepts_partial : forall fs o, (enhance_eor o <= 1)%Q -> ~ sav_model_error fs o ->
  (exists a, pyfhd_setup fs o = Accepted a) <-> ~ (config_error fs o \/ enhance_error o \/ sav_model_error fs o).
Proof.
  intros fs o He Hs.
  assert (X : ~ (config_error fs o \/ enhance_error o \/ sav_model_error fs o) <-> ~ config_error fs o).
  { split; [tauto|]. intros H [E|[[E _]|E]]; [auto| |auto]. apply Qlt_not_le in E. auto. }
  rewrite X. clear X Hs. unfold pyfhd_setup. destruct (check_file fs (model_file_path o)) as [e10 mp] eqn:Em.
  assert (E10 : e10 = file_error fs (model_file_path o)) by (unfold file_error; now rewrite Em).
  assert (E15 : b2n (negb (Qle_bool (enhance_eor o) 1) && isset (eor_vis_filepath o)) = 0).
  { apply b2n_zero. apply Qle_bool_iff in He. now rewrite He. }
  rewrite E15. unfold sav_model_errors, path_equals_str.
  match goal with |- context [sum_nat ?l] => set (L := l) end.
  transitivity (sum_nat L = 0).
  { destruct (Nat.eqb_spec (sum_nat L) 0) as [E|E]; cbn [negb]; split; auto; try (intros (a & Z0); discriminate); [eauto|contradiction]. }
  rewrite sum_zero. subst L e10.
  split.
  - intros H Er.
    assert (HF : forall f, In f [cal_bp_transfer o; diffuse_calibrate o; calibration_catalog_file_path o; transfer_calibration o;
      transfer_model_uv o; transfer_weights o; diffuse_model o; model_catalog_file_path o; model_file_path o;
      in_situ_sim_input o; eor_vis_filepath o; sim_noise o; IDL_variables_file o] -> file_error fs f = 0).
    { intros f Hf. cbn [In] in Hf. repeat destruct Hf as [<-|Hf]; try contradiction; apply H; cbn [In]; tauto. }
    destruct Er as [E|E|E|f Hf E|E1 E2|E1 E2|E1 E2|f Hf E].
    + specialize (H (b2n (negb (exists_ fs (input_path o)))) ltac:(cbn [In]; tauto)). rewrite E in H. discriminate.
    + specialize (H (b2n (negb (exists_ fs (join (input_path o) (obs_id o ++ ".uvfits"))))) ltac:(cbn [In]; tauto)).
      unfold join in H. rewrite E in H. discriminate.
    + specialize (H (b2n (negb (exists_ fs (join (input_path o) (obs_id o ++ ".metafits"))))) ltac:(cbn [In]; tauto)).
      unfold join in H. rewrite E in H. discriminate.
    + apply (proj1 (file_zero fs f)); auto.
    + specialize (H (if isset (healpix_inds o) && restrict_healpix_inds o then file_error fs (healpix_inds o) else 0) ltac:(cbn [In]; tauto)).
      destruct E2 as (p & Ep & Ex). rewrite Ep, E1 in H. cbn [isset andb] in H. unfold file_error, check_file in H. rewrite Ex in H. discriminate.
    + specialize (H (b2n (allow_sidelobe_model_sources o && negb (model_visibilities o))) ltac:(cbn [In]; tauto)).
      rewrite E1, E2 in H. discriminate.
    + specialize (H (b2n (negb (run_simulation o) && (isset (in_situ_sim_input o) || isset (eor_vis_filepath o) || isset (sim_noise o)))) ltac:(cbn [In]; tauto)).
      apply b2n_zero in H. rewrite E1 in H. cbn [negb andb] in H. apply orb_false_iff in H as [H H3]. apply orb_false_iff in H as [H1 H2].
      rewrite <- !isset_spec in E2. rewrite H1, H2, H3 in E2. destruct E2 as [E|[E|E]]; discriminate.
    + specialize (H (sum_nat (map (psf_error fs) (grid_psf_file o))) ltac:(cbn [In]; tauto)).
      apply (proj1 (sum_zero _)) with (x := psf_error fs f) in H; [|now apply in_map]. now apply psf_zero in H.
  - intros H x Hx.
    assert (HF : forall f, In f [cal_bp_transfer o; diffuse_calibrate o; calibration_catalog_file_path o; transfer_calibration o;
      transfer_model_uv o; transfer_weights o; diffuse_model o; model_catalog_file_path o; model_file_path o;
      in_situ_sim_input o; eor_vis_filepath o; sim_noise o; IDL_variables_file o] -> file_error fs f = 0).
    { intros f Hf. apply file_zero. intros M. apply H. now apply err_file with (f := f). }
    cbn [In] in Hx, HF.
    repeat (destruct Hx as [<-|Hx]; [try (apply HF; tauto)|]); try contradiction; try reflexivity.
    + apply b2n_zero, negb_false_iff, not_false_iff_true. intros E. apply H. now apply err_input.
    + apply b2n_zero, negb_false_iff, not_false_iff_true. intros E. apply H. now apply err_uvfits.
    + apply b2n_zero, negb_false_iff, not_false_iff_true. intros E. apply H. now apply err_metafits.
    + apply b2n_zero, not_true_iff_false. intros E. apply andb_true_iff in E as [E1 E2]. apply negb_true_iff in E2. apply H. now apply err_sidelobe.
    + apply b2n_zero, not_true_iff_false. intros E. apply andb_true_iff in E as [E1 E2]. apply negb_true_iff in E1.
      apply H. apply err_simulation; auto. rewrite <- !isset_spec. apply orb_true_iff in E2 as [E2|E2]; auto. apply orb_true_iff in E2. tauto.
    + destruct (isset (healpix_inds o) && restrict_healpix_inds o) eqn:E; auto. apply andb_true_iff in E as [E1 E2].
      apply file_zero. intros M. apply H. now apply err_healpix.
    + apply sum_zero. intros y Hy. apply in_map_iff in Hy as (f & <- & Hf). apply psf_zero. intros E. apply H. now apply err_psf with (f := f).
Qed.
Print Assumptions C37_accepts_partial.

(** The adjustments are consistent. *)
Theorem C37_adjust_partial : forall fs o a, pyfhd_setup fs o = Accepted a ->
  (recalculate_all o = true -> a_recalculate_beam a = true /\ a_recalculate_grid a = true /\ a_recalculate_mapfn a = true)
  /\ (recalculate_all o = false -> a_recalculate_beam a = recalculate_beam o /\ a_recalculate_grid a = recalculate_grid o
      /\ a_recalculate_mapfn a = recalculate_mapfn o)
  /\ (snapshot_healpix_export o = true -> a_save_visibilities a = true)
  /\ (save_visibilities o = true -> a_save_visibilities a = true)
  /\ (0 <= a_beam_offset_time a)%Q /\ ((0 <= beam_offset_time o)%Q -> a_beam_offset_time a = beam_offset_time o)
  /\ (beam_per_baseline o = true -> a_interpolate_kernel a = false)
  /\ (beam_per_baseline o = false -> a_interpolate_kernel a = interpolate_kernel o)
  /\ (cal_reflection_mode_file o = true -> a_hyperresolve a = false)
  /\ a_cal_base_gain a = match cal_base_gain o with Some g => g | None => (3 # 4)%Q end
  /\ a_ring_radius a = (pad_uv_image o * ring_radius_multi o)%Q
  /\ a_model_file_path a = option_map (abspath fs) (model_file_path o).
Proof.
  intros fs o a H. unfold pyfhd_setup in H. destruct (check_file fs (model_file_path o)) as [e10 mp] eqn:Em.
  match type of H with (if negb (sum_nat ?l =? 0) then _ else _) = _ => set (L := l) in H end.
  destruct (Nat.eqb_spec (sum_nat L) 0) as [E|E]; cbn [negb] in H; [|discriminate]. injection H as <-.
  cbn [a_recalculate_beam a_recalculate_grid a_recalculate_mapfn a_save_visibilities a_beam_offset_time a_interpolate_kernel
       a_hyperresolve a_cal_base_gain a_ring_radius a_model_file_path].
  assert (M : e10 = 0) by (apply (proj1 (sum_zero L) E); subst L; cbn [In]; tauto).
  split; [intros ->; auto|]. split; [intros ->; auto|]. split; [intros ->; destruct (save_visibilities o); auto|].
  split; [intros ->; now rewrite andb_false_r|].
  split; [destruct (Qle_bool 0 (beam_offset_time o)) eqn:B; [now apply Qle_bool_iff|apply Qle_refl]|].
  split; [intros B; apply Qle_bool_iff in B; now rewrite B|].
  split; [intros ->; destruct (interpolate_kernel o); auto|]. split; [intros ->; auto|].
  split; [intros ->; destruct (cal_reflection_hyperresolve o); auto|]. split; [destruct (cal_base_gain o); auto|]. split; [reflexivity|].
  unfold check_file in Em. destruct (model_file_path o) as [p|]; [|injection Em as <- <-; reflexivity].
  destruct (exists_ fs p); injection Em as <- <-; [reflexivity|discriminate].
Qed.
Print Assumptions C37_adjust_partial.

(** A valid simulation configuration. *)
Definition fs_all : fsys := {| exists_ := fun _ => true; abspath := fun p => p; sav_files := fun _ _ => 0 |}.
Definition demo (theory eor : Q) (delay : bool) (eorfile : option string) (sav : bool) (psf : list string) : options := {|
  input_path := "in"; obs_id := "1061316296"; n_pol := 2;
  recalculate_all := true; recalculate_beam := false; recalculate_grid := false; recalculate_mapfn := false;
  snapshot_healpix_export := true; save_visibilities := false;
  beam_offset_time := 56; beam_per_baseline := true; interpolate_kernel := true;
  cal_reflection_hyperresolve := true; cal_reflection_mode_file := false; cal_reflection_mode_delay := delay;
  cal_reflection_mode_theory := theory; cal_base_gain := None;
  cal_bp_transfer := None; diffuse_calibrate := None; calibration_catalog_file_path := None;
  transfer_calibration := None; transfer_model_uv := None; transfer_weights := None;
  diffuse_model := None; model_catalog_file_path := None;
  allow_sidelobe_model_sources := false; model_visibilities := false;
  model_file_type_sav := sav; model_file_path := Some "in"%string;
  run_simulation := true; in_situ_sim_input := None; eor_vis_filepath := eorfile; sim_noise := None;
  enhance_eor := eor; healpix_inds := None; restrict_healpix_inds := false;
  pad_uv_image := 1; ring_radius_multi := 10; grid_psf_file := psf; IDL_variables_file := None |}.

(** enhance_eor is tested the wrong way round: for every configuration that sets it above 1, using it with its file is
    refused, and using it without is not. *)
Theorem C37_enhance_refuted :
  (forall fs o, (1 < enhance_eor o)%Q -> eor_vis_filepath o <> None -> pyfhd_setup fs o = Exited 0)
  /\ (exists fs o a, enhance_error o /\ ~ config_error fs o /\ pyfhd_setup fs o = Accepted a).
Proof.
  split.
  - intros fs o He Hf. unfold pyfhd_setup. destruct (check_file fs (model_file_path o)) as [e10 mp].
    match goal with |- context [sum_nat ?l] => set (L := l) end.
    destruct (Nat.eqb_spec (sum_nat L) 0) as [E|E]; [|reflexivity]. exfalso.
    assert (X : b2n (negb (Qle_bool (enhance_eor o) 1) && isset (eor_vis_filepath o)) = 0).
    { apply (proj1 (sum_zero L) E). subst L. cbn [In]. tauto. }
    apply b2n_zero in X. apply isset_spec in Hf. rewrite Hf, andb_true_r in X. apply negb_false_iff, Qle_bool_iff in X.
    apply Qlt_not_le in He. auto.
  - exists fs_all, (demo 150 2 false None false []). eexists. split; [split; reflexivity|]. split; [|reflexivity].
    intros [E|E|E|f Hf (p & -> & E)|E|E|E|f []]; try discriminate.
Qed.
Print Assumptions C37_enhance_refuted.

(** Missing sav model files are never noticed. *)
Theorem C37_sav_refuted : exists fs o a, sav_model_error fs o /\ pyfhd_setup fs o = Accepted a.
Proof.
  exists fs_all, (demo 150 1 false None true []). eexists. split; [|reflexivity]. split; [reflexivity|]. exists "in"%string.
  split; [reflexivity|]. right. cbn. lia.
Qed.
Print Assumptions C37_sav_refuted.

(** More than one reflection mode stays on: the adjustment that should leave one never happens. *)
Theorem C37_modes_refuted :
  (forall fs o a, pyfhd_setup fs o = Accepted a -> a_mode_file a = cal_reflection_mode_file o
    /\ a_mode_delay a = cal_reflection_mode_delay o /\ a_mode_theory a = cal_reflection_mode_theory o)
  /\ exists fs o a, pyfhd_setup fs o = Accepted a /\ a_mode_delay a = true /\ ~ (a_mode_theory a == 0)%Q.
Proof.
  split.
  - intros fs o a H. unfold pyfhd_setup in H. destruct (check_file fs (model_file_path o)) as [e10 mp].
    match type of H with (if negb (sum_nat ?l =? 0) then _ else _) = _ => destruct (negb (sum_nat l =? 0)); [discriminate|] end.
    injection H as <-. cbn [a_mode_file a_mode_delay a_mode_theory].
    assert (X : 1 <? logic_test (cal_reflection_mode_file o) (cal_reflection_mode_delay o) (cal_reflection_mode_theory o) = false).
    { unfold logic_test. destruct (cal_reflection_mode_file o), (cal_reflection_mode_delay o), (negb (Qeq_bool (cal_reflection_mode_theory o) 0)); reflexivity. }
    rewrite X. auto.
  - exists fs_all, (demo 150 1 true None false []). eexists. split; [reflexivity|]. split; [reflexivity|]. discriminate.
Qed.
Print Assumptions C37_modes_refuted.

(** A refused configuration ends the process with status 0, that of success. *)
Theorem C37_status_refuted : forall fs o, (forall a, pyfhd_setup fs o <> Accepted a) -> pyfhd_setup fs o = Exited 0.
Proof.
  intros fs o H. unfold pyfhd_setup in *. destruct (check_file fs (model_file_path o)) as [e10 mp].
  match goal with |- (if ?c then _ else Accepted ?a) = _ => destruct c; [reflexivity|exfalso; apply (H a); reflexivity] end.
Qed.
Print Assumptions C37_status_refuted.

Example C37_case : (enhance_eor (demo 0 1 false None false ["beam.sav"%string]) <= 1)%Q
  /\ ~ sav_model_error fs_all (demo 0 1 false None false ["beam.sav"%string])
  /\ (exists a, pyfhd_setup fs_all (demo 0 1 false None false ["beam.sav"%string]) = Accepted a)
  /\ pyfhd_setup fs_all (demo 0 1 false None false ["beam.txt"%string]) = Exited 0.
Proof.
  split; [discriminate|]. split; [intros [E _]; discriminate|]. split; [eexists; reflexivity|reflexivity].
Qed.
