(** C35, C61: property theorems about main. *)
From Coq Require Import String.
From Verif Require Import Base H5IO Pipeline PipelineSpec PipelineProofs.
Import ListNotations.
Open Scope nat_scope.

(** C35. A run saves its obs checkpoint; whatever else is on disk when it is interrupted, restarting it from there gives
    the final outputs of the uninterrupted run, whatever the stages compute, if loading returns what was saved (C34). *)
Theorem C35_obs_partial : forall D (st : stages D) cfg fs out fs', (forall d, reload st d = d) ->
  obs_checkpoint cfg = None -> calibrate_checkpoint cfg = None -> gridding_checkpoint cfg = None -> save_checkpoints cfg = true ->
  main st cfg fs = Ok (out, fs') ->
  let f := (checkpoint_name cfg ++ "_obs_checkpoint.h5")%string in
  (exists c, lookup f fs' = Some c)
  /\ forall on_disk, lookup f on_disk = lookup f fs' ->
     exists out' fs'', main st (resume_obs cfg f) on_disk = Ok (out', fs'') /\ final out' = final out.
Proof. intros. now apply resume_obs_spec with (fs := fs). Qed.
Print Assumptions C35_obs_partial.

(** From the gridding checkpoint the run gives the same outputs, except that the observation it exports lacks the number
    of visibilities gridded per frequency. *)
Theorem C35_gridding_partial : forall D (st : stages D) cfg fs out fs', (forall d, reload st d = d) ->
  obs_checkpoint cfg = None -> calibrate_checkpoint cfg = None -> gridding_checkpoint cfg = None -> save_checkpoints cfg = true ->
  c_recalculate_grid cfg = true -> cal_stop cfg = false ->
  main st cfg fs = Ok (out, fs') ->
  let f := (checkpoint_name cfg ++ "_gridding_checkpoint.h5")%string in
  (exists c, lookup f fs' = Some c)
  /\ forall on_disk, lookup f on_disk = lookup f fs' ->
     exists out' fs'', main st (resume_gridding cfg f) on_disk = Ok (out', fs'') /\ Forall2 (without_counts st) out out'.
Proof. intros. now apply resume_gridding_spec with (fs := fs). Qed.
Print Assumptions C35_gridding_partial.

(** A case. Objects are numbers; every stage returns a combination of its arguments. *)
Definition demo_stages : stages nat := {|
  read_data := Ok (1, 2, 3, 4); create_psf := Ok 5;
  deproject := fun a b c => Ok (a + b + c); flag_basic := fun a b c => Ok (a + b, c);
  weights_update := fun a b c d => Ok (a + c, b + d); model_transfer := fun a => Ok (7 + a, 8);
  flag_model := fun a b c d => Ok (a + b + c + d); calibrate := fun a b c d e => Ok (c + e, 9 + d, a + 1);
  n_pol_ge_4 := fun _ => true; qu_mixing := fun a b c d => Ok (a + b); set_stokes_mix := fun a b => a + b;
  noise_calc := fun a b c => Ok (a + b + c); set_noise := fun a b => a + b;
  grid := fun a b c d e f => Ok (a + b, b + c, c + d, d + e, e + f, 10); set_nf_vis := fun a b => a + b; reload := fun d => d |}.
Definition demo_config (cal grid exp sw sv : bool) (calck : option string) : config := {|
  checkpoint_name := "run"; save_checkpoints := true; obs_checkpoint := None; calibrate_checkpoint := calck; gridding_checkpoint := None;
  c_save_visibilities := sv; save_weights := sw; save_obs := true; save_params := true; save_cal := true;
  deproject_w_term := true; c_flag_basic := true; c_flag_model := true; calibrate_visibilities := cal; flag_visibilities := false;
  cal_stop := false; c_recalculate_grid := grid; export_images := exp; c_healpix_export := true |}.
Lemma ok_ex {A} (a : A) : exists r, Ok a = Ok r. Proof. eauto. Qed.
Lemma demo_stages_ok : stages_ok demo_stages.
Proof. constructor; intros; cbn; apply ok_ex. Qed.

Theorem C35_gridding_refuted : exists out fs' out' fs'',
  main demo_stages (demo_config true true true true true None) [] = Ok (out, fs')
  /\ main demo_stages (resume_gridding (demo_config true true true true true None) "run_gridding_checkpoint.h5") fs' = Ok (out', fs'')
  /\ final out' <> final out.
Proof. do 4 eexists. split; [vm_compute; reflexivity|]. split; [vm_compute; reflexivity|]. vm_compute. discriminate. Qed.
Print Assumptions C35_gridding_refuted.

(** No run can be restarted from a calibration checkpoint. *)
Theorem C35_calibration_refuted : forall D (st : stages D) cfg fs f out, calibrate_checkpoint cfg = Some f ->
  main st cfg fs <> Ok out.
Proof.
  intros D st cfg fs f out H E. unfold main in E. stage_as E p. destruct p as [[v fs1] raw]. stage_as E d. stage_as E p.
  unfold calibration in St1. rewrite H in St1. discriminate.
Qed.
Print Assumptions C35_calibration_refuted.

Example C35_case : exists out fs' out' fs'', main demo_stages (demo_config true true true true true None) [] = Ok (out, fs')
  /\ main demo_stages (resume_obs (demo_config true true true true true None) "run_obs_checkpoint.h5") fs' = Ok (out', fs'')
  /\ final out' = final out /\ length (final out) = 2.
Proof. do 4 eexists. split; [vm_compute; reflexivity|]. split; [vm_compute; reflexivity|]. split; vm_compute; reflexivity. Qed.

(** C61. When no stage fails, the run completes, for these options. *)
Theorem C61_completes_partial : forall D (st : stages D) cfg fs, stages_ok st ->
  obs_checkpoint cfg = None -> calibrate_checkpoint cfg = None -> gridding_checkpoint cfg = None ->
  (save_weights cfg = true -> c_save_visibilities cfg = true) ->
  (calibrate_visibilities cfg = true -> flag_visibilities cfg = false) ->
  (cal_stop cfg = false -> export_images cfg = true \/ c_healpix_export cfg = true -> calibrate_visibilities cfg = true) ->
  (cal_stop cfg = false -> export_images cfg = true -> c_recalculate_grid cfg = true) ->
  exists out fs', main st cfg fs = Ok (out, fs').
Proof.
  intros D st cfg fs Ok_ H1 H2 H3 Hw Hf Hc Hg. destruct Ok_. unfold main, load_obs. rewrite H1, H2.
  destruct ok_read as [[[[o p] v] w] ->]. cbn [bind].
  assert (R : exists raw, (if save_weights cfg then
              if c_save_visibilities cfg then Ok ((if c_save_visibilities cfg then [RawFile "raw_vis_arr" v] else []) ++ [RawFile "raw_vis_weights" w]) else Err KeyError
            else Ok (if c_save_visibilities cfg then [RawFile "raw_vis_arr" v] else [])) = Ok raw).
  { destruct (save_weights cfg); [rewrite (Hw eq_refl)|]; eauto. }
  destruct R as [raw ->]. cbn [bind]. destruct ok_psf as [psf ->]. cbn [bind].
  unfold calibration. rewrite H2. cbn [need bind].
  assert (Dp : exists v', (if deproject_w_term cfg then deproject st o p v else Ok v) = Ok v') by (destruct (deproject_w_term cfg); eauto).
  destruct Dp as [v' ->]. cbn [bind].
  assert (Fb : exists wo, (if c_flag_basic cfg then flag_basic st w v' o else Ok (w, o)) = Ok wo) by (destruct (c_flag_basic cfg); eauto).
  destruct Fb as [[w' o'] ->]. cbn [bind]. destruct (ok_weights w' o' psf p) as [[w2 o2] ->]. cbn [bind].
  destruct (ok_model o2) as [[m pm] ->]. cbn [bind].
  assert (Fm : exists m', (if c_flag_model cfg then flag_model st m p pm o2 else Ok m) = Ok m') by (destruct (c_flag_model cfg); eauto).
  destruct Fm as [m' ->]. cbn [bind].
  assert (Fin : forall fs3 o3 v3 w3 cal, (calibrate_visibilities cfg = true -> cal <> None) ->
    exists out fs', (if cal_stop cfg then
      out <- stop_outputs cfg o3 p v3 w3 cal ;; Ok (raw ++ out, fs3)
    else '(obs, planes, fs) <- gridding st cfg fs3 o3 p v3 m' w3 psf ;;
      out <- exports cfg obs p v3 m' w3 psf cal planes ;; Ok (raw ++ out, fs)) = Ok (out, fs')).
  { intros fs3 o3 v3 w3 cal Hcal. destruct (cal_stop cfg).
    - unfold stop_outputs. destruct (save_cal cfg && calibrate_visibilities cfg) eqn:B.
      + apply andb_true_iff in B as [_ B]. destruct cal as [c|]; [|exfalso; now apply Hcal]. cbn [need bind]. eauto.
      + cbn [bind]. eauto.
    - unfold gridding, exports. rewrite H3. destruct (c_recalculate_grid cfg) eqn:G.
      + destruct (ok_grid o3 v3 w3 psf p m') as [[[[[[p1 p2] p3] p4] p5] n] ->]. cbn [bind].
        destruct (export_images cfg) eqn:X; [|destruct (c_healpix_export cfg) eqn:Y; [|cbn [bind]; eauto]].
        * destruct cal as [c|]; [|exfalso; apply Hcal; auto]. cbn [need bind]. destruct (c_healpix_export cfg); cbn [bind]; eauto.
        * destruct cal as [c|]; [|exfalso; apply Hcal; auto]. cbn [need bind]. eauto.
      + cbn [bind]. destruct (export_images cfg) eqn:X; [specialize (Hg eq_refl eq_refl); discriminate|]. cbn [bind].
        destruct (c_healpix_export cfg) eqn:Y; [|cbn [bind]; eauto].
        destruct cal as [c|]; [|exfalso; apply Hcal; auto]. cbn [need bind]. eauto. }
  destruct (calibrate_visibilities cfg) eqn:Cv.
  - destruct (ok_calibrate o2 p v' w2 m') as [[[v3 cal] o3] ->]. cbn [bind].
    assert (Qu : exists c, (if n_pol_ge_4 st o3 then m <- qu_mixing st v3 m' w2 o3 ;; Ok (set_stokes_mix st cal m) else Ok cal) = Ok c).
    { destruct (n_pol_ge_4 st o3); [|eauto]. destruct (ok_qu v3 m' w2 o3) as [x ->]. cbn [bind]. eauto. }
    destruct Qu as [cal' ->]. cbn [bind]. destruct (ok_weights w2 o3 psf p) as [[w4 o4] ->]. cbn [bind].
    rewrite (Hf eq_refl). cbn [bind]. destruct (ok_noise o4 v3 w4) as [n ->]. cbn [bind].
    cbn [bind need]. apply Fin. discriminate.
  - cbn [bind need]. apply Fin. discriminate.
Qed.
Print Assumptions C61_completes_partial.

(** These are exactly the options for which it does: with any other combination the run fails although no stage does. *)
Theorem C61_fails_refuted : forall D (st : stages D) cfg fs,
  obs_checkpoint cfg = None -> calibrate_checkpoint cfg = None -> gridding_checkpoint cfg = None ->
  (save_weights cfg = true /\ c_save_visibilities cfg = false)
  \/ (calibrate_visibilities cfg = true /\ flag_visibilities cfg = true)
  \/ (cal_stop cfg = false /\ (export_images cfg = true \/ c_healpix_export cfg = true) /\ calibrate_visibilities cfg = false)
  \/ (cal_stop cfg = false /\ export_images cfg = true /\ c_recalculate_grid cfg = false) ->
  forall out, main st cfg fs <> Ok out.
Proof.
  intros D st cfg fs H1 H2 H3 B out E. unfold main in E. stage_as E p. destruct p as [[v fs1] raw]. stage_as E psf.
  stage_as E p. destruct p as [vars fs2]. destruct B as [B|[B|B]].
  - unfold load_obs in St. rewrite H1, H2 in St. stage_as St q. destruct q as [[[o p] v1] w]. destruct B as [B1 B2].
    rewrite B1, B2 in St. discriminate.
  - unfold calibration in St1. rewrite H2 in St1. stage_as St1 q. destruct q as [[[o p] v1] w]. stage_as St1 q. stage_as St1 q0.
    destruct q0 as [w1 o1]. stage_as St1 q0. destruct q0 as [w2 o2]. stage_as St1 q0. destruct q0 as [m pm]. stage_as St1 q0.
    destruct B as [B1 B2]. rewrite B1 in St1. stage_as St1 q1. destruct q1 as [[v2 c] o3]. stage_as St1 q1. stage_as St1 q2.
    destruct q2 as [w4 o4]. rewrite B2 in St1. discriminate.
  - assert (N : calibrate_visibilities cfg = false -> forall o p v1 m w c, vars = Some (o, p, v1, m, w, c) -> c = None).
    { intros N o0 p0 v0 m0 w0 c0 ->. unfold calibration in St1. rewrite H2 in St1. stage_as St1 q. destruct q as [[[o p] v1] w].
      stage_as St1 q. stage_as St1 q0. destruct q0 as [w1 o1]. stage_as St1 q0. destruct q0 as [w2 o2]. stage_as St1 q0.
      destruct q0 as [m pm]. stage_as St1 q0. rewrite N in St1. now injection St1. }
    assert (S : cal_stop cfg = false) by (destruct B as [B|B]; apply B). rewrite S in E.
    stage_as E q. destruct q as [[[[[o p] v1] m] w] c]. stage_as E q. destruct q as [[o' planes] fs3]. stage_as E x.
    destruct vars as [vars|]; [|discriminate]. injection St2 as ->. unfold exports in St4. destruct B as [(_ & B1 & B2)|(_ & B1 & B2)].
    + rewrite (N B2 _ _ _ _ _ _ eq_refl) in St4. destruct (export_images cfg); [discriminate|]. destruct B1 as [B1|B1]; [discriminate|].
      cbn [bind] in St4. rewrite B1 in St4. discriminate.
    + rewrite B1 in St4. unfold gridding in St3. rewrite B2, H3 in St3. injection St3 as <- <- <-.
      destruct c; discriminate.
Qed.
Print Assumptions C61_fails_refuted.
(** The failures, when no stage fails: saving weights but not visibilities; flagging after calibration; exporting without
    calibrating; exporting images without gridding. *)
Theorem C61_save_weights_refuted : forall D (st : stages D) cfg fs, stages_ok st ->
  obs_checkpoint cfg = None -> calibrate_checkpoint cfg = None -> save_weights cfg = true -> c_save_visibilities cfg = false ->
  main st cfg fs = Err KeyError.
Proof.
  intros D st cfg fs Ok_ H1 H2 H3 H4. destruct Ok_. unfold main, load_obs. rewrite H1, H2. destruct ok_read as [[[[o p] v] w] ->].
  cbn [bind]. rewrite H3, H4. reflexivity.
Qed.
Print Assumptions C61_save_weights_refuted.
Theorem C61_flag_refuted : forall D (st : stages D) cfg fs, stages_ok st ->
  obs_checkpoint cfg = None -> calibrate_checkpoint cfg = None -> (save_weights cfg = true -> c_save_visibilities cfg = true) ->
  calibrate_visibilities cfg = true -> flag_visibilities cfg = true ->
  main st cfg fs = Err TypeError.
Proof.
  intros D st cfg fs Ok_ H1 H2 Hw Hc Hf. destruct Ok_. unfold main, load_obs. rewrite H1, H2.
  destruct ok_read as [[[[o p] v] w] ->]. cbn [bind].
  assert (R : exists raw, (if save_weights cfg then
              if c_save_visibilities cfg then Ok ((if c_save_visibilities cfg then [RawFile "raw_vis_arr" v] else []) ++ [RawFile "raw_vis_weights" w]) else Err KeyError
            else Ok (if c_save_visibilities cfg then [RawFile "raw_vis_arr" v] else [])) = Ok raw).
  { destruct (save_weights cfg); [rewrite (Hw eq_refl)|]; eauto. }
  destruct R as [raw ->]. cbn [bind]. destruct ok_psf as [psf ->]. cbn [bind].
  unfold calibration. rewrite H2. cbn [need bind].
  assert (Dp : exists v', (if deproject_w_term cfg then deproject st o p v else Ok v) = Ok v') by (destruct (deproject_w_term cfg); eauto).
  destruct Dp as [v' ->]. cbn [bind].
  assert (Fb : exists wo, (if c_flag_basic cfg then flag_basic st w v' o else Ok (w, o)) = Ok wo) by (destruct (c_flag_basic cfg); eauto).
  destruct Fb as [[w' o'] ->]. cbn [bind]. destruct (ok_weights w' o' psf p) as [[w2 o2] ->]. cbn [bind].
  destruct (ok_model o2) as [[m pm] ->]. cbn [bind].
  assert (Fm : exists m', (if c_flag_model cfg then flag_model st m p pm o2 else Ok m) = Ok m') by (destruct (c_flag_model cfg); eauto).
  destruct Fm as [m' ->]. cbn [bind]. rewrite Hc.
  destruct (ok_calibrate o2 p v' w2 m') as [[[v3 cal] o3] ->]. cbn [bind].
  assert (Qu : exists c, (if n_pol_ge_4 st o3 then m <- qu_mixing st v3 m' w2 o3 ;; Ok (set_stokes_mix st cal m) else Ok cal) = Ok c).
  { destruct (n_pol_ge_4 st o3); [|eauto]. destruct (ok_qu v3 m' w2 o3) as [x ->]. cbn [bind]. eauto. }
  destruct Qu as [cal' ->]. cbn [bind]. destruct (ok_weights w2 o3 psf p) as [[w4 o4] ->]. cbn [bind]. rewrite Hf. reflexivity.
Qed.
Print Assumptions C61_flag_refuted.
Theorem C61_export_refuted :
  main demo_stages (demo_config false true true true true None) [] = Err UnboundLocal
  /\ main demo_stages (demo_config true false true true true None) [] = Err UnboundLocal
  /\ main demo_stages (demo_config false true false true true None) [] = Err UnboundLocal.
Proof. repeat split; vm_compute; reflexivity. Qed.
Print Assumptions C61_export_refuted.
Example C61_case : stages_ok demo_stages
  /\ exists out fs', main demo_stages (demo_config true true true true true None) [] = Ok (out, fs') /\ length out = 4.
Proof. split; [exact demo_stages_ok|]. do 2 eexists. split; vm_compute; reflexivity. Qed.
