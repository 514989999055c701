(** Vocabulary for the statements about main. *)
From Coq Require Import String.
From Verif Require Import Base H5IO Pipeline.
Import ListNotations.
Open Scope nat_scope.

(** The same options, resuming from a checkpoint. *)
Definition resume_obs (cfg : config) (f : string) : config := {|
  checkpoint_name := checkpoint_name cfg; save_checkpoints := save_checkpoints cfg;
  obs_checkpoint := Some f; calibrate_checkpoint := calibrate_checkpoint cfg; gridding_checkpoint := gridding_checkpoint cfg;
  c_save_visibilities := c_save_visibilities cfg; save_weights := save_weights cfg; save_obs := save_obs cfg;
  save_params := save_params cfg; save_cal := save_cal cfg; deproject_w_term := deproject_w_term cfg;
  c_flag_basic := c_flag_basic cfg; c_flag_model := c_flag_model cfg; calibrate_visibilities := calibrate_visibilities cfg;
  flag_visibilities := flag_visibilities cfg; cal_stop := cal_stop cfg; c_recalculate_grid := c_recalculate_grid cfg;
  export_images := export_images cfg; c_healpix_export := c_healpix_export cfg |}.
Definition resume_gridding (cfg : config) (f : string) : config := {|
  checkpoint_name := checkpoint_name cfg; save_checkpoints := save_checkpoints cfg;
  obs_checkpoint := obs_checkpoint cfg; calibrate_checkpoint := calibrate_checkpoint cfg; gridding_checkpoint := Some f;
  c_save_visibilities := c_save_visibilities cfg; save_weights := save_weights cfg; save_obs := save_obs cfg;
  save_params := save_params cfg; save_cal := save_cal cfg; deproject_w_term := deproject_w_term cfg;
  c_flag_basic := c_flag_basic cfg; c_flag_model := c_flag_model cfg; calibrate_visibilities := calibrate_visibilities cfg;
  flag_visibilities := flag_visibilities cfg; cal_stop := cal_stop cfg; c_recalculate_grid := c_recalculate_grid cfg;
  export_images := export_images cfg; c_healpix_export := c_healpix_export cfg |}.

(** Everything but the raw data files, which are written before the first checkpoint. *)
Definition final {D} (out : list (output D)) : list (output D) :=
  filter (fun o => match o with RawFile _ _ => false | _ => true end) out.

(** The same, except that the observation lacks the gridded visibility counts. *)
Definition without_counts {D} (st : stages D) (a b : output D) : Prop :=
  match a, b with
  | Quickview obs x1 x2 x3 x4 x5 x6 x7 x8 x9 x10, Quickview obs' y1 y2 y3 y4 y5 y6 y7 y8 y9 y10 =>
    (exists n, obs = set_nf_vis st obs' n)
    /\ (x1, x2, x3, x4, x5, x6, x7, x8, x9, x10) = (y1, y2, y3, y4, y5, y6, y7, y8, y9, y10)
  | Healpix obs x1 x2 x3 x4 x5 x6, Healpix obs' y1 y2 y3 y4 y5 y6 =>
    (exists n, obs = set_nf_vis st obs' n) /\ (x1, x2, x3, x4, x5, x6) = (y1, y2, y3, y4, y5, y6)
  | _, _ => a = b
  end.

(** No stage fails. *)
Record stages_ok {D} (st : stages D) : Prop := {
  ok_read : exists r, read_data st = Ok r;
  ok_psf : exists r, create_psf st = Ok r;
  ok_deproject : forall a b c, exists r, deproject st a b c = Ok r;
  ok_flag_basic : forall a b c, exists r, flag_basic st a b c = Ok r;
  ok_weights : forall a b c d, exists r, weights_update st a b c d = Ok r;
  ok_model : forall a, exists r, model_transfer st a = Ok r;
  ok_flag_model : forall a b c d, exists r, flag_model st a b c d = Ok r;
  ok_calibrate : forall a b c d e, exists r, calibrate st a b c d e = Ok r;
  ok_qu : forall a b c d, exists r, qu_mixing st a b c d = Ok r;
  ok_noise : forall a b c, exists r, noise_calc st a b c = Ok r;
  ok_grid : forall a b c d e f, exists r, grid st a b c d e f = Ok r
}.
