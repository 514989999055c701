(** The documented error conditions of pyfhd_setup. *)
From Coq Require Import String.
From Verif Require Import Base Setup.
Import ListNotations.
Open Scope nat_scope.

(** An option that names a file which is not there. *)
Definition missing (fs : fsys) (o : option string) : Prop := exists p, o = Some p /\ exists_ fs p = false.

Inductive config_error (fs : fsys) (o : options) : Prop :=
| err_input : exists_ fs (input_path o) = false -> config_error fs o
| err_uvfits : exists_ fs (input_path o ++ "/" ++ obs_id o ++ ".uvfits")%string = false -> config_error fs o
| err_metafits : exists_ fs (input_path o ++ "/" ++ obs_id o ++ ".metafits")%string = false -> config_error fs o
| err_file : forall f, In f [cal_bp_transfer o; diffuse_calibrate o; calibration_catalog_file_path o; transfer_calibration o;
    transfer_model_uv o; transfer_weights o; diffuse_model o; model_catalog_file_path o; model_file_path o;
    in_situ_sim_input o; eor_vis_filepath o; sim_noise o; IDL_variables_file o] -> missing fs f -> config_error fs o
| err_healpix : restrict_healpix_inds o = true -> missing fs (healpix_inds o) -> config_error fs o
| err_sidelobe : allow_sidelobe_model_sources o = true -> model_visibilities o = false -> config_error fs o
| err_simulation : run_simulation o = false ->
    in_situ_sim_input o <> None \/ eor_vis_filepath o <> None \/ sim_noise o <> None -> config_error fs o
| err_psf : forall f, In f (grid_psf_file o) ->
    (suffix4 f <> ".sav"%string /\ suffix4 f <> ".npz"%string) \/ exists_ fs f = false -> config_error fs o.

(** enhance_eor should stay 1 when eor_vis_filepath is not used. *)
Definition enhance_error (o : options) : Prop := (1 < enhance_eor o)%Q /\ eor_vis_filepath o = None.
(** A model read from sav files needs the parameter file and at least two polarisation files. *)
Definition sav_model_error (fs : fsys) (o : options) : Prop :=
  model_file_type_sav o = true /\ exists p, model_file_path o = Some p
  /\ (exists_ fs (p ++ "/" ++ obs_id o ++ "_params.sav")%string = false \/ sav_files fs p (obs_id o) <= 2).
