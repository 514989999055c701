(** The vocabulary of C107-C110: which files are an observation's results, and which results a run is asked for. *)
From Coq Require Import String Ascii.
From Verif Require Import Base OutDir.
Import ListNotations.
Open Scope string_scope.
Open Scope list_scope.

(** An observation id without an underscore, as all ids of the telescopes are *)
Definition plain (s : string) : Prop := ~ In "_"%char (list_ascii_of_string s).

(** The directories of results *)
Definition result_dirs : list path :=
  [["visibilities"]; ["metadata"]; ["calibration"]; ["gridding"]; ["fits"]; ["healpix"]; ["healpix"; "uvf_grid"];
   ["plots"; "calibration"]].

(** The results of observation [o] in directory [d]: every file there with a name that begins with the id and an underscore *)
Definition result_of (o : string) (d : path) (p : path) : Prop :=
  exists sub name, In sub result_dirs /\ p = d ++ sub ++ [(o ++ "_" ++ name)%string].

(** The files the options of a run ask for *)
Section Asked.
  Variable r : run.
  Let saves_all : Prop := cal_stop r = true \/ export_images r = true.
  Let images : Prop := cal_stop r = false /\ export_images r = true.
  Let cubes : Prop := cal_stop r = false /\ snapshot_healpix_export r = true.
  Let even_odd (b : bool) : Prop := cubes /\ split_ps_export r = b.

  Inductive asked : path -> string -> Prop :=
  | raw_vis : save_visibilities r = true -> resumed r = false -> asked ["visibilities"] "raw_vis_arr.h5"
  | raw_weights : save_weights r = true -> resumed r = false -> asked ["visibilities"] "raw_vis_weights.h5"
  | a_obs : save_obs r = true -> saves_all -> asked ["metadata"] "obs.h5"
  | a_params : save_params r = true -> saves_all -> asked ["metadata"] "params.h5"
  | a_cal : save_cal r = true -> calibrate_visibilities r = true -> saves_all -> asked ["calibration"] "cal.h5"
  | cal_vis_arr : save_visibilities r = true -> saves_all -> asked ["visibilities"] "calibrated_vis_arr.h5"
  | cal_vis_weights : save_weights r = true -> saves_all -> asked ["visibilities"] "calibrated_vis_weights.h5"
  | plane : forall n, In n ["image_uv"; "weights_uv"; "variance_uv"; "uniform_filter_uv"; "model_uv"] ->
      save_visibilities r = true -> recalculate_grid r = true -> images -> asked ["gridding"] (n ++ ".h5")%string
  | image : forall kind pol, In kind ["dirty"; "model"; "residual"] -> In pol (pol_names r) -> images ->
      asked ["fits"] (filter_name r ++ "_" ++ kind ++ "_" ++ pol ++ ".fits")%string
  | beam_image : forall pol, In pol (pol_names r) -> images -> asked ["fits"] ("beam_" ++ pol ++ ".fits")%string
  | weights_image : forall pol, In pol (pol_names r) -> images -> asked ["fits"] ("uv_weights_" ++ pol ++ ".fits")%string
  | cube : forall pol, In pol (pol_names r) -> even_odd false -> asked ["healpix"] ("healpix_cube_" ++ pol ++ ".h5")%string
  | cube_split : forall half pol, In half ["even"; "odd"] -> In pol (pol_names r) -> even_odd true ->
      asked ["healpix"] ("hpx_" ++ half ++ "_" ++ pol ++ ".h5")%string
  | uvf : forall n pol, In n ["dirty_uv_arr"; "weights_uv"; "variance_uv_arr"; "model_uv_arr"] -> In pol (pol_names r) ->
      even_odd false -> asked ["healpix"; "uvf_grid"] ("_" ++ pol ++ "_" ++ n ++ "_gridded_uvf.h5")%string
  | uvf_split : forall n half pol, In n ["dirty_uv_arr"; "weights_uv"; "variance_uv_arr"; "model_uv_arr"] ->
      In half ["even"; "odd"] -> In pol (pol_names r) -> even_odd true ->
      asked ["healpix"; "uvf_grid"] (half ++ "_" ++ pol ++ "_" ++ n ++ "_gridded_uvf.h5")%string
  | plot : forall kind what page, In kind [""; "residual_"; "raw_"] -> In what ["amp"; "phase"] -> In page (pages r) ->
      calibrate_visibilities r = true -> calibration_plots r = true ->
      asked ["plots"; "calibration"] ("cal_" ++ kind ++ what ++ page ++ ".png")%string.
End Asked.

(** A time as log_time writes it: no hyphen, and at least six characters *)
Definition timestamp (t : string) : Prop := ~ In "-"%char (list_ascii_of_string t) /\ 6 <= String.length t.
(** No description *)
Definition undescribed (r : run) : Prop := description r = None \/ description r = Some "".
(** Run [i] has done all of its work. *)
Definition finished (st : list proc * fs) (i : nat) : Prop := nth_error (fst st) i = Some (Running []).
(** Run [i] was ended by the file system. *)
Definition failed (st : list proc * fs) (i : nat) : Prop := exists e, nth_error (fst st) i = Some (Failed e).

(** What the runs need: output paths that are there, the directory of a .sav beam, the saved visibilities with the saved weights,
    and for any two runs with the same output directory, this directory *)
Definition prepared (rs : list run) (s : fs) : Prop :=
  Forall (fun r => is_dir s (output_path r) = true /\ (forall p, beam_h5 r = Some p -> is_dir s (parent p) = true)
                   /\ (resumed r = false -> save_weights r = true -> save_visibilities r = true)) rs
  /\ forall i j r r', nth_error rs i = Some r -> nth_error rs j = Some r' -> i <> j -> outdir r = outdir r' -> is_dir s (outdir r) = true.
