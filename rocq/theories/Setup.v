(** Model of PyFHD/pyfhd_tools/pyfhd_setup.py: _check_file_exists and pyfhd_setup. The logger, the warnings counter, and
    the YAML file written at the end are not represented; the file system is a function saying which paths exist and
    which names a directory holds. *)
From Coq Require Import String.
From Verif Require Import Base.
Import ListNotations.
Open Scope nat_scope.

Record fsys := {
  exists_ : string -> bool;                (* Path(p).exists() *)
  abspath : string -> string;              (* os.path.abspath *)
  sav_files : string -> string -> nat      (* number of *.sav files in a directory whose name contains the obs_id *)
}.

(** The options pyfhd_setup looks at. Options of type Path are None or a path. *)
Record options := {
  input_path : string; obs_id : string; n_pol : nat;
  recalculate_all : bool; recalculate_beam : bool; recalculate_grid : bool; recalculate_mapfn : bool;
  snapshot_healpix_export : bool; save_visibilities : bool;
  beam_offset_time : Q; beam_per_baseline : bool; interpolate_kernel : bool;
  cal_reflection_hyperresolve : bool; cal_reflection_mode_file : bool; cal_reflection_mode_delay : bool;
  cal_reflection_mode_theory : Q; cal_base_gain : option Q;
  cal_bp_transfer : option string; diffuse_calibrate : option string; calibration_catalog_file_path : option string;
  transfer_calibration : option string; transfer_model_uv : option string; transfer_weights : option string;
  diffuse_model : option string; model_catalog_file_path : option string;
  allow_sidelobe_model_sources : bool; model_visibilities : bool;
  model_file_type_sav : bool; model_file_path : option string;
  run_simulation : bool; in_situ_sim_input : option string; eor_vis_filepath : option string; sim_noise : option string;
  enhance_eor : Q;
  healpix_inds : option string; restrict_healpix_inds : bool;
  pad_uv_image : Q; ring_radius_multi : Q;
  grid_psf_file : list string; IDL_variables_file : option string
}.

(** The options it may change. *)
Record adjusted := {
  a_recalculate_beam : bool; a_recalculate_grid : bool; a_recalculate_mapfn : bool; a_save_visibilities : bool;
  a_beam_offset_time : Q; a_interpolate_kernel : bool; a_hyperresolve : bool;
  a_mode_file : bool; a_mode_delay : bool; a_mode_theory : Q; a_cal_base_gain : Q; a_ring_radius : Q;
  a_model_file_path : option string
}.

(** How the call ends: [exit()] raises SystemExit with this process status, or the configuration is returned. *)
Inductive outcome := Exited (status : nat) | Accepted (a : adjusted).

(** pyfhd_setup.py 1013-1043 *)
Definition check_file (fs : fsys) (o : option string) : nat * option string :=
  match o with
  | Some p => if exists_ fs p then (0, Some (abspath fs p)) else (1, Some p)
  | None => (0, None)
  end.
Definition file_error (fs : fsys) (o : option string) : nat := fst (check_file fs o).
Definition isset (o : option string) : bool := match o with Some _ => true | None => false end.
Definition b2n (b : bool) : nat := if b then 1 else 0.
Definition join (dir name : string) : string := (dir ++ "/" ++ name)%string.

(** [psf_file[-4:]] *)
Definition suffix4 (s : string) : string := String.substring (String.length s - 4) 4 s.
(** 1549-1563 *)
Definition psf_error (fs : fsys) (f : string) : nat :=
  if String.eqb (suffix4 f) ".sav" || String.eqb (suffix4 f) ".npz" then file_error fs (Some f) else 1.

(** 1388-1396: written as a sum of three tests, parsed as nested conditional expressions *)
Definition logic_test (file delay : bool) (theory : Q) : nat :=
  if file then 1 else if delay then 0 + 1 else if negb (Qeq_bool theory 0) then 0 + 1 else 0.

(** 1466-1506. [pyfhd_config["model_file_path"] == "sav"] compares a Path with a str, which is always False. *)
Definition path_equals_str (p : option string) (s : string) : bool := false.
Definition sav_model_errors (fs : fsys) (o : options) (p : option string) : nat :=
  if path_equals_str p "sav" then
    let dir := match p with Some p => p | None => ""%string end in
    b2n (negb (exists_ fs (join dir (obs_id o ++ "_params.sav"))))
    + (let n := sav_files fs dir (obs_id o) in
       if n <=? 2 then 0 (* [errors + 1] *)
       else if negb (n_pol o =? 0) && (n <? n_pol o + 1) then 1 else 0)
  else 0.

(** 1293-1602 *)
Definition pyfhd_setup (fs : fsys) (o : options) : outcome :=
  let e_in := b2n (negb (exists_ fs (input_path o))) in
  let e_uvfits := b2n (negb (exists_ fs (join (input_path o) (obs_id o ++ ".uvfits")))) in
  let e_metafits := b2n (negb (exists_ fs (join (input_path o) (obs_id o ++ ".metafits")))) in
  let beam := if recalculate_all o then true else recalculate_beam o in
  let grid := if recalculate_all o then true else recalculate_grid o in
  let mapfn := if recalculate_all o then true else recalculate_mapfn o in
  let save_vis := if snapshot_healpix_export o && negb (save_visibilities o) then true else save_visibilities o in
  let offset := if Qle_bool 0 (beam_offset_time o) then beam_offset_time o else 0%Q in
  let interp := if beam_per_baseline o && interpolate_kernel o then false else interpolate_kernel o in
  let e1 := file_error fs (cal_bp_transfer o) in
  let hyper := if cal_reflection_hyperresolve o && cal_reflection_mode_file o then false else cal_reflection_hyperresolve o in
  let multi := 1 <? logic_test (cal_reflection_mode_file o) (cal_reflection_mode_delay o) (cal_reflection_mode_theory o) in
  let file := if multi then false else cal_reflection_mode_file o in
  let delay := if multi then false else cal_reflection_mode_delay o in
  let theory := if multi then 1%Q else cal_reflection_mode_theory o in
  let gain := match cal_base_gain o with None => (3 # 4)%Q | Some g => g end in
  let e2 := file_error fs (diffuse_calibrate o) in
  let e3 := file_error fs (calibration_catalog_file_path o) in
  let e4 := file_error fs (transfer_calibration o) in
  let e5 := file_error fs (transfer_model_uv o) in
  let e6 := file_error fs (transfer_weights o) in
  let e7 := file_error fs (diffuse_model o) in
  let e8 := file_error fs (model_catalog_file_path o) in
  let e9 := b2n (allow_sidelobe_model_sources o && negb (model_visibilities o)) in
  let '(e10, model_path) := check_file fs (model_file_path o) in
  let e11 := sav_model_errors fs o model_path in
  let e12 := b2n (negb (run_simulation o) && (isset (in_situ_sim_input o) || isset (eor_vis_filepath o) || isset (sim_noise o))) in
  let e13 := file_error fs (in_situ_sim_input o) in
  let e14 := file_error fs (eor_vis_filepath o) in
  let e15 := b2n (negb (Qle_bool (enhance_eor o) 1) && isset (eor_vis_filepath o)) in
  let e16 := file_error fs (sim_noise o) in
  let e17 := if isset (healpix_inds o) && restrict_healpix_inds o then file_error fs (healpix_inds o) else 0 in
  let e18 := sum_nat (map (psf_error fs) (grid_psf_file o)) in
  let e19 := file_error fs (IDL_variables_file o) in
  let errors := sum_nat [e_in; e_uvfits; e_metafits; e1; e2; e3; e4; e5; e6; e7; e8; e9; e10; e11; e12; e13; e14; e15; e16; e17; e18; e19] in
  if negb (errors =? 0) then Exited 0 (* exit() *)
  else Accepted {|
    a_recalculate_beam := beam; a_recalculate_grid := grid; a_recalculate_mapfn := mapfn; a_save_visibilities := save_vis;
    a_beam_offset_time := offset; a_interpolate_kernel := interp; a_hyperresolve := hyper;
    a_mode_file := file; a_mode_delay := delay; a_mode_theory := theory; a_cal_base_gain := gain;
    a_ring_radius := (pad_uv_image o * ring_radius_multi o)%Q; a_model_file_path := model_path |}.
