(** Model of PyFHD/pyfhd.py main: the order of the stages, the variables they read and write, and the checkpoints. The
    stages themselves are functions given from outside ([stages]), acting on opaque Python objects [D]; logging, timing
    and directory creation are not represented. A checkpoint file is its key-value pairs. *)
From Coq Require Import String.
From Verif Require Import Base H5IO.
Import ListNotations.
Open Scope nat_scope.
Open Scope string_scope.
Open Scope list_scope.

Record stages (D : Type) := {
  read_data : result (D * D * D * D);                        (* extract_header ... create_obs: obs, params, vis_arr, vis_weights *)
  create_psf : result D;
  deproject : D -> D -> D -> result D;                       (* obs params vis_arr *)
  flag_basic : D -> D -> D -> result (D * D);                (* vis_weights vis_arr obs -> vis_weights, obs *)
  weights_update : D -> D -> D -> D -> result (D * D);       (* vis_weights obs psf params -> vis_weights, obs *)
  model_transfer : D -> result (D * D);                      (* obs -> vis_model_arr, params_model *)
  flag_model : D -> D -> D -> D -> result D;                 (* vis_model_arr params params_model obs *)
  calibrate : D -> D -> D -> D -> D -> result (D * D * D);   (* obs params vis_arr vis_weights vis_model_arr -> vis_arr, cal, obs *)
  n_pol_ge_4 : D -> bool;                                    (* obs["n_pol"] >= 4 *)
  qu_mixing : D -> D -> D -> D -> result D;                  (* vis_arr vis_model_arr vis_weights obs *)
  set_stokes_mix : D -> D -> D;                              (* cal["stokes_mix_phase"] = ... *)
  noise_calc : D -> D -> D -> result D;                      (* obs vis_arr vis_weights *)
  set_noise : D -> D -> D;                                   (* obs["vis_noise"] = ... *)
  grid : D -> D -> D -> D -> D -> D -> result (D * D * D * D * D * D);
    (* obs vis_arr vis_weights psf params vis_model_arr -> image_uv, weights_uv, variance_uv, uniform_filter_uv, model_uv, nf_vis *)
  set_nf_vis : D -> D -> D;                                  (* obs["nf_vis"] = ... *)
  reload : D -> D                                            (* what load returns for a value given to save *)
}.
Arguments read_data {D}. Arguments create_psf {D}. Arguments deproject {D}. Arguments flag_basic {D}. Arguments weights_update {D}.
Arguments model_transfer {D}. Arguments flag_model {D}. Arguments calibrate {D}. Arguments n_pol_ge_4 {D}. Arguments qu_mixing {D}.
Arguments set_stokes_mix {D}. Arguments noise_calc {D}. Arguments set_noise {D}. Arguments grid {D}.
Arguments set_nf_vis {D}. Arguments reload {D}.

Record config := {
  checkpoint_name : string; save_checkpoints : bool;
  obs_checkpoint : option string; calibrate_checkpoint : option string; gridding_checkpoint : option string;
  c_save_visibilities : bool; save_weights : bool; save_obs : bool; save_params : bool; save_cal : bool;
  deproject_w_term : bool; c_flag_basic : bool; c_flag_model : bool; calibrate_visibilities : bool; flag_visibilities : bool;
  cal_stop : bool; c_recalculate_grid : bool; export_images : bool; c_healpix_export : bool
}.

(** What a run produces besides checkpoints: files, and the arguments of the two export stages. *)
Inductive output (D : Type) :=
| RawFile (name : string) (d : D)
| SavedFile (name : string) (d : D)
| Quickview (obs psf params cal vis_arr vis_weights image_uv weights_uv variance_uv uniform_filter_uv model_uv : D)
| Healpix (obs psf cal params vis_arr vis_model_arr vis_weights : D).
Arguments RawFile {D}. Arguments SavedFile {D}. Arguments Quickview {D}. Arguments Healpix {D}.

Definition files (D : Type) := list (string * list (string * D)).
Definition write {D} (name : string) (c : list (string * D)) (fs : files D) : files D := (name, c) :: fs.
Definition load_ckpt {D} (st : stages D) (fs : files D) (name : string) : result (list (string * D)) :=
  match lookup name fs with
  | Some c => Ok (map (fun kd => (fst kd, reload st (snd kd))) c)
  | None => Err FileMissing
  end.
Definition item {D} (c : list (string * D)) (k : string) : result D :=
  match lookup k c with Some d => Ok d | None => Err KeyError end.
Definition need {A} (o : option A) : result A := match o with Some a => Ok a | None => Err UnboundLocal end.
Definition file_of (cfg : config) (suffix : string) : string := (checkpoint_name cfg ++ suffix)%string.

(** pyfhd.py 105-206: obs, params, vis_arr, vis_weights (None: not assigned), the files, the raw outputs.
    [pyfhd_config["visibilities_path"]] exists only if save_visibilities was on (135, 148). *)
Definition load_obs {D} (st : stages D) (cfg : config) (fs : files D)
  : result (option (D * D * D * D) * files D * list (output D)) :=
  match obs_checkpoint cfg, calibrate_checkpoint cfg with
  | None, None =>
    '(obs, params, vis_arr, vis_weights) <- read_data st ;;
    let raw := if c_save_visibilities cfg then [RawFile "raw_vis_arr" vis_arr] else [] in
    raw <- (if save_weights cfg then
              if c_save_visibilities cfg then Ok (raw ++ [RawFile "raw_vis_weights" vis_weights]) else Err KeyError
            else Ok raw) ;;
    let fs := if save_checkpoints cfg
              then write (file_of cfg "_obs_checkpoint.h5")
                [("obs", obs); ("params", params); ("vis_arr", vis_arr); ("vis_weights", vis_weights)] fs
              else fs in
    Ok (Some (obs, params, vis_arr, vis_weights), fs, raw)
  | Some f, _ =>
    c <- load_ckpt st fs f ;;
    obs <- item c "obs" ;; params <- item c "params" ;; vis_arr <- item c "vis_arr" ;; vis_weights <- item c "vis_weights" ;;
    Ok (Some (obs, params, vis_arr, vis_weights), fs, [])
  | None, Some _ => Ok (None, fs, [])
  end.

(** 341: the option is called calibrate_checkpoint; "calibration_checkpoint" is not a key of the configuration. *)
Definition calibration_checkpoint_option (cfg : config) : result (option string) := Err KeyError.

(** 222-351: obs, params, vis_arr, vis_model_arr, vis_weights, and cal if it was assigned. With flag_visibilities on, 307
    calls vis_flag with four arguments; flagging.py 210-216 asks for a fifth, the logger: TypeError. *)
Definition calibration {D} (st : stages D) (cfg : config) (fs : files D) (vars : option (D * D * D * D)) (psf : D)
  : result (option (D * D * D * D * D * option D) * files D) :=
  match calibrate_checkpoint cfg with
  | None =>
    '(obs, params, vis_arr, vis_weights) <- need vars ;;
    vis_arr <- (if deproject_w_term cfg then deproject st obs params vis_arr else Ok vis_arr) ;;
    '(vis_weights, obs) <- (if c_flag_basic cfg then flag_basic st vis_weights vis_arr obs else Ok (vis_weights, obs)) ;;
    '(vis_weights, obs) <- weights_update st vis_weights obs psf params ;;
    '(vis_model_arr, params_model) <- model_transfer st obs ;;
    vis_model_arr <- (if c_flag_model cfg then flag_model st vis_model_arr params params_model obs else Ok vis_model_arr) ;;
    if calibrate_visibilities cfg then
      '(vis_arr, cal, obs) <- calibrate st obs params vis_arr vis_weights vis_model_arr ;;
      cal <- (if n_pol_ge_4 st obs then m <- qu_mixing st vis_arr vis_model_arr vis_weights obs ;; Ok (set_stokes_mix st cal m) else Ok cal) ;;
      '(vis_weights, obs) <- weights_update st vis_weights obs psf params ;;
      '(vis_weights, obs) <- (if flag_visibilities cfg then Err TypeError else Ok (vis_weights, obs)) ;;
      n <- noise_calc st obs vis_arr vis_weights ;;
      let obs := set_noise st obs n in
      let fs := if save_checkpoints cfg
                then write (file_of cfg "_calibration_checkpoint.h5")
                  [("obs", obs); ("params", params); ("vis_arr", vis_arr); ("vis_model_arr", vis_model_arr);
                   ("vis_weights", vis_weights); ("cal", cal)] fs
                else fs in
      Ok (Some (obs, params, vis_arr, vis_model_arr, vis_weights, Some cal), fs)
    else Ok (Some (obs, params, vis_arr, vis_model_arr, vis_weights, None), fs)
  | Some f =>
    o <- calibration_checkpoint_option cfg ;;
    match o with
    | Some _ =>
      c <- load_ckpt st fs f ;;
      obs <- item c "obs" ;; params <- item c "params" ;; vis_arr <- item c "vis_arr" ;; vis_model_arr <- item c "vis_model_arr" ;;
      vis_weights <- item c "vis_weights" ;; cal <- item c "cal" ;;
      Ok (Some (obs, params, vis_arr, vis_model_arr, vis_weights, Some cal), fs)
    | None => Ok (None, fs)
    end
  end.

(** 353-404 *)
Definition stop_outputs {D} (cfg : config) (obs params vis_arr vis_weights : D) (cal : option D) : result (list (output D)) :=
  let o1 := if save_obs cfg then [SavedFile "obs" obs] else [] in
  let o2 := if save_params cfg then [SavedFile "params" params] else [] in
  o3 <- (if save_cal cfg && calibrate_visibilities cfg then c <- need cal ;; Ok [SavedFile "cal" c] else Ok []) ;;
  let o4 := if save_weights cfg then [SavedFile "calibrated_vis_weights" vis_weights] else [] in
  let o5 := if c_save_visibilities cfg then [SavedFile "calibrated_vis_arr" vis_arr] else [] in
  Ok (o1 ++ o2 ++ o3 ++ o4 ++ o5).

(** 406-497: obs and the uv planes (image, weights, variance, uniform filter, model), if assigned *)
Definition gridding {D} (st : stages D) (cfg : config) (fs : files D) (obs params vis_arr vis_model_arr vis_weights psf : D)
  : result (D * option (D * D * D * D * option D) * files D) :=
  match c_recalculate_grid cfg, gridding_checkpoint cfg with
  | true, None =>
    '(image_uv, weights_uv, variance_uv, uniform_filter_uv, model_uv, nf_vis) <- grid st obs vis_arr vis_weights psf params vis_model_arr ;;
    let obs := set_nf_vis st obs nf_vis in
    let fs := if save_checkpoints cfg
              then write (file_of cfg "_gridding_checkpoint.h5")
                [("image_uv", image_uv); ("weights_uv", weights_uv); ("variance_uv", variance_uv);
                 ("uniform_filter_uv", uniform_filter_uv); ("model_uv", model_uv)] fs
              else fs in
    Ok (obs, Some (image_uv, weights_uv, variance_uv, uniform_filter_uv, Some model_uv), fs)
  | _, Some f =>
    c <- load_ckpt st fs f ;;
    image_uv <- item c "image_uv" ;; weights_uv <- item c "weights_uv" ;; variance_uv <- item c "variance_uv" ;;
    uniform_filter_uv <- item c "uniform_filter_uv" ;;
    Ok (obs, Some (image_uv, weights_uv, variance_uv, uniform_filter_uv, lookup "model_uv" c), fs)
  | false, None => Ok (obs, None, fs)
  end.

(** 501-532 *)
Definition exports {D} (cfg : config) (obs params vis_arr vis_model_arr vis_weights psf : D) (cal : option D)
    (planes : option (D * D * D * D * option D)) : result (list (output D)) :=
  q <- (if export_images cfg then
          cal <- need cal ;; '(image_uv, weights_uv, variance_uv, uniform_filter_uv, model_uv) <- need planes ;; model_uv <- need model_uv ;;
          Ok [Quickview obs psf params cal vis_arr vis_weights image_uv weights_uv variance_uv uniform_filter_uv model_uv]
        else Ok []) ;;
  h <- (if c_healpix_export cfg then
          cal <- need cal ;; Ok [Healpix obs psf cal params vis_arr vis_model_arr vis_weights]
        else Ok []) ;;
  Ok (q ++ h).

(** 92-533 *)
Definition main {D} (st : stages D) (cfg : config) (fs : files D) : result (list (output D) * files D) :=
  '(vars, fs, raw) <- load_obs st cfg fs ;;
  psf <- create_psf st ;;
  '(vars, fs) <- calibration st cfg fs vars psf ;;
  if cal_stop cfg then
    '(obs, params, vis_arr, vis_model_arr, vis_weights, cal) <- need vars ;;
    out <- stop_outputs cfg obs params vis_arr vis_weights cal ;;
    Ok (raw ++ out, fs)
  else
    '(obs, params, vis_arr, vis_model_arr, vis_weights, cal) <- need vars ;;
    '(obs, planes, fs) <- gridding st cfg fs obs params vis_arr vis_model_arr vis_weights psf ;;
    out <- exports cfg obs params vis_arr vis_model_arr vis_weights psf cal planes ;;
    Ok (raw ++ out, fs).
