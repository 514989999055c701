(** Model of the files a run of PyFHD makes: pyfhd_logger and pyfhd_setup (PyFHD/pyfhd_tools/pyfhd_setup.py:1111-1298,
    1594-1604), main and finish_pyfhd (PyFHD/pyfhd.py:66-105 and its saves), create_layout's save (data_setup/uvfits.py:637),
    create_psf's save (beam_setup/beam.py:147-152), plot_cals (plotting/calibration.py:33-46, 216-236), quickview
    (io/pyfhd_quickview.py:121-192, 372-425), healpix_snapshot_cube_generate (healpix/export.py:57-60, 126-222) and
    vis_model_freq_split (healpix/healpix_utils.py:602-651).

    Any number of runs act on one file system, one step at a time, in any order: runs one after the other and runs at the
    same time are both orders of steps. A run that is killed, or stopped by an exception of a stage, takes no further step.
    A step is one call that touches the file system; a save is two steps (the file is emptied, the file is complete).
    A path is the list of its parts; names with a slash in them are not represented. Files and directories are kept apart,
    so a file in the place of a directory is not represented, nor are permissions, full disks and HDF5's file locks. What is
    in a file is represented by the run it is from. *)
From Coq Require Import String Ascii.
From Verif Require Import Base.
Import ListNotations.
Open Scope string_scope.
Open Scope list_scope.

Definition path := list string.
Definition path_eqb (p q : path) : bool := if list_eq_dec string_dec p q then true else false.

(** What is in a file: the beginning of what run [i] writes; all of it; the lines added by some runs. *)
Inductive content := Half (i : nat) | Whole (i : nat) | Lines (is : list nat).

Record fs := FS { dirs : list path; files : list (path * content) }.

(** Path.is_dir; [nil] is the root *)
Definition is_dir (s : fs) (p : path) : bool :=
  match p with [] => true | _ => existsb (path_eqb p) (dirs s) end.
Fixpoint look (l : list (path * content)) (p : path) : option content :=
  match l with
  | [] => None
  | (q, c) :: t => if path_eqb q p then Some c else look t p
  end.
Definition file (s : fs) (p : path) : option content := look (files s) p.
Definition put (s : fs) (p : path) (c : content) : fs := FS (dirs s) ((p, c) :: files s).
Definition add_dirs (s : fs) (ps : list path) : fs := FS (ps ++ dirs s) (files s).
Definition parent (p : path) : path := removelast p.

(** p.mkdir(parents=True, exist_ok=True), for the parts of the path from the last to the first: a directory that is there
    ends the search, one that is not is made after its parent *)
Fixpoint mkdirs (rev_p : path) (s : fs) : fs :=
  if is_dir s (rev rev_p) then s
  else match rev_p with
       | [] => s
       | _ :: t => add_dirs (mkdirs t s) [rev rev_p]
       end.

Inductive act :=
| TestMkdir (p : path)      (* if not is_dir(p): the answer decides whether Mkdir follows (pyfhd_setup.py:1209-1213, 1225-1231) *)
| Mkdir (p : path)          (* Path.mkdir(p) *)
| MkdirOk (p : path)        (* p.mkdir(exist_ok=True) *)
| Mkdirs (p : path)         (* p.mkdir(parents=True, exist_ok=True) *)
| Append (p : path)         (* logging.FileHandler(p): the file is opened for appending *)
| Save (p : path)           (* h5py.File(p, "w"), open(p, "w"), writeto(p, overwrite=True), savefig(p): an old file is emptied *)
| Finish (p : path).        (* ... and the new one is complete *)

(** One step of run [i]: what is left to do, and the file system *)
Definition step (i : nat) (a : act) (rest : list act) (s : fs) : result (list act * fs) :=
  match a with
  | TestMkdir p => Ok (if is_dir s p then rest else Mkdir p :: rest, s)
  | Mkdir p =>
    if is_dir s p then Err IOError                                   (* FileExistsError *)
    else if is_dir s (parent p) then Ok (rest, add_dirs s [p]) else Err FileMissing
  | MkdirOk p =>
    if is_dir s p then Ok (rest, s)
    else if is_dir s (parent p) then Ok (rest, add_dirs s [p]) else Err FileMissing
  | Mkdirs p => Ok (rest, mkdirs (rev p) s)
  | Append p =>
    if is_dir s (parent p)
    then Ok (rest, put s p (match file s p with Some (Lines l) => Lines (l ++ [i]) | _ => Lines [i] end))
    else Err FileMissing
  | Save p => if is_dir s (parent p) then Ok (Finish p :: rest, put s p (Half i)) else Err FileMissing
  | Finish p => Ok (rest, put s p (Whole i))
  end.

(** The options and the data of a run that decide which files it makes. The run is not resumed from a calibration
    checkpoint, as this always fails (pyfhd.py:341, Pipeline.v). *)
Record run := Run {
  obs_id : string;
  description : option string;
  output_path : path;
  log_time : string;                     (* the time the run started: year, month, ..., second *)
  log_file : bool; save_checkpoints : bool;
  resumed : bool;                        (* obs_checkpoint is given *)
  beam_h5 : option path;                 (* the beam is a .sav file: the same path with .h5 *)
  save_visibilities : bool; save_weights : bool; save_obs : bool; save_params : bool; save_cal : bool;
  calibrate_visibilities : bool; calibration_plots : bool;
  pages : list string;                   (* "" or "_page0", "_page1", ... (plotting/calibration.py:90, 217-220) *)
  cal_stop : bool; recalculate_grid : bool; grid_resumed : bool;   (* gridding_checkpoint is given *)
  export_images : bool;
  filter_name : string;                  (* image_filter.split("_")[-1] *)
  pol_names : list string;
  snapshot_healpix_export : bool; split_ps_export : bool
}.

(** s.replace(" ", "_") *)
Fixpoint underscored (s : string) : string :=
  match s with
  | EmptyString => EmptyString
  | String c t => String (if Ascii.eqb c " " then "_"%char else c) (underscored t)
  end.

(** pyfhd_setup.py:1149-1154 *)
Definition log_name (r : run) : string :=
  match description r with
  | None => "pyfhd_" ++ log_time r
  | Some d => "pyfhd_" ++ underscored d ++ "_" ++ log_time r
  end%string.
(** pyfhd_setup.py:1217-1225 *)
Definition dir_name (r : run) : string :=
  match description r with
  | None => "pyfhd_" ++ log_time r
  | Some d => "pyfhd_" ++ underscored d
  end%string.
Definition outdir (r : run) : path := output_path r ++ [dir_name r].
(** pyfhd.py:99-101 *)
Definition checkpoint_name (r : run) : string :=
  match description r with
  | None => obs_id r
  | Some d => if string_dec d "" then obs_id r else d
  end.

Definition below (r : run) (p : path) : path := outdir r ++ p.
(** f"{obs_id}_{name}" in a directory of the run *)
Definition own (r : run) (sub : path) (name : string) : path := below r (sub ++ [(obs_id r ++ "_" ++ name)%string]).
Definition only {A} (b : bool) (l : list A) : list A := if b then l else [].

(** pyfhd_logger, and the end of pyfhd_setup (1594-1604) *)
Definition setup (r : run) : list act :=
  [TestMkdir (output_path r); TestMkdir (outdir r)]
  ++ only (log_file r) [Append (below r [(log_name r ++ ".log")%string])]
  ++ [MkdirOk (below r ["config"]); Save (below r ["config"; (log_name r ++ ".yaml")%string])].

Definition checkpoint (r : run) (suffix : string) : list act :=
  only (save_checkpoints r) [Save (below r ["checkpoints"; (checkpoint_name r ++ suffix)%string])].

(** pyfhd.py:103-193. Without save_visibilities, save_weights raises KeyError (148, Pipeline.v): the run stops there. *)
Definition fresh (r : run) : list act :=
  only (save_visibilities r) [MkdirOk (below r ["visibilities"]); Save (own r ["visibilities"] "raw_vis_arr.h5")]
  ++ only (save_weights r) [Save (own r ["visibilities"] "raw_vis_weights.h5")]
  ++ [Save (below r ["layout.h5"])]
  ++ checkpoint r "_obs_checkpoint.h5".

(** beam.py:147-152 *)
Definition beam (r : run) : list act := match beam_h5 r with Some p => [Save p] | None => [] end.

(** plotting/calibration.py:34-46, 102, 223-232 *)
Definition plots (r : run) : list act :=
  Mkdirs (below r ["plots"; "calibration"])
  :: flat_map (fun type => flat_map (fun page =>
       [Save (own r ["plots"; "calibration"] ("cal_" ++ type ++ "amp" ++ page ++ ".png")%string);
        Save (own r ["plots"; "calibration"] ("cal_" ++ type ++ "phase" ++ page ++ ".png")%string)]) (pages r))
     [""; "residual_"; "raw_"].

(** pyfhd.py:268-336 *)
Definition calibration (r : run) : list act :=
  only (calibrate_visibilities r) (only (calibration_plots r) (plots r) ++ checkpoint r "_calibration_checkpoint.h5").

(** pyfhd.py:358-402, and quickview 121-134 with 172-192: the directories, and the files common to both *)
Definition metadata (r : run) : list act :=
  [MkdirOk (below r ["metadata"]); MkdirOk (below r ["visibilities"])]
  ++ only (save_obs r) [Save (own r ["metadata"] "obs.h5")]
  ++ only (save_params r) [Save (own r ["metadata"] "params.h5")].
Definition cal_file (r : run) : list act :=
  only (save_cal r && calibrate_visibilities r) [MkdirOk (below r ["calibration"]); Save (own r ["calibration"] "cal.h5")].
Definition cal_weights (r : run) : list act :=
  only (save_weights r) [Save (own r ["visibilities"] "calibrated_vis_weights.h5")].
Definition cal_vis (r : run) : list act :=
  only (save_visibilities r) [Save (own r ["visibilities"] "calibrated_vis_arr.h5")].

(** quickview 135-171 *)
Definition uv_planes (r : run) : list act :=
  only (save_visibilities r && recalculate_grid r)
    (MkdirOk (below r ["gridding"])
     :: map (fun n => Save (own r ["gridding"] n))
          ["image_uv.h5"; "weights_uv.h5"; "variance_uv.h5"; "uniform_filter_uv.h5"; "model_uv.h5"]).

(** quickview 374-425 *)
Definition fits (r : run) : list act :=
  MkdirOk (below r ["fits"])
  :: flat_map (fun pol => map (fun n => Save (own r ["fits"] n))
       [(filter_name r ++ "_dirty_" ++ pol ++ ".fits")%string; (filter_name r ++ "_model_" ++ pol ++ ".fits")%string;
        (filter_name r ++ "_residual_" ++ pol ++ ".fits")%string; ("beam_" ++ pol ++ ".fits")%string;
        ("uv_weights_" ++ pol ++ ".fits")%string]) (pol_names r).

Definition quickview (r : run) : list act :=
  metadata r ++ uv_planes r ++ cal_vis r ++ cal_file r ++ cal_weights r ++ fits r.

(** export.py:57-60, 126-146, 216-222; healpix_utils.py:609-651 *)
Definition healpix (r : run) : list act :=
  MkdirOk (below r ["healpix"])
  :: flat_map (fun '(cube, uvf) => flat_map (fun pol =>
       Mkdirs (below r ["healpix"; "uvf_grid"])
       :: map (fun n => Save (own r ["healpix"; "uvf_grid"] (uvf ++ "_" ++ pol ++ n)%string))
            ["_dirty_uv_arr_gridded_uvf.h5"; "_weights_uv_gridded_uvf.h5"; "_variance_uv_arr_gridded_uvf.h5";
             "_model_uv_arr_gridded_uvf.h5"]
       ++ [Save (own r ["healpix"] (cube ++ "_" ++ pol ++ ".h5")%string)]) (pol_names r))
     (if split_ps_export r then [("hpx_even", "even"); ("hpx_odd", "odd")] else [("healpix_cube", "")]).

(** pyfhd.py:66-90 *)
Definition finish (r : run) : list act :=
  [Save (below r ["config"; (log_name r ++ "-final.yaml")%string]); Save (below r ["config"; "pyfhd_config.h5"])].

(** pyfhd.py:92-538 *)
Definition actions (r : run) : list act :=
  setup r
  ++ only (save_checkpoints r) [MkdirOk (below r ["checkpoints"])]
  ++ only (negb (resumed r)) (fresh r)
  ++ beam r
  ++ calibration r
  ++ (if cal_stop r then metadata r ++ cal_file r ++ cal_weights r ++ cal_vis r
      else only (recalculate_grid r && negb (grid_resumed r)) (checkpoint r "_gridding_checkpoint.h5")
           ++ only (export_images r) (quickview r)
           ++ only (snapshot_healpix_export r) (healpix r))
  ++ finish r.

(** A run under way: what is left to do, or the exception that ended it *)
Inductive proc := Running (l : list act) | Failed (e : pyerr).

Definition proc_step (i : nat) (pr : proc) (s : fs) : proc * fs :=
  match pr with
  | Running (a :: rest) => match step i a rest s with Ok (rest', s') => (Running rest', s') | Err e => (Failed e, s) end
  | _ => (pr, s)
  end.

(** The runs are numbered; a schedule is the list of the runs that take the next step. *)
Definition sys_step (st : list proc * fs) (i : nat) : list proc * fs :=
  match nth_error (fst st) i with
  | Some pr => let '(pr', s') := proc_step i pr (snd st) in (upd (fst st) i pr', s')
  | None => st
  end.
Definition start (rs : list run) : list proc := map (fun r => Running (actions r)) rs.
Definition execute (rs : list run) (s : fs) (schedule : list nat) : list proc * fs :=
  fold_left sys_step schedule (start rs, s).
