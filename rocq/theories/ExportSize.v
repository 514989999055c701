(** Model of phase_shift_uv_image, PyFHD/healpix/healpix_utils.py:389-431, and of the choice of pixel sizes of
    healpix_snapshot_cube_generate, PyFHD/healpix/export.py:62-113, over the real numbers.  The rest of that function is in
    HealpixExport.v. *)
From Coq Require Import String Reals.
From Verif Require Import Base NpArr Utils1 Sky DirtyImage Quickview.
Import ListNotations.
Open Scope nat_scope.
Open Scope R_scope.

(** ** phase_shift_uv_image *)
Record pointing := { t_dimension : nat; t_elements : nat; t_phase : R * R; t_orig : R * R }.
(** [pixel]: radec_to_pixel with the astrometry of the observation *)
Definition phase_shift_uv_image (pixel : R * R -> R * R) (t : pointing) : result (arr2 cx) :=
  let n := t_dimension t in let m := t_elements t in
  if (if Req_EM_T (fst (t_phase t)) (fst (t_orig t)) then true else false) && (if Req_EM_T (snd (t_phase t)) (snd (t_orig t)) then true else false)
  then Ok (Arr2 n m (fun _ _ => (1, 0))) else                                  (* 409-413 *)
  let '(x, y) := pixel (t_orig t) in                                            (* 415 *)
  let dx := (x - half n) * (2 * PI / INR n) in                                  (* 419-420: both divided by the dimension *)
  let dy := (y - half m) * (2 * PI / INR n) in
  mx <- meshgrid n m (Some 1%nat) ;;                                            (* 422-423 *)
  my <- meshgrid n m (Some 2%nat) ;;
  azip (fun a b => cexp_i ((INR a - half n) * dx + (INR b - half m) * dy)) (of_lists 0%nat mx) (of_lists 0%nat my).
(** line 571 and 578: a plane times the factors *)
Definition rephased (plane factors : arr2 cx) : result (arr2 cx) := azip cmul plane factors.

(** ** Pixel sizes, export.py *)
(** int(r) *)
Definition int_R (r : R) : Z := if Rle_dec 0 r then Int_part r else (- Int_part (- r))%Z.
Definition ceil (r : R) : Z := (- Int_part (- r))%Z.
(** The options --ps-kbinsize and so on; None if not set. *)
Record ps := { s_kbinsize : option R; s_fov : option R; s_kspan : option R; s_dimension : option R; s_degpix : option R; s_nfreq_avg : option Q }.
Record sizes := { z_kbinsize : R; z_fov : R; z_dimension : nat; z_degpix : R; z_nside : R; z_radius : R; z_obs : qobs }.
(** A division by 0 is an exception (or an infinity, for which int fails). A negative dimension fails later, in np.zeros. *)
Definition export_sizes (c : ps) (psf_fbin : list nat) (o : qobs) : result sizes :=
  kbin <- (match s_kbinsize c with                                              (* 62-69 *)
           | Some k => Ok k
           | None => match s_fov c with
                     | Some f => if Req_EM_T f 0 then Err ZeroDivision else Ok (180 / PI / f)
                     | None => Ok (q_kpix o)
                     end
           end) ;;
  fov <- (if Req_EM_T kbin 0 then Err ZeroDivision else Ok (180 / PI / kbin)) ;;                                        (* 71 *)
  let by_obs := if Req_EM_T (q_degpix o) 0 then Err ZeroDivision else Ok (fov / q_degpix o) in
  d <- (match s_kspan c with                                                    (* 73-80 *)
        | Some s => Ok (s / kbin)
        | None => match s_dimension c with
                  | Some d => Ok d
                  | None => match s_degpix c with
                            | Some d => if Req_EM_T d 0 then by_obs else Ok (fov / d)
                            | None => by_obs
                            end
                  end
        end) ;;
  let dim := int_R d in                                                         (* 82 *)
  avg <- (match s_nfreq_avg c with                                              (* 84-90 *)
          | Some a => Ok a
          | None => match psf_fbin with
                    | [] => Err ValueError
                    | l => Ok (inject_Z (np_round (natQ (q_nfreq o) / natQ (fold_right Nat.max 0%nat l + 1))))
                    end
          end) ;;
  if (dim =? 0)%Z then Err ZeroDivision else                                    (* 92-95 *)
  let degpix := fov / IZR dim in
  let pix_sky := 4 * PI * (180 / PI) ^ 2 / degpix ^ 2 in
  let nside := powerRZ 2 (ceil (ln (sqrt (pix_sky / 12)) / ln 2)) in
  if (dim <? 0)%Z then Err ValueError else
  out <- update_obs o (Z.to_nat dim) kbin (Some avg) (Some fov) ;;              (* 98-100 *)
  Ok {| z_kbinsize := kbin; z_fov := fov; z_dimension := Z.to_nat dim; z_degpix := degpix; z_nside := nside;
        z_radius := fov / sqrt 2; z_obs := out |}.                              (* 113 *)
