(** Model of parallactic_angle, PyFHD/pyfhd_tools/pyfhd_utils.py:951-974, and of the slant of the projection,
    project_slant_orthographic, PyFHD/data_setup/obs.py:437-450, over the real numbers. The other entries of the astrometry
    are in ObsFull.v. None stands for NaN. *)
From Coq Require Import Reals.
From Verif Require Import Base HealpixSel.
Open Scope R_scope.

(** 951-974. NumPy divides by zero: 0/0 is NaN, anything else an infinity, whose arctan is a right angle. *)
Definition parallactic_angle (latitude hour_angle dec : R) : option R :=
  let y_term := sin (rad hour_angle) in                                         (* 970 *)
  let x_term := cos (rad dec) * tan (rad latitude) - sin (rad dec) * cos (rad hour_angle) in   (* 971-973 *)
  if Req_EM_T x_term 0 then
    (if Req_EM_T y_term 0 then None else Some (deg (if Rlt_dec 0 y_term then PI / 2 else - (PI / 2))))
  else Some (deg (atan (y_term / x_term))).                                     (* 974 *)

Record smeta := { s_phasera : R; s_phasedec : R; s_zenra : R; s_zendec : R }.
(** obs.py 437-444 *)
Definition lon_offset (m : smeta) : R :=
  if Rlt_dec 90 (Rabs (s_phasera m - s_zenra m))
  then s_phasera m - (if Rlt_dec (s_zenra m) (s_phasera m) then 360 else -360) - s_zenra m
  else s_phasera m - s_zenra m.
(** 444-450: astr["pv2"] *)
Definition slant (m : smeta) : result (option (R * R)) :=
  zenith_ang <- angle_difference (s_phasera m) (s_phasedec m) (s_zenra m) (s_zendec m) true false ;;
  Ok (match parallactic_angle (s_zendec m) (lon_offset m) (s_phasedec m) with
      | None => None
      | Some q => Some (-1 * tan (rad zenith_ang) * sin (rad q), tan (rad zenith_ang) * cos (rad q))
      end).
