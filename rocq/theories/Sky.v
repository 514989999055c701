(** Model over the real numbers of l_m_n (297-374) and simple_deproject_w_term (977-1013),
    PyFHD/pyfhd_tools/pyfhd_utils.py, and of crosspol_split_real_imaginary (1542-1571). *)
From Coq Require Import String Reals.
From Verif Require Import Base VisWeights.
Import ListNotations.
Open Scope nat_scope.

(** ** l_m_n, lines 345-374. obsdec and obsra are finite numbers in degrees; a pixel coordinate may be NaN (None). *)
Open Scope R_scope.
Definition radians (x : R) : R := x * PI / 180.
Definition lmn_pixel (obsdec obsra : R) (dec ra : option R) : R * R * R :=
  match dec, ra with
  | Some dec, Some ra =>
    let obsdec := radians obsdec in let obsra := radians obsra in let dec := radians dec in let ra := radians ra in
    let cdec0 := cos obsdec in let sdec0 := sin obsdec in let cdec := cos dec in let sdec := sin dec in
    let cdra := cos (ra - obsra) in let sdra := sin (ra - obsra) in
    (sdra * cdec, cdec0 * sdec - cdec * sdec0 * cdra, (sdec * sdec0 + cdec * cdec0 * cdra) - 1)
  | _, _ => (0, 0, 0)
  end.
(** The two arrays must have the same shape (broadcasting of other shapes is not represented). *)
Definition l_m_n (obsdec obsra : R) (dec_arr ra_arr : list (option R)) : result (list (R * R * R)) :=
  if (List.length dec_arr =? List.length ra_arr)%nat
  then Ok (map (fun dr => lmn_pixel obsdec obsra (fst dr) (snd dr)) (combine dec_arr ra_arr))
  else Err ValueError.

(** ** simple_deproject_w_term, lines 1003-1013. Complex numbers are pairs. *)
Definition cx := (R * R)%type.
Definition cmul (a b : cx) : cx := (fst a * fst b - snd a * snd b, fst a * snd b + snd a * fst b).
Definition cexp_i (t : R) : cx := (cos t, sin t).
(** line 1004, 1006: row = baseline, column = frequency *)
Definition phase (direction : R) (ww freq : list R) (i j : nat) : cx := cexp_i (direction * (nth i ww 0 * nth j freq 0)).
(** An axis of an in-place operand: as long as the left one, or of length 1. *)
Definition axis_ok (left right : nat) : bool := ((right =? left) || (right =? 1))%nat.
Definition axis_at (size k : nat) : nat := if (size =? 1)%nat then 0%nat else k.
(** line 1007: np.tile(phase, (n_pol, 1)) has n_pol * n_baselines rows; *= broadcasts the last two axes. *)
Definition simple_deproject_w_term (n_pol : nat) (ww freq : list R) (vis : arr3 cx) (direction : R) : result (arr3 cx) :=
  let nb := List.length ww in
  let rows := (n_pol * nb)%nat in let cols := List.length freq in
  if axis_ok (d_freq vis) rows && axis_ok (d_bl vis) cols then
    Ok (Arr3 (d_pol vis) (d_freq vis) (d_bl vis) (fun p f b =>
      if (p <? n_pol)%nat
      then cmul (at3 vis p f b) (phase direction ww freq (axis_at rows f mod nb) (axis_at cols b))
      else at3 vis p f b))
  else Err ValueError.

(** ** crosspol_split_real_imaginary. An image is its planes, each a list of (complex) pixels; [image[2]] is a view, so
    line 1564 reads the plane line 1563 has written. pol_names is changed in place. *)
Definition set_plane (image : list (list cx)) (k : nat) (v : list cx) : result (list (list cx)) :=
  if (k <? List.length image)%nat then Ok (upd image k v) else Err IndexError.
Definition plane (image : list (list cx)) (k : nat) : result (list cx) :=
  if (k <? List.length image)%nat then Ok (nth k image []) else Err IndexError.
Definition set_name (names : list string) (k : nat) (v : string) : result (list string) :=
  if (k <? List.length names)%nat then Ok (upd names k v) else Err IndexError.
Definition crosspol_split (image : list (list cx)) (pol_names : option (list string))
  : result (list (list cx) * option (list string)) :=
  crosspol <- plane image 2 ;;
  image <- set_plane image 2 (map (fun z => (fst z, 0)) crosspol) ;;
  crosspol <- plane image 2 ;;                       (* the view *)
  image <- set_plane image 3 (map (fun z => (snd z, 0)) crosspol) ;;
  match pol_names with
  | None => Ok (image, None)
  | Some names =>
    if (2 <? List.length names)%nat then
      let name := nth 2 names ""%string in
      names <- set_name names 2 (name ++ "_real")%string ;;
      names <- set_name names 3 (name ++ "_imag")%string ;;
      Ok (image, Some names)
    else Err IndexError
  end.
