(** Model of PyFHD/io/pyfhd_quickview.py (the images and FITS files of quickview, get_image_renormalization), of update_obs,
    PyFHD/data_setup/obs.py:490-546, and of crosspol_split_real_imaginary, PyFHD/pyfhd_tools/pyfhd_utils.py:1542-1571.
    Numbers are real; x/0 is not represented (numpy gives an infinity).  The HDF5 files of 121-192 (H5IO.v), the mask and mean
    of the beam (232-256, used nowhere), the directories and the header cards that are copied from obs are left out. *)
From Coq Require Import String Reals.
From Verif Require Import Base NpArr PyIndex Obs Sky DirtyImage.
Import ListNotations.
Open Scope nat_scope.
Open Scope list_scope.
Open Scope R_scope.

(** ** update_obs *)
(** The entries of obs, of obs["astr"] and of obs["baseline_info"] in use here. *)
Record qobs := {
  q_npol : nat; q_dimension : nat; q_elements : nat; q_obsx : Q; q_obsy : Q; q_kpix : R; q_degpix : R; q_max : R;
  q_nvis : R; q_names : list string;
  q_naxis : nat * nat; q_cdelt : R * R; q_crpix : Q * Q; q_cd : (R * R) * (R * R);
  q_nfreq : nat; q_freq : list Q; q_freq_res : Q; q_fbin : list nat }.

(** np.round of a number: ties to even *)
Definition np_round (q : Q) : Z :=
  let f := Qround.Qfloor (q + (1 # 2)) in
  if Qeq_bool (q + (1 # 2)) (inject_Z f) && Z.odd f then (f - 1)%Z else f.
Definition natQ (n : nat) : Q := inject_Z (Z.of_nat n).

(** obs.py:521-546; the dictionary of the caller is the one returned *)
Definition update_obs (o : qobs) (dimension : nat) (kbinsize : R) (nfreq_avg : option Q) (fov : option R) : result qobs :=
  avg <- (match nfreq_avg with
          | Some a => Ok a
          | None => match q_fbin o with
                    | [] => Err ValueError
                    | l => Ok (inject_Z (np_round (natQ (q_nfreq o) / natQ (fold_right Nat.max 0%nat l + 1))))
                    end
          end) ;;
  fbin <- update_fbin (q_freq o) (q_nfreq o) (avg * q_freq_res o)%Q ;;
  let obsx := (natQ dimension / 2)%Q in
  let kpix := match fov with None => kbinsize | Some f => 180 / PI / f end in
  let degpix := 180 / PI / (kpix * INR dimension) in
  Ok {| q_npol := q_npol o; q_dimension := dimension; q_elements := dimension; q_obsx := obsx; q_obsy := obsx;
        q_kpix := kpix; q_degpix := degpix; q_max := Rmin (q_max o) (INR dimension * kpix / sqrt 2);
        q_nvis := q_nvis o; q_names := q_names o;
        q_naxis := (dimension, dimension); q_cdelt := (degpix, degpix); q_crpix := (obsx + 1, obsx + 1)%Q; q_cd := q_cd o;
        q_nfreq := q_nfreq o; q_freq := q_freq o; q_freq_res := q_freq_res o; q_fbin := fbin |}.

(** ** crosspol_split_real_imaginary: [crosspol_image] is a view of the third plane, read again after it was written *)
Definition put {A} (l : list A) (k : nat) (x : A) : result (list A) :=
  if (k <? List.length l)%nat then Ok (firstn k l ++ x :: skipn (S k) l) else Err IndexError.
Definition get_plane {A} (l : list A) (k : nat) : result A :=
  match nth_error l k with Some a => Ok a | None => Err IndexError end.
Definition split_planes {A} (re im : A -> A) (l : list (arr2 A)) : result (list (arr2 A)) :=
  p <- get_plane l 2 ;;
  l <- put l 2 (amap re p) ;;
  view <- get_plane l 2 ;;
  put l 3 (amap im view).
Definition split_names (l : list string) : result (list string) :=
  n <- get_plane l 2 ;;
  l <- put l 2 (n ++ "_real")%string ;;
  put l 3 (n ++ "_imag")%string.
Definition cx_re (z : cx) : cx := (fst z, 0).
Definition cx_im (z : cx) : cx := (snd z, 0).

(** ** The images *)
Record config := { c_pad : Q; c_optimal : bool  (* image_filter == "filter_uv_optimal" *) }.
(** The options of the calls of dirty_image_generate, 249-276 and 54-63 *)
Definition call_options (cfg : config) (degpix : R) (filter : arr2 R) (not_real : bool) (beam : arr2 R) : options :=
  {| o_mask := None; o_threshold := Some 0; o_width := None; o_filter := Some filter; o_resize := None;
     o_pad := Some (c_pad cfg); o_degpix := Some degpix; o_not_real := not_real;
     o_beam := Some (false, amap (fun r => (r, 0)) beam); o_norm := None; o_optimal := c_optimal cfg |}.
(** resize is never given *)
Definition no_rebin (a : arr2 R) (d : nat * nat) : result (arr2 R) := Err ValueError.
(** [target[pol] = a] for planes of r rows and c columns of floats: the imaginary part is dropped *)
Definition assign {A} (r c : nat) (a : arr2 A) : result (arr2 A) :=
  if axis_ok r (rows a) && axis_ok c (cols a)
  then Ok (Arr2 r c (fun i j => at2 a (bidx (rows a) i) (bidx (cols a) j))) else Err ValueError.
(** weight_invert(beam, 1e-3), entry by entry (WeightInvert.v) *)
Definition inverse (r : R) : R := if Rle_dec (1 / 1000) r then / r else 0.
(** np.abs of a complex number *)
Definition cx_abs (z : cx) : R := sqrt (fst z ^ 2 + snd z ^ 2).

Inductive kind := KDirty | KModel | KResidual | KBeam | KWeights.
(** A file name is its kind and its polarisation, obs_id and the name of the filter being the same for all. *)
Record file := { f_kind : kind; f_pol : string; f_data : list (arr2 R) }.
Record header := { h_cd : (R * R) * (R * R); h_crpix : Z * Z }.
Record output := {
  out_obs : qobs; out_files : list file; out_header : header;
  out_image : list (arr2 cx); out_model : list (arr2 cx); out_weights : list (arr2 cx) }.

Section Quickview.
  (** filter_uv_uniform for given weights (the visibility counts are those of the call); the beam image of a polarisation,
      rebinned; 1 above the horizon and 0 below *)
  Variable uniform : arr2 cx -> arr2 cx -> result (arr2 cx * arr2 R).
  Variable beam_image : qobs -> nat -> result (arr2 R).
  Variable horizon : qobs -> arr2 R.

  Definition generate (cfg : config) (degpix : R) (filter : arr2 R) (not_real : bool) (beam : arr2 R) (weights uv : arr2 cx) :=
    dirty_image_generate (uniform weights) no_rebin (call_options cfg degpix filter not_real beam) uv.

  (** 222-229 *)
  Definition beam_base (o : qobs) (pol : nat) : result (arr2 R) :=
    b <- beam_image o pol ;;
    p <- azip Rmult b (horizon o) ;;
    assign (q_dimension o) (q_elements o) p.

  (** 244-276, one polarisation: dirty image, model image, filter and the planes of the caller afterwards *)
  Definition pol_images (cfg : config) (o : qobs) (pol : nat) (beam : arr2 R) (image model weights : arr2 cx) :=
    let complex := (1 <? pol)%nat in
    ' (d, f, image) <- generate cfg (q_degpix o) (Arr2 0 0 (fun _ _ => 0)) complex beam weights image ;;
    d <- assign (q_dimension o) (q_elements o) (amap fst d) ;;
    f <- (match f with Some f => Ok f | None => Err TypeError end) ;;
    fa <- assign (q_dimension o) (q_elements o) f ;;
    ' (m, _, model) <- generate cfg (q_degpix o) f complex beam weights model ;;
    m <- assign (q_dimension o) (q_elements o) (amap fst m) ;;
    Ok (d, m, fa, image, model).

  (** get_image_renormalization 21-71, one polarisation: the factor and the weights afterwards *)
  Definition entry {A} (a : arr2 A) (i j : nat) : result A :=
    if (i <? rows a)%nat && (j <? cols a)%nat then Ok (at2 a i j) else Err IndexError.
  Definition renormalization (cfg : config) (o : qobs) (beam fa : arr2 R) (weights : arr2 cx) : result (R * arr2 cx) :=
    ' (d, _, after) <- generate cfg (q_degpix o) fa false beam weights weights ;;
    num <- entry d (q_dimension o / 2) (q_elements o / 2) ;;
    b <- entry beam (Z.to_nat (py_int (q_obsx o))) (Z.to_nat (py_int (q_obsy o))) ;;
    Ok (1 / fst num * b ^ 2 / (q_degpix o * (PI / 180)) ^ 2, after).

  (** 361-406, one polarisation *)
  Definition write_pol (o : qobs) (names : list string) (beams dirty model residual : list (arr2 R)) (weights : list (arr2 cx)) (pol : nat)
    : result (list file) :=
    b <- get_plane beams pol ;; d <- get_plane dirty pol ;; m <- get_plane model pol ;; r <- get_plane residual pol ;;
    n <- get_plane names pol ;;
    let correction := amap inverse b in
    d <- azip Rmult d correction ;; m <- azip Rmult m correction ;; r <- azip Rmult r correction ;;
    Ok [ {| f_kind := KDirty; f_pol := n; f_data := [d] |}; {| f_kind := KModel; f_pol := n; f_data := [m] |};
         {| f_kind := KResidual; f_pol := n; f_data := [r] |}; {| f_kind := KBeam; f_pol := n; f_data := [b] |};
         {| f_kind := KWeights; f_pol := n; f_data := map (amap (fun z => cx_abs z * q_nvis o)) weights |} ].

  (** 193-406 *)
  Definition quickview (cfg : config) (o : qobs) (image_uv weights_uv model_uv : list (arr2 cx)) : result output :=
    o <- update_obs o (Z.to_nat (py_int (natQ (q_dimension o) * c_pad cfg)%Q)) (q_kpix o) None None ;;
    let pols := seq 0 (q_npol o) in
    beams <- map_res (beam_base o) pols ;;
    runs <- map_res (fun pol =>
              b <- get_plane beams pol ;; i <- get_plane image_uv pol ;; m <- get_plane model_uv pol ;; w <- get_plane weights_uv pol ;;
              pol_images cfg o pol b i m w) pols ;;
    norms <- map_res (fun pol =>
              b <- get_plane beams pol ;; w <- get_plane weights_uv pol ;; ' (_, _, fa, _, _) <- get_plane runs pol ;;
              renormalization cfg o b fa w) pols ;;
    let scaled p := map (fun x : (arr2 R * arr2 R * arr2 R * arr2 cx * arr2 cx) * (R * arr2 cx) =>
                            amap (Rmult (fst (snd x))) (p (fst x))) (combine runs norms) in
    let dirty := scaled (fun x => let '(d, _, _, _, _) := x in d) in
    let model := scaled (fun x => let '(_, m, _, _, _) := x in m) in
    let residual := map (fun x : arr2 R * arr2 R =>
                       Arr2 (rows (fst x)) (cols (fst x)) (fun i j => at2 (fst x) i j - at2 (snd x) i j)) (combine dirty model) in
    let weights := map snd norms in
    ' (dirty, model, residual, weights, names) <-
      (if (4 <=? q_npol o)%nat then
         d <- split_planes (fun r : R => r) (fun _ => 0) dirty ;;
         n <- split_names (q_names o) ;;
         m <- split_planes (fun r : R => r) (fun _ => 0) model ;;
         r <- split_planes (fun r : R => r) (fun _ => 0) residual ;;
         w <- split_planes cx_re cx_im weights ;;
         Ok (d, m, r, w, n)
       else Ok (dirty, model, residual, weights, q_names o)) ;;
    let '((c11, c12), (c21, c22)) := q_cd o in
    let cd := ((c11 * fst (q_cdelt o), c12 * fst (q_cdelt o)), (c21 * snd (q_cdelt o), c22 * snd (q_cdelt o))) in
    let o := {| q_npol := q_npol o; q_dimension := q_dimension o; q_elements := q_elements o; q_obsx := q_obsx o; q_obsy := q_obsy o;
        q_kpix := q_kpix o; q_degpix := q_degpix o; q_max := q_max o; q_nvis := q_nvis o; q_names := names;
        q_naxis := q_naxis o; q_cdelt := q_cdelt o; q_crpix := q_crpix o; q_cd := cd;
        q_nfreq := q_nfreq o; q_freq := q_freq o; q_freq_res := q_freq_res o; q_fbin := q_fbin o |} in
    files <- map_res (write_pol o names beams dirty model residual weights) pols ;;
    Ok {| out_obs := o; out_files := List.concat files;
          out_header := {| h_cd := cd; h_crpix := (py_int (fst (q_crpix o)), py_int (snd (q_crpix o))) |};
          out_image := map (fun x => let '(_, _, _, i, _) := x in i) runs;
          out_model := map (fun x => let '(_, _, _, _, m) := x in m) runs;
          out_weights := weights |}.
End Quickview.
