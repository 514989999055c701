(** Model of grid_beam_per_baseline, PyFHD/gridding/gridding_utils.py:498-688, and of the window and coordinates visibility_grid
    makes for it, PyFHD/gridding/visibility_grid.py:174-196, over the real numbers.  psf is a dictionary (for an HDF5 file the
    same values are read).  The box matrix of the caller has one row of psf_dim3 = psf_dim^2 zeros per visibility, so line 631
    sets row ii. *)
From Coq Require Import String Reals.
From Verif Require Import Base NpArr PyIndex Sky DirtyImage Quickview ExportSize.
Import ListNotations.
Open Scope nat_scope.
Open Scope list_scope.
Open Scope R_scope.

(** psf["dim"], psf["resolution"], psf["image_info"]["image_power_beam_arr"], psf["beam_mask_threshold"] *)
Record kpsf := { k_dim : nat; k_res : nat; k_image : list (arr2 cx); k_threshold : R }.
(** uu, vv, ww, frequency_array, x, y *)
Record coords := { c_uu : list R; c_vv : list R; c_ww : list R; c_freq : list R; c_x : list R; c_y : list R }.
(** l_mode, m_mode, n_tracked *)
Record modes := { m_l : arr2 R; m_m : arr2 R; m_n : arr2 R }.

Definition get {A} (l : list A) (k : nat) : result A := match nth_error l k with Some a => Ok a | None => Err IndexError end.
(** a[lo:hi, lo:hi] for any integers *)
Definition py_bound (n : nat) (z : Z) : nat := if (z <? 0)%Z then Z.to_nat (z + Z.of_nat n) else Nat.min n (Z.to_nat z).
Definition window (a : arr2 cx) (lo hi : Z) : arr2 cx :=
  let r0 := py_bound (rows a) lo in let r1 := py_bound (rows a) hi in
  let c0 := py_bound (cols a) lo in let c1 := py_bound (cols a) hi in
  Arr2 (r1 - r0) (c1 - c0) (fun i j => at2 a (r0 + i)%nat (c0 + j)%nat).

(** 615-628: reshape to (res ny, nx, res), exchange the first two axes, reshape to (ny, nx, res^2), sum the last axis, transpose,
    flatten; [flat k]: the window in row-major order. *)
Definition sum_down (dim res : nat) (a : arr2 cx) : result (list cx) :=
  if (res =? 0)%nat then Err ZeroDivision else
  let nx := (rows a / res)%nat in let ny := (cols a / res)%nat in
  if negb (rows a * cols a =? res * ny * nx * res)%nat then Err ValueError else
  let flat k := at2 a (k / cols a)%nat (k mod cols a)%nat in
  let first r X s := flat (r * (nx * res) + X * res + s)%nat in
  let turned k := first ((k / res) mod (res * ny))%nat (k / (res * ny * res))%nat (k mod res)%nat in
  let summed i j := csum (res * res) (fun q => turned ((i * nx + j) * (res * res) + q)%nat) in
  if negb (nx * ny =? dim * dim)%nat then Err ValueError else
  Ok (map (fun k => summed (k mod ny)%nat (k / ny)%nat) (seq 0 (dim * dim))).

Section Baseline.
  (** filter_uv_uniform and rebin, which dirty_image_generate does not call here *)
  Variable uniform : arr2 cx -> result (arr2 cx * arr2 R).
  Variable rebin : arr2 R -> nat * nat -> result (arr2 R).

  (** dirty_image_generate with not_real and the defaults of its other arguments *)
  Definition options_here : options :=
    {| o_mask := None; o_threshold := Some 0; o_width := None; o_filter := None; o_resize := None; o_pad := None;
       o_degpix := None; o_not_real := true; o_beam := None; o_norm := None; o_optimal := false |}.
  (** 574-601: the phases of one visibility *)
  Definition offsets (p : kpsf) (c : coords) (mo : modes) (xmin ymin : nat) (bt fi : nat) : result (arr2 R) :=
    u <- get (c_uu c) bt ;; v <- get (c_vv c) bt ;; w <- get (c_ww c) bt ;; f <- get (c_freq c) fi ;;
    x <- get (c_x c) (xmin + k_dim p / 2) ;;
    y <- get (c_y c) (ymin + k_dim p / 2) ;;
    let du := amap (fun l => l * (u * f - x)) (m_l mo) in
    let dv := amap (fun m => m * (v * f - y)) (m_m mo) in
    let wn := amap (fun n => n * w * f) (m_n mo) in
    t <- azip (fun a b => - a + b) wn du ;;
    azip Rplus t dv.
  (** the body of the loop at 572 *)
  Definition kernel (p : kpsf) (c : coords) (mo : modes) (xmin ymin : nat) (pol : nat) (bot top : Z) (bt fi : nat) : result (list cx) :=
    t <- offsets p c mo xmin ymin bt fi ;;
    beam <- get (k_image p) pol ;;
    plane <- azip cmul beam (amap (fun a => cexp_i (2 * PI * a)) t) ;;
    ' (image, _, _) <- dirty_image_generate uniform rebin options_here plane ;;
    sum_down (k_dim p) (k_res p) (window image bot (top + 1)).
  (** 572-631; [vis]: bt_index and freq_i of every visibility *)
  Definition kernels (p : kpsf) (c : coords) (mo : modes) (xmin ymin : nat) (pol : nat) (bot top : Z) (vis : list (nat * nat)) : result (list (list cx)) :=
    map_res (fun v => kernel p c mo xmin ymin pol bot top (fst v) (snd v)) vis.
End Baseline.

(** 639-653. cos and sin of arctan2(im, re) are re/|z| and im/|z|, and 1 and 0 for z = 0. A row whose new sum is 0 becomes NaN
    in numpy: an error here. *)
Definition cabs (z : cx) : R := sqrt (fst z ^ 2 + snd z ^ 2).
Definition total (l : list cx) : cx := fold_right cadd (0, 0) l.
Definition direction (z : cx) : cx := if Req_EM_T (cabs z) 0 then (1, 0) else cscale (/ cabs z) z.
Definition cdiv (a b : cx) : result cx :=
  let m := fst b ^ 2 + snd b ^ 2 in if Req_EM_T m 0 then Err ZeroDivision else Ok (cscale (/ m) (cmul a (fst b, - snd b))).
Definition peak (box : list (list cx)) : R := fold_right Rmax 0 (map cabs (concat box)).
Definition lowered (t : R) (z : cx) : cx := cscale (Rmax (cabs z - t) 0) (direction z).
Definition clip_row (t : R) (row : list cx) : result (list cx) :=
  let low := map (lowered t) row in
  ratio <- cdiv (total row) (total low) ;;
  Ok (map (fun z => cmul z ratio) low).
Definition clip (threshold : R) (box : list (list cx)) : result (list (list cx)) :=
  let t := peak box / threshold in
  map_res (clip_row t) box.

(** 655-668: the sums are over the first axis, the visibilities. [sums]: beam_int, beam2_int, n_grp_use *)
Definition column {A} (d : A) (box : list (list A)) (k : nat) : list A := map (fun row => nth k row d) box.
Definition row_length (box : list (list cx)) : nat := match box with [] => 0%nat | r :: _ => List.length r end.
Definition add_at (l : list cx) (k : nat) (z : cx) : result (list cx) := a <- get l k ;; Ok (upd l k (cadd a z)).
Definition integrals (res : nat) (box : list (list cx)) (freq_i : list nat) (sums : list cx * list cx * list nat) : result (list cx * list cx * list nat) :=
  let per r := / (INR res * INR res) * r in
  fold_res (fun s iv =>
      let '(b1, b2, n) := s in
      let '(ii, f) := iv in
      if (ii <? row_length box)%nat then
        b1 <- add_at b1 f (cscale (per 1) (total (column (0, 0) box ii))) ;;
        b2 <- add_at b2 f (cscale (per 1) (total (map (fun z => (cabs z ^ 2, 0)) (column (0, 0) box ii)))) ;;
        k <- get n f ;; Ok (b1, b2, upd n f (S k))
      else Err IndexError)
    (combine (seq 0 (List.length freq_i)) freq_i) sums.

Definition grid_beam_per_baseline (uniform : arr2 cx -> result (arr2 cx * arr2 R)) (rebin : arr2 R -> nat * nat -> result (arr2 R))
    (clip_floor : bool) (p : kpsf) (c : coords) (mo : modes) (xmin ymin pol : nat) (bot top : Z) (vis : list (nat * nat))
    (sums : option (list cx * list cx * list nat)) : result (list (list cx) * option (list cx * list cx * list nat)) :=
  box <- kernels uniform rebin p c mo xmin ymin pol bot top vis ;;
  box <- (if clip_floor then clip (k_threshold p) box else Ok box) ;;
  match sums with
  | None => Ok (box, None)
  | Some s => s <- integrals (k_res p) box (map snd vis) s ;; Ok (box, Some s)
  end.

(** ** visibility_grid.py:174-196, 206-212. A baseline with vv > 0 is used from its other end. *)
Definition intermediate (res : nat) : nat := Nat.min (Z.to_nat (ceil (sqrt (INR res) / 2) * 2)) res.
Definition window_bounds (dim res image_dim : nat) : Z * Z :=
  let half_dim := (natQ dim / 2)%Q in let half_image := (natQ image_dim / 2)%Q in let ir := natQ (intermediate res) in
  (py_int (- half_dim * ir + half_image)%Q, py_int (natQ dim * natQ res - 1 - half_dim * ir + half_image)%Q).
Definition grid_axis (dimension : nat) (kpix : R) : list R := map (fun k => (INR k - half dimension) * kpix) (seq 0 dimension).
Definition flip (vv r : R) : R := if Rlt_dec 0 vv then - r else r.
Definition grid_coords (dimension : nat) (kpix : R) (uu vv ww freq : list R) (bi : list nat) : result coords :=
  u <- map_res (get uu) bi ;; v <- map_res (get vv) bi ;; w <- map_res (get ww) bi ;;
  let turn l := map (fun vr => flip (fst vr) (snd vr)) (combine v l) in
  Ok {| c_uu := turn u; c_vv := turn v; c_ww := turn w; c_freq := freq; c_x := grid_axis dimension kpix; c_y := grid_axis dimension kpix |}.
(** 195-196: n_tracked is set to zero *)
Definition grid_modes (l m n : arr2 R) : modes := {| m_l := l; m_m := m; m_n := amap (fun _ => 0) n |}.
