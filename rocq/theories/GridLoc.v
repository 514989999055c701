(** Model of conjugate_mirror, interpolate_kernel, baseline_grid_locations and
    visibility_count, PyFHD/gridding/gridding_utils.py. Coordinates, frequencies and
    weights are exact rationals. *)
From Verif Require Import Base Cplx NpArr PyIndex Histogram ArrayMatch.
Open Scope nat_scope.

(** gridding_utils.py:57-81 [conjugate_mirror] on a complex array (78-80 conjugate).
    [np.flip]: both axes reversed; [np.roll(., 1, axis=(1, 0))]: element i moves to i+1,
    the last to 0. *)
Definition np_flip2 {A} (a : arr2 A) : arr2 A :=
  Arr2 (rows a) (cols a) (fun i j => at2 a (rows a - 1 - i) (cols a - 1 - j)).
Definition np_roll2 {A} (a : arr2 A) : arr2 A :=
  Arr2 (rows a) (cols a) (fun i j => at2 a ((i + (rows a - 1)) mod rows a) ((j + (cols a - 1)) mod cols a)).
Definition conjugate_mirror (image : arr2 C) : arr2 C := amap Cconj (np_roll2 (np_flip2 image)).
(** the same on a real array: no conjugation *)
Definition mirror_real {A} (image : arr2 A) : arr2 A := np_roll2 (np_flip2 image).

(** gridding_utils.py:12-54 [interpolate_kernel]; [kernel_arr y x] is a flattened
    psf_dim x psf_dim kernel. Scalar weights times arrays. *)
Definition vscale (w : Qc) (v : list C) : list C := map (Cscale w) v.
Definition vadd (a b : list C) : list C := map (fun p => Cadd (fst p) (snd p)) (combine a b).
Definition interpolate_kernel (kernel_arr : nat -> nat -> list C) (x_offset y_offset : nat)
  (dx0dy0 dx1dy0 dx0dy1 dx1dy1 : Qc) : list C :=
  let kernel := vscale dx0dy0 (kernel_arr y_offset x_offset) in
  let kernel := vadd kernel (vscale dx1dy0 (kernel_arr y_offset (x_offset + 1))) in
  let kernel := vadd kernel (vscale dx0dy1 (kernel_arr (y_offset + 1) x_offset)) in
  vadd kernel (vscale dx1dy1 (kernel_arr (y_offset + 1) (x_offset + 1))).

(** The entries of obs, psf and params that are read, and vis_weights (n_freq x n_vis). *)
Record loc_input := {
  g_n_tile : nat; g_n_freq : nat;
  g_dimension : Z; g_elements : Z;
  g_kpix : Q; g_min_baseline : Q; g_max_baseline : Q;
  g_freq : list Q; g_freq_use : list bool; g_tile_a : list Z; g_tile_b : list Z;
  g_psf_dim : Z; g_psf_resolution : Z;
  g_uu : list Q; g_vv : list Q;
  g_weights : arr2 Q }.

Definition Qltb (a b : Q) : bool := negb (Qle_bool b a).

(** c * sqrt(s) < m decided without square roots, for s >= 0. *)
Definition scaled_sqrt_lt (c s m : Q) : bool :=
  if Qle_bool 0 c then Qltb 0 m && Qltb (c * c * s) (m * m)
  else Qltb 0 m || Qltb (m * m) (c * c * s).

Record locs := {
  l_xmin : arr2 Z; l_ymin : arr2 Z;
  l_x_offset : arr2 Z; l_y_offset : arr2 Z;
  (** dx0dy0, dx0dy1, dx1dy0, dx1dy1; None without interp_flag *)
  l_deriv : option (arr2 Q * arr2 Q * arr2 Q * arr2 Q);
  (** bin_n, bin_i, ri; None stands for the scalars 0, -1, 0 of lines 262-266
      (n_bin_use 0) *)
  l_bins : option (list nat * list nat * list nat);
  (** bi_use when it was chosen here (283-284) *)
  l_bi_use : option (list Z) }.

Definition l_n_bin_use (l : locs) : nat :=
  match l_bins l with Some (_, bin_i, _) => length bin_i | None => 0 end.

(** lines 161-176: the default bi_use. [np.sum(np.maximum(vis_weights, 0), axis=0)] and
    [np.nonzero], or array_match when models are filled. (array_match returning the scalar
    -1, i.e. no baseline with a tile in 1..n_tile, is reported as TypeError; NumPy then
    either fails on the scalar or uses the last baseline.) *)
Definition column_weight (w : arr2 Q) (j : nat) : Q :=
  fold_right (fun i s => (Qmax2 (at2 w i j) 0 + s)%Q) 0%Q (seq 0 (rows w)).
Definition default_bi_use (g : loc_input) (fill_model : bool) : result (list Z) :=
  if fill_model then
    r <- array_match (g_tile_a g) (Some (map (fun k => Z.of_nat k + 1)%Z (seq 0 (g_n_tile g))))
                     (Some (g_tile_b g)) ;;
    match r with MinusOne => Err TypeError | Indices l => Ok (map Z.of_nat l) end
  else Ok (nonzero_b (map (fun j => negb (Qeq_bool (column_weight (g_weights g) j) 0))
                          (seq 0 (cols (g_weights g))))).

(** lines 143-148 *)
Definition choose_fi_use (g : loc_input) (fill_model : bool) (fi_use : option (list Z)) : list Z :=
  if fill_model then map Z.of_nat (seq 0 (g_n_freq g))
  else match fi_use with Some l => l | None => nonzero_b (g_freq_use g) end.

(** fractional position inside the pixel, scaled to the resolution (213-226) *)
Definition frac (x : Q) : Q := (x - inject_Z (Qfloor x))%Q.
Definition pix_offset (res : Z) (x : Q) : Z := (Qfloor (frac x * inject_Z res) mod res)%Z.
Definition pix_deriv (res : Z) (x : Q) : Q :=
  (frac x * inject_Z res - inject_Z (Qfloor (frac x * inject_Z res)))%Q.
(** lines 233-234: [(np.floor(c) + size / 2 - (psf_dim / 2 - 1)).astype(np.int64)] *)
Definition min_pixel (size psf_dim : Z) (c : Q) : Z :=
  Qtrunc (inject_Z (Qfloor c) + inject_Z size / 2 - (inject_Z psf_dim / 2 - 1))%Q.
(** lines 237-238: outside of the uv plane *)
Definition out_of_range (size psf_dim m : Z) : bool :=
  (m <=? 0)%Z || (size - 1 <=? m + psf_dim - 1)%Z.

Definition zmax (a : arr2 Z) : Z := fold_right Z.max (flat_at a 0) (flatten a).

(** gridding_utils.py:84-294. *)
Definition baseline_grid_locations (g : loc_input) (bi_use fi_use : option (list Z))
  (fill_model interp_flag mask_mirror : bool) : result locs :=
  let fi := choose_fi_use g fill_model fi_use in
  frequency_array <- take 0%Q (g_freq g) fi ;;
  bi <- match bi_use with Some l => Ok l | None => default_bi_use g fill_model end ;;
  vis_weights_use <- take2 (g_weights g) fi bi ;;
  u <- take 0%Q (g_uu g) bi ;;
  v <- take 0%Q (g_vv g) bi ;;
  let k := g_kpix g in
  let kx0 := map (fun x => x / k)%Q u in
  let ky0 := map (fun x => x / k)%Q v in
  (* 188-198: flags on the extent in the full frequency range *)
  flag_dist <-
    (if fill_model then Ok (map (fun _ => false) bi)
     else fmax <- np_max (g_freq g) ;; fmin <- np_min (g_freq g) ;;
          Ok (map (fun p : Q * Q => let s := (fst p * fst p + snd p * snd p)%Q in
                     scaled_sqrt_lt (fmin * k) s (g_min_baseline g)
                     || scaled_sqrt_lt (- (fmax * k)) s (- g_max_baseline g))
                  (combine kx0 ky0))) ;;
  (* 201-204 *)
  let conj := map (fun y => Qltb 0 y) ky0 in
  let negate := fun l : list Q => map (fun p : bool * Q => if fst p then (- snd p)%Q else snd p) (combine conj l) in
  let kx := negate kx0 in
  let ky := negate ky0 in
  let nf := length fi in let nb := length bi in
  let xcen := Arr2 nf nb (fun i j => nth i frequency_array 0 * nth j kx 0)%Q in
  let ycen := Arr2 nf nb (fun i j => nth i frequency_array 0 * nth j ky 0)%Q in
  let res := g_psf_resolution g in
  let x_offset := amap (pix_offset res) xcen in
  let y_offset := amap (pix_offset res) ycen in
  let dx := amap (pix_deriv res) xcen in
  let dy := amap (pix_deriv res) ycen in
  let w := fun f : Q -> Q -> Q => Arr2 nf nb (fun i j => f (at2 dx i j) (at2 dy i j)) in
  let deriv := if interp_flag
    then Some (w (fun x y => (1 - x) * (1 - y)), w (fun x y => (1 - x) * y),
               w (fun x y => x * (1 - y)), w (fun x y => x * y))%Q
    else None in
  let p := g_psf_dim g in
  let xmin := amap (min_pixel (g_elements g) p) xcen in
  let ymin := amap (min_pixel (g_dimension g) p) ycen in
  let range_x := fun i j => out_of_range (g_elements g) p (at2 xmin i j) in
  let range_y := fun i j => out_of_range (g_dimension g) p (at2 ymin i j) in
  let xmin := mask_set range_x (-1)%Z xmin in
  let ymin := mask_set range_x (-1)%Z ymin in
  let xmin := mask_set range_y (-1)%Z xmin in
  let ymin := mask_set range_y (-1)%Z ymin in
  let dist := fun (_ j : nat) => nth j flag_dist false in
  let xmin := mask_set dist (-1)%Z xmin in
  let ymin := mask_set dist (-1)%Z ymin in
  let flagged := fun i j => if fill_model then false else Qle_bool (at2 vis_weights_use i j) 0 in
  let xmin := mask_set flagged (-1)%Z xmin in
  let ymin := mask_set flagged (-1)%Z ymin in
  let mirrored := fun (_ j : nat) => if mask_mirror then nth j conj false else false in
  let xmin := mask_set mirrored (-1)%Z xmin in
  let ymin := mask_set mirrored (-1)%Z ymin in
  bins <-
    (if (nf * nb =? 0) || (Z.max (zmax xmin) (zmax ymin) <? 0)%Z then Ok None
     else
       let for_hist := map (fun q => at2 xmin (q / nb) (q mod nb) + at2 ymin (q / nb) (q mod nb) * g_dimension g)%Z
                           (seq 0 (nf * nb)) in
       '(bin_n, _, ri) <- histogram (injs for_hist) 1 None (Some 0%Q) None ;;
       let bin_i := where_ (fun c => negb (c =? 0)) bin_n in
       Ok (Some (bin_n, bin_i, ri))) ;;
  Ok {| l_xmin := xmin; l_ymin := ymin; l_x_offset := x_offset; l_y_offset := y_offset;
        l_deriv := deriv; l_bins := bins;
        l_bi_use := match bi_use with None => Some bi | Some _ => None end |}.

(** [plane[y0:y0+p, x0:x0+p] += c]; slices are clipped at the edge of the plane. The
    starts are never negative for a binned visibility. *)
Definition covers (y0 x0 : Z) (p : Z) (i j : nat) : bool :=
  (y0 <=? Z.of_nat i)%Z && (Z.of_nat i <? y0 + p)%Z && (x0 <=? Z.of_nat j)%Z && (Z.of_nat j <? x0 + p)%Z.
Definition add_const (y0 x0 p : Z) (c : Qc) (a : arr2 Qc) : arr2 Qc :=
  Arr2 (rows a) (cols a) (fun i j => if covers y0 x0 p i j then (at2 a i j + c)%Qc else at2 a i j).
Definition zeros (n m : nat) : arr2 Qc := Arr2 n m (fun _ _ => 0%Qc).
Definition qc_nat (n : nat) : Qc := Q2Qc (inject_Z (Z.of_nat n)).

(** gridding_utils.py:756-772: the loop over the bins. *)
Definition count_loop (l : locs) (p : Z) (a : arr2 Qc) : arr2 Qc :=
  match l_bins l with
  | None => a
  | Some (bin_n, bin_i, ri) =>
      fold_left (fun a b =>
        let idx := nth (nth b ri 0) ri 0 in
        add_const (flat_at (l_ymin l) idx) (flat_at (l_xmin l) idx) p (qc_nat (nth b bin_n 0)) a)
        bin_i a
  end.

(** gridding_utils.py:691-780 [visibility_count]. *)
Definition visibility_count (g : loc_input) (fi_use bi_use : option (list Z))
  (mask_mirror no_conjugate fill_model : bool) : result (arr2 Qc) :=
  l <- baseline_grid_locations g bi_use fi_use fill_model false mask_mirror ;;
  let a := count_loop l (g_psf_dim g) (zeros (Z.to_nat (g_elements g)) (Z.to_nat (g_dimension g))) in
  Ok (if no_conjugate then a
      else let m := mirror_real a in
           Arr2 (rows a) (cols a) (fun i j => ((at2 a i j + at2 m i j) / qc_nat 2)%Qc)).
