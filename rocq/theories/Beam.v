(** Model of gaussian_decomp and beam_image (PyFHD/beam_setup/beam_utils.py) and of beam_image_cube
    (PyFHD/healpix/healpix_utils.py:300-383), over the real numbers.  Simplified: an array that numpy fills with NaN after a
    division by 0 is [Err ZeroDivision]; group, bin and channel numbers are not negative; logging is left out. *)
From Coq Require Import String Reals.
From Verif Require Import Base NpArr PyIndex SortLib Histogram RegionGrow Sky DirtyImage ObsFull Quickview.
Import ListNotations.
Open Scope R_scope.

(** ** gaussian_decomp, beam_utils.py:7-82 *)
Record lobe := Lobe { l_amp : R; l_ox : R; l_sx : R; l_oy : R; l_sy : R }.
(** 19-24: np.reshape(p, [p.size // 5, 5]) and its columns *)
Fixpoint lobes (p : list R) : result (list lobe) :=
  match p with
  | [] => Ok []
  | a :: b :: c :: d :: e :: r => l <- lobes r ;; Ok (Lobe a b c d e :: l)
  | _ => Err ValueError
  end.
Definition row (l : lobe) : list R := [l_amp l; l_ox l; l_sx l; l_oy l; l_sy l].
(** 29-37: both offsets by the number of x *)
Definition move (nx : nat) (npix : option R) (l : lobe) : lobe :=
  match npix with
  | None => l
  | Some m =>
    if Rlt_dec m (INR nx)
    then let d := Rabs (INR nx / 2 - m / 2) in Lobe (l_amp l) (l_ox l + d) (l_sx l) (l_oy l + d) (l_sy l)
    else let d := Rabs (m / 2 - INR nx / 2) in Lobe (l_amp l) (l_ox l - d) (l_sx l) (l_oy l - d) (l_sy l)
  end.
(** 39-41, in place *)
Definition widen (res : option R) (l : lobe) : lobe :=
  match res with None => l | Some r => Lobe (l_amp l) (l_ox l) (l_sx l * r) (l_oy l) (l_sy l * r) end.
(** 42-43, new arrays *)
Definition spread (nx ny : nat) (res : option R) (l : lobe) : lobe :=
  match res with
  | None => l
  | Some r => Lobe (l_amp l) ((l_ox l - INR nx / 2) * r + INR nx / 2) (l_sx l) ((l_oy l - INR ny / 2) * r + INR ny / 2) (l_sy l)
  end.
Definition gauss (t offset sigma : R) : R := exp (- (t - offset) ^ 2 / (2 * sigma ^ 2)).
(** 45-52. The image and what the caller's parameters are afterwards (they are changed through views). [decomp_beam] has a row
    for every x, the outer product for every y. A sigma of 0 is not represented. *)
Definition gaussian_decomp (xs ys : list R) (p : list R) (npix res : option R) : result (arr2 R * list R) :=
  l <- lobes p ;;
  let nx := List.length xs in let ny := List.length ys in
  let stored := map (fun x => widen res (move nx npix x)) l in
  let used := map (spread nx ny res) stored in
  if (match used with [] => true | _ => axis_ok nx ny && axis_ok ny nx end)
  then Ok (Arr2 nx ny (fun i j =>
             fold_left (fun s x => s + l_amp x * (gauss (nth (bidx ny i) ys 0) (l_oy x) (l_sy x) * gauss (nth (bidx nx j) xs 0) (l_ox x) (l_sx x))) used 0),
           List.concat (map row stored))
  else Err ValueError.
(** 53-80, ftransform=True: no loop, so that the arrays of parameters are broadcast against the columns. Only the transform is
    represented, not the two volumes. *)
Definition gaussian_transform (xs ys : list R) (p : list R) (npix res : option R) : result (arr2 cx) :=
  l <- lobes p ;;
  let nx := List.length xs in let ny := List.length ys in
  let used := map (fun x => spread nx ny res (widen res (move nx npix x))) l in
  let n := List.length used in
  if axis_ok ny n
  then Ok (Arr2 nx ny (fun i j =>
    let x := nth (bidx n j) used (Lobe 0 0 0 0 0) in
    let kx := INR i - INR nx / 2 in let ky := INR j - INR ny / 2 in
    let a := l_amp x ^ 2 * PI / (INR nx * INR ny) * l_sx x * l_sy x in
    let g := exp (2 * PI ^ 2 / (INR nx * INR ny) * l_sx x ^ 2 * kx ^ 2 + l_sy x ^ 2 * ky ^ 2) in
    let t := 2 * PI / INR nx * ((l_ox x - INR nx / 2) * kx + (l_oy x - INR ny / 2) * ky) in
    cscale (a * g) (cexp_i (- t))))
  else Err ValueError.

(** ** beam_image, beam_utils.py:85-245 *)
Record psf := {
  p_dim : nat; p_fnorm : list R; p_horizon : R;
  p_id : nat -> result (list nat);                        (* id[pol, 0, :] *)
  p_gauss : option (nat -> nat -> result (list R));       (* beam_gaussian_params[pol, fbin, :] *)
  p_table : nat -> result (list cx) }.                    (* beam_ptr[0, fbin, 0, 0] *)
Record bobs := {
  b_npol : nat; b_nfreq : nat; b_dim : nat; b_elem : nat; b_kpix : R; b_obsx : Q; b_obsy : Q;
  b_freq : list Q; b_fbin : list nat; b_use : list bool }.
(** An image of dimension x dimension pixels, as index function. *)
Definition img := nat -> nat -> R.

(** 133-136: the numbers of baselines of the groups that have any *)
Definition group_sizes (ids : list nat) : result (list nat) :=
  h <- histogram (floats ids) 1 None (Some 0%Q) None ;;
  let '(hist, _, _) := h in Ok (filter (fun n => negb (n =? 0)%nat) hist).
(** 171-187 and 222-234, the loop over the groups: [gi_use] is a tuple of one array, so that [gi_use[0]] stands for all groups
    and [gi_use[1]] does not exist *)
Definition add_groups (n : nat) (sizes : list nat) (g : img) (s : img) : result img :=
  fold_res (fun (s : img) gi =>
    if (gi =? 0)%nat then
      if axis_ok n (List.length sizes) then Ok (fun i j => s i j + g i j * INR (nth (bidx (List.length sizes) j) sizes 0%nat)) else Err ValueError
    else Err IndexError) (seq 0 (List.length sizes)) s.
Definition single_beam (n : nat) (sizes : list nat) (g : img) (s : img) : result img :=
  s <- add_groups n sizes g s ;;
  if (sum_nat sizes =? 0)%nat then Err ZeroDivision else Ok (fun i j => s i j / INR (sum_nat sizes)).
(** 139-147 *)
Definition grid_of (p : psf) (o : bobs) : result (R * R) :=
  if Req_EM_T (p_horizon p) 0 then Err ZeroDivision else if Req_EM_T (b_kpix o) 0 then Err ZeroDivision else
  Ok (p_horizon p * (13 / 10), 2 * b_kpix o * INR (b_dim o) / p_horizon p * (1 / 2 / b_kpix o)).
Definition arange (n : nat) : list R := map INR (seq 0 n).
Definition beam_of (params : nat -> nat -> result (list R)) (o : bobs) (grid : R * R) (pol fbin : nat) : result img :=
  v <- params pol fbin ;;
  ' (a, _) <- gaussian_decomp (arange (b_dim o)) (arange (b_dim o)) v (Some (fst grid)) (Some (snd grid)) ;;
  Ok (at2 a).
Definition lookup {A} (l : list A) (k : nat) : result A := match nth_error l k with Some a => Ok a | None => Err IndexError end.
Definition used_channels (o : bobs) : list nat := where_ (fun b : bool => b) (b_use o).
(** 242-243 *)
Definition normalise (o : bobs) (base : img) (n : R) : result (arr2 R) :=
  if Req_EM_T n 0 then Err ZeroDivision else Ok (Arr2 (b_dim o) (b_dim o) (fun i j => base i j / n)).
(** 156-202. [beam_single] is set to 0 once, before the loop over the bins. *)
Definition square_step (p : psf) (o : bobs) (sizes : list nat) (beam : nat -> result img) (bins : list nat)
    (st : img * img * R) (fbin : nat) : result (img * img * R) :=
  let '(single, base, n) := st in
  let nf := INR (count_occ Nat.eq_dec bins fbin) in
  g <- beam fbin ;;
  s <- single_beam (b_dim o) sizes g single ;;
  f <- lookup (p_fnorm p) fbin ;;
  Ok (s, (fun i j => base i j + nf * s i j ^ 2), n + nf * f).
Definition unique (l : list nat) : list nat := map Z.to_nat (np_unique (map Z.of_nat l)).
Definition zero : img := fun _ _ => 0.
(** 203-240 *)
Definition mean_step (p : psf) (o : bobs) (sizes : list nat) (beam : nat -> result img) (st : img * R) (fi : nat) : result (img * R) :=
  let '(base, n) := st in
  fbin <- lookup (b_fbin o) fi ;;
  g <- beam fbin ;;
  s <- single_beam (b_dim o) sizes g zero ;;
  f <- lookup (p_fnorm p) fbin ;;
  Ok ((fun i j => base i j + s i j), n + f).
(** Tabulated beams, 188-201 and 231-240: the limits of the slice are floats, a TypeError; the values of the tables do not
    matter before it. *)
Definition table_beam (p : psf) (sizes : list nat) (fbin : nat) : result unit :=
  t <- p_table p fbin ;;
  fold_res (fun _ gi =>
    if (gi =? 0)%nat then
      if (List.length sizes =? 1)%nat && (List.length t =? p_dim p * p_dim p)%nat then Ok tt else Err ValueError
    else Err IndexError) (seq 0 (List.length sizes)) tt.
(** A channel [freq_i] is a numpy integer, as in the only call with one: it has the size 1 but no entries. *)
Definition beam_image (p : psf) (o : bobs) (pol : nat) (freq_i : option nat) (square : bool) : result (arr2 R) :=
  ids <- p_id p pol ;;
  sizes <- group_sizes ids ;;
  let channels := match freq_i with Some f => [f] | None => used_channels o end in
  match p_gauss p with
  | Some params =>
    grid <- grid_of p o ;;
    let beam := beam_of params o grid pol in
    if square then
      bins <- map_res (lookup (b_fbin o)) channels ;;
      ' (_, base, n) <- fold_res (square_step p o sizes beam bins) (unique bins) (zero, zero, 0) ;;
      normalise o base n
    else
      match freq_i with
      | Some _ => Err IndexError
      | None => ' (base, n) <- fold_res (mean_step p o sizes beam) channels (zero, 0) ;; normalise o base n
      end
  | None =>
    if square then
      bins <- map_res (lookup (b_fbin o)) channels ;;
      match unique bins with [] => Err ZeroDivision | b :: _ => _ <- table_beam p sizes b ;; Err TypeError end
    else
      match freq_i with
      | Some _ => Err IndexError
      | None =>
        _ <- map_res (fun fi => fbin <- lookup (b_fbin o) fi ;; _ <- table_beam p sizes fbin ;; lookup (p_fnorm p) fbin) channels ;;
        Err TypeError
      end
  end.

(** ** beam_image_cube, healpix_utils.py:300-383 *)
(** 344-353 *)
Definition cube_channels (o : bobs) (n_freq_bin : option nat) (freq_i_arr : option (list nat)) : result (list nat) :=
  match n_freq_bin with
  | Some n =>
    if (n =? 0)%nat then Err ZeroDivision
    else Ok (map (fun k => Z.to_nat (Qfloor (natQ k * (natQ (b_nfreq o) / natQ n)))) (seq 0 n))
  | None => match freq_i_arr with Some l => Ok l | None => Err SystemExit end
  end.
Fixpoint set_range {A} (l : list A) (first last : nat) (x : A) : list A :=
  match l with
  | [] => []
  | a :: r => match first, last with
              | O, O => x :: r
              | O, S last => x :: set_range r 0 last x
              | S first, S last => a :: set_range r first last x
              | S _, O => l
              end
  end.
Section Cube.
  (** region_grow (RegionGrow.v) from a pixel over the values from [low] to the maximum: the flat indices, or None *)
  Variable grow : arr2 R -> Z -> R -> result (option (list nat)).

  (** [a.flat[None]] is an IndexError *)
  Definition mask_of (o : bobs) (pixels : option (list nat)) : result (nat -> nat -> R) :=
    match pixels with
    | None => Err IndexError
    | Some l =>
      if forallb (fun k => k <? b_dim o * b_elem o)%nat l
      then Ok (fun i j => if existsb (Nat.eqb (i * b_elem o + j)) l then 1 else 0) else Err IndexError
    end.
  Definition cube_step (p : psf) (o : bobs) (channels ri : list nat) (square : bool) (threshold : R) (pol : nat)
      (st : list (arr2 R) * img) (bin : nat) : result (list (arr2 R) * img) :=
    let '(planes, mask) := st in
    let idx := slice ri (nth bin ri 0%nat) (nth (S bin) ri 0%nat) in
    match idx with
    | [] => Err IndexError
    | first :: _ =>
      let last := List.last idx 0%nat in
      f <- lookup channels first ;;
      b <- beam_image p o pol (Some f) square ;;
      pl <- assign (b_dim o) (b_elem o) b ;;
      px <- grow b (py_int (b_obsx o + b_obsy o * natQ (b_dim o))) (threshold ^ (if square then 2 else 1)) ;;
      m <- mask_of o px ;;
      Ok (set_range planes first last pl, (fun i j => mask i j * m i j))
    end.
  (** The polarisations asked for are not used. [np.interp] gives floats, which are no indices. The early return for no bins (no
      mask) cannot happen: the histogram of no channels fails. *)
  Definition beam_image_cube (p : psf) (o : bobs) (freq_i_arr : option (list nat)) (pols : option (list nat)) (n_freq_bin : option nat)
      (square : bool) (threshold : option R) : result (list (list (arr2 R)) * arr2 R) :=
    channels <- cube_channels o n_freq_bin freq_i_arr ;;
    if negb (Qle_bool (median (map natQ channels)) (natQ (b_nfreq o))) then
      (if (List.length (b_freq o) =? List.length channels)%nat then Err IndexError else Err ValueError)
    else
      bins <- map_res (lookup (b_fbin o)) channels ;;
      h <- histogram (floats bins) 1 None (Some 0%Q) None ;;
      let '(hist, _, ri) := h in
      let bin_use := where_ (fun n => negb (n =? 0)%nat) hist in
      let t := match threshold with Some t => t | None => 5 / 100 end in
      ' (cubes, mask) <- fold_res (fun (st : list (list (arr2 R)) * img) pol =>
          ' (planes, mask) <- fold_res (cube_step p o channels ri square t pol) bin_use
               (repeat (Arr2 (b_dim o) (b_elem o) (fun _ _ => 0)) (List.length channels), snd st) ;;
          Ok (fst st ++ [planes], mask)) (seq 0 (b_npol o)) ([], fun _ _ => 1) ;;
      Ok (cubes, Arr2 (b_dim o) (b_elem o) mask).
End Cube.
