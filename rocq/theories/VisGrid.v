(** Model of visibility_grid, PyFHD/gridding/visibility_grid.py:14-573, for one
    polarization. Complex values have exact rational parts. *)
From Verif Require Import Base SortLib Cplx NpArr PyIndex Histogram ArrayMatch Utils1 WeightInvert GridLoc.
Open Scope nat_scope.

(** Options of pyfhd_config read by visibility_grid. *)
Record grid_cfg := {
  c_interp : bool;        (* interpolate_kernel *)
  c_per_baseline : bool;  (* beam_per_baseline *)
  c_spectral : bool; c_weights : bool; c_variance : bool; c_uniform : bool;
  c_mask_mirror : bool }.

(** Inputs: the obs/params/weights part shared with baseline_grid_locations, the beam and
    the visibilities. [gi_beam fbin y x] is the flattened psf_dim x psf_dim kernel
    psf["beam_ptr"][polarization, fbin][y, x]. [gi_beam_pb freq_i bt_index xmin ymin] stands
    for the rows computed by grid_beam_per_baseline (Fourier transforms, not modelled). *)
Record grid_input := {
  gi_loc : loc_input;
  gi_fbin : list nat;                (* obs["baseline_info"]["fbin_i"] *)
  gi_group : nat -> nat -> Z;        (* psf["id"][polarization, fbin, baseline] *)
  gi_group_cols : nat;               (* psf["id"].shape[-1] *)
  gi_n_baselines : nat; gi_n_time : nat;
  gi_beam : nat -> nat -> nat -> list C;
  gi_beam_pb : list nat -> list nat -> Z -> Z -> list (list C);
  gi_vis : arr2 C;
  gi_model : option (arr2 C);
  gi_nf_vis : list nat }.            (* obs["nf_vis"] *)

(** [l.argsort(kind="stable")] *)
Definition argsort (l : list Z) : list nat :=
  isort (fun i j => (nth i l 0 <=? nth j l 0)%Z) (seq 0 (length l)).

Definition nths {A} (d : A) (l : list A) (idx : list nat) : list A := map (fun i => nth i l d) idx.

(** lines 166-174: [group_arr.flat[k]]. The (n_f_use, n_bl) table is repeated n_samples
    times along a new first axis and the result reshaped to (n_f_use, n_samples * n_bl);
    the flat order is unchanged by the reshape. *)
Definition group_at (gi : grid_input) (fbin : list nat) (k : nat) : result Z :=
  let nbl := Nat.min (gi_n_baselines gi) (gi_group_cols gi) in
  let nf := length fbin in
  if k <? nf * (gi_n_time gi * nbl)
  then Ok (gi_group gi (nth ((k / nbl) mod nf) fbin 0) (k mod nbl))
  else Err IndexError.

(** What a bin contributes: one kernel, visibility sum, model sum, weight and channel
    index per row of box_matrix. *)
Record box := {
  b_rows : list (list C); b_vis : list C; b_model : list C; b_wt : list nat; b_freq : list nat }.

(** lines 309-316: xyf_i *)
Definition table_keys (res : Z) (x_off y_off : list Z) (fbin : list nat) (group_id : list Z) : list Z :=
  let group_max := (fold_right Z.max (hd 0%Z group_id) group_id + 1)%Z in
  map (fun k => (nth k x_off 0 + nth k y_off 0 * res + Z.of_nat (nth k fbin 0%nat) * res ^ 2) * group_max
                + nth k group_id 0)%Z (seq 0 (length x_off)).

(** lines 330-361: sums over runs of equal keys. [ui]: last position of each run,
    [ui0]: first one. Entries with a single visibility keep it, the others get the sum. *)
Definition run_starts (ui : list nat) : list nat := 0 :: map S (removelast ui).
Definition group_sums (ui0 ui wt : list nat) (v1 : list C) : list C :=
  let repeat_i := if length ui0 =? 1 then [0] else where_ (fun w => 1 <? w) wt in
  fold_left (fun vb r => upd vb r (Csum (slice v1 (nth r ui0 0) (nth r ui 0 + 1))))
            repeat_i (nths C0 v1 ui).

(** lines 250-412: the rows of one bin. [vis], [model]: the (conjugated) selected
    visibilities; numpy's 1.1 * n_xyf_bin is taken exactly. *)
Definition bin_box (cfg : grid_cfg) (gi : grid_input) (l : locs) (fbin_use : list nat)
  (vis model : arr2 C) (inds : list nat) : result box :=
  let g := gi_loc gi in
  let nf := length fbin_use in
  let res := g_psf_resolution g in
  let x_off := map (flat_at (l_x_offset l)) inds in
  let y_off := map (flat_at (l_y_offset l)) inds in
  let freq_i := map (fun k => k mod nf) inds in
  let fbin := nths 0 fbin_use freq_i in
  let vis_n := length inds in
  if c_interp cfg then
    match l_deriv l with
    | None => Err KeyError
    | Some (d00, d01, d10, d11) =>
        let w := fun a k => Q2Qc (flat_at a (nth k inds 0)) in
        Ok {| b_rows := map (fun k => interpolate_kernel (gi_beam gi (nth k fbin 0))
                               (Z.to_nat (nth k x_off 0%Z)) (Z.to_nat (nth k y_off 0%Z))
                               (w d00 k) (w d10 k) (w d01 k) (w d11 k)) (seq 0 vis_n);
              b_vis := map (flat_at vis) inds; b_model := map (flat_at model) inds;
              b_wt := repeat 1 vis_n; b_freq := freq_i |}
    end
  else
    group_id <- map_res (group_at gi fbin_use) inds ;;
    let xyf_i := table_keys res x_off y_off fbin group_id in
    let si := argsort xyf_i in
    let ui := idl_argunique (np_sort xyf_i) in
    let table := fun (xo yo : list Z) (fb : list nat) =>
      map (fun k => gi_beam gi (nth k fb 0) (Z.to_nat (nth k yo 0%Z)) (Z.to_nat (nth k xo 0%Z)))
          (seq 0 (length fb)) in
    if (11 * length ui <? 10 * vis_n) && negb (c_per_baseline cfg) then
      let inds' := nths 0 inds si in
      let inds_use := nths 0 si ui in
      let ui0 := run_starts ui in
      let wt := map (fun p => fst p - snd p + 1) (combine ui ui0) in
      Ok {| b_rows := table (nths 0%Z x_off inds_use) (nths 0%Z y_off inds_use) (nths 0 fbin inds_use);
            b_vis := group_sums ui0 ui wt (map (flat_at vis) inds');
            b_model := group_sums ui0 ui wt (map (flat_at model) inds');
            b_wt := wt; b_freq := nths 0 freq_i inds_use |}
    else
      let bt_index := map (fun k => k / nf) inds in
      let ind0 := nth 0 inds 0 in
      Ok {| b_rows := if c_per_baseline cfg
                      then gi_beam_pb gi freq_i bt_index (flat_at (l_xmin l) ind0) (flat_at (l_ymin l) ind0)
                      else table x_off y_off fbin;
            b_vis := map (flat_at vis) inds; b_model := map (flat_at model) inds;
            b_wt := repeat 1 vis_n; b_freq := freq_i |}.

(** [np.dot(box_matrix_dag.T, vals)[q]] *)
Definition dag_dot (rws : list (list C)) (vals : list C) (q : nat) : C :=
  Csum (map (fun p : list C * C => Cmul (Cconj (nth q (fst p) C0)) (snd p)) (combine rws vals)).
(** [np.dot((abs(box_matrix_dag)**2).T, vals)[q]] *)
Definition abs2_dot (rws : list (list C)) (vals : list Qc) (q : nat) : Qc :=
  Qcsum (map (fun p : list C * Qc => Cnorm2 (nth q (fst p) C0) * snd p)%Qc (combine rws vals)).

(** [plane[y0:y0+p, x0:x0+p].flat += box] with box of p*p entries: shapes differ, hence
    ValueError, when the slice is clipped at the edge of the plane. *)
Definition add_box {A} (add : A -> A -> A) (y0 x0 p : Z) (bx : nat -> A) (a : arr2 A) : result (arr2 A) :=
  if (y0 + p <=? Z.of_nat (rows a))%Z && (x0 + p <=? Z.of_nat (cols a))%Z
  then Ok (Arr2 (rows a) (cols a) (fun i j =>
         if covers y0 x0 p i j
         then add (at2 a i j) (bx (Z.to_nat ((Z.of_nat i - y0) * p + (Z.of_nat j - x0))))
         else at2 a i j))
  else Err ValueError.

Record planes := {
  p_image : arr2 C; p_weights : arr2 C; p_variance : arr2 Qc; p_uniform : arr2 Qc;
  p_model : arr2 C; p_specA : arr2 C; p_specB : arr2 Qc; p_specD : arr2 Qc; p_specM : arr2 C }.

Definition when {A} (b : bool) (f : A -> result A) (a : A) : result A := if b then f a else Ok a.
Definition czeros (n m : nat) : arr2 C := Arr2 n m (fun _ _ => C0).

(** lines 236-514: one iteration of the loop over the bins. *)
Definition grid_bin (cfg : grid_cfg) (gi : grid_input) (uniform_flag : bool) (l : locs)
  (fbin_use : list nat) (vis model : arr2 C) (n_vis : nat) (bin_n ri : list nat)
  (st : planes) (b : nat) : result planes :=
  let p := g_psf_dim (gi_loc gi) in
  let inds := slice ri (nth b ri 0) (nth (S b) ri 0) in
  let ind0 := nth 0 inds 0 in
  let xmin := flat_at (l_xmin l) ind0 in
  let ymin := flat_at (l_ymin l) ind0 in
  bx <- bin_box cfg gi l fbin_use vis model inds ;;
  if negb (forallb (fun r => Z.of_nat (length r) =? p ^ 2)%Z (b_rows bx)) then Err ValueError
  else
  let inv_n := (/ qc_nat n_vis)%Qc in
  let over_n := map (Cscale inv_n) in
  let fvals := map qc_nat (b_freq bx) in
  let times_f := fun vs : list C => map (fun q : Qc * C => Cscale (fst q) (snd q)) (combine fvals vs) in
  let real_over_n := map (fun x => (x * inv_n)%Qc) in
  let cadd := add_box Cadd ymin xmin p in
  let radd := add_box Qcplus ymin xmin p in
  let has_model := match gi_model gi with Some _ => true | None => false end in
  (* 418-452 *)
  sA <- when (c_spectral cfg) (cadd (dag_dot (b_rows bx) (over_n (times_f (b_vis bx))))) (p_specA st) ;;
  sB <- when (c_spectral cfg) (radd (fun q => re (dag_dot (b_rows bx) (map RtoC (real_over_n fvals)) q))) (p_specB st) ;;
  sD <- when (c_spectral cfg) (radd (fun q => re (dag_dot (b_rows bx)
              (map RtoC (real_over_n (map (fun f => f * f)%Qc fvals))) q))) (p_specD st) ;;
  (* without .flat a (p, p) slice cannot take p*p values unless p = 1 *)
  sM <- when (c_spectral cfg && has_model)
          (fun a => if (p =? 1)%Z then cadd (dag_dot (b_rows bx) (over_n (times_f (b_model bx)))) a else Err ValueError)
          (p_specM st) ;;
  (* 454-466 *)
  mo <- when has_model (cadd (dag_dot (b_rows bx) (over_n (b_model bx)))) (p_model st) ;;
  (* 468-478 *)
  im <- cadd (dag_dot (b_rows bx) (over_n (b_vis bx))) (p_image st) ;;
  wt <- when (c_weights cfg) (cadd (dag_dot (b_rows bx) (map RtoC (real_over_n (map qc_nat (b_wt bx)))))) (p_weights st) ;;
  va <- when (c_variance cfg) (radd (abs2_dot (b_rows bx) (real_over_n (map qc_nat (b_wt bx))))) (p_variance st) ;;
  let un := if uniform_flag then add_const ymin xmin p (qc_nat (nth b bin_n 0)) (p_uniform st) else p_uniform st in
  Ok {| p_image := im; p_weights := wt; p_variance := va; p_uniform := un; p_model := mo;
        p_specA := sA; p_specB := sB; p_specD := sD; p_specM := sM |}.

(** weight_invert on an array of finite floats, entry by entry (WeightInvert.v). *)
Definition winvert (threshold : option Qc) (x : Qc) : Qc :=
  match invert_entry (option_map Fin threshold) false (NFloat (Fin x)) with
  | NFloat (Fin y) => y
  | _ => 0%Qc
  end.

(** lines 546-553: filter_use. (0/0 in the last case is NaN, which the weight_invert that
    follows turns into 0 like the 0 used here.) *)
Definition uniform_weights (u : arr2 Qc) : arr2 Qc :=
  let f := amap (winvert (Some 1%Qc)) u in
  let vals := flatten f in
  let nz := filter (fun x => negb (Qceqb x 0)) vals in
  let used := if 0 <? length nz then nz else vals in
  let mean := (Qcsum used / qc_nat (length used))%Qc in
  amap (fun x => (x / mean)%Qc) f.

Definition half : Qc := Q2Qc (1 # 2).
Definition quarter : Qc := Q2Qc (1 # 4).
Definition mirror_avg (a : arr2 C) : arr2 C :=
  let m := conjugate_mirror a in
  Arr2 (rows a) (cols a) (fun i j => Cscale half (at2 a i j + at2 m i j)%C).
Definition mirror_real_scaled (s : Qc) (a : arr2 Qc) : arr2 Qc :=
  let m := mirror_real a in
  Arr2 (rows a) (cols a) (fun i j => (s * (at2 a i j + at2 m i j))%Qc).
Definition czip (f : C -> Qc -> C) (a : arr2 C) (b : arr2 Qc) : arr2 C :=
  Arr2 (rows a) (cols a) (fun i j => f (at2 a i j) (at2 b i j)).

Record grid_out := {
  o_image : arr2 C; o_weights : arr2 C; o_variance : arr2 Qc; o_uniform : arr2 Qc;
  o_n_vis : nat; o_nf_vis : list nat;
  o_model : option (arr2 C); o_spectral : option (arr2 C); o_spectral_model : option (arr2 C) }.

(** lines 530-543: (A - n_vis * B * plane) * weight_invert(D - B**2) *)
Definition spectral_plane (n_vis : nat) (A : arr2 C) (B D : arr2 Qc) (plane : arr2 C) : arr2 C :=
  Arr2 (rows A) (cols A) (fun i j =>
    Cscale (winvert None (at2 D i j - at2 B i j * at2 B i j)%Qc)
           (at2 A i j - Cscale (qc_nat n_vis * at2 B i j)%Qc (at2 plane i j))%C).

(** lines 516-573: spectral index, uniform filter and mirroring of the accumulated planes. *)
Definition grid_finish (cfg : grid_cfg) (gi : grid_input) (uniform_flag no_conjugate : bool)
  (n_vis : nat) (nf_vis : list nat) (st : planes) : grid_out :=
  let avg := fun a => if no_conjugate then a else mirror_avg a in
  let spec := spectral_plane n_vis (p_specA st) (p_specB st) (p_specD st) (p_image st) in
  let specM := spectral_plane n_vis (p_specM st) (p_specB st) (p_specD st) (p_model st) in
  let w := uniform_weights (p_uniform st) in
  (* 545-563 *)
  let scale := fun a : arr2 C => if c_uniform cfg then czip (fun z x => Cscale (winvert None x) z) a w else a in
  let scale_r := fun a : arr2 Qc => if c_uniform cfg
                   then Arr2 (rows a) (cols a) (fun i j => (at2 a i j * winvert None (at2 w i j))%Qc) else a in
  {|
    o_image := avg (scale (p_image st));
    o_weights := if c_weights cfg then avg (scale (p_weights st)) else p_weights st;
    o_variance := if c_variance cfg
                  then (let v := scale_r (p_variance st) in
                        if no_conjugate then v else mirror_real_scaled quarter v)
                  else p_variance st;
    o_uniform := if uniform_flag && negb no_conjugate then mirror_real_scaled half (p_uniform st) else p_uniform st;
    o_n_vis := n_vis; o_nf_vis := nf_vis;
    o_model := match gi_model gi with Some _ => Some (avg (scale (p_model st))) | None => None end;
    o_spectral := if c_spectral cfg then Some (avg spec) else None;
    o_spectral_model := match gi_model gi with
                        | Some _ => if c_spectral cfg then Some (avg specM) else None | None => None end |}.

(** [a[mask] = conj] on whole columns, lines 203-212 *)
Definition conj_cols (vv : list Q) (a : arr2 C) : arr2 C :=
  Arr2 (rows a) (cols a) (fun i j => if Qltb 0 (nth j vv 0%Q) then Cconj (at2 a i j) else at2 a i j).

(** lines 218-220: obs["nf_vis"][fi_use[q]] = number of xmin[q] > 0 *)
Definition set_nf_vis (fi : list Z) (nb : nat) (l : locs) (nf_vis : list nat) : result (list nat) :=
  fold_res (fun acc q =>
      k <- norm_index (length acc) (nth q fi 0%Z) ;;
      Ok (upd acc k (length (filter (fun j => (0 <? at2 (l_xmin l) q j)%Z) (seq 0 nb)))))
    (seq 0 (length fi)) nf_vis.

(** visibility_grid.py:14-573. [None]: the empty dictionary (everything flagged). *)
Definition visibility_grid (cfg : grid_cfg) (gi : grid_input) (uniform_flag no_conjugate : bool)
  (fi_use bi_use : option (list Z)) : result (option grid_out) :=
  let g := gi_loc gi in
  let fi := choose_fi_use g false fi_use in
  fbin_use <- take 0 (gi_fbin gi) fi ;;
  l <- baseline_grid_locations g bi_use (Some fi) false (c_interp cfg) (c_mask_mirror cfg) ;;
  let bi := match bi_use with Some b => b | None => match l_bi_use l with Some b => b | None => [] end end in
  vis0 <- take2 (gi_vis gi) fi bi ;;
  model0 <- match gi_model gi with Some m => take2 m fi bi | None => Ok (czeros 0 0) end ;;
  vv <- take 0%Q (g_vv g) bi ;;
  let vis := conj_cols vv vis0 in
  let model := conj_cols vv model0 in
  match l_bins l with
  | None => Ok None
  | Some (bin_n, bin_i, ri) =>
      let n_vis := sum_nat bin_n in
      (* 218-220 *)
      nf_vis <- set_nf_vis fi (length bi) l (gi_nf_vis gi) ;;
      let uniform_flag := uniform_flag || c_uniform cfg in
      let n := Z.to_nat (g_elements g) in let m := Z.to_nat (g_dimension g) in
      let st0 := {| p_image := czeros n m; p_weights := czeros n m; p_variance := zeros n m; p_uniform := zeros n m;
                    p_model := czeros n m; p_specA := czeros n m; p_specB := zeros n m; p_specD := zeros n m;
                    p_specM := czeros n m |} in
      st <- fold_res (grid_bin cfg gi uniform_flag l fbin_use vis model n_vis bin_n ri) bin_i st0 ;;
      Ok (Some (grid_finish cfg gi uniform_flag no_conjugate n_vis nf_vis st))
  end.
