(** What gridding should compute: every griddable measurement adds its value times the
    conjugate of its beam kernel to the pixels of its footprint. *)
From Verif Require Import Base Cplx NpArr GridLoc GridSpec VisGrid.
Open Scope nat_scope.

(** Sub-pixel position of a coordinate: whole steps of 1/res and the remaining fraction. *)
Definition sub_step (res : Z) (c : Q) : nat :=
  Z.to_nat (Qfloor ((c - inject_Z (Qfloor c)) * inject_Z res)).
Definition sub_frac (res : Z) (c : Q) : Qc :=
  Q2Qc ((c - inject_Z (Qfloor c)) * inject_Z res - inject_Z (Qfloor ((c - inject_Z (Qfloor c)) * inject_Z res))).

Definition lerp (t : Qc) (a b : C) : C := (Cscale (1 - t) a + Cscale t b)%C.

(** Value q of the beam kernel at the sub-pixel position of m: nearest tabulated kernel
    below, or bilinear interpolation. *)
Definition kernel_value (interp : bool) (g : loc_input) (table : nat -> nat -> list C) (m : meas) (q : nat) : C :=
  let res := g_psf_resolution g in
  let px := pos_x (g_kpix g) m in let py := pos_y (g_kpix g) m in
  let x := sub_step res px in let y := sub_step res py in
  let t := fun y x => nth q (table y x) C0 in
  if interp then lerp (sub_frac res py) (lerp (sub_frac res px) (t y x) (t y (x + 1)))
                      (lerp (sub_frac res px) (t (y + 1) x) (t (y + 1) (x + 1)))
  else t y x.

(** Pixel (y, x) is in the footprint of m. *)
Definition in_footprint (g : loc_input) (m : meas) (y x : nat) : bool :=
  covers (corner_y g m) (corner_x g m) (g_psf_dim g) y x.
(** Number of pixel (y, x) inside the footprint, row by row. *)
Definition footprint_pixel (g : loc_input) (m : meas) (y x : nat) : nat :=
  Z.to_nat ((Z.of_nat y - corner_y g m) * g_psf_dim g + (Z.of_nat x - corner_x g m)).

(** A measurement with its values and the frequency bin of its beam. *)
Record sample := { s_meas : meas; s_vis : C; s_model : C; s_fbin : nat }.

(** Share of pixel (y, x) in the kernel of the sample. *)
Definition share (interp : bool) (gi : grid_input) (s : sample) (y x : nat) : C :=
  if in_footprint (gi_loc gi) (s_meas s) y x
  then Cconj (kernel_value interp (gi_loc gi) (gi_beam gi (s_fbin s)) (s_meas s) (footprint_pixel (gi_loc gi) (s_meas s) y x))
  else C0.

(** Sums over the samples k < n selected by [good]. *)
Definition total (n : nat) (good : nat -> bool) (f : nat -> C) : C := Csum (map f (filter good (seq 0 n))).
Definition total_q (n : nat) (good : nat -> bool) (f : nat -> Qc) : Qc := Qcsum (map f (filter good (seq 0 n))).

(** Entry of a (channel, baseline) array at Python indices; mirrored measurements are
    conjugated. *)
Definition py_get2 (a : arr2 C) (f b : Z) : C :=
  at2 a (Z.to_nat (f mod Z.of_nat (rows a))) (Z.to_nat (b mod Z.of_nat (cols a))).
Definition observed (m : meas) (z : C) : C := if Qlt_le_dec 0 (m_v m) then Cconj z else z.

(** Sample k of the selection, channel-major: channel k / n_baselines, baseline
    k mod n_baselines. [fb] gives the frequency bin to use. *)
Definition sample_at (gi : grid_input) (fi bi : list Z) (fb : nat -> nat) (k : nat) : sample :=
  let m := meas_at (gi_loc gi) fi bi (k / length bi) (k mod length bi) in
  let val := fun a => observed m (py_get2 a (nth (k / length bi) fi 0%Z) (nth (k mod length bi) bi 0%Z)) in
  {| s_meas := m; s_vis := val (gi_vis gi);
     s_model := match gi_model gi with Some a => val a | None => C0 end;
     s_fbin := fb k |}.
(** The frequency bin of the channel in which sample k was observed... *)
Definition own_bin (gi : grid_input) (fi bi : list Z) (k : nat) : nat :=
  py_get 0 (gi_fbin gi) (nth (k / length bi) fi 0%Z).
(** ... and the one visibility_grid looks up. *)
Definition looked_up_bin (gi : grid_input) (fi : list Z) (k : nat) : nat :=
  py_get 0 (gi_fbin gi) (nth (k mod length fi) fi 0%Z).

(** Well-formed beam tables: every kernel has psf_dim x psf_dim values; beam groups are
    non-negative. *)
Definition beam_ok (gi : grid_input) : Prop :=
  (forall f y x, Z.of_nat (length (gi_beam gi f y x)) = (g_psf_dim (gi_loc gi) ^ 2)%Z)
  /\ (forall f b, (0 <= gi_group gi f b)%Z).

(** The planes a gridding of the selected samples must give: sums of kernel times value,
    divided by the number of samples; sums of squared kernels; counts. *)
Definition gridded_sum (interp : bool) (gi : grid_input) (fi bi : list Z) (fb : nat -> nat) (good : nat -> bool)
  (v : sample -> C) (y x : nat) : C :=
  let n := length fi * length bi in
  Cscale (/ qc_nat (count_if n good))%Qc
    (total n good (fun k => let s := sample_at gi fi bi fb k in share interp gi s y x * v s)%C).
Definition gridded_power (interp : bool) (gi : grid_input) (fi bi : list Z) (fb : nat -> nat) (good : nat -> bool)
  (y x : nat) : Qc :=
  let n := length fi * length bi in
  (/ qc_nat (count_if n good) * total_q n good (fun k => Cnorm2 (share interp gi (sample_at gi fi bi fb k) y x)))%Qc.
Definition gridded_count (gi : grid_input) (fi bi : list Z) (good : nat -> bool) (y x : nat) : Qc :=
  total_q (length fi * length bi) good (fun k =>
    if in_footprint (gi_loc gi) (meas_at (gi_loc gi) fi bi (k / length bi) (k mod length bi)) y x then 1%Qc else 0%Qc).
