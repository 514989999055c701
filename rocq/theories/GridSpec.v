(** Vocabulary for the gridding properties: what a measurement is, where it falls on the
    uv grid, and which measurements may be gridded. Independent of the model of
    baseline_grid_locations except for the record of its inputs. *)
From Verif Require Import Base Cplx NpArr GridLoc.
Open Scope Q_scope.

(** Element of a list selected by a Python index (negative ones count from the end). *)
Definition py_get {A} (d : A) (l : list A) (i : Z) : A :=
  nth (Z.to_nat (i mod Z.of_nat (length l))) l d.
(** The index is valid for an axis of length n. *)
Definition valid_index (n : nat) (i : Z) : Prop := (- Z.of_nat n <= i < Z.of_nat n)%Z.

(** One measurement: frequency, u and v (light travel time) and weight. *)
Record meas := { m_freq : Q; m_u : Q; m_v : Q; m_w : Q }.

(** The measurement at position i of the frequency selection and j of the baseline selection. *)
Definition meas_at (g : loc_input) (fi bi : list Z) (i j : nat) : meas :=
  let f := nth i fi 0%Z in let b := nth j bi 0%Z in
  {| m_freq := py_get 0 (g_freq g) f; m_u := py_get 0 (g_uu g) b; m_v := py_get 0 (g_vv g) b;
     m_w := at2 (g_weights g) (Z.to_nat (f mod Z.of_nat (rows (g_weights g))))
                (Z.to_nat (b mod Z.of_nat (cols (g_weights g)))) |}.

(** Points of the upper half plane are observed as their mirror image. *)
Definition mirrored (m : meas) : Prop := 0 < m_v m.
Definition fold_sign (m : meas) : Q := if Qlt_le_dec 0 (m_v m) then -(1) else 1.
(** Position in units of uv pixels relative to the centre of the plane. *)
Definition pos_x (kpix : Q) (m : meas) : Q := fold_sign m * m_u m * m_freq m / kpix.
Definition pos_y (kpix : Q) (m : meas) : Q := fold_sign m * m_v m * m_freq m / kpix.

(** First pixel of the footprint: floor(c) + size/2 - psf/2 + 1, cut to an integer when a
    size is odd. *)
Definition corner (size psf : Z) (c : Q) : Z :=
  Qtrunc (inject_Z (Qfloor c) + inject_Z size / 2 - inject_Z psf / 2 + 1).
Definition corner_x (g : loc_input) (m : meas) : Z :=
  corner (g_elements g) (g_psf_dim g) (pos_x (g_kpix g) m).
Definition corner_y (g : loc_input) (m : meas) : Z :=
  corner (g_dimension g) (g_psf_dim g) (pos_y (g_kpix g) m).

(** The footprint of psf pixels starting at c is inside 0..size-1, without the outermost
    pixels. *)
Definition in_plane (size psf c : Z) : Prop := (0 < c /\ c + psf < size)%Z.

(** Baseline length (in wavelengths) within [min, max] at the lowest and at the highest
    frequency; lengths are compared through their squares. *)
Definition length_ok (lo hi fmin fmax : Q) (m : meas) : Prop :=
  let len2 := m_u m * m_u m + m_v m * m_v m in
  (lo <= 0 \/ lo * lo <= fmin * fmin * len2) /\ fmax * fmax * len2 <= hi * hi.

Definition is_min (x : Q) (l : list Q) : Prop := In x l /\ forall y, In y l -> x <= y.
Definition is_max (x : Q) (l : list Q) : Prop := In x l /\ forall y, In y l -> y <= x.

(** May the measurement be gridded? *)
Definition griddable (g : loc_input) (fill_model mask_mirror : bool) (m : meas) : Prop :=
  in_plane (g_elements g) (g_psf_dim g) (corner_x g m)
  /\ in_plane (g_dimension g) (g_psf_dim g) (corner_y g m)
  /\ (fill_model = false -> 0 < m_w m /\
        forall fmin fmax, is_min fmin (g_freq g) -> is_max fmax (g_freq g) ->
          length_ok (g_min_baseline g) (g_max_baseline g) fmin fmax m)
  /\ (mask_mirror = true -> ~ mirrored m).

(** Physically sensible inputs. *)
Definition sensible (g : loc_input) : Prop :=
  0 < g_kpix g /\ 0 <= g_max_baseline g /\ (forall f, In f (g_freq g) -> 0 <= f)
  /\ (0 < g_dimension g)%Z /\ (0 < g_psf_resolution g)%Z /\ (0 < g_psf_dim g)%Z.

(** Number of positions below n satisfying a predicate (decided). *)
Definition count_if (n : nat) (p : nat -> bool) : nat := length (filter p (seq 0 n)).

(** Position of an index modulo the size, for reflections. *)
Definition neg_mod (n i : nat) : nat := ((n - i mod n) mod n)%nat.
