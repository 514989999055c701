(** Vocabulary for the statements about the kernels made for each baseline. *)
From Coq Require Import Reals.
From Verif Require Import Base NpArr Sky DirtyImage DirtyImageSpec ExportSizeSpec Kernel.
Open Scope R_scope.

(** A beam with a phase, in turns, at every entry. *)
Definition phased (beam : arr2 cx) (t : nat -> nat -> R) : arr2 cx :=
  Arr2 (rows beam) (cols beam) (fun i j => cmul (at2 beam i j) (cexp_i (2 * PI * t i j))).
(** The sum of the res by res values of the uv pixel in row Y and column X. *)
Definition block_sum (res : nat) (F : nat -> nat -> cx) (Y X : nat) : cx :=
  csum res (fun r => csum res (fun s => F (Y * res + r)%nat (X * res + s)%nat)).
Definition has_shape {A} (a : arr2 A) (n m : nat) : Prop := rows a = n /\ cols a = m.
(** Direction cosines that grow by [k] per pixel from the middle, and no w term. *)
Definition linear_modes (k : R) (n : nat) (mo : modes) : Prop :=
  has_shape (m_l mo) n n /\ has_shape (m_m mo) n n /\ has_shape (m_n mo) n n
  /\ forall i j, (i < n)%nat -> (j < n)%nat ->
     at2 (m_l mo) i j = k * (INR j - half n) /\ at2 (m_m mo) i j = k * (INR i - half n) /\ at2 (m_n mo) i j = 0.
(** The values at the indices of one visibility. *)
Record values := { v_u : R; v_v : R; v_w : R; v_f : R; v_x : R; v_y : R }.
Definition reads (p : kpsf) (c : coords) (xmin ymin bt fi : nat) (v : values) : Prop :=
  nth_error (c_uu c) bt = Some (v_u v) /\ nth_error (c_vv c) bt = Some (v_v v) /\ nth_error (c_ww c) bt = Some (v_w v)
  /\ nth_error (c_freq c) fi = Some (v_f v) /\ nth_error (c_x c) (xmin + k_dim p / 2) = Some (v_x v)
  /\ nth_error (c_y c) (ymin + k_dim p / 2) = Some (v_y v).
(** The largest modulus in a box. *)
Definition is_peak (box : list (list cx)) (m : R) : Prop :=
  (forall row z, In row box -> In z row -> cabs z <= m) /\ (m = 0 \/ exists row z, In row box /\ In z row /\ cabs z = m).
