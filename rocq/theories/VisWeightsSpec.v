(** What the visibility weight functions are for, stated without the model's helpers. *)
From Verif Require Import Base ArrayMatch NpArr VisWeights.
Open Scope nat_scope.

(** Time t holds the baselines from its offset up to the next one (the last time: up to nb). *)
Definition holds_baseline (offs : list nat) (nb t b : nat) : Prop :=
  t < length offs /\ nth t offs 0 <= b < nth (S t) (offs ++ [nb]) 0.

(** Offsets start at 0 and do not decrease, and stay below the number of baselines. *)
Definition good_offsets (offs : list nat) (nb : nat) : Prop :=
  nth 0 offs 0 = 0 /\ offs <> []
  /\ (forall i j, i <= j -> j < length offs -> nth i offs 0 <= nth j offs 0)
  /\ (forall i, i < length offs -> nth i offs 0 <= nb).

(** Tile numbers are 1-based: tile number v has entry v - 1 of tile_use. *)
Definition tile_flagged (o : wobs) (v : Z) : Prop :=
  exists i, i < length (o_tile_use o) /\ nth i (o_tile_use o) 0%Z = 0%Z /\ v = (Z.of_nat i + 1)%Z.

(** The baseline length |(u,v)| * freq, squared, is outside the allowed range. *)
Definition length_outside (o : wobs) (uu vv : list Q) (f b : nat) : Prop :=
  let fr := nth f (o_freq o) 0%Q in
  let u := nth b uu 0%Q in let v := nth b vv 0%Q in
  let len2 := (fr * fr * (u * u + v * v))%Q in
  (len2 < o_min_baseline o * o_min_baseline o)%Q \/ (o_max_baseline o * o_max_baseline o < len2)%Q.

(** The psf_dim cells from [floor(c) + size/2 - (psf_dim/2 - 1)] on are not all in 1 .. size-2. *)
Definition cells_outside (c : Q) (size psf_dim : Z) : Prop :=
  let first := (inject_Z (Qfloor c) + inject_Z size / 2 - (inject_Z psf_dim / 2 - 1))%Q in
  (first <= 0)%Q \/ (inject_Z size - 1 <= first + inject_Z psf_dim - 1)%Q.

(** The footprint of the visibility, reflected into v <= 0, leaves the uv plane. *)
Definition footprint_outside (o : wobs) (psf_dim : Z) (uu vv : list Q) (f b : nat) : Prop :=
  let fr := nth f (o_freq o) 0%Q in
  let u := (nth b uu 0 / o_kpix o)%Q in let v := (nth b vv 0 / o_kpix o)%Q in
  exists x y,
    (((0 < v)%Q /\ x = (fr * - u)%Q /\ y = (fr * - v)%Q)
     \/ (~ (0 < v)%Q /\ x = (fr * u)%Q /\ y = (fr * v)%Q))
    /\ (cells_outside x (o_dimension o) psf_dim \/ cells_outside y (o_elements o) psf_dim).

(** The five reasons to drop a visibility. *)
Definition dropped (o : wobs) (psf_dim : Z) (uu vv : list Q) (f b : nat) : Prop :=
  (f < length (o_freq_use o) /\ nth f (o_freq_use o) 0%Z = 0%Z)
  \/ tile_flagged o (nth b (o_tile_a o) 0%Z) \/ tile_flagged o (nth b (o_tile_b o) 0%Z)
  \/ (exists t, holds_baseline (o_bin_offset o) (length uu) t b /\ nth t (o_time_use o) 0%Z = 0%Z)
  \/ length_outside o uu vv f b \/ footprint_outside o psf_dim uu vv f b.

(** Arrays of matching sizes and physically meaningful numbers. *)
Record well_formed (o : wobs) (psf_dim : Z) (uu vv : list Q) (w : arr3 Q) : Prop := {
  wf_vv : length vv = length uu;
  wf_ta : length (o_tile_a o) = length uu;
  wf_tb : length (o_tile_b o) = length uu;
  wf_bl : d_bl w = length uu;
  wf_f : d_freq w = length (o_freq o);
  wf_fu : length (o_freq_use o) = length (o_freq o);
  wf_t : length (o_time_use o) = length (o_bin_offset o);
  wf_off : good_offsets (o_bin_offset o) (length uu);
  wf_pol : 1 <= o_n_pol o <= d_pol w;
  wf_nb : uu <> [];
  wf_nf : o_freq o <> [];
  wf_kpix : (0 < o_kpix o)%Q;
  wf_freq : forall f, f < length (o_freq o) -> (0 < nth f (o_freq o) 0)%Q;
  wf_min : (0 <= o_min_baseline o)%Q;
  wf_max : (0 <= o_max_baseline o)%Q;
  wf_psf : (0 < psf_dim)%Z;
  wf_dim : (0 < o_dimension o)%Z }.

(** All pairs (frequency, baseline). *)
Definition all_pairs (nf nb : nat) : list (nat * nat) := list_prod (seq 0 nf) (seq 0 nb).
