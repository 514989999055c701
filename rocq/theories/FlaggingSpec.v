(** What flagging is for, stated without the model's helpers. *)
From Coq Require Import Qabs.
From Verif Require Import Base NpArr VisWeights VisWeightsSpec Flagging.
Open Scope nat_scope.

(** Channel f lies below flag_freq_start or above flag_freq_end (both in MHz). *)
Definition out_of_band (o : fobs) (c : fconfig) (f : nat) : Prop :=
  (exists s, f_freq_start c = Some s /\ (nth f (b_freq o) 0 / 1000000 < s)%Q)
  \/ (exists e, f_freq_end c = Some e /\ (e < nth f (b_freq o) 0 / 1000000)%Q).

(** The 768 finest channels come in coarse channels of 32; after averaging 768/n_freq of them a
    coarse channel has [width] channels, of which those within [edge] of either end are edges. *)
Definition edge_channel (n_freq f : nat) : Prop :=
  let avg := 768 / n_freq in
  let width := 32 / avg in
  exists k i edge,
    f = k * width + i /\ i < width
    /\ (inject_Z edge - 1 < 2 / inject_Z (Z.of_nat avg) <= inject_Z edge)%Q
    /\ (Z.of_nat i < edge \/ Z.of_nat width - edge <= Z.of_nat i)%Z.

Definition initially_cut (o : fobs) (c : fconfig) (f : nat) : Prop :=
  out_of_band o c f \/ (f_flag_frequencies c = true /\ edge_channel (b_n_freq o) f).

(** The visibility is usable once the channels above are dropped. *)
Definition usable (w : arr3 Q) (o : fobs) (c : fconfig) (p f b : nat) : Prop :=
  f < d_freq w /\ b < d_bl w /\ ~ initially_cut o c f /\ (0 < at3 w p f b)%Q.

(** Tile t (0-based) takes part in a usable visibility of polarisation p. *)
Definition tile_has_data (w : arr3 Q) (o : fobs) (c : fconfig) (p t : nat) : Prop :=
  exists f b, usable w o c p f b
    /\ (nth b (b_tile_a o) 0%Z = (Z.of_nat t + 1)%Z \/ nth b (b_tile_b o) 0%Z = (Z.of_nat t + 1)%Z).

(** Baseline b belongs to a flagged time and is not its last one. *)
Definition time_cleared (o : fobs) (b : nat) : Prop :=
  exists t, t < b_n_time o /\ (nth t (b_time_use o) 0 <= 0)%Z
    /\ nth t (b_bin_offset o) 0 <= b
    /\ S b < nth (S t) (b_bin_offset o ++ [length (b_tile_a o)]) 0.

(** The weight is put back to 1: channel flagging is off, the channel has no usable visibility in
    this polarisation, the baseline has one, and the visibility is not 0. *)
Definition restored (w : arr3 Q) (nz : nat -> nat -> nat -> bool) (o : fobs) (c : fconfig) (p f b : nat) : Prop :=
  f_flag_frequencies c = false /\ p < b_n_pol o
  /\ (forall b', ~ usable w o c p f b') /\ (exists f', usable w o c p f' b) /\ nz p f b = true.

Definition bits (l : list Z) : Prop := forall z, In z l -> z = 0%Z \/ z = 1%Z.

Record flag_ready (w : arr3 Q) (o : fobs) (c : fconfig) : Prop := {
  fr_freq : length (b_freq o) = b_n_freq o;
  fr_nf : d_freq w = b_n_freq o;
  fr_f : 0 < b_n_freq o;
  fr_bl : 0 < d_bl w;
  fr_pol : b_n_pol o <= d_pol w;
  fr_ta : length (b_tile_a o) = d_bl w;
  fr_tb : length (b_tile_b o) = d_bl w;
  fr_ra : forall v, In v (b_tile_a o) -> (1 <= v <= Z.of_nat (b_n_tile o))%Z;
  fr_rb : forall v, In v (b_tile_b o) -> (1 <= v <= Z.of_nat (b_n_tile o))%Z;
  fr_tile : length (b_tile_use o) = b_n_tile o;
  fr_fuse : length (b_freq_use o) = b_n_freq o;
  fr_tbits : bits (b_tile_use o);
  fr_fbits : bits (b_freq_use o);
  fr_time : length (b_time_use o) = b_n_time o;
  fr_off : length (b_bin_offset o) = b_n_time o;
  fr_t : 0 < b_n_time o;
  fr_pos : forall t, t < b_n_time o -> nth t (b_bin_offset o) 0 < nth (S t) (b_bin_offset o ++ [length (b_tile_a o)]) 0;
  fr_edge : f_flag_frequencies c = true -> 24 <= b_n_freq o <= 768;
  fr_list : f_flag_tiles c = [] }.
