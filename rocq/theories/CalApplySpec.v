(** What a user of the calibration helpers relies on. *)
From Verif Require Import Base Cplx VisWeights.
Open Scope nat_scope.

(** The two feeds of a polarisation product, in the order XX, YY, XY, YX (X = 0, Y = 1). *)
Definition feeds (p : nat) : nat * nat :=
  match p with 0 => (0, 0) | 1 => (1, 1) | 2 => (0, 1) | _ => (1, 0) end.

(** The gains that entered the visibility of baseline [b]: gains are arranged (feed, frequency,
    tile) and the tiles of the baseline table are numbered from 1. [None] is NaN. *)
Definition gain_a (gain : arr3 (option C)) (tile_a : list Z) (p f b : nat) : option C :=
  at3 gain (fst (feeds p)) f (Z.to_nat (nth b tile_a 0%Z - 1)).
Definition gain_b (gain : arr3 (option C)) (tile_b : list Z) (p f b : nat) : option C :=
  at3 gain (snd (feeds p)) f (Z.to_nat (nth b tile_b 0%Z - 1)).

Definition unusable (g : option C) : Prop := g = None \/ g = Some C0.

(** A baseline table for [n] tiles and [m] baselines. *)
Definition good_tiles (n m : nat) (l : list Z) : Prop :=
  length l = m /\ forall b, b < m -> (1 <= nth b l 0%Z <= Z.of_nat n)%Z.

(** Visibilities and gains that belong together. *)
Record matching (vis : arr3 C) (tile_a tile_b : list Z) (gain : arr3 (option C)) : Prop := {
  m_freq : d_freq gain = d_freq vis;
  m_pol : d_pol vis <= 4;
  m_feed : forall p, p < d_pol vis -> fst (feeds p) < d_pol gain /\ snd (feeds p) < d_pol gain;
  m_ta : good_tiles (d_bl gain) (d_bl vis) tile_a;
  m_tb : good_tiles (d_bl gain) (d_bl vis) tile_b }.

(** Autocorrelations. [auto tile_a tile_b b]: the two tiles of visibility [b] are the same. *)
Definition auto (tile_a tile_b : list Z) (b : nat) : Prop :=
  b < length tile_a /\ nth b tile_a 0%Z = nth b tile_b 0%Z.

(** [last_pos l t k]: position [k] is the last one at which tile [t] occurs. *)
Definition last_pos (l : list Z) (t : nat) (k : nat) : Prop :=
  k < length l /\ nth k l 0%Z = Z.of_nat t
  /\ forall j, k < j < length l -> nth j l 0%Z <> Z.of_nat t.
