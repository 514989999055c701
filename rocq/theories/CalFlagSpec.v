(** What a user of vis_calibration_flag relies on. *)
From Coq Require Export Sorted.
From Verif Require Import Base Cplx WeightInvert CalFlag.
Open Scope nat_scope.

(** [new] flags everything [old] did: every entry is the old one or 0. *)
Definition only_removes (old new : list Z) : Prop :=
  length new = length old /\ forall k, nth k new 0%Z = nth k old 0%Z \/ nth k new 0%Z = 0%Z.

(** [idx] lists the positions in use, in order. *)
Definition in_use (use : list Z) (idx : list nat) : Prop :=
  (forall k, In k idx <-> k < length use /\ nth k use 0%Z <> 0%Z)
  /\ StronglySorted lt idx.

(** The statistics have one entry per used frequency or tile. *)
Definition shaped (st : stats) : Prop :=
  forall tiles freqs,
    length (st_freq_fom st tiles freqs) = length freqs
    /\ (forall l, st_tile_fom st tiles freqs = Ok l -> length l = length tiles)
    /\ length (st_tile_avg st tiles freqs) = length tiles
    /\ (forall a b, st_phase st tiles freqs = Ok (a, b) -> length a = length tiles /\ length b = length tiles).

(** The amplitude of a tile is below half or above twice the typical one. *)
Definition bad_amplitude (typical amp : Qc) : Prop :=
  (amp < typical / Q2Qc 2)%Qc \/ (typical * Q2Qc 2 < amp)%Qc.

(** The median of equal numbers is that number, and they do not spread. *)
Record fair (std median nanstd : list xf -> xf) : Prop := {
  fair_std : forall c n, std (repeat (Fin c) (S n)) = Fin 0%Qc;
  fair_nanstd : forall c n, nanstd (repeat (Fin c) (S n)) = Fin 0%Qc;
  fair_median : forall c n, median (repeat (Fin c) (S n)) = Fin c }.

(** All used tiles, and all used frequencies, have the same statistics. *)
Definition uniform (st : stats) : Prop := exists f t a s p : Qc,
  (0 < f)%Qc /\ (0 < t)%Qc /\ (0 <= a)%Qc /\
  forall tiles freqs,
    st_freq_fom st tiles freqs = repeat (Fin f) (length freqs)
    /\ st_tile_fom st tiles freqs = Ok (repeat (Fin t) (length tiles))
    /\ st_tile_avg st tiles freqs = repeat (Fin a) (length tiles)
    /\ st_phase st tiles freqs = Ok (repeat (Fin s) (length tiles), repeat (Fin p) (length tiles)).

(** A value (of slope, or of spread) stands out by more than 5 standard deviations. *)
Definition stands_out (typical sd v : Qc) : Prop := (Q2Qc 5 * sd < v - typical)%Qc.
Definition is_out (median nanstd : list xf -> xf) (vs spread_of : list xf) (k : nat) : Prop :=
  exists typical sd v, median vs = Fin typical /\ nanstd spread_of = Fin sd /\ nth k vs NaN = Fin v
    /\ stands_out typical sd v.

(** A statistic that is not a number counts as 0. *)
Definition statistic (x : xf) : xf := match x with NaN => Fin 0%Qc | _ => x end.
Definition positive (x : xf) : Prop := match x with Fin q => (0 < q)%Qc | PInf => True | _ => False end.
Definition greater (a b : xf) : Prop :=
  match a, b with
  | Fin x, Fin y => (y < x)%Qc
  | PInf, Fin _ | PInf, NInf | Fin _, NInf => True
  | _, _ => False
  end.
(** The values at some positions. *)
Definition values_at (vs : list xf) (pool : list nat) : list xf := map (fun k => nth k vs NaN) pool.
(** [v] is more than 5 standard deviations above the median of the values in the pool. *)
Definition exceeds (std median : list xf -> xf) (vs : list xf) (pool : list nat) (v : xf) : Prop :=
  positive (xsub (xsub v (median (values_at vs pool))) (xmul (Fin (Q2Qc 5)) (std (values_at vs pool)))).
(** The pools that values are compared with: first every value that is not 0, then those of the pool before that were not
    found to be bad, either by their own value or by another test. *)
Inductive screened (std median : list xf -> xf) (vs : list xf) (other : nat -> Prop) : list nat -> Prop :=
| screened_first pool : StronglySorted lt pool -> (forall k, In k pool <-> k < length vs /\ nth k vs NaN <> Fin 0%Qc) ->
    screened std median vs other pool
| screened_next pool pool' : screened std median vs other pool -> StronglySorted lt pool' ->
    (forall k, In k pool' <-> In k pool /\ ~ exceeds std median vs pool (nth k vs NaN) /\ ~ other k) ->
    screened std median vs other pool'.
(** The amplitude [a] of a tile is below half or above twice the typical one, infinities included. *)
Definition amplitude_out (typical a : xf) : Prop :=
  greater (xdiv typical (Fin (Q2Qc 2))) a \/ greater a (xmul typical (Fin (Q2Qc 2))).
(** The slope or the spread of the phase of tile [k] is more than 5 standard deviations above the median. *)
Definition phase_out (median nanstd : list xf -> xf) (slopes spreads : list xf) (k : nat) : Prop :=
  greater (xsub (nth k (map xabs slopes) NaN) (median (map xabs slopes))) (xmul (Fin (Q2Qc 5)) (nanstd slopes))
  \/ greater (xsub (nth k spreads NaN) (median spreads)) (xmul (Fin (Q2Qc 5)) (nanstd spreads)).
