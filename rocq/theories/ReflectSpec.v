(** Cable reflections, as an observer writes them down. *)
From Coq Require Import Reals.
From Verif Require Import Base Sky DirtyImage Kernel Reflect.
Import ListNotations.
Open Scope R_scope.

(** A reflection of amplitude [a], phase [phi] and mode [m] at channel [f] of [n]. *)
Definition reflection (n : nat) (a phi m : R) (f : nat) : cx :=
  (a * cos (phi - 2 * PI * m * INR f / INR n), a * sin (phi - 2 * PI * m * INR f / INR n)).

(** The Fourier amplitude at mode [m] of the gain of tile [t] less its mean, over the channels used. *)
Definition mean_gain (i : fit_input) (t : nat) : cx :=
  cscale (/ INR (length (fi_freq_use i))) (fold_right cadd (0, 0) (map (fun f => fi_gain i f t) (fi_freq_use i))).
Definition spectrum (i : fit_input) (t : nat) (m : R) : cx :=
  fold_right cadd (0, 0)
    (map (fun f => cmul (cexp_i (2 * PI * m * INR f / INR (fi_n_freq i)))
                        (cadd (fi_gain i f t) (cscale (-1) (mean_gain i t)))) (fi_freq_use i)).

(** The modes 0.05 apart within 2.5 of the nominal one. *)
Definition candidate (nominal m : R) : Prop := exists j : Z, (-50 <= j <= 50)%Z /\ m = nominal + IZR j / 20.

(** A whole number which is not a multiple of [n]. *)
Definition proper (n : nat) (m : R) : Prop := exists k : Z, m = IZR k /\ ~ (Z.of_nat n | k)%Z.

(** arctan2: the angle of a complex number. *)
Definition is_angle (arg : cx -> R) : Prop := forall z, z = cscale (cabs z) (cexp_i (arg z)).

(** Every channel is used. *)
Definition unflagged (i : fit_input) : Prop := fi_freq_use i = seq 0 (fi_n_freq i).

(** The tiles which are used and have a cable of another nominal mode than tile [t]. *)
Definition other_cables (i : fit_input) (t s : nat) : Prop :=
  nth s (fi_tile_use i) false = true /\ 0 < nth s (fi_modes i) 0 /\
  1 / 100 < Rabs (nth s (fi_modes i) 0 - nth t (fi_modes i) 0).
