(** What a user of calibrate_qu_mixing relies on. *)
From Verif Require Import Base Cplx VisWeights.
Open Scope nat_scope.

(** Four polarisation products for [n_time] times of [n_baselines] baselines, with weights alike. *)
Definition full_pol {A} (v : arr3 A) (n_freq n_time n_baselines : nat) : Prop :=
  4 <= d_pol v /\ d_freq v = n_freq /\ d_bl v = n_time * n_baselines.
Definition weights_for (w : arr3 Qc) (n_freq n_time n_baselines : nat) : Prop :=
  1 <= d_pol w /\ d_freq w = n_freq /\ d_bl w = n_time * n_baselines.

(** The pseudo Stokes parameters of a visibility, XX, YY, XY, YX being products 0 to 3 *)
Definition pseudo_q (v : arr3 C) (f b : nat) : C := (at3 v 1 f b - at3 v 0 f b)%C.
Definition pseudo_u (v : arr3 C) (f b : nat) : C := (at3 v 3 f b + at3 v 2 f b)%C.

(** The data [v] and [v'] agree in polarisation at every sample whose weight is positive. *)
Definition agree_where_used (w : arr3 Qc) (v v' : arr3 C) : Prop :=
  forall f b, f < d_freq w -> b < d_bl w -> (0 < at3 w 0 f b)%Qc ->
    pseudo_q v f b = pseudo_q v' f b /\ pseudo_u v f b = pseudo_u v' f b.

(** The weight that counts: between 0 and 1. *)
Definition weight01 (x : Qc) : Qc := if Qclt_le_dec x 0 then 0%Qc else if Qclt_le_dec x 1 then x else 1%Qc.

(** The weighted sum over time of a quantity, for one frequency and baseline *)
Definition over_time (n_time n_baselines : nat) (w : arr3 Qc) (x : nat -> nat -> C) (f b : nat) : C :=
  Csum (map (fun t => Cscale (weight01 (at3 w 0 f (t * n_baselines + b))) (x f (t * n_baselines + b))) (seq 0 n_time)).

(** The frequencies and baselines with a positive weight at some time, row by row *)
Definition positive (q : Qc) : bool := if Qclt_le_dec 0 q then true else false.
Definition seen (n_freq n_time n_baselines : nat) (w : arr3 Qc) : list (nat * nat) :=
  flat_map (fun f => map (pair f) (filter (fun b => existsb (fun t => positive (at3 w 0 f (t * n_baselines + b))) (seq 0 n_time))
                                    (seq 0 n_baselines))) (seq 0 n_freq).

(** The angle of the line through the points (pseudo U, pseudo Q) of a data set *)
Definition mixing_angle (slope : list C -> list C -> C) (arg_ : C -> Qc) (n_freq n_time n_baselines : nat) (w : arr3 Qc) (v : arr3 C) : Qc :=
  let at_seen x := map (fun fb => over_time n_time n_baselines w (x v) (fst fb) (snd fb)) (seen n_freq n_time n_baselines w) in
  arg_ (slope (at_seen pseudo_u) (at_seen pseudo_q)).
