(** What a user of the calibration solver relies on. *)
From Verif Require Import Base Cplx Solver.
Open Scope nat_scope.

(** The usable baselines. *)
Definition usable (b : baseline) : Prop := (0 < b_weight b)%Qc.

(** How badly the gain [h] of tile [t] explains the data of the usable baselines [l], when the other
    end has the gain [old]: a baseline counts at both of its ends. *)
Definition misfit (l : list baseline) (old : nat -> C) (t : nat) (h : C) : Qc :=
  Qcsum (map (fun b =>
    (if b_a b =? t then Cnorm2 (b_data b - h * Cconj (old (b_b b)) * b_model b)%C else 0)
    + (if b_b b =? t then Cnorm2 (Cconj (b_data b) - h * Cconj (old (b_a b)) * Cconj (b_model b))%C else 0))%Qc l).
Definition least_squares (l : list baseline) (old : nat -> C) (t : nat) (g : C) : Prop :=
  forall h, (misfit l old t g <= misfit l old t h)%Qc.

(** The number of equations of tile [t]. *)
Definition n_eq (l : list baseline) (t : nat) : nat :=
  length (filter (fun b => b_a b =? t) l) + length (filter (fun b => b_b b =? t) l).

Definition at_ (g : list C) (t : nat) : C := nth t g C0.

(** One update from [old] to [new] in iteration [i]: for every tile, the least-squares solution (0 for
    a tile with fewer than 5 equations), scaled to the old amplitude while only phases are fitted, is
    blended with the old gain; then everything is turned so that the reference tile has phase 0. *)
Definition update (cabs : C -> Qc) (cfg : scfg) (l : list baseline) (n i : nat) (old new : list C) : Prop :=
  length new = n /\
  exists (sol u : nat -> C) (lam : nat -> Qc),
    (forall t, t < n ->
       (5 <= n_eq l t -> least_squares l (at_ old) t (sol t))
       /\ (n_eq l t < 5 -> sol t = C0)
       /\ (0 <= lam t)%Qc /\ (lam t < 1)%Qc
       /\ let s := if (Z.of_nat i <? s_phase cfg)%Z
                   then Cscale (cabs (at_ old t) / cabs (sol t))%Qc (sol t) else sol t in
          u t = (Cscale (lam t) s + Cscale (1 - lam t)%Qc (at_ old t))%C)
    /\ if s_noref cfg then forall t, t < n -> at_ new t = u t
       else cabs (u (s_ref cfg)) <> 0%Qc
            /\ forall t, t < n ->
                 at_ new t = (u t * Cscale (1 / cabs (u (s_ref cfg)))%Qc (Cconj (u (s_ref cfg))))%C.

(** The successive solutions [vs], the first of which belongs to iteration [i]. *)
Definition updates (cabs : C -> Qc) (cfg : scfg) (l : list baseline) (n i : nat) (vs : list (list C)) : Prop :=
  forall k, S k < length vs -> update cabs cfg l n (i + k) (nth k vs []) (nth (S k) vs []).

(** The solution the solver starts from. *)
Definition starts (l : list baseline) (n : nat) (g0 g : list C) : Prop :=
  length g = n
  /\ forall t, t < n -> (5 <= n_eq l t -> at_ g t = at_ g0 t) /\ (n_eq l t < 5 -> at_ g t = C0).

(** The laws of an absolute value used here. *)
Record modulus_like (cabs : C -> Qc) : Prop := {
  ml_nonneg : forall c, (0 <= cabs c)%Qc;
  ml_zero : forall c, cabs c = 0%Qc <-> c = C0 }.

(** The relative change of tile [t], its mean over the [n] tiles, and the largest one being within [b]. *)
Definition rel_change (cabs : C -> Qc) (old new : list C) (t : nat) : Qc :=
  (cabs (at_ new t - at_ old t)%C / cabs (at_ old t))%Qc.
Definition mean_change (cabs : C -> Qc) (n : nat) (old new : list C) : Qc :=
  (Qcsum (map (rel_change cabs old new) (seq 0 n)) / Q2Qc (inject_Z (Z.of_nat n)))%Qc.
