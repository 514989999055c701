(** What a user of the gain calibration relies on: which visibilities it uses, and how. *)
From Verif Require Import Base Cplx Solver CalSub.
From Coq Require Import Sorted.
Open Scope nat_scope.

(** obs, the parameters and the arrays fit together. *)
Record consistent (ci : cal_in) : Prop := {
  cs_tiles : 0 < ci_tiles ci; cs_times : 0 < ci_times ci;
  cs_a : length (ci_tile_a ci) = ci_times ci * ci_bls ci;
  cs_b : length (ci_tile_b ci) = ci_times ci * ci_bls ci;
  cs_fu : length (ci_freq_use ci) = ci_freqs ci;
  cs_tu : length (ci_tile_use ci) = ci_tiles ci;
  cs_ina : forall z, In z (ci_tile_a ci) -> (1 <= z <= Z.of_nat (ci_tiles ci))%Z;
  cs_inb : forall z, In z (ci_tile_b ci) -> (1 <= z <= Z.of_nat (ci_tiles ci))%Z }.

(** The two tiles of baseline [b], counted from 0. *)
Definition tile1 (ci : cal_in) (b : nat) : nat := Z.to_nat (nth b (ci_tile_a ci) 0%Z - 1).
Definition tile2 (ci : cal_in) (b : nat) : nat := Z.to_nat (nth b (ci_tile_b ci) 0%Z - 1).

(** Baselines are fitted once per time, or once for all times when these are averaged. *)
Definition n_fitted (ci : cal_in) : nat := if ci_average ci then ci_bls ci else ci_times ci * ci_bls ci.
Definition samples (ci : cal_in) (b : nat) : list nat :=
  if ci_average ci then map (fun t => t * ci_bls ci + b) (seq 0 (ci_times ci)) else [b].

Definition magnitude (x : Qc) : Qc := if Qclt_le_dec x 0 then (- x)%Qc else x.
(** The length of baseline [b] at frequency [f] is within the calibration limits and its uv position on the grid. *)
Definition in_range (sqrt_ : Qc -> Qc) (ci : cal_in) (f b : nat) : Prop :=
  let x := (ci_uu ci b / ci_kpix ci)%Qc in let y := (ci_vv ci b / ci_kpix ci)%Qc in
  let d := (sqrt_ (x * x + y * y) * ci_freq ci f * ci_kpix ci)%Qc in
  ((ci_min ci <= d)%Qc /\ (ci_cal_min ci <> 0%Qc -> ci_cal_min ci <= d)%Qc
  /\ (d <= ci_max ci)%Qc /\ (ci_cal_max ci <> 0%Qc -> d <= ci_cal_max ci)%Qc)
  /\ (Q2Qc 2 * (magnitude x * ci_freq ci f) <= Q2Qc (inject_Z (ci_elements ci)))%Qc
  /\ (Q2Qc 2 * (magnitude y * ci_freq ci f) <= Q2Qc (inject_Z (ci_dimension ci)))%Qc.

(** Weights count as at least 0 and at most 1. *)
Definition unit_weight (w : Qc) : Qc :=
  if Qclt_le_dec 1 w then 1%Qc else if Qclt_le_dec w 0 then 0%Qc else w.

(** [W]: the total weight of every fitted baseline; [D]: the weighted mean of the visibilities [v]. *)
Definition total_weight (sqrt_ : Qc -> Qc) (ci : cal_in) (wts : nat -> nat -> nat -> Qc) (W : nat -> nat -> nat -> Qc) : Prop :=
  forall p f b, b < n_fitted ci ->
    (in_range sqrt_ ci f b -> W p f b = Qcsum (map (fun s => unit_weight (wts p f s)) (samples ci b)))
    /\ (~ in_range sqrt_ ci f b -> W p f b = 0%Qc).
Definition weighted_mean (ci : cal_in) (wts : nat -> nat -> nat -> Qc) (W : nat -> nat -> nat -> Qc)
    (v D : nat -> nat -> nat -> C) : Prop :=
  forall p f b, b < n_fitted ci -> (0 < W p f b)%Qc ->
    Cscale (W p f b) (D p f b) = Csum (map (fun s => Cscale (unit_weight (wts p f s)) (v p f s)) (samples ci b)).

(** Frequencies and tiles that can be calibrated. *)
Definition good_freq (ci : cal_in) (W : nat -> nat -> nat -> Qc) (p f : nat) : Prop :=
  f < ci_freqs ci /\ (0 < nth f (ci_freq_use ci) 0)%Z /\ exists b, b < n_fitted ci /\ (0 < W p f b)%Qc.
Definition has_data (ci : cal_in) (W : nat -> nat -> nat -> Qc) (p t : nat) : Prop :=
  exists f b, f < ci_freqs ci /\ b < n_fitted ci /\ (0 < W p f b)%Qc /\ (tile1 ci b = t \/ tile2 ci b = t).
Definition good_tile (ci : cal_in) (W : nat -> nat -> nat -> Qc) (p t : nat) : Prop :=
  t < ci_tiles ci /\ (0 < nth t (ci_tile_use ci) 0)%Z /\ has_data ci W p t.
Definition lists_tiles (ci : cal_in) (W : nat -> nat -> nat -> Qc) (p : nat) (ts : list nat) : Prop :=
  StronglySorted lt ts /\ forall t, In t ts <-> good_tile ci W p t.

(** Baselines with a flagged tile carry no weight. *)
Definition flags_agree (ci : cal_in) (W : nat -> nat -> nat -> Qc) (p : nat) : Prop :=
  forall f b, f < ci_freqs ci -> b < n_fitted ci -> (0 < W p f b)%Qc ->
    (0 < nth (tile1 ci b) (ci_tile_use ci) 0)%Z /\ (0 < nth (tile2 ci b) (ci_tile_use ci) 0)%Z.

(** The calibration problem of frequency [f]: every baseline between the tiles [ts], with its mean data, mean model and
    total weight. *)
Definition rank (ts : list nat) (t : nat) : nat := length (filter (fun u => u <? t) ts).
Definition problem (ci : cal_in) (W : nat -> nat -> nat -> Qc) (D M : nat -> nat -> nat -> C) (ts : list nat) (p f : nat) : list baseline :=
  map (fun b => {| b_a := rank ts (tile1 ci b); b_b := rank ts (tile2 ci b);
                   b_data := D p f b; b_model := M p f b; b_weight := W p f b |}) (seq 0 (n_fitted ci)).

(** The settings of the solver; the phases are referred to tile 1, or to the first good tile. *)
Definition settings (ci : cal_in) (ts : list nat) : scfg :=
  {| s_max := ci_max_iter ci;
     s_phase := if (ci_phase ci =? 0)%Z then Z.min (ci_max_iter ci / 4) 4 else ci_phase ci;
     s_base := ci_base ci; s_thr := ci_thr ci; s_adapt := ci_adapt ci;
     s_ref := if existsb (Nat.eqb 1) ts then rank ts 1 else 0; s_noref := ci_noref ci |}.

(** Sample [s] of polarisation [p] and frequency [f] may influence the result. *)
Definition usable_sample (sqrt_ : Qc -> Qc) (ci : cal_in) (wts : nat -> nat -> nat -> Qc) (p f s : nat) : Prop :=
  (0 < wts p f s)%Qc /\ in_range sqrt_ ci f (if ci_average ci then s mod ci_bls ci else s).
