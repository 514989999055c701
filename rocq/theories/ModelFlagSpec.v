(** What a user of flag_model_visibilities relies on: the layout of the data and model files, and what
    matching means. *)
From Coq Require Import Sorting.Sorted QArith Qcanon.
From Verif Require Import Base VisWeights ModelFlag.
Open Scope nat_scope.

(** The baselines of one time step, in the usual order: every antenna with the later ones, and with
    itself when the file has auto-correlations. *)
Fixpoint baselines (autos : bool) (ants : list Z) : list (Z * Z) :=
  match ants with
  | [] => []
  | a :: rest => map (pair a) (if autos then a :: rest else rest) ++ baselines autos rest
  end.
(** A file with the baselines of these antennas at each of these times. *)
Definition layout (autos : bool) (ants : list Z) (times : list Qc) (p : params) : Prop :=
  let bl := baselines autos ants in
  StronglySorted Qclt times
  /\ pm_time p = flat_map (fun t => repeat t (length bl)) times
  /\ pm_a1 p = flat_map (fun _ => map fst bl) times
  /\ pm_a2 p = flat_map (fun _ => map snd bl) times.

(** The data file names tile number [k] (from 1) by its number or by its entry in the tile table. *)
Definition number (by_name : bool) (tile_names : list Z) (k : Z) : Z :=
  if by_name then nth (Z.to_nat (k - 1)) tile_names 0%Z else k.
(** The unflagged tiles, in order. *)
Definition unflagged (tile_names kept : list Z) : Prop :=
  StronglySorted Z.lt kept /\ 2 <= length kept /\ forall k, In k kept -> (1 <= k <= Z.of_nat (length tile_names))%Z.
(** Tile names are recognised by one of them being larger than the number of tiles. *)
Definition naming (by_name : bool) (tile_names kept : list Z) : Prop :=
  by_name = true ->
  NoDup tile_names /\ exists k, In k kept /\ (Z.of_nat (length tile_names) < number true tile_names k)%Z.

Definition all_tiles (tile_names : list Z) : list Z := map Z.of_nat (seq 1 (length tile_names)).

(** Model time [m] is a nearest one to [t]. *)
Definition dist (a b : Qc) : Qc := if Qclt_le_dec a b then (b - a)%Qc else (a - b)%Qc.
Definition nearest (times : list Qc) (t m : Qc) : Prop :=
  In m times /\ forall m', In m' times -> (dist m t <= dist m' t)%Qc.

Definition a1_at (p : params) (k : nat) : Z := nth k (pm_a1 p) 0%Z.
Definition a2_at (p : params) (k : nat) : Z := nth k (pm_a2 p) 0%Z.
Definition t_at (p : params) (k : nat) : Qc := nth k (pm_time p) 0%Qc.

(** Entry [k] of the data is given model entry [j]: same tiles, and the model time, shifted, is nearest. *)
Definition matched (by_name : bool) (tile_names : list Z) (times_m : list Qc) (shift : Qc) (data model : params)
    (k j : nat) : Prop :=
  j < length (pm_a1 model)
  /\ a1_at data k = number by_name tile_names (a1_at model j)
  /\ a2_at data k = number by_name tile_names (a2_at model j)
  /\ nearest (map (fun m => m + shift)%Qc times_m) (t_at data k) (t_at model j + shift)%Qc.

(** The shift added to the model times: the mean distance, in seconds, of the data times from their nearest model times,
    rounded to a hundredth, if that is at least 1/4 s and at most half an integration; otherwise none. *)
Definition model_shift (times_d times_m : list Qc) (time_res shift : Qc) : Prop :=
  exists offsets mean r k,
    Forall2 (fun t o => exists m, nearest times_m t m /\ o = (dist m t * Q2Qc 86400)%Qc) times_d offsets
    /\ (mean * Q2Qc (inject_Z (Z.of_nat (length times_d))) = fold_right Qcplus 0%Qc offsets)%Qc
    /\ r = Q2Qc (k # 100) /\ (dist r mean <= Q2Qc (1#200))%Qc
    /\ ((Q2Qc (1#4) <= r /\ r <= time_res / Q2Qc 2 /\ shift * Q2Qc 86400 = r)%Qc
        \/ (~ (Q2Qc (1#4) <= r /\ r <= time_res / Q2Qc 2)%Qc /\ shift = 0%Qc)).
