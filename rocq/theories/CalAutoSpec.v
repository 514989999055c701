(** What a user of the autocorrelation-based calibration steps and of the baseline histogram relies on. *)
From Verif Require Import Base Cplx NpArr VisWeights GridLoc CalApplySpec HistogramSpec.
Open Scope nat_scope.

(** Data, model and autocorrelations that belong together: [va] and [am] have one column per entry of
    [tiles] (tile numbers counted from 0). *)
Record auto_input (n_pol n_freq n_tile : nat) (va am : arr3 Qc) (tiles : list Z) : Prop := {
  ai_va : n_pol <= d_pol va /\ d_freq va = n_freq /\ d_bl va = length tiles;
  ai_am : d_pol am = d_pol va /\ d_freq am = n_freq /\ d_bl am = length tiles;
  ai_tiles : forall v, In v tiles -> (0 <= v < Z.of_nat n_tile)%Z }.

(** Visibilities covering the polarisations and used channels. *)
Definition covers (n_pol : nat) (freq_use : list Z) (v : arr3 C) : Prop :=
  n_pol <= d_pol v /\ forall f, f < length freq_use -> nth f freq_use 0%Z <> 0%Z -> f < d_freq v.

(** The amplitudes of the visibilities of the used channels. *)
Definition used_amps (abs_ : C -> Qc) (freq_use : list Z) (v : arr3 C) (p : nat) : list Q :=
  flat_map (fun f => map (fun b => this (abs_ (at3 v p f b))) (seq 0 (d_bl v)))
           (filter (fun f => negb (nth f freq_use 0 =? 0)%Z) (seq 0 (length freq_use))).

(** The square root of the ratio of the tile's autocorrelation to its model; 1 without autocorrelation. *)
Definition tile_ratio (sqrt_ : Qc -> Qc) (va am : arr3 Qc) (tiles : list Z) (p f t : nat) (r : Qc) : Prop :=
  (exists k, last_pos tiles t k /\ r = sqrt_ (at3 va p f k / at3 am p f k)%Qc)
  \/ (~ In (Z.of_nat t) tiles /\ r = 1%Qc).

(** Average over all channels and tiles. *)
Definition average (n_freq n_tile : nat) (x : nat -> nat -> Qc) : Qc :=
  (Qcsum (flat2 n_freq n_tile x) / qc_nat (n_freq * n_tile))%Qc.

(** ** The linear fit *)

(** A channel that is used and whose neighbours are used. *)
Definition safe_channel (freq_use : list Z) (f : nat) : Prop :=
  f < length freq_use
  /\ forall g, g < length freq_use -> f <= g + 1 -> g <= f + 1 -> nth g freq_use 0%Z <> 0%Z.

(** The amplitude expected from the autocorrelation: the square root of data over model, 0 without a
    model, not a number when the ratio is negative. *)
Definition amplitude (sqrt_ : Qc -> Qc) (va am : arr3 Qc) (p f k : nat) (a : option Qc) : Prop :=
  (at3 am p f k = 0%Qc -> a = Some (sqrt_ 0%Qc))
  /\ (at3 am p f k <> 0%Qc -> (0 <= at3 va p f k / at3 am p f k)%Qc ->
        a = Some (sqrt_ (at3 va p f k / at3 am p f k)%Qc))
  /\ (at3 am p f k <> 0%Qc -> (at3 va p f k / at3 am p f k < 0)%Qc -> a = None).

(** ** The baseline histogram *)
Open Scope Q_scope.

(** The length of baseline [b] at channel [f]. *)
Definition baseline_length (sqrt_ : Q -> Q) (kpix : Q) (uu vv freq : list Q) (f b : nat) : Q :=
  sqrt_ ((nth b uu 0 / kpix) * (nth b uu 0 / kpix) + (nth b vv 0 / kpix) * (nth b vv 0 / kpix))
  * nth f freq 0 * kpix.

(** [lengths] lists them channel by channel: entry f * n_baselines + b. *)
Definition lists_lengths (sqrt_ : Q -> Q) (kpix : Q) (uu vv freq : list Q) (lengths : list Q) : Prop :=
  length lengths = (length freq * length uu)%nat
  /\ forall f b, (f < length freq)%nat -> (b < length uu)%nat ->
       nth (f * length uu + b) lengths 0 = baseline_length sqrt_ kpix uu vv freq f b.

(** The visibilities of polarisation [p], in the same order. *)
Definition vis_at (v : arr3 C) (n_bl p i : nat) : C := at3 v p (i / n_bl)%nat (i mod n_bl)%nat.

(** The visibilities in length bin [i] (bins of 5 from [lo]) whose model is not 0. *)
Definition compared (lo hi : Q) (lengths : list Q) (vm : arr3 C) (n_bl p i : nat) : list nat :=
  filter (fun k => negb (Ceqb (vis_at vm n_bl p k) C0)) (bin_positions lo hi 5 lengths i).

Definition good_abs (abs_ : C -> Q) : Prop := forall c, (c = C0 -> abs_ c <= 0) /\ (c <> C0 -> 0 < abs_ c).

(** Visibilities and baselines that belong together. *)
Record hist_input (n_pol : nat) (uu vv freq : list Q) (lo hi : Q) (vc vm : arr3 C) : Prop := {
  hi_uv : length uu = length vv;
  hi_range : lo <= hi;
  hi_vc : (n_pol <= d_pol vc)%nat /\ d_freq vc = length freq /\ d_bl vc = length uu;
  hi_vm : (n_pol <= d_pol vm)%nat /\ d_freq vm = length freq /\ d_bl vm = length uu }.
