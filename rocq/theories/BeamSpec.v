(** Vocabulary for the statements about beams. *)
From Coq Require Import String Reals.
From Verif Require Import Base NpArr Sky DirtyImage Quickview QuickviewSpec Beam.
Import ListNotations.
Open Scope R_scope.

Definition sumR (l : list R) : R := fold_right Rplus 0 l.
(** A lobe and a sum of lobes at a position, in pixels of the grid the beam was fitted on. *)
Definition lobe_at (l : lobe) (y x : R) : R :=
  l_amp l * exp (- ((y - l_oy l) ^ 2 / (2 * l_sy l ^ 2) + (x - l_ox l) ^ 2 / (2 * l_sx l ^ 2))).
Definition pattern (ls : list lobe) (y x : R) : R := sumR (map (fun l => lobe_at l y x) ls).
Definition parameters (ls : list lobe) : list R := List.concat (map row ls).
Definition round_lobes (ls : list lobe) : Prop := Forall (fun l => l_sx l <> 0 /\ l_sy l <> 0) ls.
(** The position on the grid of the fit, 1.3 times as wide as the sky from horizon to horizon, which is [h] pixels, of pixel
    [k] of an image of [n] pixels from horizon to horizon. *)
Definition fit_pixel (h : R) (n k : nat) : R := (INR k - INR n / 2) * (h / INR n) + 13 / 10 * h / 2.
Definition response (ls : list lobe) (h : R) (n y x : nat) : R := pattern ls (fit_pixel h n y) (fit_pixel h n x).

(** All baselines are in one group. *)
Definition one_group (ids : list nat) : Prop := ids <> [] /\ exists g, forall i, In i ids -> i = g.
(** A psf with Gaussian lobes [ls b] for each frequency bin b, and an observation whose channels are in those bins. *)
Record usable (p : psf) (o : bobs) (pol : nat) (ls : nat -> list lobe) : Prop := {
  u_ids : exists ids, p_id p pol = Ok ids /\ one_group ids;
  u_params : exists params, p_gauss p = Some params
    /\ forall b, (b < List.length (p_fnorm p))%nat -> params pol b = Ok (parameters (ls b)) /\ round_lobes (ls b);
  u_bins : forall f, (f < List.length (b_fbin o))%nat -> (nth f (b_fbin o) 0 < List.length (p_fnorm p))%nat;
  u_use : (List.length (b_use o) <= List.length (b_fbin o))%nat;
  u_horizon : p_horizon p <> 0; u_kpix : b_kpix o <> 0; u_dim : (0 < b_dim o)%nat }.
Definition is_used (o : bobs) (f : nat) : Prop := nth_error (b_use o) f = Some true.
Definition bin_of (o : bobs) (f : nat) : nat := nth f (b_fbin o) 0%nat.
Definition norm_of (p : psf) (b : nat) : R := nth b (p_fnorm p) 0.
(** The channels [fs] are the used ones, each once. *)
Definition channels_are (o : bobs) (fs : list nat) : Prop := NoDup fs /\ forall f, In f fs <-> is_used o f.
(** Between two channels of a bin there is none of a lower bin. *)
Definition no_lower_between (bins : list nat) : Prop :=
  forall i k j, (i <= k)%nat -> (k <= j)%nat -> (j < List.length bins)%nat -> nth i bins 0%nat = nth j bins 0%nat -> (nth i bins 0 <= nth k bins 0)%nat.
(** Bin [b] has channels at or before and at or after [k]; [b] is the highest such bin. *)
Definition encloses (bins : list nat) (b k : nat) : Prop :=
  exists i j, (i <= k <= j)%nat /\ (j < List.length bins)%nat /\ nth i bins 0%nat = b /\ nth j bins 0%nat = b.
Definition shown (bins : list nat) (k b : nat) : Prop := encloses bins b k /\ forall b', encloses bins b' k -> (b' <= b)%nat.
(** The channels a cube was asked for: [n] of them spread over the band, or a list. *)
Definition asked (o : bobs) (n_freq_bin : option nat) (freq_i_arr : option (list nat)) (channels : list nat) : Prop :=
  match n_freq_bin with
  | Some n => channels = map (fun k => k * b_nfreq o / n)%nat (seq 0 n)
  | None => freq_i_arr = Some channels
  end.
(** The power beam of a polarisation in a bin. *)
Definition is_power (p : psf) (o : bobs) (ls : list lobe) (b : nat) (a : arr2 R) : Prop :=
  sized (b_dim o) a /\ forall i j, (i < b_dim o)%nat -> (j < b_dim o)%nat -> at2 a i j = response ls (p_horizon p) (b_dim o) i j ^ 2 / norm_of p b.
(** Region growing on the power beam finds the pixels [l]. *)
Definition grows (grow : arr2 R -> Z -> R -> result (option (list nat))) (p : psf) (o : bobs) (ls : list lobe) (b : nat) (t : R) (l : list nat) : Prop :=
  (forall k, In k l -> (k < b_dim o * b_dim o)%nat)
  /\ forall a, is_power p o ls b a -> grow a (Qfloor (b_obsx o + b_obsy o * inject_Z (Z.of_nat (b_dim o)))) (t ^ 2) = Ok (Some l).
