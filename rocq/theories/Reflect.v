(** Model of the hyperresolved fit of a cable reflection (the body of the loop over tiles of
    vis_cal_polyfit with cal_reflection_hyperresolve,
    PyFHD/calibration/calibration_utils.py:1144-1255), for one polarisation, over the real numbers.

    Simplified: numbers are exact and not NaN, the means of the autocorrelation ratios are not zero,
    freq_use is not empty.  NaN appears where NumPy averages an empty set of tiles: [None]. *)
From Coq Require Import Reals Lra.
From Verif Require Import Base Sky DirtyImage Kernel.
Import ListNotations.
Open Scope R_scope.

Definition Rltb (a b : R) : bool := if Rlt_dec a b then true else false.

(** np.mean / np.nanmean of a list: NaN if it is empty. *)
Definition mean (l : list R) : option R :=
  match l with [] => None | _ => Some (fold_right Rplus 0 l / INR (length l)) end.
Definition total_c (l : list cx) : cx := fold_right cadd (0, 0) l.

(** np.argmax: the first position of the largest number. *)
Fixpoint argmax_from (best : nat) (v : R) (k : nat) (l : list R) : nat :=
  match l with
  | [] => best
  | x :: t => if Rltb v x then argmax_from k x (S k) t else argmax_from best v (S k) t
  end.
Definition argmax (l : list R) : nat := match l with [] => 0%nat | x :: t => argmax_from 0 x 1 t end.

(** (np.arange(nmodes) - nmodes // 2) * dmode + mode0 (1146-1154): nmodes = 101, dmode = 0.05 *)
Definition tested (mode0 : R) : list R := map (fun j => (INR j - 50) * (5 / 100) + mode0) (seq 0 101).

(** np.sum(np.exp(1j * 2 * np.pi / n_freq * mode * freq_use) * g[freq_use]) (1188-1192, 1216-1221) *)
Definition dft (n_freq : nat) (freq_use : list nat) (mode : R) (g : nat -> cx) : cx :=
  total_c (map (fun f => cmul (cexp_i (2 * PI / INR n_freq * mode * INR f)) (g f)) freq_use).

(** One polarisation as the loop sees it. *)
Record fit_input := {
  fi_n_freq : nat;                       (* obs["n_freq"] *)
  fi_freq_use : list nat;                (* freq_use *)
  fi_tile_use : list bool;               (* obs["baseline_info"]["tile_use"] *)
  fi_modes : list R;                     (* mode_i_arr[pol_i] *)
  fi_gain : nat -> nat -> cx;            (* gain_arr = og_gain_arr / cal["gain"], channel and tile *)
  fi_auto : option (nat -> nat -> R)     (* auto_ratio[pol_i], channel and tile *)
}.

Section Fit.
  (** np.arctan2(z.imag, z.real) *)
  Variable arg : cx -> R.
  Variable i : fit_input.

  Definition nominal (t : nat) : R := nth t (fi_modes i) 0.

  (** The tiles which are not coherent with a mode (1158-1162, 1205-1209). *)
  Definition incoherent (mode : R) : list nat :=
    filter (fun s => nth s (fi_tile_use i) false && Rltb 0 (nominal s) && Rltb (1 / 100) (Rabs (nominal s - mode)))
      (seq 0 (length (fi_tile_use i))).

  (** The residual autocorrelations of a tile (1164-1173): None if there is no tile to compare with. *)
  Definition res_autos (auto : nat -> nat -> R) (t : nat) : option (nat -> R) :=
    let every := seq 0 (fi_n_freq i) in
    let avg l := fold_right Rplus 0 l / INR (length l) in
    let norm f s := auto f s / avg (map (fun f' => auto f' s) every) in
    match incoherent (nominal t) with
    | [] => None
    | tiles =>
        let ratio f := norm f t / avg (map (norm f) tiles) in
        Some (fun f => ratio f - avg (map ratio every))
    end.

  (** What is transformed (1156-1184): without autocorrelations the gain less its mean. *)
  Definition fit_data (t : nat) : option (nat -> cx) :=
    match fi_auto i with
    | Some auto => match res_autos auto t with Some r => Some (fun f => (r f, 0)) | None => None end
    | None =>
        let s := total_c (map (fun f => fi_gain i f t) (fi_freq_use i)) in
        let n := INR (length (fi_freq_use i)) in
        Some (fun f => (fst (fi_gain i f t) - fst s / n, snd (fi_gain i f t) - snd s / n))
    end.

  (** The largest of the tested modes (1186-1200): mode, amplitude and phase. The argmax of NaN is
      the first position, the amplitude and phase are NaN. *)
  Definition search (t : nat) : R * option (R * R) :=
    let modes := tested (nominal t) in
    match fit_data t with
    | None => (nth 0 modes 0, None)
    | Some g =>
        let fits := map (fun m => dft (fi_n_freq i) (fi_freq_use i) m g) modes in
        let k := argmax (map cabs fits) in
        let z := nth k fits (0, 0) in
        (nth k modes 0, Some (cabs z / INR (length (fi_freq_use i)), arg z))
    end.

  (** With autocorrelations the amplitude and phase come from the phases of the gains (1203-1227). *)
  Definition phase_fit (t : nat) (mode : R) : option (R * R) :=
    match incoherent mode with
    | [] => None
    | tiles =>
        let avg f := fold_right Rplus 0 (map (fun s => arg (fi_gain i f s)) tiles) / INR (length tiles) in
        let z := dft (fi_n_freq i) (fi_freq_use i) mode (fun f => (arg (fi_gain i f t) - avg f, 0)) in
        Some (2 * cabs z / INR (length (fi_freq_use i)), arg z + PI / 2)
    end.

  Definition fit (t : nat) : R * option (R * R) :=
    match fi_auto i with
    | None => search t
    | Some _ => let mode := fst (search t) in (mode, phase_fit t mode)
    end.

  (** gain_mode_fit at a channel (1241-1247), and the factor the gain is multiplied with (1248-1252). *)
  Definition gain_mode_fit (mode amp phase : R) (f : nat) : cx :=
    cscale amp (cexp_i (- (2 * PI * (mode * INR f / INR (fi_n_freq i))) + phase)).
  Definition factor (t f : nat) : option cx :=
    match fit t with
    | (_, None) => None
    | (mode, Some (amp, phase)) =>
        let g := gain_mode_fit mode amp phase f in
        Some (match fi_auto i with None => cadd (1, 0) g | Some _ => cexp_i (snd g) end)
    end.
End Fit.
