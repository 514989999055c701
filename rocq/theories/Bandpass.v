(** Model of vis_cal_bandpass, PyFHD/calibration/calibration_utils.py:692-853, without the transfer of a
    bandpass from a file (724-730). Gains are complex numbers with exact rational parts, [None] stands
    for NaN or infinite values. np.abs and resistant_mean(.., 2) are oracles. *)
From Verif Require Import Base SortLib NpArr PyIndex Cplx CalApply VisWeights CalFlag.
Open Scope nat_scope.

Section Bandpass.
  Variable cabs : C -> Qc.
  Variable rmean : list (option Qc) -> option Qc.

  Definition mem (k : nat) (l : list nat) : bool := existsb (Nat.eqb k) l.

  (** lines 788-799 and 828-835: the amplitudes of tile t at the used frequencies divided by their
      resistant mean, 0 if that is 0 *)
  Definition norm_amp (gain : arr3 (option C)) (freqs : list nat) (p f t : nat) : option Qc :=
    let amp f := option_map cabs (at3 gain p f t) in
    match rmean (map amp freqs) with
    | None => None
    | Some m => if Qc_eq_dec m 0 then Some 0%Qc
                else match amp f with Some a => Some (a / m)%Qc | None => None end
    end.
  (** lines 801-804 and 837-840 *)
  Definition bandpass_single (gain : arr3 (option C)) (freqs tiles : list nat) (p f : nat) : option Qc :=
    rmean (map (norm_amp gain freqs p f) tiles).

  (** complex / real: NaN or infinite for a zero or NaN divisor *)
  Definition over (g : option C) (b : option Qc) : option C :=
    match g, b with
    | Some g, Some b => if Qc_eq_dec b 0 then None else Some (Cscale (Qcinv b) g)
    | _, _ => None
    end.

  (** lines 821-848: without cable groups. The tile axis is that of the gains (obs["n_tile"]). *)
  Definition bandpass_global (gain : arr3 (option C)) (freqs tiles : list nat) : arr3 (option C) * arr3 (option C) :=
    (Arr3 (d_pol gain) (d_freq gain) (d_bl gain) (fun p f t =>
       if mem f freqs then option_map RtoC (bandpass_single gain freqs tiles p f) else Some C0),
     Arr3 (d_pol gain) (d_freq gain) (d_bl gain) (fun p f t =>
       if mem f freqs then over (at3 gain p f t) (bandpass_single gain freqs tiles p f) else at3 gain p f t)).

  (** lines 735-817: with cable groups. [cable_len]: one length per tile. *)
  Definition groups (tile_use cable_len : list Z) : list (list nat) :=
    map (fun c => filter (fun t => negb (nth t tile_use 0 =? 0)%Z && (nth t cable_len 0 =? c)%Z)
                         (seq 0 (length tile_use)))
        (np_unique cable_len).
  Definition bandpass_cable (gain : arr3 (option C)) (freqs : list nat) (tile_use cable_len : list Z)
      (auto_ratio : bool) : result (arr3 (option C) * arr3 (option C)) :=
    if negb (length tile_use =? length cable_len) then Err ValueError else
    let gs := groups tile_use cable_len in
    let global := existsb (fun g => length g =? 0) gs || auto_ratio in
    let gain2 := fold_left (fun g2 g =>
        let tiles := if global then nonzero tile_use else g in
        fun p f t => if mem f freqs && mem t tiles then bandpass_single gain freqs tiles p f else g2 p f t)
        gs (fun _ _ _ => Some 0%Qc) in
    Ok (Arr3 (d_pol gain) (d_freq gain) (d_bl gain) (fun p f t => option_map RtoC (gain2 p f t)),
        Arr3 (d_pol gain) (d_freq gain) (d_bl gain) (fun p f t =>
          if mem f freqs then over (at3 gain p f t) (gain2 p f t) else at3 gain p f t)).

  (** lines 718-853. [cable]: cable_bandpass_fit with the cable lengths of the instrument's file. The
      number of polarisations is that of the gains. *)
  Definition vis_cal_bandpass (gain : arr3 (option C)) (freq_use tile_use : list Z)
      (cable : option (list Z)) (auto_ratio : bool) : result (arr3 (option C) * arr3 (option C)) :=
    let freqs := nonzero freq_use in
    let tiles := nonzero tile_use in
    if (d_pol gain =? 0) then Ok (gain, gain) else
    if negb (forallb (fun f => f <? d_freq gain) freqs) || negb (forallb (fun t => t <? d_bl gain) tiles)
    then Err IndexError else
    match cable with
    | None => Ok (bandpass_global gain freqs tiles)
    | Some cable_len => bandpass_cable gain freqs tile_use cable_len auto_ratio
    end.
End Bandpass.
