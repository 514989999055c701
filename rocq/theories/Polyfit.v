(** Model of vis_cal_polyfit, PyFHD/calibration/calibration_utils.py:856-1256. Floats are exact rationals, [None] is
    NaN or an infinity. NumPy's polynomial fit, np.unwrap, np.abs, arctan2, exp(1j x) and the hyperresolved search
    (1131-1212) are parameters. Recording cal["mode_params"] is left out. *)
From Verif Require Import Base Cplx NpArr PyIndex VisWeights GridLoc CalFlag.
Open Scope nat_scope.

Definition oadd (a b : option Qc) : option Qc := match a, b with Some x, Some y => Some (x + y)%Qc | _, _ => None end.
Definition omul (a b : option Qc) : option Qc := match a, b with Some x, Some y => Some (x * y)%Qc | _, _ => None end.
Definition cmul_o (a b : option C) : option C := match a, b with Some x, Some y => Some (x * y)%C | _, _ => None end.

(** sum over di in range(n) of coef[di] * x ** di; the callers make sure that coef is long enough *)
Fixpoint poly_sum (coef : list (option Qc)) (n : nat) (x : Qc) : option Qc :=
  match n with
  | 0 => Some 0%Qc
  | S m => oadd (poly_sum coef m x) (omul (nth m coef None) (Some (Qcpower x m)))
  end.

Record polyfit_config := {
  c_amp_degree : nat; c_phase_degree : nat;     (* None counts as 0 *)
  c_jump : bool;                                (* digital_gain_jump_polyfit *)
  c_file : bool; c_theory : Qc;                 (* cal_reflection_mode_file, _theory (0: off) *)
  c_delay : bool; c_hyper : bool }.

Section Polyfit.
  Variable abs_ : C -> Qc.
  Variable arg_ : C -> Qc.                                       (* arctan2(imag, real) *)
  Variable expi : Qc -> C.                                       (* exp(1j * x) *)
  Variable unwrap : list (option Qc) -> list (option Qc).
  (** Polynomial.fit(x, y, deg).convert().coef for a non-empty [x]: the coefficients, lowest first. NumPy drops
      trailing zeros, so there may be fewer than deg + 1. *)
  Variable fit : list nat -> list (option Qc) -> nat -> list (option Qc).
  (** the modes: exp(2j pi x) *)
  Variable turn : Qc -> C.

  (** lines 1000-1009. An empty fit raises ValueError; with a single channel np.squeeze (946) turns the gains into a
      scalar, which the fit rejects (TypeError). The coefficients are stored in an array of length deg + 1 (1008):
      a single one is broadcast, any other length raises ValueError. *)
  Definition store {A} (len deg1 : nat) (k : result A) : result A :=
    if (len =? deg1) || (len =? 1) then k else Err ValueError.

  Definition amp_full (freqs : list nat) (deg : nat) (amp : nat -> option Qc) : result (nat -> option Qc) :=
    match freqs with
    | [] => Err ValueError
    | [_] => Err TypeError
    | _ =>
      let c := fit freqs (map amp freqs) deg in
      store (length c) (deg + 1)
        (if length c <? deg then Err IndexError
         else Ok (fun f => poly_sum c deg (qc_nat f)))
    end.

  (** lines 949-998; [below f]: the frequency of channel f is less than 187.515 MHz. *)
  Definition amp_jump (below : nat -> bool) (freqs : list nat) (deg : nat) (amp : nat -> option Qc) : result (nat -> option Qc) :=
    match where_ (fun f => below f) freqs with
    | [] => Ok (fun _ => Some 0%Qc)
    | pre =>
      if length freqs =? 1 then Err IndexError else
      let fd := list_max pre in
      let f0 := nth 0 freqs 0 in
      let fl := nth fd freqs 0 in
      let lo := firstn (S fd) freqs in
      let hi := skipn (S fd) freqs in
      let c1 := fit lo (map amp lo) (deg - 1) in
      match hi with
      | [] => Err ValueError
      | h0 :: _ =>
        let hl := nth (length freqs - 1) freqs 0 in
        let c2 := fit hi (map amp hi) (deg - 1) in
        if deg =? 0 then Err ValueError else
        if length c1 =? 0 then Err IndexError else
        (** gain_fit[f0 : fl + 1] += c * np.arange(fl) ** di *)
        if negb ((fl - f0 + 1 =? fl) || (fl =? 1)) then Err ValueError else
        if (length c1 <? deg) || (length c2 <? deg) then Err IndexError else
        (** a (2, deg) array is stored in one of shape (deg, deg) *)
        if negb ((length c1 =? deg) && (length c2 =? deg) && (deg =? 2)) then Err ValueError else
        Ok (fun f =>
          oadd (if (f0 <=? f) && (f <=? fl) then poly_sum c1 deg (qc_nat (if fl =? 1 then 0 else f - f0)) else Some 0%Qc)
               (if (h0 <=? f) && (f <=? hl) then poly_sum c2 deg (qc_nat f) else Some 0%Qc))
      end
    end.

  (** lines 1011-1026 *)
  Definition phase_full (freqs : list nat) (deg : nat) (phase : nat -> option Qc) : result (nat -> option Qc) :=
    match freqs with
    | [] => Err ValueError
    | [_] => Err TypeError
    | _ =>
      let c := fit freqs (unwrap (map phase freqs)) deg in
      store (length c) (deg + 1) (Ok (fun f => poly_sum c (length c) (qc_nat f)))
    end.

  (** lines 943-1028: one tile of one polarisation *)
  Definition fit_tile (cfg : polyfit_config) (below : nat -> bool) (freqs : list nat) (g : nat -> option C) : result (nat -> option C) :=
    let da := if c_amp_degree cfg =? 0 then 2 else c_amp_degree cfg in
    let dp := if c_phase_degree cfg =? 0 then 1 else c_phase_degree cfg in
    let amp f := option_map abs_ (g f) in
    let phase f := option_map arg_ (g f) in
    a <- (if c_jump cfg then amp_jump below freqs da amp else amp_full freqs da amp) ;;
    p <- phase_full freqs dp phase ;;
    Ok (fun f => match a f, p f with Some x, Some y => Some (Cscale x (expi y)) | _, _ => None end).

  (** the gains of all polarisations and tiles; with frequencies of another length an index is out of range *)
  Definition fit_all (cfg : polyfit_config) (below : nat -> bool) (freqs : list nat) (gain : arr3 (option C)) : result (arr3 (option C)) :=
    if negb (forallb (fun f => f <? d_freq gain) freqs) then Err IndexError else
    rows <- map_res (fun p => map_res (fun t => fit_tile cfg below freqs (fun f => at3 gain p f t)) (seq 0 (d_bl gain))) (seq 0 (d_pol gain)) ;;
    Ok (Arr3 (d_pol gain) (d_freq gain) (d_bl gain) (fun p f t => nth t (nth p rows []) (fun _ => None) f)).

  (** ** Cable reflections (1029-1255) *)

  (** One line of the cable table: length, velocity factor, flag (columns 2-4) *)
  Record cable_row := { k_length : Qc; k_vf : Qc; k_flag : Qc }.
  Definition clip01 (x : Qc) : Qc := if Qclt_le_dec x 0 then 0%Qc else if Qclt_le_dec 1 x then 1%Qc else x.

  (** lines 1059-1085, [light] = c.value, [span] = max - min of the frequencies *)
  Definition theory_mode (light span : Qc) (n_freq : nat) (k : cable_row) : Qc :=
    (span * qc_nat n_freq / qc_nat (n_freq - 1) * (Q2Qc 2 * k_length k / (light * k_vf k)) * clip01 (k_flag k))%Qc.

  (** lines 1116-1135: cal_mode_fit is the theory option when its magnitude exceeds 1, else True (= 1) *)
  Definition chosen (theory : Qc) : bool :=
    if Qclt_le_dec 1 theory then true else if Qclt_le_dec theory (- (1)) then true else false.
  Definition kept_cable (theory : Qc) (len : Qc) : bool :=
    if Qclt_le_dec 1 theory then (if Qc_eq_dec len theory then true else false)
    else if Qclt_le_dec theory (- (1)) then (if Qc_eq_dec len (- theory) then false else true)
    else true.

  Definition csum_o (l : list (option C)) : option C := fold_right (fun x acc =>
    match x, acc with Some a, Some b => Some (a + b)%C | _, _ => None end) (Some C0) l.

  (** og_gain / gain: NaN or infinite when the fitted gain is zero *)
  Definition ratio_o (og g : option C) : option C :=
    match og, g with
    | Some a, Some b => if C_eq_dec b C0 then None else Some (Cdiv a b)
    | _, _ => None
    end.

  (** lines 1218-1227: amplitude and phase of a given mode. Line 1226 divides by freq_use[0].size, which is 1. *)
  Definition nominal_fit (n_freq : nat) (freqs : list nat) (mode : Qc) (rho : nat -> option C) : option (Qc * Qc) :=
    match csum_o (map (fun f => cmul_o (Some (turn (mode * qc_nat f / qc_nat n_freq)%Qc)) (rho f)) freqs) with
    | Some m => Some (abs_ m, arg_ m)
    | None => None
    end.

  (** lines 1229-1243: the factor on the gain of channel f *)
  Definition reflection (auto : bool) (n_freq : nat) (mode : Qc) (amp_phase : option (Qc * Qc)) (f : nat) : option C :=
    match amp_phase with
    | Some (amp, phase) =>
        let w := Cscale amp (turn (- (mode * (qc_nat f / qc_nat n_freq)))%Qc * expi phase)%C in
        Some (if auto then expi (im w) else (C1 + w)%C)
    | None => None
    end.

  (** [hyper] replaces mode, amplitude and phase of (polarisation, tile) given the modes and the gain ratios *)
  Variable hyper : nat -> nat -> (nat -> nat -> Qc) -> (nat -> nat -> nat -> option C) -> result (Qc * option (Qc * Qc)).
  (** the argmax of lines 1093-1108, given the spectra *)
  Variable delay_mode : arr3 (option C) -> Qc.

  (** lines 1029-1110: the mode of each polarisation and tile. *)
  Definition modes (cfg : polyfit_config) (light span : Qc) (table : list cable_row) (tiles : list nat) (gain : arr3 (option C))
      : result (nat -> nat -> Qc) :=
    let n_freq := d_freq gain in let n_tile := d_bl gain in let n_pol := d_pol gain in
    if c_file cfg then
      (** 1049-1055: two rows are written, whatever n_pol; then np.vstack is indexed instead of called *)
      if n_pol <? 2 then Err IndexError else
      if negb (length table =? n_tile) then Err ValueError else Err TypeError
    else if negb (if Qc_eq_dec (c_theory cfg) 0 then true else false) then
      if (length table <? 1) || (n_freq =? 0) then Err ValueError else
      Ok (fun _ t => match nth_error table t with Some k => theory_mode light span n_freq k | None => 0%Qc end)
    else if c_delay cfg then
      (** 1098: gain_residual[pol_i, tile_i] takes the tile number as a channel; the spectrum has n_tile entries *)
      if (1 <=? n_pol) && negb (forallb (fun t => t <? n_freq) tiles) then Err IndexError else
      if (1 <=? n_pol) && (1 <=? length tiles) && (n_tile <? n_freq / 2) then Err IndexError else
      Ok (fun _ _ => delay_mode gain)
    else Err UnboundLocal.

  (** lines 895-1256. [auto]: auto_ratio was given. *)
  Definition vis_cal_polyfit (cfg : polyfit_config) (below : nat -> bool) (freq_use tile_use : list Z)
      (light span : Qc) (table : list cable_row) (auto : bool) (gain : arr3 (option C)) : result (arr3 (option C)) :=
    let freqs := nonzero freq_use in
    let tiles := nonzero tile_use in
    g <- fit_all cfg below freqs gain ;;
    let theory_on := negb (if Qc_eq_dec (c_theory cfg) 0 then true else false) in
    if negb (c_file cfg || theory_on || c_delay cfg || c_hyper cfg) then Ok g else
    m <- modes cfg light span table tiles gain ;;
    (** the table must describe the tiles: it is indexed by tile (1144), and with a chosen cable length multiplied
        by an array of n_tile entries (1121-1135, where the error may also be a ValueError) *)
    if theory_on && (negb (forallb (fun t => t <? length table) tiles)
                     || (negb auto && chosen (c_theory cfg) && negb (length table =? d_bl gain))) then Err IndexError else
    let m' p t := if theory_on && negb auto && negb (kept_cable (c_theory cfg) (match nth_error table t with Some k => k_length k | None => 0%Qc end))
                  then 0%Qc else m p t in
    let rho p f t := ratio_o (at3 gain p f t) (at3 g p f t) in
    fits <- map_res (fun p => map_res (fun t =>
        if negb (existsb (Nat.eqb t) tiles) || (if Qc_eq_dec (m' p t) 0 then true else false) then Ok None
        else if c_hyper cfg then h <- hyper p t m' rho ;; Ok (Some h)
        else Ok (Some (m' p t, nominal_fit (d_freq gain) freqs (m' p t) (fun f => rho p f t)))) (seq 0 (d_bl gain))) (seq 0 (d_pol gain)) ;;
    Ok (Arr3 (d_pol gain) (d_freq gain) (d_bl gain) (fun p f t =>
          match nth t (nth p fits []) None with
          | None => at3 g p f t
          | Some (mode, ap) => cmul_o (at3 g p f t) (reflection auto (d_freq gain) mode ap f)
          end)).
End Polyfit.
