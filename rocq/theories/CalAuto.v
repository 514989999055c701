(** Model of vis_cal_auto_init (99-165), vis_cal_auto_fit (1259-1351) and vis_baseline_hist (1484-1552) of
    PyFHD/calibration/calibration_utils.py. Floats are exact rationals, [None] stands for NaN;
    np.sqrt, np.abs on complex numbers, exp(1j*arctan2(...)) and np.linalg.lstsq are parameters. *)
From Coq Require Import Qabs.
From Verif Require Import Base Cplx NpArr PyIndex VisWeights GridLoc VisGrid WeightInvert CalApply ResMean Histogram.
Open Scope nat_scope.

(** Same shape, otherwise ValueError (broadcasting of axes of length 1 is not modelled). *)
Definition same3 {A B} (x : arr3 A) (y : arr3 B) : bool :=
  (d_pol x =? d_pol y) && (d_freq x =? d_freq y) && (d_bl x =? d_bl y).

Section Auto.
  Variable sqrt_ : Qc -> Qc.        (* np.sqrt on numbers >= 0 *)
  Variable abs_ : C -> Qc.          (* np.abs of a complex number *)

  (** np.sqrt of a float: NaN below zero *)
  Definition fsqrt (x : Qc) : option Qc := if Qcleb 0 x then Some (sqrt_ x) else None.

  (** np.sqrt(vis_auto * weight_invert(vis_auto_model)) (154-156, 1303-1305) *)
  Definition auto_amp (va vm : arr3 Qc) (p f k : nat) : option Qc :=
    fsqrt (at3 va p f k * winvert None (at3 vm p f k))%Qc.

  (** The column of tile [t] after [a[:, auto_tile_i] = ...]: with repeated tiles the last one wins. *)
  Definition column (tiles : list nat) (t : nat) : option nat :=
    find (fun k => nth k tiles 0 =? t) (rev (seq 0 (length tiles))).

  (** lines 147-150: np.sqrt(res_mean_data / res_mean_model); [None] also stands for an infinity (when
      the model mean is 0), which like NaN ends up as a gain of 1: an infinite complex factor is inf+nanj. *)
  Definition cross_scale (freq_use : list Z) (vis vm : arr3 C) (p : nat) : option Qc :=
    let use := where_ (fun z => negb (z =? 0)%Z) freq_use in
    let amps (v : arr3 C) := flat_map (fun f => map (fun b => this (abs_ (at3 v p f b))) (seq 0 (d_bl v))) use in
    match resistant_mean (amps vis) 2, resistant_mean (amps vm) 2 with
    | Some d, Some m => if Qeq_bool m 0 then None else fsqrt (Q2Qc (d / m)%Q)
    | _, _ => None
    end.

  Fixpoint osum (l : list (option Qc)) : option Qc :=
    match l with
    | [] => Some 0%Qc
    | x :: t => match x, osum t with Some a, Some b => Some (a + b)%Qc | _, _ => None end
    end.

  (** lines 152-163, one polarisation. [raw] is the array after 153-156. The mean is NaN as soon as one
      entry is, and weight_invert turns that into 0 (157-159). 160: NaN becomes 1; 161: so does <= 0. The
      imaginary parts are all 0 and are not represented. *)
  Definition init_gain (n_freq n_tile : nat) (raw : nat -> nat -> option Qc) (scale : option Qc)
      (f t : nat) : Qc :=
    let inv_mean := match osum (flat2 n_freq n_tile raw) with
                    | Some s => winvert None (s / qc_nat (n_freq * n_tile))%Qc
                    | None => 0%Qc
                    end in
    match raw f t, scale with
    | Some r, Some s => let g := (r * (s * inv_mean))%Qc in if Qcleb g 0 then 1%Qc else g
    | _, _ => 1%Qc
    end.

  (** lines 141-165 *)
  Definition vis_cal_auto_init (n_pol n_freq n_tile : nat) (freq_use : list Z) (vis vm : arr3 C)
      (vis_auto auto_model : arr3 Qc) (auto_tile_i : list Z) : result (arr3 Qc) :=
    if (d_pol vis <? n_pol) || (d_pol vm <? n_pol) then Err IndexError else
    if negb (forallb (fun f => (f <? d_freq vis) && (f <? d_freq vm)) (where_ (fun z => negb (z =? 0)%Z) freq_use))
    then Err IndexError else
    if n_pol =? 0 then Ok (Arr3 0 n_freq n_tile (fun _ _ _ => 1%Qc)) else
    if (d_pol vis_auto <? n_pol) || (d_pol auto_model <? n_pol) then Err IndexError else
    if negb (same3 vis_auto auto_model) then Err ValueError else
    tiles <- map_res (norm_index n_tile) auto_tile_i ;;
    if negb ((d_freq vis_auto =? n_freq) && (d_bl vis_auto =? length auto_tile_i)) then Err ValueError else
    let raw p f t := match column tiles t with
                     | Some k => auto_amp vis_auto auto_model p f k
                     | None => Some 1%Qc
                     end in
    Ok (Arr3 n_pol n_freq n_tile (fun p f t =>
          init_gain n_freq n_tile (raw p) (cross_scale freq_use vis vm p) f t)).

  (** ** vis_cal_auto_fit *)

  Variable phase_ : C -> C.                        (* exp(1j * arctan2(z.imag, z.real)) *)
  Variable lstsq : list (Qc * Qc) -> Qc * Qc.      (* slope and offset of the least squares line *)
  Variable junk : nat -> nat -> Qc.                (* what np.empty returned for fit_slope *)
  Variable junk' : nat -> nat -> Qc.               (* and for fit_offset *)

  (** lines 1290-1292: freq_flag[minimum:maximum] = 0 *)
  Definition clear_around (n_freq : nat) (fl : list bool) (i : nat) : list bool :=
    let lo := Nat.max 0 (i - 1) in let hi := Nat.min n_freq (i + 2) in
    map (fun f => if (lo <=? f) && (f <? hi) then false else nth f fl false) (seq 0 n_freq).

  (** lines 1284-1294: the channels used for the fit *)
  Definition fit_channels (n_freq : nat) (freq_use : list Z) : list nat :=
    let used := where_ (fun z => negb (z =? 0)%Z) freq_use in
    let flagged := where_ (fun z => (z =? 0)%Z) freq_use in
    match flagged with
    | [] => used
    | _ =>
      let flag := map (fun f => memn f used) (seq 0 n_freq) in
      where_ (fun b => b) (fold_left (clear_around n_freq) flagged flag)
    end.

  (** lines 1312-1344, one tile: [auto] and [gain] are its amplitude and its gain per channel *)
  Definition fit_tile (chan : list nat) (auto : nat -> option Qc) (gain : nat -> option C)
    : (nat -> option C) * (Qc * Qc) :=
    let pairs := flat_map (fun f => match auto f, gain f with
                                    | Some a, Some g => [(a, abs_ g)]
                                    | _, _ => []
                                    end) chan in
    let '(slope, offset) := lstsq pairs in
    (fun f => match auto f, gain f with
              | Some a, Some g => Some (Cscale (a * slope + offset)%Qc (phase_ g))
              | _, _ => None
              end, (slope, offset)).

  Record fit_state := { s_gain : nat -> nat -> nat -> option C; s_slope : nat -> nat -> Qc; s_offset : nat -> nat -> Qc }.

  Definition set2 {A} (m : nat -> nat -> A) (p t : nat) (v : A) : nat -> nat -> A :=
    fun p' t' => if (p' =? p) && (t' =? t) then v else m p' t'.

  Definition fit_step (chan : list nat) (auto : nat -> nat -> nat -> option Qc) (st : fit_state) (pt : nat * nat) : fit_state :=
    let '(p, t) := pt in
    let '(g, (sl, off)) := fit_tile chan (fun f => auto p f t) (fun f => s_gain st p f t) in
    {| s_gain := fun p' f t' => if (p' =? p) && (t' =? t) then g f else s_gain st p' f t';
       s_slope := set2 (s_slope st) p t sl;
       s_offset := set2 (s_offset st) p t off |}.

  Record auto_fit := { af_gain : arr3 (option C); af_scale : list Qc;
                       af_offset : arr2 Qc; af_slope : arr2 Qc }.

  (** lines 1283-1351. The gain array is modified in place; [af_offset] and [af_slope] are
      auto_params[0] and auto_params[1], each [n_pol, n_tile]. auto_params has shape [n_pol, n_pol, n_tile]
      (1347), so index 1 does not exist with one polarisation (1349). *)
  Definition vis_cal_auto_fit (n_pol n_freq n_tile : nat) (freq_use : list Z) (gain : arr3 (option C))
      (vis_auto auto_model : arr3 Qc) (auto_tile_i : list Z) : result auto_fit :=
    if negb (length freq_use =? n_freq) then Err IndexError else
    let chan := fit_channels n_freq freq_use in
    if (d_pol vis_auto <? n_pol) || (d_pol auto_model <? n_pol) then Err IndexError else
    if negb (same3 vis_auto auto_model) then Err ValueError else
    tiles <- map_res (norm_index n_tile) auto_tile_i ;;
    if negb ((d_freq vis_auto =? n_freq) && (d_bl vis_auto =? length auto_tile_i)) then Err ValueError else
    if (d_pol gain <? n_pol) || (d_bl gain <? n_tile) then Err IndexError else
    if negb (d_freq gain =? n_freq) then Err ValueError else
    let auto p f t := match column tiles t with
                      | Some k => match auto_amp vis_auto auto_model p f k with
                                  | Some a => Some (Qcabs0 a)
                                  | None => None
                                  end
                      | None => None (* never read *)
                      end in
    let st := fold_left (fit_step chan auto)
                (flat_map (fun p => map (fun t => (p, t)) tiles) (seq 0 n_pol))
                {| s_gain := at3 gain; s_slope := junk; s_offset := junk' |} in
    let scale := map (fun p => (Qcsum (map (s_slope st p) (seq 0 n_tile)) / qc_nat (length auto_tile_i))%Qc) (seq 0 n_pol) in
    if n_pol <? 2 then Err IndexError else
    Ok {| af_gain := Arr3 (d_pol gain) (d_freq gain) (d_bl gain) (s_gain st); af_scale := scale;
          af_offset := Arr2 n_pol n_tile (s_offset st); af_slope := Arr2 n_pol n_tile (s_slope st) |}.
End Auto.

(** ** vis_baseline_hist *)

Section BaselineHist.
  Variable sqrt_ : Q -> Q.          (* np.sqrt *)
  Variable abs_ : C -> Q.           (* np.abs of a complex number *)

  Open Scope Q_scope.

  (** lines 1511-1516: the length of each baseline at each frequency, flattened frequency by frequency *)
  Definition distances (kpix : Q) (uu vv freq : list Q) : list Q :=
    let kr b := sqrt_ ((nth b uu 0 / kpix) * (nth b uu 0 / kpix) + (nth b vv 0 / kpix) * (nth b vv 0 / kpix)) in
    flat2 (length freq) (length uu) (fun f b => kr b * nth f freq 0 * kpix).

  (** arr.flatten()[i] of one polarisation *)
  Definition flat_vis (v : arr3 C) (p i : nat) : C := at3 v p (i / d_bl v)%nat (i mod d_bl v)%nat.

  (** [a - b] of two vectors with broadcasting *)
  Definition vsub (a b : list C) : result (list C) :=
    let n := length a in let m := length b in
    if (n =? m)%nat then Ok (map (fun k => (nth k a C0 - nth k b C0)%C) (seq 0 n))
    else if (n =? 1)%nat then Ok (map (fun y => (nth 0 a C0 - y)%C) b)
    else if (m =? 1)%nat then Ok (map (fun x => (x - nth 0 b C0)%C) a)
    else Err ValueError.

  (** lines 1527-1546, one bin of one polarisation: [None] leaves the zeros in place. *)
  Definition hist_bin (vis_cal vm : arr3 C) (p : nat) (inds : list nat) : result (option (Q * Q)) :=
    if negb (forallb (fun i => i <? d_freq vm * d_bl vm)%nat inds) then Err IndexError else
    let model_vals := map (flat_vis vm p) inds in
    let noflag := where_ (fun c => negb (Qle_bool (abs_ c) 0)) model_vals in
    match noflag with
    | [] => Ok None
    | _ =>
      let inds' := map (fun k => nth k inds 0%nat) noflag in
      if negb (forallb (fun i => i <? d_freq vis_cal * d_bl vis_cal)%nat inds') then Err IndexError else
      let cal_use := map (flat_vis vis_cal p) inds' in
      diff <- vsub cal_use model_vals ;;
      let m := Qmean (map abs_ model_vals) in
      Ok (Some (Qmean (map abs_ diff) / m, sqrt_ (Qvar (map abs_ diff)) / m))
    end.

  Record base_hist := { bh_length : nat; bh_mean : arr2 Q; bh_sigma : arr2 Q }.

  (** lines 1511-1552; the loop writes each cell once. *)
  Definition vis_baseline_hist (n_pol : nat) (kpix min_baseline max_baseline : Q) (uu vv freq : list Q)
      (vis_cal vm : arr3 C) : result base_hist :=
    if negb (length uu =? length vv)%nat then Err ValueError else
    '(hist, bins, ri) <- histogram (distances kpix uu vv freq) 5 None (Some min_baseline) (Some max_baseline) ;;
    if ((d_pol vis_cal <? n_pol) || (d_pol vm <? n_pol))%nat%bool then Err IndexError else
    cells <- map_res (fun p => map_res (fun i =>
        if (0 <? nth i hist 0)%nat
        then hist_bin vis_cal vm p (slice ri (nth i ri 0%nat) (nth (S i) ri 0%nat))
        else Ok None) (seq 0 (length bins))) (seq 0 n_pol) ;;
    let cell p i := nth i (nth p cells []) None in
    Ok {| bh_length := length bins;
          bh_mean := Arr2 n_pol (length bins) (fun p i => match cell p i with Some (m, _) => m | None => 0 end);
          bh_sigma := Arr2 n_pol (length bins) (fun p i => match cell p i with Some (_, s) => s | None => 0 end) |}.
End BaselineHist.
