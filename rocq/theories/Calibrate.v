(** Model of calibrate, PyFHD/calibration/calibrate.py:22-187. The calibration dictionary is represented by its
    gain array; the steps are parameters that may fail (most have their own model: CalApply, CalAuto, Bandpass,
    CalFlag, Solver). Logging is left out. *)
From Verif Require Import Base Cplx NpArr VisWeights CalAuto.
Open Scope nat_scope.

Definition gains := arr3 (option C).
(** obs["baseline_info"]["tile_use"] and ["freq_use"] *)
Record used_sets := { u_tile : list Z; u_freq : list Z }.

Record cal_options := {
  o_auto_initialize : bool; o_flag : bool; o_bandpass : bool; o_auto_ratio : bool; o_polyfit : bool;
  o_auto_fit : bool; o_plots : bool; o_gain_init : C }.

(** [A]: autocorrelations of data and model with the tiles they belong to; [R]: the auto ratio; [H]: the histogram *)
Record cal_stages (A R H : Type) := {
  s_autos : result A;                                       (* vis_extract_autocorr, data then model *)
  s_auto_init : A -> result gains;                          (* vis_cal_auto_init *)
  s_solve : gains -> result gains;                          (* vis_calibrate_subroutine *)
  s_flag : gains -> used_sets -> result used_sets;          (* vis_calibration_flag *)
  s_divide : used_sets -> gains -> A -> result (gains * R); (* cal_auto_ratio_divide *)
  s_bandpass : used_sets -> gains -> result (gains * gains);(* vis_cal_bandpass *)
  s_polyfit : used_sets -> gains -> option R -> result gains; (* vis_cal_polyfit *)
  s_remultiply : gains -> R -> A -> result gains;           (* cal_auto_ratio_remultiply *)
  s_auto_fit : used_sets -> gains -> A -> result gains;     (* vis_cal_auto_fit *)
  s_apply : gains -> result (arr3 C);                       (* vis_calibration_apply *)
  s_hist : arr3 C -> result H;                              (* vis_baseline_hist *)
  s_rmean : list (option Qc) -> option Qc;                  (* resistant_mean(.., 2) *)
  s_std : list (option Qc) -> option Qc;                    (* np.std *)
  s_plots : gains -> gains -> result unit }.
Arguments s_autos {A R H}. Arguments s_auto_init {A R H}. Arguments s_solve {A R H}. Arguments s_flag {A R H}.
Arguments s_divide {A R H}. Arguments s_bandpass {A R H}. Arguments s_polyfit {A R H}. Arguments s_remultiply {A R H}.
Arguments s_auto_fit {A R H}. Arguments s_apply {A R H}. Arguments s_hist {A R H}. Arguments s_rmean {A R H}.
Arguments s_std {A R H}. Arguments s_plots {A R H}.

(** Elementwise operations on gain arrays; NaN absorbs. *)
Definition gzip (op : C -> C -> C) (a b : gains) : result gains :=
  if same3 a b
  then Ok (Arr3 (d_pol a) (d_freq a) (d_bl a) (fun p f t =>
             match at3 a p f t, at3 b p f t with Some x, Some y => Some (op x y) | _, _ => None end))
  else Err ValueError.

(** lines 95-128: bandpass, polynomial and auto ratio. Line 128 passes cal and obs in the wrong order: the
    first thing vis_cal_polyfit does (895) is to read obs["gain"], a key the observation does not have. *)
Definition fit_gains {A R H} (st : cal_stages A R H) (o : cal_options) (use : used_sets) (a : A) (gain : gains) : result gains :=
  if o_bandpass o then
    '(gain, ratio) <- (if o_auto_ratio o then ' (g, r) <- s_divide st use gain a ;; Ok (g, Some r) else Ok (gain, None)) ;;
    '(bp, rem) <- s_bandpass st use gain ;;
    gain <- (if o_polyfit o then pf <- s_polyfit st use rem ratio ;; gzip Cmul pf bp else Ok bp) ;;
    match ratio with
    | Some r => s_remultiply st gain r a
    | None => Ok gain
    end
  else if o_polyfit o then Err KeyError
  else Ok gain.

Record cal_out (H : Type) := {
  r_vis : arr3 C; r_gain : gains; r_residual : gains; r_use : used_sets; r_hist : H;
  r_mean_gain : list (option Qc); r_mean_residual : list (option Qc);
  r_restrict : list (option Qc); r_stddev : list (option Qc) }.
Arguments r_vis {H}. Arguments r_gain {H}. Arguments r_residual {H}. Arguments r_use {H}. Arguments r_hist {H}.
Arguments r_mean_gain {H}. Arguments r_mean_residual {H}. Arguments r_restrict {H}. Arguments r_stddev {H}.

Section Stats.
  Variable abs_ : C -> Qc.

  (** np.mean *)
  Definition omean (l : list (option Qc)) : option Qc :=
    match osum l with Some s => Some (s / GridLoc.qc_nat (length l))%Qc | None => None end.

  (** lines 164-173: the amplitudes of the used frequencies and tiles of one polarisation *)
  Definition used_abs (use : used_sets) (g : gains) (p : nat) : list (option Qc) :=
    flat_map (fun f => map (fun t => option_map abs_ (at3 g p f t)) (where_ (fun z => negb (z =? 0)%Z) (u_tile use)))
             (where_ (fun z => negb (z =? 0)%Z) (u_freq use)).

  (** one of the four statistics: 0 when nothing is used (166-167) *)
  Definition stat (fn : list (option Qc) -> option Qc) (use : used_sets) (g : gains) (p : nat) : option Qc :=
    match where_ (fun z => negb (z =? 0)%Z) (u_tile use), where_ (fun z => negb (z =? 0)%Z) (u_freq use) with
    | [], _ | _, [] => Some 0%Qc
    | _, _ => fn (used_abs use g p)
    end.

  (** lines 60-187. [n_tile_names] is the number of tile names (66 reads the second one). *)
  Definition calibrate {A R H} (st : cal_stages A R H) (o : cal_options) (n_pol n_freq n_tile n_tile_names : nat)
      (use : used_sets) : result (cal_out H) :=
    let nc := Nat.min n_pol 2 in
    if n_tile_names <? 2 then Err IndexError else
    a <- s_autos st ;;
    gain0 <- (if o_auto_initialize o then s_auto_init st a
              else Ok (Arr3 nc n_freq n_tile (fun _ _ _ => Some (o_gain_init o)))) ;;
    base <- s_solve st gain0 ;;
    use <- (if o_flag o then s_flag st base use else Ok use) ;;
    gain <- fit_gains st o use a base ;;
    gain <- (if o_auto_fit o then s_auto_fit st use gain a else Ok gain) ;;
    res <- gzip Csub base gain ;;
    vis <- s_apply st gain ;;
    h <- s_hist st vis ;;
    let inside := forallb (fun f => f <? d_freq gain) (where_ (fun z => negb (z =? 0)%Z) (u_freq use))
                  && forallb (fun t => t <? d_bl gain) (where_ (fun z => negb (z =? 0)%Z) (u_tile use)) in
    if negb inside || (d_pol gain <? nc) then Err IndexError else
    _ <- (if o_plots o then s_plots st gain res else Ok tt) ;;
    Ok {| r_vis := vis; r_gain := gain; r_residual := res; r_use := use; r_hist := h;
          r_mean_gain := map (stat omean use gain) (seq 0 nc);
          r_mean_residual := map (stat omean use res) (seq 0 nc);
          r_restrict := map (stat (s_rmean st) use res) (seq 0 nc);
          r_stddev := map (stat (s_std st) use res) (seq 0 nc) |}.
End Stats.
