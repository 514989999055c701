(** Model of vis_calibrate_subroutine, PyFHD/calibration/vis_calibrate_subroutine.py:57-448, around the solver for one
    polarisation and frequency (Solver.v). Only calibration_weights=False is modelled, the way calibrate.py calls it.
    Floats are exact rationals and the inputs are finite; arrays are functions of their indices and are assumed to have
    the shapes announced by obs. *)
From Verif Require Import Base PyIndex Cplx WeightInvert Histogram VisWeights Solver.
Open Scope nat_scope.

(** What is read from obs, obs["baseline_info"], params and pyfhd_config. *)
Record cal_in := {
  ci_pols : nat; ci_freqs : nat; ci_tiles : nat; ci_times : nat; ci_bls : nat;  (* n_pol .. n_baselines *)
  ci_tile_a : list Z; ci_tile_b : list Z;            (* counted from 1, one per baseline and time *)
  ci_tile_use : list Z; ci_freq_use : list Z;
  ci_freq : nat -> Qc; ci_uu : nat -> Qc; ci_vv : nat -> Qc;
  ci_kpix : Qc; ci_dimension : Z; ci_elements : Z;
  ci_min : Qc; ci_max : Qc;                          (* obs min_baseline and max_baseline *)
  ci_cal_min : Qc; ci_cal_max : Qc;                  (* min_cal_baseline and max_cal_baseline; 0 stands for unset *)
  ci_average : bool;                                 (* cal_time_average *)
  ci_max_iter : Z; ci_phase : Z; ci_base : Qc; ci_thr : Qc; ci_adapt : bool; ci_noref : bool }.

(** np.minimum(np.maximum(w, 0), 1) (150-151, 162-163) *)
Definition clip (w : Qc) : Qc :=
  let w := if Qcleb w 0 then 0%Qc else w in if Qcleb w 1 then w else 1%Qc.

Definition qabs (x : Qc) : Qc := if Qcleb 0 x then x else (- x)%Qc.
Definition half (z : Z) : Qc := (Q2Qc (inject_Z z) / Q2Qc 2)%Qc.

(** lines 63-72 *)
Definition cal_min (ci : cal_in) : Qc :=
  if Qc_eq_dec (ci_cal_min ci) 0 then ci_min ci else if Qcleb (ci_cal_min ci) (ci_min ci) then ci_min ci else ci_cal_min ci.
Definition cal_max (ci : cal_in) : Qc :=
  if Qc_eq_dec (ci_cal_max ci) 0 then ci_max ci else if Qcleb (ci_cal_max ci) (ci_max ci) then ci_cal_max ci else ci_max ci.

(** lines 114-118 *)
Definition phase_iter (ci : cal_in) : Z :=
  if (ci_phase ci =? 0)%Z then Z.min (ci_max_iter ci / 4) 4 else ci_phase ci.

(** The number of columns of the arrays that are fitted *)
Definition columns (ci : cal_in) : nat := if ci_average ci then ci_bls ci else ci_times ci * ci_bls ci.

(** What one polarisation produces: the arrays written at 442-445, the final weight array, the columns of vis_weights
    set to 0 (437) and the tile written to cal["ref_antenna"] (242). *)
Record pol_out := {
  po_gain : nat -> nat -> option C; po_conv : nat -> nat -> option Qc; po_iter : nat -> nat -> Z; po_nconv : nat;
  po_zeroed : list nat; po_ref : option nat }.

Record sub_out := { so_pols : list pol_out; so_nvis : nat }.

(** tile_A_i_use (220-233): every baseline of the data has the position of its tile in tile_use, 0 if it is not there. *)
Definition put {A} (l : list A) (idx : list nat) (v : A) : list A := fold_left (fun l i => upd l i v) idx l.
Definition positions (tile_use hist ri : list nat) (n : nat) : list nat :=
  fold_left (fun acc k =>
      let t := nth k tile_use 0 in
      if 0 <? nth t hist 0 then put acc (slice ri (nth t ri 0) (nth (S t) ri 0)) k else acc)
    (seq 0 (length tile_use)) (repeat 0 n).

Definition find_pos (l : list nat) (t : nat) : option nat :=
  find (fun k => nth k l 0 =? t) (seq 0 (length l)).
Definition assoc {A} (l : list (nat * A)) (f : nat) : option A :=
  option_map snd (find (fun x => fst x =? f) l).

(** gain_curr after a frequency (NaN for all tiles is [None] in Solver.v) *)
Definition curr_of (n : nat) (r : sout) : list (option C) :=
  match r_gain r with Some g => map Some g | None => repeat None n end.

(** lines 433-441: the frequencies and the columns set to 0 because of NaN gains. [curr] is gain_curr of the frequency
    solved last; its positions are used as frequencies (435-439). *)
Definition nan_rows (n_freq n_samples n_col : nat) (curr : list (option C)) : result (list nat * list nat) :=
  let nan_i := where_ (fun g => match g with None => true | _ => false end) curr in
  match nan_i with
  | [] => Ok ([], [])
  | _ =>
    let fn := map (fun k => k mod n_freq) nan_i in
    let uniq := filter (fun k => memn k fn) (seq 0 n_freq) in
    if negb (forallb (fun k => k <? length fn) uniq) then Err IndexError else
    let cols := map (fun k => nth k fn 0) uniq in
    if negb (forallb (fun k => k <? n_samples) cols && forallb (fun k => k <? n_col) cols && forallb (fun k => k <? n_freq) nan_i)
    then Err IndexError
    else Ok (nan_i, cols)
  end.

Section Sub.
  Variable cabs : C -> Qc.        (* np.abs *)
  Variable sqrt_ : Qc -> Qc.      (* np.sqrt *)
  Variable ci : cal_in.
  Variables vis model : nat -> nat -> nat -> C.    (* [polarisation, frequency, baseline and time] *)
  Variable wts : nat -> nat -> nat -> Qc.
  Variable start : nat -> nat -> nat -> C.         (* cal["gain"] on entry *)

  (** lines 149-156: the sum over the times of baseline b; sample t * n_baselines + b *)
  Definition sample (t b : nat) : nat := t * ci_bls ci + b.
  Definition weight0 (p f b : nat) : Qc :=
    if ci_average ci then Qcsum (map (fun t => clip (wts p f (sample t b))) (seq 0 (ci_times ci)))
    else clip (wts p f b).
  Definition sum0 (v : nat -> nat -> nat -> C) (p f b : nat) : C :=
    if ci_average ci
    then Csum (map (fun t => Cscale (clip (wts p f (sample t b))) (v p f (sample t b))) (seq 0 (ci_times ci)))
    else Cscale (clip (wts p f b)) (v p f b).

  (** lines 158-159, 168-176, 198-204 *)
  Definition kx (b : nat) : Qc := (ci_uu ci b / ci_kpix ci)%Qc.
  Definition ky (b : nat) : Qc := (ci_vv ci b / ci_kpix ci)%Qc.
  Definition dist (f b : nat) : Qc := (sqrt_ (kx b * kx b + ky b * ky b) * ci_freq ci f * ci_kpix ci)%Qc.
  Definition cut (f b : nat) : bool :=
    negb (Qcleb (cal_min ci) (dist f b)) || negb (Qcleb (dist f b) (cal_max ci))
    || negb (Qcleb (qabs (kx b) * ci_freq ci f) (half (ci_elements ci)))
    || negb (Qcleb (qabs (ky b) * ci_freq ci f) (half (ci_dimension ci))).

  (** lines 208-211 *)
  Definition weight (p f b : nat) : Qc := if cut f b then 0%Qc else weight0 p f b.
  Definition averaged (v : nat -> nat -> nat -> C) (p f b : nat) : C :=
    Cscale (Qcinv (weight p f b)) (sum0 v p f b).

  (** lines 216-218 *)
  Definition freqs_used (p : nat) : list nat :=
    filter (fun f => negb (Qcleb (Qcsum (map (weight p f) (seq 0 (columns ci)))) 0) && (0 <? nth f (ci_freq_use ci) 0)%Z)
           (seq 0 (ci_freqs ci)).
  Definition bls_used (p : nat) : list nat :=
    filter (fun b => negb (Qceqb (Qcsum (map (fun f => weight p f b) (seq 0 (ci_freqs ci)))) 0)) (seq 0 (columns ci)).

  (** tile_A_i = tile_a - 1, the first n_baselines of it when averaging (108-109, 141-142) *)
  Definition tiles_of (l : list Z) : list Z :=
    let l := map (fun z => (z - 1)%Z) l in if ci_average ci then firstn (ci_bls ci) l else l.
  Definition gather (l : list Z) (idx : list nat) : result (list Z) :=
    if forallb (fun i => i <? length l) idx then Ok (map (fun i => nth i l 0%Z) idx) else Err IndexError.
  Definition tile_histogram (tiles : list Z) : result (list nat * list Q * list nat) :=
    histogram (map inject_Z tiles) 1 None (Some 0%Q) (Some (inject_Z (Z.of_nat (ci_tiles ci) - 1))).

  Definition config (ref : nat) : scfg :=
    {| s_max := ci_max_iter ci; s_phase := phase_iter ci; s_base := ci_base ci; s_thr := ci_thr ci; s_adapt := ci_adapt ci;
       s_ref := ref; s_noref := ci_noref ci |}.

  (** lines 256-278: the data of frequency f *)
  Definition freq_data (p f : nat) (bls pa pb : list nat) : list baseline :=
    map (fun k => let b := nth k bls 0 in
           {| b_a := nth k pa 0; b_b := nth k pb 0; b_data := averaged vis p f b; b_model := averaged model p f b;
              b_weight := weight p f b |}) (seq 0 (length bls)).

  (** lines 127-445 for polarisation p. [prev]: gain_curr as left by the previous polarisation *)
  Definition cal_pol (p : nat) (prev : option (list (option C))) : result (pol_out * option (list (option C)) * (nat -> nat -> Qc)) :=
    if negb ((length (ci_freq_use ci) =? ci_freqs ci) && (length (ci_tile_use ci) =? ci_tiles ci)) then Err ValueError else
    let freqs := freqs_used p in
    let bls := bls_used p in
    ta <- gather (tiles_of (ci_tile_a ci)) bls ;;
    tb <- gather (tiles_of (ci_tile_b ci)) bls ;;
    '(ha, _, ria) <- tile_histogram ta ;;
    '(hb, _, rib) <- tile_histogram tb ;;
    let count t := nth t ha 0 + nth t hb 0 in
    let tile_use := filter (fun t => (0 <? count t) && (0 <? nth t (ci_tile_use ci) 0)%Z) (seq 0 (ci_tiles ci)) in
    let tile_flag := filter (fun t => (count t =? 0) && (nth t (ci_tile_use ci) 0 =? 0)%Z) (seq 0 (ci_tiles ci)) in
    let n := length tile_use in
    let pa := positions tile_use ha ria (length bls) in
    let pb := positions tile_use hb rib (length bls) in
    (** 235-246, with reference_tile = 1 (59) *)
    '(ref, moved) <- match find_pos tile_use 1 with
                     | Some k => Ok (k, None)
                     | None => match tile_use with [] => Err IndexError | t :: _ => Ok (0, Some t) end
                     end ;;
    if (ci_max_iter ci <? 0)%Z then Err ValueError else
    outs <- map_res (fun f =>
              r <- solve cabs (config ref) (equations (freq_data p f bls pa pb)) n (map (start p f) tile_use) ;;
              Ok (f, r)) freqs ;;
    let last_curr := match outs with [] => prev | _ => Some (curr_of n (snd (last outs (0, Build_sout None [] 0 false)))) end in
    match last_curr with
    | None => Err UnboundLocal
    | Some curr =>
      '(rows, cols) <- nan_rows (ci_freqs ci) (ci_times ci * ci_bls ci) (columns ci) curr ;;
      Ok ({| po_gain := fun f t =>
               if memn t tile_flag then None
               else if memn f rows then Some C0
               else match assoc outs f, find_pos tile_use t with
                    | Some r, Some k => nth k (curr_of n r) None
                    | _, _ => Some (start p f t)
                    end;
             po_conv := fun f t => match assoc outs f, find_pos tile_use t with
                                   | Some r, Some k => nth k (r_conv r) None
                                   | _, _ => Some 0%Qc
                                   end;
             po_iter := fun f t => match assoc outs f, find_pos tile_use t with
                                   | Some r, Some _ => r_iter r
                                   | _, _ => 0%Z
                                   end;
             po_nconv := length (filter (fun x => r_converged (snd x)) outs);
             po_zeroed := cols; po_ref := moved |},
          Some curr, fun f b => if memn b cols then 0%Qc else weight p f b)
    end.

  (** the loop over the polarisations (123), then 446-448 *)
  Fixpoint cal_pols (ps : list nat) (prev : option (list (option C))) : result (list pol_out * option (nat -> nat -> Qc)) :=
    match ps with
    | [] => Ok ([], None)
    | p :: ps =>
      '(o, prev, w) <- cal_pol p prev ;;
      '(os, wl) <- cal_pols ps prev ;;
      Ok (o :: os, match wl with Some _ => wl | None => Some w end)
    end.
  Definition vis_calibrate_subroutine : result sub_out :=
    '(os, w) <- cal_pols (seq 0 (ci_pols ci)) None ;;
    match w with
    | None => Err UnboundLocal
    | Some w => Ok {| so_pols := os;
                      so_nvis := length (filter (fun x => negb (Qceqb x 0)) (flat2 (ci_freqs ci) (columns ci) w)) |}
    end.
End Sub.
