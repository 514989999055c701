(** Model of vis_calibration_flag, PyFHD/calibration/calibration_utils.py:168-319.
    The statistics of the gains (standard deviations, medians, polynomial fits) are oracles: the
    theorems hold whatever they return. *)
From Verif Require Import Base SortLib PyIndex Cplx WeightInvert.
Open Scope nat_scope.

(** The statistics of one polarisation's gains over the used tiles and frequencies (given as index
    lists). Fits may fail. *)
Record stats := {
  (* lines 207-208: spread over the tiles, one value per used frequency *)
  st_freq_fom : list nat -> list nat -> list xf;
  (* lines 212-224: spread around the fit, one value per used tile *)
  st_tile_fom : list nat -> list nat -> result (list xf);
  (* line 226: median, one value per used tile *)
  st_tile_avg : list nat -> list nat -> list xf;
  (* lines 283-297: slope and spread of the phase, per used tile *)
  st_phase : list nat -> list nat -> result (list xf * list xf) }.

Section CalFlag.
  Variables std median nanstd : list xf -> xf.   (* np.std, np.median, np.nanstd *)

  Definition xnonz (x : xf) : bool := match x with Fin q => negb (Qceqb q 0) | _ => true end.
  Definition xgt0 (x : xf) : bool := match x with Fin q => negb (Qcleb q 0) | PInf => true | _ => false end.
  Definition xgt (a b : xf) : bool := xge a b && negb (xge b a).
  Definition nan0 (x : xf) : xf := match x with NaN => Fin 0%Qc | _ => x end.
  Definition q5 : xf := Fin (Q2Qc 5).
  Definition q2 : xf := Fin (Q2Qc 2).
  Definition pick {A} (l : list A) (idx : list nat) (d : A) : list A := map (fun k => nth k l d) idx.
  Definition nonzero (l : list Z) : list nat := where_ (fun z => negb (z =? 0)%Z) l.
  (** [uncut[~np.isin(uncut, cut)]] *)
  Definition without (uncut cut : list nat) : list nat :=
    filter (fun k => negb (existsb (Nat.eqb k) cut)) uncut.
  (** [use[idx] = 0] *)
  Definition clear_at (use : list Z) (idx : list nat) : list Z := fold_left (fun u k => upd u k 0%Z) idx use.

  (** lines 246-275; the result is the last freq_cut_i and tile_cut_i, and the number of passes.
      [fuel] bounds the number of passes: out of fuel is an error. *)
  Fixpoint amp_loop (fuel iter : nat) (n_addl n_cut : Z) (freq_fom tile_fom tile_avg : list xf)
      (freq_uncut tile_uncut freq_cut tile_cut : list nat) : result (list nat * list nat * nat) :=
    if ((0 <? n_addl)%Z && (iter <? 3))%bool then
      match fuel with
      | O => Err OutOfBounds
      | S fuel =>
        let f_sigma := std (pick freq_fom freq_uncut NaN) in
        let t_sigma := std (pick tile_fom tile_uncut NaN) in
        let f_med := median (pick freq_fom freq_uncut NaN) in
        let t_med := median (pick tile_fom tile_uncut NaN) in
        let freq_cut := where_ (fun x => xgt0 (xsub (xsub x f_med) (xmul q5 f_sigma))) freq_fom in
        let freq_uncut := without freq_uncut freq_cut in
        let a_med := median tile_avg in
        let tile_cut := filter (fun k =>
              xgt0 (xsub (xsub (nth k tile_fom NaN) t_med) (xmul q5 t_sigma))
              || (xgt (xdiv a_med q2) (nth k tile_avg NaN) || xgt (nth k tile_avg NaN) (xmul a_med q2)))
              (seq 0 (length tile_fom)) in
        let tile_uncut := without tile_uncut tile_cut in
        let total := Z.of_nat (length freq_cut + length tile_cut) in
        amp_loop fuel (S iter) (total - n_cut)%Z total freq_fom tile_fom tile_avg freq_uncut tile_uncut freq_cut tile_cut
      end
    else Ok (freq_cut, tile_cut, iter).

  (** lines 298-312; the tests do not depend on the pass *)
  Fixpoint phase_loop (fuel iter : nat) (n_addl n_cut : Z) (slopes sigmas : list xf) (tile_cut : list nat)
    : result (list nat * nat) :=
    if ((0 <? n_addl)%Z && (iter <? 3))%bool then
      match fuel with
      | O => Err OutOfBounds
      | S fuel =>
        let abs_slopes := map xabs slopes in
        let tile_cut := filter (fun k =>
              xgt (xsub (nth k abs_slopes NaN) (median abs_slopes)) (xmul q5 (nanstd slopes))
              || xgt (xsub (nth k sigmas NaN) (median sigmas)) (xmul q5 (nanstd sigmas)))
              (seq 0 (length slopes)) in
        let total := Z.of_nat (length tile_cut) in
        phase_loop fuel (S iter) (total - n_cut)%Z total slopes sigmas tile_cut
      end
    else Ok (tile_cut, iter).

  (** lines 198-314: one polarisation. Lines 234 and 238 assign into a temporary copy made by the first
      fancy index, so they change nothing. *)
  Definition flag_pol (fuel : nat) (st : stats) (use : list Z * list Z) : result (list Z * list Z) :=
    let '(tile_use, freq_use) := use in
    let tile_use_i := nonzero tile_use in
    let freq_use_i := nonzero freq_use in
    let freq_fom := map nan0 (st_freq_fom st tile_use_i freq_use_i) in
    tile_fom <- st_tile_fom st tile_use_i freq_use_i ;;
    let tile_fom := map nan0 tile_fom in
    let tile_avg := st_tile_avg st tile_use_i freq_use_i in
    let freq_cut := where_ (fun x => negb (xnonz x)) freq_fom in
    let freq_uncut := where_ xnonz freq_fom in
    let tile_cut := where_ (fun x => negb (xnonz x)) tile_fom in
    let tile_uncut := where_ xnonz tile_fom in
    let n_cut := Z.of_nat (length freq_cut + length tile_cut) in
    r <- amp_loop fuel 0 (Z.max n_cut 1) n_cut freq_fom tile_fom tile_avg freq_uncut tile_uncut freq_cut tile_cut ;;
    let '(freq_cut, tile_cut, _) := r in
    let freq_use := clear_at freq_use (pick freq_use_i freq_cut 0) in
    let tile_use := clear_at tile_use (pick tile_use_i tile_cut 0) in
    let tile_use_i := nonzero tile_use in
    let freq_use_i := nonzero freq_use in
    ph <- st_phase st tile_use_i freq_use_i ;;
    r <- phase_loop fuel 0 1 0 (fst ph) (snd ph) [] ;;
    Ok (clear_at tile_use (pick tile_use_i (fst r) 0), freq_use).

  (** lines 197-319: the new tile_use and freq_use. [sts]: one entry per polarisation. *)
  Definition vis_calibration_flag (fuel : nat) (sts : list stats) (flag_frequencies : bool)
      (tile_use freq_use : list Z) : result (list Z * list Z) :=
    r <- fold_res (fun u st => flag_pol fuel st u) sts (tile_use, freq_use) ;;
    Ok (fst r, if flag_frequencies then snd r else freq_use).
End CalFlag.
