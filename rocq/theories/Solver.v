(** Model of the solver for one polarisation and one frequency, the body of the loop at
    PyFHD/calibration/vis_calibrate_subroutine.py:254-432, without calibration_weights.
    Complex numbers have exact rational parts. np.abs of a complex number is an oracle [cabs], since a
    modulus need not be rational. *)
From Verif Require Import Base SortLib PyIndex Cplx WeightInvert CalApply AdaptGain.
Open Scope nat_scope.

(** One used baseline at this frequency: its tiles as positions in tile_use, and its averaged data,
    model and weight (225-237, 259-264). *)
Record baseline := { b_a : nat; b_b : nat; b_data : C; b_model : C; b_weight : Qc }.

(** One equation data = gain(ea) * conj(gain(eb)) * model. *)
Record eqn := { e_a : nat; e_b : nat; e_data : C; e_model : C }.

(** lines 259-278: each baseline of positive weight gives two equations, the second one conjugated
    with the tiles exchanged (the code stacks first and filters afterwards). *)
Definition positive (b : baseline) : bool := negb (Qcleb (b_weight b) 0).
Definition equations (l : list baseline) : list eqn :=
  let l := filter positive l in
  map (fun b => {| e_a := b_a b; e_b := b_b b; e_data := b_data b; e_model := b_model b |}) l
  ++ map (fun b => {| e_a := b_b b; e_b := b_a b; e_data := Cconj (b_data b); e_model := Cconj (b_model b) |}) l.

(** min_cal_solutions (75) *)
Definition min_eq : nat := 5.

Record scfg := {
  s_max : Z;        (* max_cal_iter *)
  s_phase : Z;      (* phase_fit_iter, 114-118 *)
  s_base : Qc;      (* cal_base_gain *)
  s_thr : Qc;       (* cal_convergence_threshold *)
  s_adapt : bool;   (* cal_adaptive_calibration_gain *)
  s_ref : nat;      (* ref_tile_use, a position in tile_use (239-248) *)
  s_noref : bool }. (* no_ref_tile *)

(** The result for this frequency: gain_curr as stored at 432 ([None]: all NaN), the reported
    convergence per tile ([None]: NaN), the reported iteration, and whether n_converged was counted up. *)
Record sout := { r_gain : option (list C); r_conv : list (option Qc); r_iter : Z; r_converged : bool }.

Section Solver.
  Variable cabs : C -> Qc.
  Variable cfg : scfg.
  Variable eqs : list eqn.
  Variable n : nat.   (* tile_use.size *)

  Definition eqs_of (t : nat) : list eqn := filter (fun e => e_a e =? t) eqs.
  Definition enough (t : nat) : bool := min_eq <=? length (eqs_of t).

  (** np.linalg.lstsq with one column (326-330): sum(conj(x) y) / sum(|x|^2), and 0 for x = 0 *)
  Definition lsq (l : list (C * C)) : C :=
    (Csum (map (fun p => Cconj (fst p) * snd p) l) * Cinv (Csum (map (fun p => Cconj (fst p) * fst p) l)))%C.

  (** lines 307-330 for tile t *)
  Definition solve_tile (g : list C) (t : nat) : C :=
    if enough t
    then lsq (map (fun e => ((e_model e * Cconj (nth (e_b e) g C0))%C, e_data e)) (eqs_of t))
    else C0.

  (** lines 295-297 *)
  Definition initial (g0 : list C) : list C :=
    map (fun t => if enough t then nth t g0 C0 else C0) (seq 0 n).

  (** lines 337-339 *)
  Definition phase_only (i : nat) (old new : list C) : list C :=
    if (0 <? s_phase cfg - Z.of_nat i)%Z
    then map (fun t => Cscale (cabs (nth t old C0) * Qcinv (cabs (nth t new C0))) (nth t new C0)) (seq 0 n)
    else new.

  (** lines 350-362. A NaN gain factor makes every entry NaN, and these are reset to the old ones. The
      case base + conv_gain = 0 (a base gain that is not positive) is not modelled. *)
  Definition blend (conv_gain : xf) (old new : list C) : list C :=
    match conv_gain with
    | Fin cg =>
        map (fun t =>
               let o := nth t old C0 in let w := nth t new C0 in
               let u := Cscale (Qcinv (s_base cfg + cg)) (Cscale cg w + Cscale (s_base cfg) o)%C in
               if negb (Qcleb (cabs o / Q2Qc 2) (cabs u * Qcinv (cabs o)))%Qc
               then Cscale (Qcinv (Q2Qc 3)) (w + Cscale (Q2Qc 2) o)%C
               else u) (seq 0 n)
    | _ => old
    end.

  (** lines 363-366: [None] when the reference gain is 0 (0/0 for every tile) *)
  Definition rephase (g : list C) : option (list C) :=
    if s_noref cfg then Some g else
    let r := nth (s_ref cfg) g C0 in
    if Qc_eq_dec (cabs r) 0 then None
    else Some (map (fun t => (nth t g C0 * Cscale (Qcinv (cabs r)) (Cconj r))%C) (seq 0 n)).

  (** lines 367-372 and 423-425: the relative change of every tile *)
  Definition change (old new : list C) : list Qc :=
    map (fun t => (cabs (nth t new C0 - nth t old C0)%C * Qcinv (cabs (nth t old C0)))%Qc) (seq 0 n).
  Definition qc_max (l : list Qc) : Qc := fold_right (fun a b => if Qcleb a b then b else a) 0%Qc l.
  Definition qc_mean (l : list Qc) : Qc := (Qcsum l * Qcinv (Q2Qc (inject_Z (Z.of_nat (length l)))))%Qc.

  Definition xof (q : option Qc) : xf := match q with Some q => Fin q | None => NaN end.

  (** idl_median of conv_test[fii, i-4:i] (398-400): the entry of rank (4+1)//2 = 2 *)
  Definition recent_median (convs : list xf) (i : nat) : xf :=
    nth 2 (isort xle (slice convs (i - 4) i)) NaN.
  Definition xmin_list (l : list xf) : xf :=
    fold_right (fun a b => if xge b a then a else b) PInf l.

  Inductive action := Go | Stop (converged back_up diverged : bool).

  (** lines 375-416, given the two measures of this iteration and the previous loose one *)
  Definition decide (i : nat) (strict loose loose_prev : xf) (convs : list xf) : action :=
    if negb (s_phase cfg + 3 <? Z.of_nat i)%Z then Go else
    if xge (Fin (s_thr cfg)) strict then Stop true false false else
    if xge loose loose_prev then
      if xge (Fin (s_thr cfg)) loose || xge (Fin (s_thr cfg)) loose_prev
      then Stop true (xge (Fin (s_thr cfg)) loose) false
      else if xge strict (recent_median convs i)
              || xge strict (xmul (xmin_list (firstn i convs)) (Fin (Q2Qc (3#2))))
           then Stop false false true else Go
    else Go.

  (** The value reported for all tiles after backing up (420) *)
  Definition conv_at (convs : list xf) (i : nat) : option Qc :=
    match nth i convs NaN with Fin q => Some q | _ => None end.

  (** lines 417-426 *)
  Definition finish (i : nat) (old new : option (list C)) (convs : list xf) (converged back_up diverged : bool) : sout :=
    let curr := if back_up then old else new in
    if diverged
    then {| r_gain := old; r_conv := repeat (conv_at convs (i - 1)) n; r_iter := Z.of_nat i - 1;
            r_converged := converged |}
    else {| r_gain := curr;
            r_conv := match old, curr with
                      | Some o, Some c => map Some (change o c)
                      | _, _ => repeat None n
                      end;
            r_iter := Z.of_nat i; r_converged := converged |}.

  (** lines 302-416. [g]: gain_curr, [None] once it is NaN; lstsq then raises LinAlgError, a
      ValueError (a LAPACK that returns NaN instead gives NaN gains). [fuel] = max_cal_iter - i. *)
  Fixpoint loop (fuel i : nat) (g : option (list C)) (loose_prev : xf) (convs gains : list xf) : result sout :=
    match fuel with
    | O => Err UnboundLocal
    | S fuel =>
      let solved :=
        match g with
        | Some g => Ok (map (solve_tile g) (seq 0 n))
        | None => if existsb enough (seq 0 n) then Err ValueError else Ok (repeat C0 n)
        end in
      new <- solved ;;
      (** 333-336 *)
      if Qc_eq_dec (Qcsum (map cabs new)) 0
      then Ok (finish i g (Some new) convs false false false)
      else
        match g with
        | None => Err ValueError
        | Some old =>
          let new := phase_only i old new in
          cg <- (if s_adapt cfg
                 then calculate_adaptive_gain gains convs i (Fin (s_base cfg)) (Some (Fin 0%Qc))
                 else Ok (Fin (s_base cfg), gains)) ;;
          let curr := rephase (blend (fst cg) old new) in
          let strict := xof (match curr with Some c => Some (qc_max (change old c)) | None => None end) in
          let loose := xof (match curr with Some c => Some (qc_mean (change old c)) | None => None end) in
          let convs := upd convs i strict in
          match decide i strict loose loose_prev convs with
          | Stop converged back_up diverged => Ok (finish i (Some old) curr convs converged back_up diverged)
          | Go => match fuel with
                  | O => Ok (finish i (Some old) curr convs false false false)
                  | S _ => loop fuel (S i) curr loose convs (snd cg)
                  end
          end
        end
    end.

  (** lines 83-92 and 252: the test for a limit below 1 is never reached; a negative limit fails when
      conv_test is allocated, and with the limit 0 the variables of the loop are unbound at 417. *)
  Definition solve (g0 : list C) : result sout :=
    if (s_max cfg <? 0)%Z then Err ValueError else
    let m := Z.to_nat (s_max cfg) in
    loop m 0 (Some (initial g0)) (Fin 0%Qc) (repeat (Fin 0%Qc) m) (repeat (Fin 0%Qc) m).
End Solver.
