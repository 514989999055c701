(** Model of the parts of transfer_bandpass (PyFHD/calibration/calibration_utils.py) that TransferBp takes as parameters: the
    choice of a pointing (543-626) and the interpolation to finer channels (496-536).  Numbers are exact rationals; a
    RuntimeWarning, which the function catches itself, is None. *)
From Coq Require Import Qabs.
From Verif Require Import Base PyIndex Obs.
Import ListNotations.
Open Scope nat_scope.
Open Scope list_scope.

Definition Qlt_bool (a b : Q) : bool := negb (Qle_bool b a).

(** 550-571: the dictionary of delay patterns, in its order *)
Definition delay_patterns : list (Z * list Z) :=
  [(-5, [0; 5; 10; 15; 1; 6; 11; 16; 2; 7; 12; 17; 3; 8; 13; 18]);
   (-4, [0; 4; 8; 12; 1; 5; 9; 13; 2; 6; 10; 14; 3; 7; 11; 15]);
   (-3, [0; 3; 6; 9; 0; 3; 6; 9; 0; 3; 6; 9; 0; 3; 6; 9]);
   (-2, [0; 2; 4; 6; 0; 2; 4; 6; 0; 2; 4; 6; 0; 2; 4; 6]);
   (-1, [0; 1; 2; 3; 0; 1; 2; 3; 0; 1; 2; 3; 0; 1; 2; 3]);
   (0, [0; 0; 0; 0; 0; 0; 0; 0; 0; 0; 0; 0; 0; 0; 0; 0]);
   (5, [15; 10; 5; 0; 16; 11; 6; 1; 17; 12; 7; 2; 18; 13; 8; 3]);
   (4, [12; 8; 4; 0; 13; 9; 5; 1; 14; 10; 6; 2; 15; 11; 7; 3]);
   (3, rev [0; 3; 6; 9; 0; 3; 6; 9; 0; 3; 6; 9; 0; 3; 6; 9]);
   (2, rev [0; 2; 4; 6; 0; 2; 4; 6; 0; 2; 4; 6; 0; 2; 4; 6]);
   (1, rev [0; 1; 2; 3; 0; 1; 2; 3; 0; 1; 2; 3; 0; 1; 2; 3])]%Z.
Fixpoint zlist_eqb (a b : list Z) : bool :=
  match a, b with [], [] => true | x :: a, y :: b => (x =? y)%Z && zlist_eqb a b | _, _ => false end.
(** 572-575: the loop does not stop at a match *)
Definition obs_pointing (delays : list Z) : option Z :=
  fold_left (fun r kp => if zlist_eqb delays (snd kp) then Some (fst kp) else r) delay_patterns None.

(** np.argmin: the first of the smallest *)
Fixpoint argmin_from (l : list Q) (k best : nat) (m : Q) : nat :=
  match l with
  | [] => best
  | x :: l => if Qlt_bool x m then argmin_from l (S k) k x else argmin_from l (S k) best m
  end.
Definition argmin (l : list Q) : nat := match l with [] => 0 | x :: l => argmin_from l 1 0 x end.

(** 587-606 *)
Definition reference_starts : list Q :=
  [13611#100000; 15157#100000; 17565#100000; 19963#100000; 22222#100000; 24342593#100000000; 26453705#100000000;
   28574074#100000000; 30694#100000; 33657407#100000000].
Definition pointing_num_ref : list Z := [-5; -4; -3; -2; -1; 0; 1; 2; 3; 4]%Z.
(** 583-585 *)
Definition shift (obs_julian_date time_start : Q) : Q :=
  ((24 - (239344699#10000000)) / 24 * (inject_Z (Qfloor obs_julian_date) - inject_Z (Qfloor time_start)))%Q.
Definition qmax (l : list Q) : Q := match l with [] => 0%Q | x :: l => fold_left (fun m x => if Qlt_bool m x then x else m) l x end.
Definition qmin (l : list Q) : Q := match l with [] => 0%Q | x :: l => fold_left (fun m x => if Qlt_bool x m then x else m) l x end.
(** a[i] for an integer that may be negative *)
Definition at_z (l : list Z) (i : Z) : Z := nth (Z.to_nat (if (i <? 0)%Z then i + Z.of_nat (length l) else i)) l 0%Z.

(** 543-624: the index of the pointing in the file, or None *)
Definition pointing (delays : list Z) (obs_julian_date time_start : Q) : option nat :=
  match obs_pointing delays with
  | None => None
  | Some p =>
    let ref := map (fun x => x + shift obs_julian_date time_start)%Q reference_starts in
    let t := (time_start - inject_Z (Qfloor time_start))%Q in
    let i := argmin (map (fun x => Qabs (x - t)) ref) in
    let i' := if Qlt_bool t (nth i ref 0%Q) then (Z.of_nat i - 1)%Z else Z.of_nat i in
    let step := (nth 1 ref 0 - nth 0 ref 0)%Q in
    if Qlt_bool (qmax ref + step) t || Qlt_bool t (qmin ref - step) then None else
    let start := at_z pointing_num_ref i' in
    if (p <? start)%Z then None else Some (Z.to_nat (Z.abs (start - p)))
  end.

(** 496-536: [factor] is the number of channels of the observation in one of the file, 1 / freq_factor (a whole number, 461-467);
    the array has the axes tile, channel, time, polarisation, part.  An element of the loop reads the array with the axes in the
    opposite order: part, polarisation, time, channel, tile. *)
Definition shape_at (a : ndarr Q) (k : nat) : nat := nth k (nd_shape a) 0.
Definition span (start stop n : nat) : nat := Nat.min stop n - Nat.min start n.
Definition interp_step (a : ndarr Q) (n_freq factor : nat) (tmp : list nat -> Q) (ix : nat * nat * nat * nat * nat)
  : result (list nat -> Q) :=
  let '(data_i, jones_i, times_i, tile_i, channel_i) := ix in
  let start_idx := channel_i * factor in
  let end_idx := (channel_i + 1) * factor in
  if (data_i <? shape_at a 0) && (jones_i <? shape_at a 1) && (times_i <? shape_at a 2) && (tile_i <? shape_at a 4) then
    (* np.interp: one abscissa, so one ordinate *)
    if negb (span channel_i (channel_i + 1) (shape_at a 3) =? 1) then Err ValueError else
    let v := nd_at a [data_i; jones_i; times_i; channel_i; tile_i] in
    (* assignment of end_idx - start_idx numbers into the slice *)
    if negb ((span start_idx end_idx n_freq =? end_idx - start_idx) || (end_idx - start_idx =? 1)) then Err ValueError else
    Ok (fun i => match i with
                 | [t; c; m; j; d] => if (t =? tile_i) && (m =? times_i) && (j =? jones_i) && (d =? data_i)
                                         && (start_idx <=? c) && (c <? end_idx) then v else tmp i
                 | _ => tmp i
                 end)
  else Err IndexError.
(** 503-513 *)
Definition interp_loop (n_jones n_time tiles n_freq : nat) : list (nat * nat * nat * nat * nat) :=
  flat_map (fun data_i => flat_map (fun jones_i => flat_map (fun times_i => flat_map (fun tile_i =>
    map (fun channel_i => (data_i, jones_i, times_i, tile_i, channel_i)) (seq 0 (n_freq - 1)))
    (seq 0 tiles)) (seq 0 n_time)) (seq 0 n_jones)) (seq 0 2).
(** 500-536; the last assignment needs the axes behind the channels to fit *)
Definition bfit (n m : nat) : bool := (m =? n) || (m =? 1).
Definition finer (n_jones n_freq factor : nat) (a : ndarr Q) : result (ndarr Q) :=
  let tiles := shape_at a 0 in
  let n_time := shape_at a 2 in
  tmp <- fold_res (interp_step a n_freq factor) (interp_loop n_jones n_time tiles n_freq) (fun _ => 0%Q) ;;
  if n_freq =? 0 then Err IndexError else
  if shape_at a 1 =? 0 then Err IndexError else
  if bfit n_jones (shape_at a 3) && bfit 2 (shape_at a 4) then
    Ok (NdArr [tiles; n_freq; n_time; n_jones; 2]
          (fun i => match i with
                    | [t; c; m; j; d] => if c =? n_freq - 1 then nd_at a [t; shape_at a 1 - 1; m; (if shape_at a 3 =? 1 then 0 else j);
                                                                     (if shape_at a 4 =? 1 then 0 else d)]
                                         else tmp i
                    | _ => tmp i
                    end))
  else Err ValueError.
