(** Model of transfer_bandpass, PyFHD/calibration/calibration_utils.py:322-689, and of its use in vis_cal_bandpass
    (724-730). The opened calfits file is a record of header cards and the data of its primary HDU, whose shape is that
    of the FITS axes in reverse order (astropy). Numbers are exact rationals; None in a gain stands for NaN or infinite
    values. Cards have the type the code expects; ctype and xorient are given stripped, ctype in lower case. A
    RuntimeWarning raised inside the function is caught by it (682-684): here it is the outcome Ok None. *)
From Coq Require Import String Ascii.
From Verif Require Import Base PyIndex Cplx NpArr VisWeights Obs.
Import ListNotations.
Open Scope nat_scope.
Open Scope list_scope.

(** ** NumPy arrays of any rank *)

(** a[:, ..., lo:hi, ..., :] with the slice on axis k *)
Definition nd_slice {A} (k hi : nat) (a : ndarr A) : ndarr A :=
  NdArr (firstn k (nd_shape a) ++ match skipn k (nd_shape a) with [] => [] | n :: s => Nat.min hi n :: s end) (nd_at a).
(** a[:, ..., i, ..., :] with the number i on axis k *)
Definition nd_take {A} (k i : nat) (a : ndarr A) : result (ndarr A) :=
  match skipn k (nd_shape a) with
  | [] => Err IndexError
  | n :: s => if i <? n then Ok (NdArr (firstn k (nd_shape a) ++ s)
                                       (fun idx => nd_at a (firstn k idx ++ i :: skipn k idx)))
              else Err IndexError
  end.
(** Broadcasting compares the shapes from the last axis on: [s] and [t] are reversed shapes. *)
Fixpoint fits (s t : list nat) : bool :=
  match s, t with
  | [], _ => true
  | a :: s, [] => (a =? 1) && fits s []
  | a :: s, b :: t => ((a =? b) || (a =? 1)) && fits s t
  end.
(** The (reversed) index in an array of (reversed) shape [s] for the (reversed) index [idx]. *)
Fixpoint spread (s idx : list nat) : list nat :=
  match s, idx with
  | [], _ => []
  | a :: s, [] => 0 :: spread s []
  | a :: s, i :: idx => (if a =? 1 then 0 else i) :: spread s idx
  end.
(** x[...] = a for x of shape [shape] *)
Definition nd_fill {A} (shape : list nat) (a : ndarr A) : result (ndarr A) :=
  if fits (rev (nd_shape a)) (rev shape)
  then Ok (NdArr shape (fun idx => nd_at a (rev (spread (rev (nd_shape a)) (rev idx)))))
  else Err ValueError.

(** ** The file and the observation *)

Record calfits := {
  c_int : string -> option nat;        (* naxis, naxis1, ..., njones *)
  c_num : string -> option Q;          (* inttime, chwidth, crval3, ... *)
  c_str : string -> option string;     (* caltype, xorient, ctype1, ... *)
  c_data : ndarr Q
}.
Record bp_obs := {
  b_pol : nat; b_freq : nat; b_tile : nat;
  b_freq_res : Q; b_time_res : Q; b_freq0 : Q;   (* freq_res, time_res, baseline_info.freq[0] *)
  b_middle : Q                                    (* the Julian date of the middle of the observation (639-643) *)
}.
(** cal_gain_init: an int from the parser, a float if the configuration file says so. *)
Inductive init := InitInt (k : Z) | InitFloat (x : Q).

Definition need {A} (h : string -> option A) (k : string) : result A :=
  match h k with Some v => Ok v | None => Err KeyError end.
(** f"{name}{i}" for one digit, which is all a standard file needs *)
Definition numbered (name : string) (i : nat) : string :=
  String.append name (String (Ascii.ascii_of_nat (48 + i)) EmptyString).
(** np.nonzero(name == data_types)[0] *)
Definition axes_named (name : string) (types : list string) : list nat := where_ (String.eqb name) types.
Definition first_axis (name : string) (types : list string) : result nat :=
  match axes_named name types with [] => Err IndexError | i :: _ => Ok i end.
Definition nth_res {A} (l : list A) (k : nat) : result A :=
  match nth_error l k with Some a => Ok a | None => Err IndexError end.
(** needle in s *)
Definition contains (needle s : string) : bool :=
  match String.index 0 needle s with Some _ => true | None => false end.

(** lines 380-415: Ok (Some data) with the data to use, Ok None for a RuntimeWarning. np.mean(data_array, axis=0)
    removes the first axis of the array, which is the last FITS axis. *)
Definition nd_mean0 (a : ndarr Q) : ndarr Q :=
  match nd_shape a with
  | [] => a
  | n :: s => NdArr s (fun idx => (fold_right Qplus 0 (map (fun i => nd_at a (i :: idx)) (seq 0 n)) / inject_Z (Z.of_nat n))%Q)
  end.
Definition standard (f : calfits) (types : list string) : result (option (ndarr Q)) :=
  data_i <- first_axis "narrays" types ;; ant_i <- first_axis "antaxis" types ;;
  freq_i <- first_axis "freqs" types ;; time_i <- first_axis "time" types ;; jones_i <- first_axis "jones" types ;;
  let spec := axes_named "if" types in
  if (data_i =? 0) && (ant_i =? 4) && (freq_i =? 3) && (time_i =? 2) && (jones_i =? 1) then Ok (Some (c_data f)) else
  if (data_i =? 0) && (ant_i =? 5) && (freq_i =? 3) && (time_i =? 2) && (jones_i =? 1) then
    match spec with
    | [] => Ok None
    | [k] => if k =? 4 then (windows <- need (c_int f) "naxis5" ;;
                             if windows =? 1 then Ok (Some (nd_mean0 (c_data f))) else Ok None)
             else Ok None
    | _ => Err ValueError                           (* the truth value of an array is ambiguous *)
    end
  else Ok None.

(** lines 445-454. The two sides of the swap are views of the same array: after the first assignment the second one
    copies what has just been written. [swap i j] is a[..., i, :], a[..., j, :] = a[..., j, :], a[..., i, :] on axis 3. *)
Definition swap (i j : nat) (a : ndarr Q) : result (ndarr Q) :=
  let assign dst src (a : ndarr Q) :=
    NdArr (nd_shape a) (fun idx => nd_at a (if nth 3 idx 0 =? dst then firstn 3 idx ++ src :: skipn 4 idx else idx)) in
  match skipn 3 (nd_shape a) with
  | n :: _ => if (i <? n) && (j <? n) then Ok (assign j i (assign i j a)) else Err IndexError
  | [] => Err IndexError
  end.

Section Transfer.
  (** The interpolation to a finer resolution (496-536), and the choice of a pointing (541-626; None: a
      RuntimeWarning), whatever they return. *)
  Variable finer : ndarr Q -> result (ndarr Q).
  Variable pointing : Q -> option nat.

  (** lines 457-536. Averaging down (474-495): without a flag column, or with fewer than two flagged entries, an
      IndexError (483-484); then a slice with float bounds. *)
  Definition match_channels (f : calfits) (o : bp_obs) (width start : Q) (a : ndarr Q) : result (option (ndarr Q)) :=
    if Qeq_bool width (b_freq_res o) then Ok (Some a) else
    let factor := (b_freq_res o / width)%Q in
    let whole := if Qle_bool 1 factor then Qeq_bool factor (inject_Z (Qfloor factor))
                 else Qeq_bool (/ factor) (inject_Z (Qfloor (/ factor))) in
    if negb whole then Ok None else
    if negb (Qeq_bool start (b_freq0 o)) then Ok None else
    if Qle_bool factor 1 then (if Qeq_bool factor 1 then Ok (Some a) else r <- finer a ;; Ok (Some r))
    else if match nd_shape a with [_; _; _; _; n] => n <? 3 | _ => true end then Err IndexError else Err TypeError.

  (** lines 538-655 *)
  Definition match_time (f : calfits) (o : bp_obs) (n_time : nat) (int_time delta start : Q) (a : ndarr Q)
      : result (option (ndarr Q)) :=
    if n_time =? 1 then Ok (Some a) else
    let between x := negb (Qle_bool 2000 x) && negb (Qle_bool x 1600) in
    if between int_time || between delta then
      match pointing start with
      | None => Ok None
      | Some i => r <- nd_take 2 i a ;; Ok (Some r)
      end
    else if (Qfloor delta =? Qfloor (b_time_res o))%Z then Err AttributeError       (* obs.n_freq *)
    else
      let day := (int_time / (60 * 60 * 24))%Q in
      let time := (start + day)%Q in                                              (* the same for all entries *)
      if n_time =? 0 then Err IndexError else                                      (* time_array[0] *)
      if negb (Qle_bool (time - 2 * day) (b_middle o)) || negb (Qle_bool (b_middle o) (time + 2 * day)) then Ok None else
      r <- nd_take 2 0 a ;; Ok (Some r).

  (** lines 665-675. The array is made by np.full without a dtype, so it has the type of cal_gain_init; assigning
      complex numbers drops their imaginary parts, and rounds towards zero if it is an integer array. *)
  Definition stored (i : init) (re im : Q) : Q := match i with InitInt _ => inject_Z (Qtrunc re) | InitFloat _ => re end.
  Definition gains (o : bp_obs) (i : init) (a : ndarr Q) : result (ndarr Q) :=
    if negb (List.length (nd_shape a) =? 5) then Err IndexError else
    let part k := (x <- nd_take 4 k a ;; y <- nd_take 2 0 x ;; Ok (squeeze (nd_slice 2 (b_pol o) y))) in
    re <- part 0 ;; im <- part 1 ;;
    let z := NdArr (nd_shape re) (fun idx => stored i (nd_at re idx) (nd_at im idx)) in
    nd_fill [Nat.min (b_pol o) 2; b_tile o; b_freq o] z.

  (** lines 347-677: the bandpass gains, indexed [pol][tile][frequency] *)
  Definition read_bandpass (f : calfits) (o : bp_obs) (i : init) : result (option (ndarr Q)) :=
    naxis <- need (c_int f) "naxis" ;; n_jones <- need (c_int f) "njones" ;;
    caltype <- need (c_str f) "caltype" ;;
    if contains "delay" caltype then Ok None else
    int_time <- need (c_num f) "inttime" ;; width <- need (c_num f) "chwidth" ;; orient <- need (c_str f) "xorient" ;;
    dims <- map_res (fun k => need (c_int f) (numbered "naxis" k)) (seq 1 naxis) ;;
    types <- map_res (fun k => need (c_str f) (numbered "ctype" k)) (seq 1 naxis) ;;
    s <- standard f types ;;
    match s with None => Ok None | Some a =>
    start <- need (c_num f) "crval4" ;; time_start <- need (c_num f) "crval3" ;; time_delt <- need (c_num f) "cdelt3" ;;
    jones_start <- need (c_num f) "crval2" ;; jones_delt <- need (c_num f) "cdelt2" ;;
    n_ant <- nth_res (nd_shape a) 0 ;; n_freq <- nth_res (nd_shape a) 1 ;; n_time <- nth_res (nd_shape a) 2 ;;
    let pols := nth 1 dims 0 in
    if pols <? b_pol o then Ok None else
    let a := if b_pol o <? pols then nd_slice 3 (b_pol o) a else a in
    a <- (if String.eqb orient "north" || String.eqb orient "south" then
            (a <- swap 0 1 a ;; if 2 <? b_pol o then swap 2 3 a else Ok a) else Ok a) ;;
    s <- match_channels f o width start a ;;
    match s with None => Ok None | Some a =>
    s <- match_time f o n_time int_time time_delt time_start a ;;
    match s with None => Ok None | Some a =>
    if negb (n_ant =? b_tile o) then Ok None else
    g <- gains o i a ;; Ok (Some g)
    end end end.

  (** A gain divided by a real number of the bandpass *)
  Definition divided (g : option C) (b : Q) : option C :=
    match g with
    | Some g => if Qc_eq_dec (Q2Qc b) 0 then None else Some (Cscale (Qcinv (Q2Qc b)) g)
    | None => None
    end.
  (** lines 685-689: broadcasting of the quotient, and its assignment into an array of the shape of the gains. Both have
      three axes. The gains are indexed [pol][frequency][tile]. *)
  Definition remainder (gain : arr3 (option C)) (bp : ndarr Q) : result (arr3 (option C)) :=
    match nd_shape bp with
    | [p; t; f] =>
        let p' := Nat.min (d_pol gain) p in
        match bdim (d_pol gain) p', bdim (d_freq gain) t, bdim (d_bl gain) f with
        | Some p1, Some f1, Some t1 =>
            let fit n m := (n =? m) || (n =? 1) in
            if fit p1 (d_pol gain) && fit f1 (d_freq gain) && fit t1 (d_bl gain) then
              Ok (Arr3 (d_pol gain) (d_freq gain) (d_bl gain) (fun i j k =>
                    divided (at3 gain i j k) (nd_at bp [bidx p' i; bidx t j; bidx f k])))
            else Err ValueError
        | _, _, _ => Err ValueError
        end
    | _ => Err ValueError
    end.

  (** The whole function; [file] is None if there is no such file (678-681). The number of polarisations of the
      calibration is that of its gains. *)
  Definition transfer_bandpass (file : option calfits) (o : bp_obs) (i : init) (gain : arr3 (option C))
      : result (option (ndarr Q * arr3 (option C))) :=
    match file with
    | None => Ok None
    | Some f =>
        r <- read_bandpass f o i ;;
        match r with
        | None => Ok None
        | Some bp => rest <- remainder gain bp ;; Ok (Some (bp, rest))
        end
    end.

  (** vis_cal_bandpass 724-730: what is used, [estimate] being the bandpass computed from the gains (the rest of the
      function, Bandpass.v). *)
  Definition bandpass_used {A} (asked : option (option calfits)) (o : bp_obs) (i : init) (gain : arr3 (option C))
      (estimate : result A) : result (A + ndarr Q * arr3 (option C)) :=
    match asked with
    | None => e <- estimate ;; Ok (inl e)
    | Some file =>
        r <- transfer_bandpass file o i gain ;;
        match r with
        | Some b => Ok (inr b)
        | None => e <- estimate ;; Ok (inl e)
        end
    end.
End Transfer.
