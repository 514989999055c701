(** Model of vis_extract_autocorr (18-96), vis_calibration_apply (1354-1481), cal_auto_ratio_divide
    (1555-1596) and cal_auto_ratio_remultiply (1599-1627) of
    PyFHD/calibration/calibration_utils.py.  Complex numbers have exact rational parts. *)
From Verif Require Import Base SortLib NpArr PyIndex Cplx WeightInvert VisWeights.
Open Scope nat_scope.

(** [l[i]] for a non-negative index *)
Definition py_list {A} (l : list A) (i : nat) : result A :=
  match nth_error l i with Some a => Ok a | None => Err IndexError end.

(** A complex array entry: [None] is NaN (the solver marks flagged tiles with NaN gains). *)
Definition cplx_of (x : option C) : num :=
  match x with Some c => NCplx (Fin (re c)) (Fin (im c)) | None => NCplx NaN NaN end.

(** One entry of weight_invert(x, use_abs=False) (pyfhd_utils.py:643-711, see WeightInvert.v). Its
    result is always finite (lemma [winv_value]), so the default case is never taken. *)
Definition winv (x : option C) : C :=
  match invert_entry None false (cplx_of x) with NCplx (Fin a) (Fin b) => mkC a b | _ => C0 end.

(** g1 * conj(g2) *)
Definition gain_prod (g1 g2 : option C) : option C :=
  match g1, g2 with Some a, Some b => Some (a * Cconj b)%C | _, _ => None end.

(** ** vis_calibration_apply *)

(** lines 1403-1404 *)
Definition gain_pol_1 : list nat := [0; 1; 0; 1].
Definition gain_pol_2 : list nat := [0; 1; 1; 0].

(** lines 1418-1428: one polarisation.  Tile numbers start at 1; a tile number 0 would index the last
    tile. Gains have the axes polarisation, frequency, tile. *)
Definition apply_pol (n_freq : nat) (tile_a tile_b : list Z) (gain : arr3 (option C)) (pol : nat)
    (vis : arr3 C) : result (arr3 C) :=
  p1 <- py_list gain_pol_1 pol ;;
  p2 <- py_list gain_pol_2 pol ;;
  if negb ((p1 <? d_pol gain) && (p2 <? d_pol gain)) then Err IndexError else
  if d_freq gain <? n_freq then Err IndexError else
  ta <- map_res (fun v => norm_index (d_bl gain) (v - 1)) tile_a ;;
  tb <- map_res (fun v => norm_index (d_bl gain) (v - 1)) tile_b ;;
  if negb ((length tile_a =? length tile_b) && (n_freq =? d_freq vis) && (length tile_a =? d_bl vis))
  then Err ValueError else
  Ok (Arr3 (d_pol vis) (d_freq vis) (d_bl vis) (fun p f b =>
        if p =? pol
        then (at3 vis p f b
              * winv (gain_prod (at3 gain p1 f (nth b ta 0)) (at3 gain p2 f (nth b tb 0))))%C
        else at3 vis p f b)).

(** lines 1397-1481.  [arrays]: vis_model_arr and vis_weights are NumPy arrays.  Line 1438 reads
    obs["n_times"], which create_obs never sets (it sets n_time), so this branch raises KeyError.
    Lines 1478-1479 multiply by exp(0) = 1. *)
Definition vis_calibration_apply (vis : arr3 C) (n_freq : nat) (tile_a tile_b : list Z)
    (gain : arr3 (option C)) (arrays : bool) : result (arr3 C) :=
  vis <- fold_res (fun v pol => apply_pol n_freq tile_a tile_b gain pol v) (seq 0 (d_pol vis)) vis ;;
  if (d_pol vis =? 4) && arrays then Err KeyError else Ok vis.

(** ** The autocorrelation ratio *)

Section AutoRatio.
  (** [np.sqrt] on the values met here, and what np.empty returned for auto_ratio (1587) *)
  Variable sqrt_ : Qc -> Qc.
  Variable junk : nat -> nat -> nat -> Qc.

  (** lines 1587-1595. [vis_auto] has one column per entry of [auto_tile_i].  Line 1591 takes the
      reference column [auto_tile_i[ref_antenna]], i.e. by tile number instead of by position. With
      repeated tiles the last column wins. *)
  Definition cal_auto_ratio_divide (n_pol n_freq n_tile : nat) (gain : arr3 C) (vis_auto : arr3 Qc)
      (auto_tile_i : list Z) (ref_antenna : Z) : result (arr3 C * arr3 Qc) :=
    if n_pol =? 0 then Ok (gain, Arr3 n_pol n_freq n_tile junk) else
    if d_pol vis_auto <? n_pol then Err IndexError else
    kref <- norm_index (length auto_tile_i) ref_antenna ;;
    cref <- norm_index (d_bl vis_auto) (nth kref auto_tile_i 0%Z) ;;
    if d_bl vis_auto <? length auto_tile_i then Err IndexError else
    tiles <- map_res (norm_index n_tile) auto_tile_i ;;
    if negb (d_freq vis_auto =? n_freq) then Err ValueError else
    let ratio := Arr3 n_pol n_freq n_tile (fun p f t =>
        match find (fun k => nth k tiles 0 =? t) (rev (seq 0 (length tiles))) with
        | Some k => sqrt_ (at3 vis_auto p f k * Qcinv (at3 vis_auto p f cref))%Qc
        | None => junk p f t
        end) in
    if d_pol gain <? n_pol then Err IndexError else
    if negb ((d_freq gain =? n_freq) && (d_bl gain =? n_tile)) then Err ValueError else
    Ok (Arr3 (d_pol gain) (d_freq gain) (d_bl gain) (fun p f t =>
          if p <? n_pol then Cscale (Qcinv (at3 ratio p f t)) (at3 gain p f t) else at3 gain p f t), ratio).
End AutoRatio.

Definition Qcabs0 (q : Qc) : Qc := if Qclt_le_dec q 0 then (- q)%Qc else q.

(** lines 1623-1626 *)
Definition cal_auto_ratio_remultiply (n_pol : nat) (gain : arr3 C) (ratio : arr3 Qc)
    (auto_tile_i : list Z) : result (arr3 C) :=
  tiles <- map_res (norm_index (d_bl gain)) auto_tile_i ;;
  tiles' <- map_res (norm_index (d_bl ratio)) auto_tile_i ;;
  Ok (Arr3 (d_pol gain) (d_freq gain) (d_bl gain) (fun p f t =>
        match find (fun k => nth k tiles 0 =? t) (rev (seq 0 (length tiles))) with
        | Some k => if p <? n_pol then Cscale (Qcabs0 (at3 ratio p f (nth k tiles' 0))) (at3 gain p f t)
                    else at3 gain p f t
        | None => at3 gain p f t
        end)).

(** ** vis_extract_autocorr *)

(** lines 47-93. [vis p f b] is the real part. The result is the array (pol, freq, column) and
    auto_tile_i; without autocorrelations both are dummies (96): the scalar-like zeros(1) is
    modelled as an array with no column. *)
Definition vis_extract_autocorr (n_pol n_freq : nat) (tile_a tile_b : list Z) (time_use : list Z)
    (time_average : bool) (vis : arr3 Qc) : result (arr3 Qc * list Z) :=
  if negb (length tile_a =? length tile_b) then Err ValueError else
  let autocorr_i := filter (fun b => (nth b tile_a 0 =? nth b tile_b 0)%Z) (seq 0 (length tile_a)) in
  match autocorr_i with
  | [] => Ok (Arr3 0 0 0 (fun _ _ _ => 0%Qc), [])
  | _ =>
    let auto_tile_i := map (fun b => (nth b tile_a 0 - 1)%Z) autocorr_i in
    let single := np_unique auto_tile_i in
    if negb (forallb (fun b => b <? d_bl vis) autocorr_i) || (d_pol vis <? n_pol) then Err IndexError else
    if negb time_average then
      Ok (Arr3 n_pol (d_freq vis) (length autocorr_i)
            (fun p f k => at3 vis p f (nth k autocorr_i 0)), auto_tile_i)
    else
      let time_inds := where_ (fun z => negb (z =? 0)%Z) time_use in
      cols <- map_res (fun v =>
          let baseline_i := where_ (fun t => (t =? v)%Z) auto_tile_i in
          map_res (py_list baseline_i) time_inds) single ;;
      if d_freq vis <? n_freq then Err IndexError else
      (** without at least two used times a column vector is assigned to a vector (87-89) *)
      if (length time_inds <? 2) && (0 <? n_pol)
         && negb ((length time_inds =? 1) && (n_freq =? 1)) then Err ValueError else
      Ok (Arr3 n_pol n_freq (length single) (fun p f k =>
            let bl := nth k cols [] in
            Qcmult (Qcsum (map (fun j => at3 vis p f (nth j autocorr_i 0)) bl))
                   (Qcinv (Q2Qc (inject_Z (Z.of_nat (length time_inds)))))), single)
  end.
