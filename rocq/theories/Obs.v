(** Model of parts of PyFHD/data_setup/obs.py (create_obs: time bins, frequency bins, tile numbering;
    update_obs: frequency bins) and PyFHD/data_setup/uvfits.py (create_params: antenna columns;
    extract_visibilities). *)
From Verif Require Import Base SortLib Histogram Utils1 Cplx VisWeights PyIndex.
Open Scope nat_scope.

(** ** create_obs, obs.py:61-77: n_time, bin_offset and n_baselines. Times are compared only, so they are
    integers here. With one time (or none) bin_width is an int and line 70 assigns into it. *)
Fixpoint cumsum (acc : nat) (l : list nat) : list nat :=
  match l with [] => [] | x :: l => (acc + x) :: cumsum (acc + x) l end.
Definition obs_times (time : list Z) : result (nat * list nat * nat) :=
  let b0i := idl_argunique time in
  let n_time := length b0i in
  if n_time <=? 1 then Err TypeError else
  let bin_width := map (fun k => if k =? 0 then nth 0 b0i 0 + 1 else nth k b0i 0 - nth (k - 1) b0i 0) (seq 0 n_time) in
  Ok (n_time, 0 :: cumsum 0 (firstn (n_time - 1) bin_width), nth 0 bin_width 0).

(** ** obs.py:87-94 (create_obs, all bins) and 528-533 (update_obs, [size - 1] bins): the loop over the
    bins, writing the bin number at the reverse indices of the bin. *)
Definition fbin_loop (n_freq n_bins : nat) (ri : list nat) : result (list nat) :=
  fold_res (fun fb bin =>
      let lo := nth bin ri 0 in let hi := nth (S bin) ri 0 in
      if lo <? hi then
        let idx := slice ri lo hi in
        if forallb (fun k => k <? n_freq) idx then Ok (fold_left (fun fb k => upd fb k bin) idx fb) else Err IndexError
      else Ok fb)
    (seq 0 n_bins) (repeat 0 n_freq).
Definition create_fbin (freq : list Q) (n_freq : nat) (freq_bin : Q) : result (list nat) :=
  h <- histogram freq freq_bin None None None ;;
  let '(hist, _, ri) := h in
  fbin_loop n_freq (length hist) ri.
Definition update_fbin (freq : list Q) (n_freq : nat) (freq_bin : Q) : result (list nat) :=
  h <- histogram freq freq_bin None None None ;;
  let '(hist, _, ri) := h in
  fbin_loop n_freq (length hist - 1) ri.

(** ** obs.py:139-149, one antenna column: params["antenna1"] and baseline_info["tile_a"] are the same
    array, so each step sees the numbers already replaced. *)
Definition renumber (antenna_numbers : list Z) (n_tile : nat) (column : list Z) : result (list Z) :=
  fold_res (fun col i =>
      if i <? length antenna_numbers
      then Ok (map (fun a => if (nth i antenna_numbers 0 =? a)%Z then Z.of_nat (i + 1) else a) col)
      else Err IndexError)
    (seq 0 n_tile) column.

(** ** create_params, uvfits.py:259-276. The logarithms are exact here. *)
Definition antenna_mod_index (baseline_min : Z) : Z :=
  let m := (2 ^ Z.log2 baseline_min)%Z in
  let tile_b := (baseline_min mod m)%Z in
  if ((1 <? tile_b) && (baseline_min mod 2 =? 1))%Z then (m / 2 ^ Z.log2 tile_b)%Z else m.
Definition zmin (l : list Z) : result Z :=
  match l with [] => Err ValueError | x :: l => Ok (fold_left Z.min l x) end.
Definition decode_baselines (baseline_arr : list Z) : result (list Z * list Z) :=
  mn <- zmin baseline_arr ;;
  let m := antenna_mod_index mn in
  Ok (map (fun b => (b / m)%Z) baseline_arr, map (fun b => (b mod m)%Z) baseline_arr).
(** ** extract_visibilities, uvfits.py:315-340. An array of any rank: its shape and its content by
    multi-index. np.squeeze removes the axes of length 1. *)
Record ndarr (A : Type) := NdArr { nd_shape : list nat; nd_at : list nat -> A }.
Arguments NdArr {A}. Arguments nd_shape {A}. Arguments nd_at {A}.
(** Put the index 0 back at the removed axes. *)
Fixpoint unsqueeze (shape idx : list nat) : list nat :=
  match shape with
  | [] => []
  | n :: shape => if n =? 1 then 0 :: unsqueeze shape idx
                  else match idx with [] => [] | i :: idx => i :: unsqueeze shape idx end
  end.
Definition squeeze {A} (a : ndarr A) : ndarr A :=
  NdArr (filter (fun n => negb (n =? 1)) (nd_shape a)) (fun idx => nd_at a (unsqueeze (nd_shape a) idx)).

Definition extract_visibilities (header_n_pol config_n_pol real_i imag_i weight_i : nat) (data : ndarr Q)
  : result (arr3 C * arr3 Q) :=
  let d := squeeze data in
  let n_pol := if config_n_pol =? 0 then header_n_pol else config_n_pol in
  match nd_shape d with
  | [nb; nf; np; nc] =>
      (* polarizations = arange(n_pol) must be valid on axis 2, the column numbers on axis 3 *)
      if (np <? n_pol) || (nc <=? real_i) || (nc <=? imag_i) || (nc <=? weight_i) then Err IndexError else
      Ok (Arr3 n_pol nf nb (fun p f b => mkC (Q2Qc (nd_at d [b; f; p; real_i])) (Q2Qc (nd_at d [b; f; p; imag_i]))),
          Arr3 n_pol nf nb (fun p f b => nd_at d [b; f; p; weight_i]))
  | _ :: _ :: _ :: _ :: _ :: _ => Err SystemExit
  | _ => Err IndexError      (* too many indices for array *)
  end.
