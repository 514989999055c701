(** Model of filter_uv_uniform, PyFHD/gridding/filters.py:8-96, and of the way
    visibility_degrid walks through the bins and cuts them into memory-limited pieces,
    PyFHD/gridding/visibility_degrid.py:180-224. Planes are flattened; arithmetic is exact
    with explicit NaN and infinities (WeightInvert.v). *)
From Verif Require Import Base Cplx NpArr PyIndex WeightInvert.
Open Scope Qc_scope.

Definition qabs (x : Qc) : Qc := if Qclt_le_dec x 0 then - x else x.
Definition qmin (x y : Qc) : Qc := if Qclt_le_dec y x then y else x.
Definition qmax (x y : Qc) : Qc := if Qclt_le_dec x y then y else x.
(** [np.min], [np.max]: ValueError on empty arrays *)
Definition np_min (l : list Qc) : result Qc :=
  match l with [] => Err ValueError | x :: t => Ok (fold_left qmin t x) end.
Definition np_max (l : list Qc) : result Qc :=
  match l with [] => Err ValueError | x :: t => Ok (fold_left qmax t x) end.

(** [np.mean] of finite entries: NaN when empty *)
Definition np_mean (l : list Qc) : xf := xdiv (Fin (Qcsum l)) (Fin (Q2Qc (inject_Z (Z.of_nat (length l))))).

(** weight_invert of one finite entry *)
Definition inverted (threshold : option Qc) (x : Qc) : Qc :=
  match invert_entry (option_map Fin threshold) false (NFloat (Fin x)) with NFloat (Fin y) => y | _ => 0 end.

(** complex times float *)
Definition scaled (x : xf) (z : C) : option C :=
  match x with Fin q => Some (Cscale q z) | _ => None (* NaN or infinite parts *) end.

(** lines 62-80: the visibility counts used. [obs_given]: obs or params is not None, and
    visibility_count is then called without its psf argument, so that its
    psf["dim"] is params["dim"]: KeyError. *)
Definition filter_count (n_image : nat) (vis_count : option (list Qc)) (obs_given : bool)
  (weights : option (list Qc)) : result (list Qc) :=
  match vis_count with
  | Some v => Ok v
  | None =>
      if obs_given then Err KeyError
      else match weights with
           | Some w =>
               if (length w =? n_image)%nat then
                 m <- np_max w ;;
                 if Qceqb m 0 then Ok w
                 else lo <- np_min (map qabs (filter (fun x => negb (Qcleb x 0)) w)) ;;
                      Ok (map (fun x => qabs x / lo) w)
               else Err TypeError
           | None => Err TypeError
           end
  end.

(** filters.py:8-96. Result: filtered plane and filter. weight_invert turns a
    one-element array into a scalar, which cannot be indexed. *)
Definition filter_uv_uniform (image : list C) (vis_count : option (list Qc)) (obs_given : bool)
  (weights : option (list Qc)) : result (list (option C) * list xf) :=
  count <- filter_count (length image) vis_count obs_given weights ;;
  if (length count =? 1)%nat then Err IndexError
  else
    let filter_use := map (inverted (Some 1)) count in
    let sel := match weights with
               | Some w => if (length w =? length image)%nat then w else filter_use
               | None => filter_use
               end in
    let wts_i := List.filter (fun k => negb (Qceqb (nth k sel 0) 0)) (seq 0 (length sel)) in
    if negb (forallb (fun k => k <? length filter_use)%nat wts_i) then Err IndexError
    else
      let mean := if (0 <? length wts_i)%nat then np_mean (map (fun k => nth k filter_use 0) wts_i)
                  else np_mean filter_use in
      let f := map (fun x => xdiv (Fin x) mean) filter_use in
      if (length f =? length image)%nat
      then Ok (map (fun p => scaled (fst p) (snd p)) (combine f image), f)
      else Err ValueError.

Open Scope nat_scope.
(** visibility_degrid.py:188-201: indices of the bi-th used bin. *)
Definition degrid_inds (ri bin_i : list nat) (n_bin_use bi : nat) : list nat :=
  if bi =? n_bin_use - 1 then skipn (nth (nth bi bin_i 0) ri 0) ri
  else slice ri (nth (nth bi bin_i 0) ri 0) (nth (nth (bi + 1) bin_i 0) ri 0).

(** int(np.ceil(a / b)), exactly *)
Definition ceil_div (a b : Z) : Z := (- (- a / b))%Z.

(** visibility_degrid.py:203-224: number of pieces, and piece [mem_i] with its vis_n (which
    the code uses as an array dimension). *)
Definition mem_iter (vis_n psf_dim3 memory_threshold : Z) : Z := ceil_div (8 * vis_n * psf_dim3) memory_threshold.
Definition piece {A} (inds : list A) (per_iter : nat) (mem_i : nat) : list A * Z :=
  let full := length inds in
  let max_ind := if full <? per_iter * (mem_i + 1) then full else per_iter * (mem_i + 1) in
  (slice inds (per_iter * mem_i) max_ind, (Z.of_nat max_ind - Z.of_nat (per_iter * mem_i))%Z).
Definition pieces {A} (inds : list A) (psf_dim3 memory_threshold : Z) : list (list A * Z) :=
  let it := mem_iter (Z.of_nat (length inds)) psf_dim3 memory_threshold in
  if (1 <? it)%Z
  then map (piece inds (Z.to_nat (ceil_div (Z.of_nat (length inds)) it))) (seq 0 (Z.to_nat it))
  else if (it =? 1)%Z then [(inds, Z.of_nat (length inds))] else [].
(** The loop body reads inds[0]: IndexError for an empty piece. *)
Definition process {A B} (f : list A -> B) (ps : list (list A * Z)) : result (list B) :=
  map_res (fun p : list A * Z => match fst p with [] => Err IndexError | _ => Ok (f (fst p)) end) ps.
