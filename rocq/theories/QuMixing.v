(** Model of calibrate_qu_mixing, PyFHD/calibration/calibrate.py:190-283. Complex numbers have exact rational parts;
    np.linalg.lstsq (the slope of the fitted line) and arctan2 are parameters. *)
From Verif Require Import Base Cplx NpArr VisWeights Utils1 CalApply.
Open Scope nat_scope.

Section Mixing.
  (** lstsq([u, 1], q)[0][0] *)
  Variable slope : list C -> list C -> C.
  Variable arg_ : C -> Qc.

  (** lines 229-230 *)
  Definition clip_weight (w : Qc) : Qc :=
    let w := if Qclt_le_dec w 0 then 0%Qc else w in if Qclt_le_dec 1 w then 1%Qc else w.

  (** vis[i] op vis[j] as a 2-D array (rows = frequencies) *)
  Definition combine2 (op : C -> C -> C) (v : arr3 C) (i j : nat) : result (list (list C)) :=
    if (d_pol v <=? i) || (d_pol v <=? j) then Err IndexError else
    Ok (map (fun f => map (fun b => op (at3 v i f b) (at3 v j f b)) (seq 0 (d_bl v))) (seq 0 (d_freq v))).

  (** lines 265-269: the entries [i_use] in order, [np.nonzero] lists them row by row *)
  Definition select (n_freq n_baselines : nat) (use : nat -> nat -> bool) (m : list (list C)) : list C :=
    flat_map (fun f => map (fun b => nth b (nth f m []) C0) (filter (use f) (seq 0 n_baselines))) (seq 0 n_freq).

  Definition calibrate_qu_mixing (vis model : arr3 C) (weights : arr3 Qc) (n_freq n_time n_baselines : nat) : result Qc :=
    if d_pol weights =? 0 then Err IndexError else
    (** np.reshape (226) *)
    if negb (d_freq weights * d_bl weights =? n_freq * n_time * n_baselines) then Err ValueError else
    let w f t b := let k := f * (n_time * n_baselines) + t * n_baselines + b in
                   clip_weight (at3 weights 0 (k / d_bl weights) (k mod d_bl weights)) in
    let avg m := reshape_and_average_in_time m n_freq n_time n_baselines (n_freq, n_time, n_baselines) w in
    q <- combine2 Csub vis 1 0 ;; q <- avg q ;;
    u <- combine2 Cadd vis 3 2 ;; u <- avg u ;;
    qm <- combine2 Csub model 1 0 ;; qm <- avg qm ;;
    um <- combine2 Cadd model 3 2 ;; um <- avg um ;;
    let use f b := negb (if Qc_eq_dec (Qcsum (map (fun t => w f t b) (seq 0 n_time))) 0 then true else false) in
    let pick := select n_freq n_baselines use in
    Ok (arg_ (slope (pick um) (pick qm)) - arg_ (slope (pick u) (pick q)))%Qc.
End Mixing.
