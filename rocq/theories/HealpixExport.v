(** Model of vis_model_freq_split (PyFHD/healpix/healpix_utils.py:433-656) and of the frequency averaging, even/odd and
    file-writing part of healpix_snapshot_cube_generate (PyFHD/healpix/export.py:22-222). The gridding, the imaging and the
    HEALPix conversion are functions given from outside, acting on opaque planes [P] and HEALPix maps [M]. *)
From Coq Require Import String.
From Verif Require Import Base VisWeights.
Import ListNotations.
Open Scope nat_scope.

(** What visibility_grid returns; [g_nf c] is what it writes in obs["nf_vis"][c] for the channels c it was given. *)
Record gridded (P : Type) := { g_image : P; g_weights : P; g_variance : P; g_model : P; g_n_vis : nat; g_nf : nat -> nat }.
Arguments g_image {P}. Arguments g_weights {P}. Arguments g_variance {P}. Arguments g_model {P}.
Arguments g_n_vis {P}. Arguments g_nf {P}.

(** The four planes of one frequency. *)
Record planes (P : Type) := Planes { pl_dirty : P; pl_weights : P; pl_variance : P; pl_model : P }.
Arguments Planes {P}. Arguments pl_dirty {P}. Arguments pl_weights {P}. Arguments pl_variance {P}. Arguments pl_model {P}.

(** External operations: visibility_grid on the channels and baselines given ([None]: the empty dictionary),
    dirty_image_generate, the factor rephase_use and the multiplication by n_vis. *)
Record ops (P : Type) := {
  op_grid : list nat -> list nat -> result (option (gridded P));
  op_image : P -> result P;
  op_rephase : P -> P;
  op_scale : nat -> P -> P;
  op_zero : P }.
Arguments op_grid {P}. Arguments op_image {P}. Arguments op_rephase {P}. Arguments op_scale {P}. Arguments op_zero {P}.

(** 489-490: np.arange(n_freq) // n_avg and nf. numpy gives 0 for a division by 0. *)
Definition freq_bins (n_freq n_avg : nat) : list nat := map (fun c => c / n_avg) (seq 0 n_freq).
Definition list_max0 (l : list nat) : nat := fold_left Nat.max l 0.

(** 516-525: the default for bi_use. The sum over axis 1 is a sum over baselines: one value per frequency. *)
Definition default_bi (w : arr3 Q) (n_pol : nat) : list nat :=
  filter (fun f => negb (Qle_bool (Qsum (map (fun b =>
            let p := Qmax0 (at3 w 0 f b) in
            if 1 <? n_pol then (if Qle_bool p (at3 w 1 f b) then at3 w 1 f b else p) else p) (seq 0 (d_bl w)))) 0))
         (seq 0 (d_freq w)).

Record split_state (P : Type) := SplitState {
  ss_cubes : list (planes P); ss_uv : list (planes P); ss_n_vis : nat; ss_nf : list nat }.
Arguments SplitState {P}. Arguments ss_cubes {P}. Arguments ss_uv {P}. Arguments ss_n_vis {P}. Arguments ss_nf {P}.

(** 528-591: one output frequency. *)
Definition split_step {P} (o : ops P) (fft model : bool) (bins : list nat) (freq_use : list Z) (bi_use : list nat)
  (st : split_state P) (fi : nat) : result (split_state P) :=
  let fi_use := where_ (fun p => (fst p =? fi) && (0 <? snd p)%Z) (combine bins freq_use) in
  if length fi_use =? 0 then Ok st else
  if negb model then Err TypeError else
  r <- op_grid o fi_use bi_use ;;
  match r with
  | None => Ok st
  | Some g =>
      let nf := fold_left (fun acc c => upd acc c (g_nf g c)) fi_use (ss_nf st) in
      let uv := Planes (op_scale o (g_n_vis g) (g_image g))
                       (op_scale o (g_n_vis g) (op_rephase o (g_weights g)))
                       (op_scale o (g_n_vis g) (op_rephase o (g_variance g)))
                       (op_scale o (g_n_vis g) (g_model g)) in
      cube <- (if fft then
                 d <- op_image o (g_image g) ;; w <- op_image o (op_rephase o (g_weights g)) ;;
                 v <- op_image o (op_rephase o (g_variance g)) ;; m <- op_image o (g_model g) ;;
                 Ok (Planes (op_scale o (g_n_vis g) d) (op_scale o (g_n_vis g) w)
                            (op_scale o (g_n_vis g) v) (op_scale o (g_n_vis g) m))
               else Ok uv) ;;
      Ok (SplitState (upd (ss_cubes st) fi cube) (upd (ss_uv st) fi uv) (ss_n_vis st + g_n_vis g) nf)
  end.

(** 489-656. [nf_vis]: obs["nf_vis"] before the call; the state returned holds the cubes, the planes saved by save_uvf,
    obs["n_vis"] and obs["nf_vis"]. *)
Definition vis_model_freq_split {P} (o : ops P) (fft model : bool) (n_freq n_avg : nat) (freq_use : list Z)
  (bi_use : list nat) (nf_vis : list nat) : result (split_state P) :=
  let bins := freq_bins n_freq n_avg in
  if n_freq =? 0 then Err ValueError else                               (* np.max of an empty array *)
  if negb (length freq_use =? n_freq) then Err ValueError else          (* operands could not be broadcast *)
  let nf := list_max0 bins + 1 in
  let z := Planes (op_zero o) (op_zero o) (op_zero o) (op_zero o) in
  fold_res (split_step o fft model bins freq_use bi_use) (seq 0 nf) (SplitState (repeat z nf) (repeat z nf) 0 nf_vis).

(** ** export.py *)
Record hpx_file (M : Type) := {
  f_beam : list M; f_weights : list M; f_variance : list M; f_model : list M;
  f_res : option (list M); f_dirty : option (list M); f_n_vis : nat; f_nf : list nat }.
Arguments f_beam {M}. Arguments f_weights {M}. Arguments f_variance {M}. Arguments f_model {M}.
Arguments f_res {M}. Arguments f_dirty {M}. Arguments f_n_vis {M}. Arguments f_nf {M}.

Record export_in (P M : Type) := {
  x_ops : nat -> ops P;                           (* one per polarisation *)
  x_beam : nat -> nat -> result P;                (* beam_arr[pol_i, freq_i], from beam_image_cube *)
  x_cnv : P -> result M;                          (* healpix_cnv_apply *)
  x_scale : nat -> P -> P;                        (* beam * nf_vis_use[freq_i] *)
  x_split : result (list (list nat));             (* split_vis_weights: bi_use *)
  x_noise : bool -> result unit;                  (* vis_noise_calc *)
  x_n_freq : nat; x_n_avg : nat; x_n_pol : nat; x_freq_use : list Z; x_nf_vis : list nat;
  x_pol_names : list string; x_obs_id : string; x_residual : bool; x_has_model : bool; x_split_ps : bool }.
Arguments x_ops {P M}. Arguments x_beam {P M}. Arguments x_cnv {P M}. Arguments x_scale {P M}. Arguments x_split {P M}.
Arguments x_noise {P M}. Arguments x_n_freq {P M}. Arguments x_n_avg {P M}. Arguments x_n_pol {P M}.
Arguments x_freq_use {P M}. Arguments x_nf_vis {P M}. Arguments x_pol_names {P M}. Arguments x_obs_id {P M}.
Arguments x_residual {P M}. Arguments x_has_model {P M}. Arguments x_split_ps {P M}.

Fixpoint map_r {A B} (f : A -> result B) (l : list A) : result (list B) :=
  match l with [] => Ok [] | a :: t => b <- f a ;; r <- map_r f t ;; Ok (b :: r) end.

(** 186-202: one frequency: the beam, weights, variance, model and dirty maps, in that order. *)
Definition export_freq {P M} (x : export_in P M) (n_freq_use pol : nat) (st : split_state P) (i : nat)
  : result (M * M * M * M * M) :=
  let nf_use := sum_nat (slice (ss_nf st) (i * x_n_avg x) ((i + 1) * x_n_avg x)) in
  match nth_error (ss_cubes st) i with
  | None => Err IndexError
  | Some c =>
      b <- x_beam x pol i ;; b <- x_cnv x (x_scale x nf_use b) ;;
      w <- x_cnv x (pl_weights c) ;; v <- x_cnv x (pl_variance c) ;;
      m <- x_cnv x (pl_model c) ;; d <- x_cnv x (pl_dirty c) ;;
      Ok (b, w, v, m, d)
  end.

(** 151-222: one polarisation of one cube. The files are in the order they are written. *)
Definition export_pol {P M} (x : export_in P M) (n_freq_use : nat) (cube_name : string) (bi_use : list nat)
  (acc : list nat * list (string * hpx_file M)) (pol : nat) : result (list nat * list (string * hpx_file M)) :=
  let '(nf_vis, files) := acc in
  st <- vis_model_freq_split (x_ops x pol) true (x_has_model x) (x_n_freq x) (x_n_avg x) (x_freq_use x) bi_use nf_vis ;;
  let dirty_flag := negb (x_residual x) && x_has_model x in
  rows <- map_r (export_freq x n_freq_use pol st) (seq 0 n_freq_use) ;;
  let cube := map (fun r => let '(_, _, _, _, d) := r in d) rows in
  match nth_error (x_pol_names x) pol with
  | None => Err IndexError
  | Some p =>
      Ok (ss_nf st, files ++ [((x_obs_id x ++ "_" ++ cube_name ++ "_" ++ p ++ ".h5")%string,
          {| f_beam := map (fun r => let '(b, _, _, _, _) := r in b) rows;
             f_weights := map (fun r => let '(_, w, _, _, _) := r in w) rows;
             f_variance := map (fun r => let '(_, _, v, _, _) := r in v) rows;
             f_model := map (fun r => let '(_, _, _, m, _) := r in m) rows;
             f_res := if dirty_flag then None else Some cube;
             f_dirty := if dirty_flag then Some cube else None;
             f_n_vis := ss_n_vis st; f_nf := ss_nf st |})])
  end.

(** 57-60, 96, 127-222. Without split_ps_export, vis_weights_use is never assigned. *)
Definition snapshot {P M} (x : export_in P M) : result (list (string * hpx_file M)) :=
  if x_n_avg x =? 0 then Err ZeroDivision else
  let n_freq_use := x_n_freq x / x_n_avg x in
  if x_split_ps x then
    bi <- x_split x ;; _ <- x_noise x true ;;
    out <- fold_res (fun acc ic =>
             match nth_error bi (fst ic) with
             | None => Err IndexError
             | Some b => fold_res (export_pol x n_freq_use (snd ic) b) (seq 0 (x_n_pol x)) acc
             end) [(0, "hpx_even"%string); (1, "hpx_odd"%string)] (x_nf_vis x, []) ;;
    Ok (snd out)
  else
    _ <- x_noise x false ;;
    if x_n_pol x =? 0 then Ok [] else Err UnboundLocal.
