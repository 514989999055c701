(** Model of calculate_adaptive_gain, PyFHD/calibration/calibration_utils.py:1630-1722, on exact
    rationals extended with the infinities and NaN (WeightInvert.v). *)
From Verif Require Import Base SortLib PyIndex Cplx WeightInvert CalApply.
Open Scope nat_scope.

(** a <= b for numbers that are not NaN *)
Definition xle (a b : xf) : bool := xge b a.
(** [np.max((a, b))]: NaN if one of them is. *)
Definition xmax (a b : xf) : xf :=
  if is_nan a || is_nan b then NaN else if xge a b then a else b.
Definition xhalf (a : xf) : xf := xdiv a (Fin (Q2Qc 2)).
(** [np.median]: NaN if some entry is; the mean of the two middle entries for an even number. *)
Definition xmedian (l : list xf) : xf :=
  if existsb is_nan l then NaN else
  let s := isort xle l in
  let n := length s in
  if n =? 0 then NaN
  else if n mod 2 =? 1 then nth (n / 2) s NaN
  else xhalf (xadd (nth (n / 2 - 1) s NaN) (nth (n / 2) s NaN)).

(** lines 1680-1688: one entry of est_final_conv *)
Definition est_entry (gain_list conv_list : list xf) (i : nat) : result xf :=
  g <- py_list gain_list i ;;
  c1 <- py_list conv_list (i + 1) ;;
  c0 <- py_list conv_list i ;;
  Ok (xmax (Fin 0) (xdiv (xsub (xmul (xadd (Fin 1) g) c1) c0) g)).

(** lines 1672-1722: the gain, and the list with the gain recorded at [iter] (1720) *)
Definition calculate_adaptive_gain (gain_list conv_list : list xf) (iter : nat) (base : xf)
    (final_est : option xf) : result (xf * list xf) :=
  gain <- (if 2 <? iter then
             est <- match final_est with
                    | Some e => Ok e
                    | None => l <- map_res (est_entry gain_list conv_list) (seq 0 (iter - 1)) ;;
                              Ok (xmedian (skipn (iter - 5) l))
                    end ;;
             last_gain <- py_list gain_list (iter - 1) ;;
             last_conv <- py_list conv_list (iter - 2) ;;
             new_conv <- py_list conv_list (iter - 1) ;;
             let denom := xadd base last_gain in
             let predicted := xdiv (xadd (xmul est last_gain) last_conv) denom in
             let delta := xdiv (xsub predicted new_conv) (xdiv (xsub last_conv est) denom) in
             let new_gain := xsub (Fin 1) (xabs delta) in
             Ok (xmax (xhalf base) (xhalf (xadd new_gain last_gain)))
           else Ok base) ;;
  if length gain_list <=? iter then Err IndexError else
  Ok (gain, upd gain_list iter gain).
