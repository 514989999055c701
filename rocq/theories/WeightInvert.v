(** Model of weight_invert, PyFHD/pyfhd_tools/pyfhd_utils.py:640-721, on IEEE-like
    numbers: exact rationals extended with the infinities and NaN. Signed zeros are not
    distinguished (they only affect the sign of an infinity that the code then
    replaces by 0). Rounding is not modelled. *)
From Verif Require Import Base Cplx.
Open Scope Qc_scope.

Inductive xf := Fin (q : Qc) | PInf | NInf | NaN.

Definition Qcleb (x y : Qc) : bool := if Qclt_le_dec y x then false else true.
Definition Qceqb (x y : Qc) : bool := if Qc_eq_dec x y then true else false.

(** Sign of a rational: Eq for 0. *)
Definition sgn (q : Qc) : comparison := Qccompare q 0.

Definition xopp (a : xf) : xf :=
  match a with Fin x => Fin (- x) | PInf => NInf | NInf => PInf | NaN => NaN end.
Definition xadd (a b : xf) : xf :=
  match a, b with
  | NaN, _ | _, NaN => NaN
  | Fin x, Fin y => Fin (x + y)
  | PInf, NInf | NInf, PInf => NaN
  | PInf, _ | _, PInf => PInf
  | NInf, _ | _, NInf => NInf
  end.
Definition xsub a b := xadd a (xopp b).
Definition inf_times (c : comparison) : xf :=
  match c with Eq => NaN | Gt => PInf | Lt => NInf end.
Definition xmul (a b : xf) : xf :=
  match a, b with
  | NaN, _ | _, NaN => NaN
  | Fin x, Fin y => Fin (x * y)
  | PInf, Fin y | Fin y, PInf => inf_times (sgn y)
  | NInf, Fin y | Fin y, NInf => xopp (inf_times (sgn y))
  | PInf, PInf | NInf, NInf => PInf
  | PInf, NInf | NInf, PInf => NInf
  end.
(** Division; x/0 is an infinity for x <> 0 and NaN for 0/0 (the zero taken positive). *)
Definition xdiv (a b : xf) : xf :=
  match a, b with
  | NaN, _ | _, NaN => NaN
  | Fin x, Fin y => if Qc_eq_dec y 0 then inf_times (sgn x) else Fin (x / y)
  | Fin _, _ => Fin 0
  | PInf, Fin y => match sgn y with Lt => NInf | _ => PInf end
  | NInf, Fin y => match sgn y with Lt => PInf | _ => NInf end
  | _, _ => NaN
  end.
Definition xabs (a : xf) : xf :=
  match a with Fin x => Fin (if Qclt_le_dec x 0 then - x else x) | PInf | NInf => PInf | NaN => NaN end.
(** [a >= b], false on NaN. *)
Definition xge (a b : xf) : bool :=
  match a, b with
  | NaN, _ | _, NaN => false
  | PInf, _ | _, NInf => true
  | Fin x, Fin y => Qcleb y x
  | _, _ => false
  end.
(** [np.nonzero]: everything but zero, NaN included. *)
Definition xnonzero (a : xf) : bool :=
  match a with Fin x => negb (Qceqb x 0) | _ => true end.
Definition is_nan (a : xf) : bool := match a with NaN => true | _ => false end.
Definition is_inf (a : xf) : bool := match a with PInf | NInf => true | _ => false end.

(** An entry of the array: float, int64, or complex. *)
Inductive num := NFloat (x : xf) | NInt (z : Z) | NCplx (r i : xf).

(** [np.abs] of a complex number is represented by its squared modulus
    (hypot is infinite as soon as one part is). *)
Inductive modulus := MFin (sq : Qc) | MInf | MNaN.
Definition cmod (r i : xf) : modulus :=
  match r, i with
  | PInf, _ | NInf, _ | _, PInf | _, NInf => MInf
  | NaN, _ | _, NaN => MNaN
  | Fin x, Fin y => MFin (x * x + y * y)
  end.
(** sqrt(sq) >= t *)
Definition mod_ge (m : modulus) (t : xf) : bool :=
  match m, t with
  | MNaN, _ | _, NaN => false
  | MInf, _ | _, NInf => true
  | _, PInf => false
  | MFin s, Fin t => if Qclt_le_dec t 0 then true else Qcleb (t * t) s
  end.

(** lines 676-696: is the entry selected ([i_use])?  [use_abs] compares |w|. *)
Definition used (threshold : option xf) (use_abs : bool) (w : num) : bool :=
  match w with
  | NFloat x =>
      let x := if use_abs then xabs x else x in
      match threshold with Some t => xge x t | None => xnonzero x end
  | NInt z =>
      let q := Q2Qc (inject_Z (if use_abs then Z.abs z else z)) in
      match threshold with Some t => xge (Fin q) t | None => xnonzero (Fin q) end
  | NCplx r i =>
      match threshold with
      | Some t => mod_ge (cmod r i) t
      | None => match cmod r i with MFin s => negb (Qceqb s 0) | _ => true end
      end
  end.

(** NumPy's complex division 1/(r+i*j) (Smith's algorithm, loops_utils / npy_math):
    in1 = 1 + 0j. *)
Definition xcinv (r i : xf) : xf * xf :=
  let one := Fin 1 in let zero := Fin 0 in
  let abs_r := xabs r in let abs_i := xabs i in
  if xge abs_r abs_i then
    if negb (xnonzero abs_r) && negb (xnonzero abs_i)
    then (xdiv one abs_r, xdiv zero abs_r)
    else let rat := xdiv i r in
         let scl := xdiv one (xadd r (xmul i rat)) in
         (xmul (xadd one (xmul zero rat)) scl, xmul (xsub zero (xmul one rat)) scl)
  else let rat := xdiv r i in
       let scl := xdiv one (xadd i (xmul r rat)) in
       (xmul (xadd (xmul one rat) zero) scl, xmul (xsub (xmul zero rat) one) scl).

Definition int_min : Z := (- 2 ^ 63)%Z.
(** Assigning a float to an int64 element: truncation; the C conversion of an
    infinity or NaN gives INT64_MIN on x86-64. *)
Definition to_int (x : xf) : Z :=
  match x with Fin q => Qtrunc (this q) | _ => int_min end.

(** lines 698-699: [result[i_use] = 1 / weights[i_use]], else the initial 0. *)
Definition assigned (threshold : option xf) (use_abs : bool) (w : num) : num :=
  if used threshold use_abs w then
    match w with
    | NFloat x => NFloat (xdiv (Fin 1) x)
    | NInt z => NInt (to_int (xdiv (Fin 1) (Fin (Q2Qc (inject_Z z)))))
    | NCplx r i => let '(a, b) := xcinv r i in NCplx a b
    end
  else
    match w with NFloat _ => NFloat (Fin 0) | NInt _ => NInt 0 | NCplx _ _ => NCplx (Fin 0) (Fin 0) end.

(** lines 701-706: NaNs, then infinities, are replaced by 0. *)
Definition clean_nan (w : num) : num :=
  match w with
  | NFloat x => if is_nan x then NFloat (Fin 0) else w
  | NInt _ => w
  | NCplx r i => if is_nan r || is_nan i then NCplx (Fin 0) (Fin 0) else w
  end.
Definition clean_inf (w : num) : num :=
  match w with
  | NFloat x => if is_inf x then NFloat (Fin 0) else w
  | NInt _ => w
  | NCplx r i => if is_inf r || is_inf i then NCplx (Fin 0) (Fin 0) else w
  end.

Definition invert_entry threshold use_abs w := clean_inf (clean_nan (assigned threshold use_abs w)).

Inductive weights_arg := WScalar (w : num) | WArray (l : list num).

(** lines 671-676 and 708-711. Arrays are flattened: the function works entry by entry
    and [zeros_like] keeps the shape. *)
Definition weight_invert (weights : weights_arg) (threshold : option xf) (use_abs : bool) : weights_arg :=
  let l := match weights with WScalar w => [w] | WArray l => l end in
  match map (invert_entry threshold use_abs) l with
  | [r] => WScalar r
  | rs => WArray rs
  end.
