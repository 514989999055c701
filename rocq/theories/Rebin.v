(** Model of rebin_columns, rebin_rows and rebin, PyFHD/pyfhd_tools/pyfhd_utils.py:377-637.
    Values are exact rationals; [is_int] says whether the array has an integer dtype. *)
From Verif Require Import Base Cplx NpArr.
Open Scope nat_scope.

Definition qc_of_nat (n : nat) : Qc := Q2Qc (inject_Z (Z.of_nat n)).
(** [np.floor(x).astype("int")] and [np.fix(x).astype("int")] *)
Definition qc_floor (x : Qc) : Qc := Q2Qc (inject_Z (Qfloor (this x))).
Definition qc_fix (x : Qc) : Qc := Q2Qc (inject_Z (Qtrunc (this x))).

Definition maybe (b : bool) (f : Qc -> Qc) (a : arr2 Qc) : arr2 Qc := if b then amap f a else a.

(** pyfhd_utils.py:377-421 [rebin_columns] with ax = 1 on a 2-D array. [shape] is
    the final shape. *)
Definition rebin_columns (is_int : bool) (a : arr2 Qc) (shape : nat * nat) (col_sizer : nat)
  : result (arr2 Qc) :=
  let '(s0, s1) := shape in
  let arange := Arr2 1 col_sizer (fun _ j => qc_of_nat j) in
  let tiles := np_tile arange s0 (s1 / col_sizer - 1) in
  let differences := amap (fun x => x / qc_of_nat col_sizer)%Qc (np_diff1 a) in
  inferences_non_pad <- azip Qcmult (np_repeat1 differences col_sizer) tiles ;;
  let inferences := drop_rows (np_pad inferences_non_pad col_sizer) col_sizer in
  let inferences := maybe is_int qc_floor inferences in
  azip Qcplus inferences (np_repeat1 a col_sizer).

(** pyfhd_utils.py:424-473 [rebin_rows], ax = 0. *)
Definition rebin_rows (is_int : bool) (a : arr2 Qc) (shape : nat * nat) (old1 row_sizer : nat)
  : result (arr2 Qc) :=
  let '(s0, s1) := shape in
  let column := Arr2 row_sizer 1 (fun i _ => qc_of_nat i) in
  let tiles := np_tile column ((s0 - row_sizer) / row_sizer) old1 in
  let differences := amap (fun x => x / qc_of_nat row_sizer)%Qc (np_diff0 a) in
  inferences_non_pad <- azip Qcmult (np_repeat0 differences row_sizer) tiles ;;
  let inferences := drop_cols (np_pad inferences_non_pad row_sizer) row_sizer in
  let inferences := maybe is_int qc_floor inferences in
  azip Qcplus inferences (np_repeat0 a row_sizer).

(** The input and output are 1-D or 2-D; a 1-D array is kept as one row. *)
Inductive nd := D1 (row : arr2 Qc) | D2 (a : arr2 Qc).
Definition body (x : nd) : arr2 Qc := match x with D1 r => r | D2 a => a end.

(** [np.reshape(a, (s0, p, s1, q))] read at (i, r, j, t): row-major flat index. *)
Definition reshape4_at (a : arr2 Qc) (p s1 q i r j t : nat) : Qc :=
  let flat := ((i * p + r) * s1 + j) * q + t in
  at2 a (flat / cols a) (flat mod cols a).

(** pyfhd_utils.py:547-637, the sample branch and the two resizing branches of [rebin].
    [is_int] is the dtype test of 601, 610 and in the helpers. The first test,
    [old_shape == shape] (549), never holds for 1-D arrays. *)
Definition rebin (is_int : bool) (x : nd) (shape : nat * nat) (sample : bool) : result nd :=
  let '(s0, s1) := shape in
  let a := body x in
  let o0 := rows a in let o1 := cols a in
  if (match x with D2 _ => (o0 =? s0) && (o1 =? s1) | D1 _ => false end) then Ok x
  else if sample then
    if o0 =? 1 then
      (* axis 0 of the array as it is: the only axis of a 1-D array, the rows of a 2-D one *)
      match x with
      | D1 r => if o1 <? s1 then Ok (D1 (np_repeat1 r (s1 / o1)))
                else if s1 =? 0 then Err ZeroDivision
                else Ok (D1 (stride1 r (o1 / s1)))
      | D2 r => if o1 <? s1 then Ok (D2 (np_repeat0 r (s1 / o1)))
                else if s1 =? 0 then Err ZeroDivision
                else Ok (D2 (stride0 r (o1 / s1)))
      end
    else
      r1 <- (if o0 <=? s0 then if o0 =? 0 then Err ZeroDivision else Ok (np_repeat0 a (s0 / o0))
             else if s0 =? 0 then Err ZeroDivision else Ok (stride0 a (o0 / s0))) ;;
      r2 <- (if o1 <=? s1 then if o1 =? 0 then Err ZeroDivision else Ok (np_repeat1 r1 (s1 / o1))
             else if s1 =? 0 then Err ZeroDivision else Ok (stride1 r1 (o1 / s1))) ;;
      Ok (D2 r2)
  else if (s0 <? o0) || (s1 <? o1) then
    if (Nat.min o0 s0 =? 0) || (Nat.min o1 s1 =? 0) then Err ZeroDivision
    else if negb (Nat.max o0 s0 mod Nat.min o0 s0 =? 0) || negb (Nat.max o1 s1 mod Nat.min o1 s1 =? 0)
    then Err ValueError
    else
      (* 587-592 *)
      let a := if o0 <? s0 then np_tile a s0 1
               else if o1 <? s1 then np_tile a 1 s1 else a in
      let o0 := rows a in let o1 := cols a in
      let p := o0 / s0 in let q := o1 / s1 in
      (* 594-611 *)
      let m1 := fun i r j => (Qcsum_n q (fun t => reshape4_at a p s1 q i r j t) / qc_of_nat q)%Qc in
      let m1 := fun i r j => if is_int then qc_fix (m1 i r j) else m1 i r j in
      let m2 := Arr2 s0 s1 (fun i j => (Qcsum_n p (fun r => m1 i r j) / qc_of_nat p)%Qc) in
      let m2 := maybe is_int qc_fix m2 in
      Ok (if s0 =? 1 then D1 m2 else D2 m2)
  else
    if (o0 =? 0) || (o1 =? 0) then Err ZeroDivision
    else if negb (s0 mod o0 =? 0) || negb (s1 mod o1 =? 0) then Err ValueError
    else
      let row_sizer := s0 / o0 in
      let col_sizer := s1 / o1 in
      if o0 =? 1 then
        match x with
        | D1 r =>
            (* 1-D: the differences and repeats run along the only axis and broadcast
               against the (s0, .) tiles *)
            out <- rebin_columns is_int r (s0, s1) col_sizer ;;
            Ok (if s0 =? 1 then D1 out else D2 out)
        | D2 r =>
            (* a 2-D array with one row: np.diff along axis 0 is empty, (0, o1), and the
               product with the (s0, s1 - col_sizer) tiles is a broadcasting error unless
               s0 = 1 and o1 = s1 - col_sizer; that remaining case, and its later shape
               mismatch, is reported the same way *)
            Err ValueError
        end
      else
        r <- rebin_rows is_int a (s0, s1) o1 row_sizer ;;
        if (rows r =? s0) && (cols r =? s1) then Ok (D2 r)
        else out <- rebin_columns is_int r (s0, s1) col_sizer ;; Ok (D2 out).
