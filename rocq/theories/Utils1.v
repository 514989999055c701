(** Model of small numerical helpers of PyFHD/pyfhd_tools/pyfhd_utils.py. *)
From Verif Require Import Base SortLib Cplx.
Open Scope nat_scope.

(** pyfhd_utils.py:878-902 [idl_argunique]:
    [np.searchsorted(arr, np.unique(arr), side="right") - 1] on an integer array
    (the keys of visibility_grid). *)
Definition idl_argunique (arr : list Z) : list nat :=
  map (fun v => searchsorted_right arr v - 1) (np_unique arr).

(** Result of deriv_coefficients: the scalar 0 or an array. *)
Inductive coeff_result := Scalar0 | Coeffs (c : list Q).

(** pyfhd_utils.py:868, [coeff[1:m+1] += -m * coeff[0:m]]: the right-hand side is
    computed from the old values, then added in place. *)
Definition deriv_update (coeff : list Q) (m : nat) : list Q :=
  let rhs := map (fun x => (inject_Z (- Z.of_nat m) * x)%Q) (slice coeff 0 m) in
  let target := slice coeff 1 (m + 1) in
  firstn 1 coeff
  ++ map (fun p => (fst p + snd p)%Q) (combine target rhs)
  ++ skipn (m + 1) coeff.

(** pyfhd_utils.py:866-868, the loop [for m in range(1, n)]. *)
Definition deriv_loop (n : nat) : list Q :=
  fold_left deriv_update (seq 1 (n - 1)) (1%Q :: repeat 0%Q (n - 1)).

Fixpoint fact_Z (n : nat) : Z :=
  match n with O => 1 | S k => Z.of_nat n * fact_Z k end%Z.

(** pyfhd_utils.py:841-875 [deriv_coefficients]. *)
Definition deriv_coefficients (n : Z) (divide_factorial : bool) : coeff_result :=
  if (n <=? 0)%Z then Scalar0
  else
    let c := deriv_loop (Z.to_nat n) in
    if divide_factorial
    then Coeffs (map (fun mc => (snd mc / inject_Z (fact_Z (fst mc + 1)))%Q)
                     (combine (seq 0 (Z.to_nat n)) c))
    else Coeffs c.

(** [np.reshape(l, (r, c))] of a flat array; ValueError on a size mismatch. *)
Definition reshape2 {A} (l : list A) (r c : nat) : result (list (list A)) :=
  if length l =? r * c
  then Ok (map (fun i => slice l (i * c) (i * c + c)) (seq 0 r))
  else Err ValueError.

(** pyfhd_utils.py:795-838 [meshgrid]; sizes are positive integers, [axis=None] is
    the two-argument form (819-821). The dtype conversion of 834-838 does not change
    the integer values. *)
Definition meshgrid (dimension elements : nat) (axis : option nat) : result (list (list nat)) :=
  let '(elements, axis) := match axis with
                           | None => (dimension, elements)
                           | Some a => (elements, a)
                           end in
  if axis =? 2
  then reshape2 (map (fun k => k / dimension) (seq 0 (elements * dimension))) elements dimension
  else reshape2 (map (fun k => k mod dimension) (seq 0 (elements * dimension))) elements dimension.

(** pyfhd_utils.py:1383-1385: [np.sort(x)[int(np.ceil(len(x)/2))]] (integers stand for
    the ordered values). *)
Definition idl_median_point (x : list Z) : result Z :=
  let med_index := (length x + 1) / 2 in
  match nth_error (np_sort x) med_index with
  | Some v => Ok v
  | None => Err IndexError
  end.

(** scipy.ndimage.median_filter(x, size=width) at a position whose window lies inside
    the array: the element of rank width//2 of the window starting at k - width//2. *)
Definition window_median (x : list Z) (width k : nat) : Z :=
  nth (width / 2) (np_sort (slice x (k - width / 2) (k - width / 2 + width))) 0%Z.

(** pyfhd_utils.py:1368-1377: the [width] branch. Positions within width//2 of either
    edge keep their value; [output[hw:-hw]] is empty when hw = 0. *)
Definition idl_median_filter (x : list Z) (width : nat) : list Z :=
  let hw := width / 2 in
  map (fun k => if (0 <? hw) && (hw <=? k) && (k + hw <? length x)
                then window_median x width k else nth k x 0%Z)
      (seq 0 (length x)).

(** pyfhd_utils.py:1388-1429 [reshape_and_average_in_time]. [vis] is the 2-D array
    (rows = frequencies); [w] has shape (wf, wt, wb) and is read as w f t b. *)
Definition reshape_and_average_in_time (vis : list (list C)) (n_freq n_time n_baselines : nat)
    (wshape : nat * nat * nat) (w : nat -> nat -> nat -> Qc) : result (list (list C)) :=
  let '(wf, wt, wb) := wshape in
  if negb ((wf =? n_freq) && (wt =? n_time) && (wb =? n_baselines)) then Err SystemExit
  else
    let flat := concat vis in
    if negb (length flat =? n_freq * n_time * n_baselines) then Err ValueError
    else
      let entry f t b := nth (f * (n_time * n_baselines) + t * n_baselines + b) flat C0 in
      Ok (map (fun f => map (fun b =>
            Csum (map (fun t => Cscale (w f t b) (entry f t b)) (seq 0 n_time)))
            (seq 0 n_baselines)) (seq 0 n_freq)).
