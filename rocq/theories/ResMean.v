(** Model of resistant_mean for real arrays, PyFHD/pyfhd_tools/pyfhd_utils.py:1016-1083.
    Floats are exact rationals; the comparison with the standard deviation is made between
    squares (both sides are non-negative). [None] stands for NaN. *)
From Coq Require Import Qabs.
From Verif Require Import Base SortLib VisWeights.
Open Scope Q_scope.

(** np.median *)
Definition np_median (l : list Q) : option Q :=
  match l with
  | [] => None
  | _ => let s := isort Qle_bool l in
         let n := length l in
         Some ((nth ((n - 1) / 2) s 0 + nth (n / 2) s 0) / 2)
  end.

Definition mad_scale : Q := 67449999999999999 # 100000000000000000.
(** np.polyval with the default sigma_coeff *)
Definition sigma_poly (x : Q) : Q :=
  (((20142 # 1000000) * x - (23584 # 100000)) * x + (90723 # 100000)) * x - (15405 # 100000).

(** lines 1059-1083; [deviations] is a number (the callers pass 2) *)
Definition resistant_mean (a : list Q) (deviations : Q) : option Q :=
  match np_median a with
  | None => None
  | Some median =>
    let abs_dev x := Qabs (x - median) in
    match np_median (map abs_dev a) with
    | None => None
    | Some m =>
      let mad := m / mad_scale in
      let mad_threshold := deviations * mad in
      let no_outliers := filter (fun x => Qle_bool (abs_dev x) mad_threshold) a in
      match no_outliers with
      | [] => None (* the standard deviation is NaN and every later comparison false *)
      | _ =>
        let deviationsX := if Qle_bool deviations 1 then 1 else deviations in
        let var := Qvar no_outliers in
        let var := if Qle_bool deviationsX (9 # 2)
                   then var / (sigma_poly deviationsX * sigma_poly deviationsX) else var in
        let threshold2 := var * (deviations * deviations) in
        let subarray := filter (fun x => Qle_bool (abs_dev x * abs_dev x) threshold2) a in
        match subarray with
        | [] => None (* np.mean of an empty array *)
        | _ => Some (Qmean subarray)
        end
      end
    end
  end.
