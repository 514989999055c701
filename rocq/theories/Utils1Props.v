(** Property theorems C05, C06, C10, C24, C49. *)
From Verif Require Import Base SortLib Cplx Utils1 Utils1Spec Utils1Proofs.
Open Scope nat_scope.

(** C05: on a sorted array the result is the increasing list of the last positions of
    the runs of equal values; every value has exactly one such position and it is the
    value's last occurrence. *)
Theorem C05_idl_argunique : forall arr : list Z, nondecreasing arr ->
  idl_argunique arr = filter (ends_run arr) (seq 0 (length arr))
  /\ forall v, In v arr -> exists p, (In p (idl_argunique arr) /\ nth p arr 0%Z = v)
       /\ forall q, q < length arr -> nth q arr 0%Z = v -> q <= p.
Proof. intros arr H. split; [exact (argunique_exact arr H)|exact (argunique_values arr H)]. Qed.
Print Assumptions C05_idl_argunique.

Example C05_case : nondecreasing [2;2;5;7;7;7]%Z /\ idl_argunique [2;2;5;7;7;7]%Z = [1;2;5].
Proof.
  split; [|vm_compute; reflexivity].
  intros i j H1 H2. simpl in H2.
  do 6 (destruct j as [|j]; [do 6 (destruct i as [|i]; [simpl; lia|]); lia|]). lia.
Qed.

(** The runs delimited by consecutive results tile the array: between the end of one run
    and the end of the next all values are equal to the latter's. *)
Theorem C05_runs_tile : forall arr : list Z, nondecreasing arr ->
  let u := idl_argunique arr in
  (arr <> [] -> u <> [] /\ nth (length u - 1) u 0 = length arr - 1)
  /\ (forall i j, i < j -> j < length u -> nth i u 0 < nth j u 0)
  /\ (forall i q, i < length u -> (if i =? 0 then 0 else S (nth (i - 1) u 0)) <= q -> q <= nth i u 0 ->
        nth q arr 0%Z = nth (nth i u 0) arr 0%Z).
Proof. exact argunique_runs. Qed.
Print Assumptions C05_runs_tile.

(** C06 *)
Theorem C06_deriv_coefficients : forall n : Z, (1 <= n)%Z ->
  exists c, deriv_coefficients n false = Coeffs c /\ length c = Z.to_nat n
    /\ forall a : Q,
         (qsum (Z.to_nat n) (fun k => nth k c 0 * qpow a (Z.to_nat n - k)) == falling a (Z.to_nat n))%Q.
Proof. exact deriv_plain. Qed.
Print Assumptions C06_deriv_coefficients.

Theorem C06_divided_by_factorial : forall n : Z, (1 <= n)%Z ->
  exists c d, deriv_coefficients n false = Coeffs c /\ deriv_coefficients n true = Coeffs d
    /\ length d = length c
    /\ forall m, m < length c -> (nth m d 0 * inject_Z (Z.of_nat (fact (m + 1))) == nth m c 0)%Q.
Proof. exact deriv_divided_fact. Qed.
Print Assumptions C06_divided_by_factorial.

Theorem C06_nonpositive : forall n d, (n <= 0)%Z -> deriv_coefficients n d = Scalar0.
Proof. exact deriv_nonpos. Qed.
Print Assumptions C06_nonpositive.

Example C06_case : deriv_coefficients 4 false = Coeffs [1; -6; 11; -6]%Q.
Proof. vm_compute. reflexivity. Qed.

(** C10 *)
Theorem C10_meshgrid : forall dim el axis, 0 < dim ->
  exists m, meshgrid dim el (Some axis) = Ok m /\ shape2 m el dim
    /\ forall r c, r < el -> c < dim -> nth2 0 m r c = if axis =? 2 then r else c.
Proof. exact meshgrid_axis. Qed.
Print Assumptions C10_meshgrid.

Theorem C10_meshgrid_square : forall n axis, 0 < n ->
  exists m, meshgrid n axis None = Ok m /\ shape2 m n n
    /\ forall r c, r < n -> c < n -> nth2 0 m r c = if axis =? 2 then r else c.
Proof. intros n axis H. rewrite meshgrid_square. exact (meshgrid_axis n n axis H). Qed.
Print Assumptions C10_meshgrid_square.

Example C10_case : meshgrid 3 2 (Some 2) = Ok [[0;0;0];[1;1;1]] /\ meshgrid 2 1 None = Ok [[0;1];[0;1]].
Proof. split; reflexivity. Qed.

(** C24 is false of the code for arrays of odd length: the element returned is one
    rank too high (and a one-element array raises IndexError). *)
Theorem C24_idl_median_odd_refuted :
  exists x v, x <> [] /\ idl_median_point x = Ok v /\ ~ is_median x v.
Proof.
  exists [1;2;3]%Z, 3%Z. split; [discriminate|]. split; [reflexivity|].
  intros (_ & _ & H). vm_compute in H. lia.
Qed.
Print Assumptions C24_idl_median_odd_refuted.

Theorem C24_idl_median_odd_too_high : forall x, Nat.even (length x) = false -> 3 <= length x -> NoDup x ->
  exists v, idl_median_point x = Ok v /\ 2 * count_ge x v < length x.
Proof. exact idl_median_odd_wrong. Qed.
Print Assumptions C24_idl_median_odd_too_high.

Theorem C24_idl_median_single : forall x, length x <= 1 -> idl_median_point x = Err IndexError.
Proof. exact idl_median_small. Qed.
Print Assumptions C24_idl_median_single.

Theorem C24_idl_median_even_partial : forall x, Nat.even (length x) = true -> x <> [] ->
  exists v, idl_median_point x = Ok v /\ is_median x v.
Proof. exact idl_median_even. Qed.
Print Assumptions C24_idl_median_even_partial.

Theorem C24_width_filter : forall x w k, k < length x ->
  length (idl_median_filter x w) = length x
  /\ (k < w / 2 \/ length x <= k + w / 2 ->
        nth k (idl_median_filter x w) 0%Z = nth k x 0%Z)
  /\ (2 <= w -> w / 2 <= k -> k + w / 2 < length x ->
        is_median (slice x (k - w / 2) (k - w / 2 + w)) (nth k (idl_median_filter x w) 0%Z)
        /\ length (slice x (k - w / 2) (k - w / 2 + w)) = w).
Proof.
  intros x w k Hk. split; [apply idl_filter_length|].
  split; [exact (idl_filter_edges x w k Hk)|exact (idl_filter_interior x w k)].
Qed.
Print Assumptions C24_width_filter.

Example C24_case : idl_median_point [4;1;3;2]%Z = Ok 3%Z
  /\ idl_median_filter [9;1;5;2;8;0]%Z 3 = [9;5;2;5;2;0]%Z.
Proof. split; reflexivity. Qed.

(** C49 *)
Theorem C49_time_average : forall vis nf nt nbl w, shape2 vis nf (nt * nbl) ->
  exists out, reshape_and_average_in_time vis nf nt nbl (nf, nt, nbl) w = Ok out
    /\ shape2 out nf nbl
    /\ forall f b, f < nf -> b < nbl ->
         nth2 C0 out f b = Csum (map (fun t => Cscale (w f t b) (nth2 C0 vis f (t * nbl + b))) (seq 0 nt)).
Proof. exact time_average. Qed.
Print Assumptions C49_time_average.

Theorem C49_wrong_weight_shape : forall vis nf nt nbl ws w, ws <> (nf, nt, nbl) ->
  reshape_and_average_in_time vis nf nt nbl ws w = Err SystemExit.
Proof. exact time_average_shape. Qed.
Print Assumptions C49_wrong_weight_shape.

Example C49_case :
  reshape_and_average_in_time [[C1; Ci; C1; C1]] 1 2 2 (1, 2, 2) (fun _ _ _ => 1%Qc)
  = Ok [[C1 + C1; Ci + C1]]%C.
Proof. vm_compute. reflexivity. Qed.
