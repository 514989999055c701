(** C08, C09: property theorems about rebin. [body] is the array itself (a 1-D array is
    one row); [Qcsum_n n f] is the sum of f 0 .. f (n-1). *)
From Coq Require Import Lqa.
From Verif Require Import Base Cplx NpArr Rebin RebinProofs.
Open Scope nat_scope.

(** The integer roundings: [qc_fix] truncates towards zero, [qc_floor] rounds down. *)
Theorem C08_fix_truncates_towards_zero : forall x : Qc,
  exists z : Z, qc_fix x = Q2Qc (inject_Z z)
    /\ (0 <= this x -> inject_Z z <= this x /\ this x < inject_Z (z + 1))%Q
    /\ (this x <= 0 -> this x <= inject_Z z /\ inject_Z (z - 1) < this x)%Q.
Proof.
  intros x. exists (Qtrunc (this x)). split; [reflexivity|]. unfold Qtrunc. split; intros H.
  - rewrite (proj2 (Qle_bool_iff 0 (this x)) H). split; [apply Qfloor_le|].
    apply Qlt_floor.
  - destruct (Qle_bool 0 (this x)) eqn:E.
    + apply Qle_bool_iff in E. assert (E0 : (this x == 0)%Q) by (apply Qle_antisym; auto).
      assert (EF : Qfloor (this x) = 0%Z) by (rewrite (Qfloor_comp _ _ E0); reflexivity).
      rewrite EF, E0. split; [apply Qle_refl|reflexivity].
    + split; [apply Qle_ceiling|]. apply Qceiling_lt.
Qed.
Print Assumptions C08_fix_truncates_towards_zero.

(** C08: block averages, for every dtype. For floats ([is_int] = false) the entry is the mean
    of the block and the overall mean is preserved; for integers the column means, then
    the row means, are truncated. *)
Theorem C08_rebin_down : forall is_int x s0 s1 p q,
  1 <= s0 -> 1 <= s1 -> 1 <= p -> 1 <= q -> 2 <= p * q ->
  rows (body x) = s0 * p -> cols (body x) = s1 * q ->
  exists out, rebin is_int x (s0, s1) false = Ok out
    /\ (s0 = 1 -> exists r, out = D1 r) /\ (s0 <> 1 -> exists r, out = D2 r)
    /\ rows (body out) = s0 /\ cols (body out) = s1
    /\ forall i j, i < s0 -> j < s1 ->
         let fix_ := fun v => if is_int then qc_fix v else v in
         at2 (body out) i j =
         fix_ (Qcsum_n p (fun r =>
            fix_ (Qcsum_n q (fun t => at2 (body x) (i * p + r)%nat (j * q + t)%nat) / qc_of_nat q)%Qc)
            / qc_of_nat p)%Qc.
Proof. exact rebin_down. Qed.
Print Assumptions C08_rebin_down.

Theorem C08_rebin_mean_preserved : forall x s0 s1 p q out,
  1 <= s0 -> 1 <= s1 -> 1 <= p -> 1 <= q -> 2 <= p * q ->
  rows (body x) = s0 * p -> cols (body x) = s1 * q ->
  rebin false x (s0, s1) false = Ok out ->
  (forall i j, i < s0 -> j < s1 ->
     at2 (body out) i j = (Qcsum_n p (fun r => Qcsum_n q (fun t => at2 (body x) (i * p + r)%nat (j * q + t)%nat))
                           / qc_of_nat (p * q)%nat)%Qc)
  /\ (Qcsum_n s0 (fun i => Qcsum_n s1 (fun j => at2 (body out) i j)) * qc_of_nat (p * q)%nat
      = Qcsum_n (s0 * p)%nat (fun i => Qcsum_n (s1 * q)%nat (fun j => at2 (body x) i j)))%Qc.
Proof. exact rebin_down_mean. Qed.
Print Assumptions C08_rebin_mean_preserved.

Theorem C08_rebin_non_dividing : forall is_int x s0 s1, 1 <= s0 -> 1 <= s1 ->
  1 <= rows (body x) -> 1 <= cols (body x) ->
  s0 < rows (body x) \/ s1 < cols (body x) ->
  (s0 <= rows (body x) /\ rows (body x) mod s0 <> 0) \/ (s1 <= cols (body x) /\ cols (body x) mod s1 <> 0) ->
  rebin is_int x (s0, s1) false = Err ValueError.
Proof. exact rebin_down_bad. Qed.
Print Assumptions C08_rebin_non_dividing.

Definition z2 (l : list (list Z)) : arr2 Qc :=
  amap (fun z => Q2Qc (inject_Z z)) (of_lists 0%Z l).
Definition show (r : result nd) : result (list (list Q)) :=
  match r with Ok x => Ok (to_lists (amap this (body x))) | Err e => Err e end.

(** The docstring example. *)
Example C08_case :
  show (rebin true (D2 (z2 [[3; 9; 7; 0; 1; 5]; [7; 7; 1; 9; 7; 3]; [9; 2; 2; 3; 1; 1];
                            [0; 3; 5; 0; 4; 3]; [5; 7; 7; 1; 9; 1]; [7; 2; 1; 1; 3; 0]]%Z)) (3, 3) false)
  = Ok [[6; 4; 4]; [3; 2; 2]; [5; 2; 3]]%Q
  /\ show (rebin true (D2 (z2 [[-5; 4]; [-4; 2]]%Z)) (1, 2) false) = Ok [[-4; 3]]%Q
  /\ rebin true (D2 (z2 [[1;2;3]]%Z)) (1, 2) false = Err ValueError.
Proof. repeat split; vm_compute; reflexivity. Qed.

(** C09. [lerp is_int k s x y] is x + (y - x) * s / k, the increment rounded down for
    integers. Sample (p, q) of the original sits at (p*rs, q*cs); between samples the value
    is interpolated first along rows, then along columns; past the last sample it is repeated. *)
Theorem C09_rebin_up_2d_partial : forall is_int a o0 o1 rs cs,
  2 <= o0 -> 1 <= o1 -> 1 <= rs -> 1 <= cs -> rows a = o0 -> cols a = o1 ->
  exists out, rebin is_int (D2 a) (o0 * rs, o1 * cs) false = Ok (D2 out)
    /\ rows out = o0 * rs /\ cols out = o1 * cs
    /\ (forall p q, p < o0 -> q < o1 -> at2 out (p * rs) (q * cs) = at2 a p q)
    /\ forall p s q t, p < o0 -> s < rs -> q < o1 -> t < cs ->
         let next n k := if S k <? n then S k else k in
         let row j := lerp is_int rs s (at2 a p j) (at2 a (next o0 p) j) in
         at2 out (p * rs + s) (q * cs + t) = lerp is_int cs t (row q) (row (next o1 q)).
Proof.
  intros is_int a o0 o1 rs cs H1 H2 H3 H4 H5 H6.
  destruct (rebin_up_2d is_int a o0 o1 rs cs H1 H2 H3 H4 H5 H6) as (out & E & R & K & At).
  assert (N : forall n k, k < n -> (if S k <? n then S k else k) = Nat.min (S k) (n - 1)).
  { intros n k Hk. destruct (Nat.ltb_spec (S k) n); lia. }
  exists out. split; auto. split; auto. split; auto. split.
  - intros p q Hp Hq. replace (p * rs) with (p * rs + 0) by lia. replace (q * cs) with (q * cs + 0) by lia.
    rewrite At by lia. cbv zeta. now rewrite !lerp_start.
  - intros p s q t Hp Hs Hq Ht. cbv beta zeta. rewrite !N by auto. now apply At.
Qed.
Print Assumptions C09_rebin_up_2d_partial.

Theorem C09_rebin_up_1d : forall is_int a o1 s0 cs,
  1 <= o1 -> 1 <= s0 -> 1 <= cs -> rows a = 1 -> cols a = o1 ->
  exists out, rebin is_int (D1 a) (s0, o1 * cs) false = Ok out
    /\ (s0 = 1 -> out = D1 (body out)) /\ (s0 <> 1 -> out = D2 (body out))
    /\ rows (body out) = s0 /\ cols (body out) = o1 * cs
    /\ (forall i q, i < s0 -> q < o1 -> at2 (body out) i (q * cs) = at2 a 0 q)
    /\ forall i q t, i < s0 -> q < o1 -> t < cs ->
         at2 (body out) i (q * cs + t)
         = lerp is_int cs t (at2 a 0 q) (at2 a 0 (if S q <? o1 then S q else q)).
Proof.
  intros is_int a o1 s0 cs H1 H2 H3 H4 H5.
  destruct (rebin_up_1d is_int a o1 s0 cs H1 H2 H3 H4 H5) as (out & E & A & B & R & K & At).
  assert (N : forall n k, k < n -> (if S k <? n then S k else k) = Nat.min (S k) (n - 1)).
  { intros n k Hk. destruct (Nat.ltb_spec (S k) n); lia. }
  exists out. split; auto. split; auto. split; auto. split; auto. split; auto. split.
  - intros i q Hi Hq. replace (q * cs) with (q * cs + 0) by lia. rewrite At by lia. apply lerp_start.
  - intros i q t Hi Hq Ht. rewrite N by auto. now apply At.
Qed.
Print Assumptions C09_rebin_up_1d.

Theorem C09_rebin_non_multiple : forall is_int x s0 s1, 1 <= rows (body x) -> 1 <= cols (body x) ->
  rows (body x) <= s0 -> cols (body x) <= s1 ->
  (s0 mod rows (body x) <> 0 \/ s1 mod cols (body x) <> 0) ->
  rebin is_int x (s0, s1) false = Err ValueError.
Proof. exact rebin_up_bad. Qed.
Print Assumptions C09_rebin_non_multiple.

(** Sampling repeats every sample, and sampling back returns the original. *)
Theorem C09_sample_2d_partial : forall is_int a o0 o1 rs cs,
  2 <= o0 -> 1 <= o1 -> 1 <= rs -> 1 <= cs -> 2 <= rs * cs -> rows a = o0 -> cols a = o1 ->
  exists out, rebin is_int (D2 a) (o0 * rs, o1 * cs) true = Ok (D2 out)
    /\ rows out = o0 * rs /\ cols out = o1 * cs
    /\ forall p s q t, p < o0 -> s < rs -> q < o1 -> t < cs ->
         at2 out (p * rs + s) (q * cs + t) = at2 a p q.
Proof. exact sample_up_2d. Qed.
Print Assumptions C09_sample_2d_partial.

Theorem C09_sample_round_trip_partial : forall is_int a o0 o1 rs cs,
  2 <= o0 -> 1 <= o1 -> 1 <= rs -> 1 <= cs -> rows a = o0 -> cols a = o1 ->
  exists big back, rebin is_int (D2 a) (o0 * rs, o1 * cs) true = Ok (D2 big)
    /\ rebin is_int (D2 big) (o0, o1) true = Ok (D2 back)
    /\ arr_eq back a.
Proof. exact sample_round_trip. Qed.
Print Assumptions C09_sample_round_trip_partial.

Theorem C09_sample_1d : forall is_int a o1 cs s0,
  1 <= o1 -> 2 <= cs -> rows a = 1 -> cols a = o1 ->
  exists out, rebin is_int (D1 a) (s0, o1 * cs) true = Ok (D1 out)
    /\ rows out = 1 /\ cols out = o1 * cs
    /\ (forall q t, q < o1 -> t < cs -> at2 out 0 (q * cs + t) = at2 a 0 q)
    /\ exists back, rebin is_int (D1 out) (s0, o1) true = Ok (D1 back) /\ arr_eq back a.
Proof. exact sample_1d. Qed.
Print Assumptions C09_sample_1d.

(** The full statement is false of the code for 2-D arrays with a single row:
    interpolation fails, and sampling repeats the rows instead of the columns. *)
Theorem C09_one_row_refuted :
  exists a o1 cs, rows a = 1 /\ cols a = o1 /\ 1 <= o1 /\ 2 <= cs
    /\ rebin false (D2 a) (1, o1 * cs) false = Err ValueError
    /\ exists out, rebin false (D2 a) (1, o1 * cs) true = Ok out /\ cols (body out) <> o1 * cs.
Proof.
  exists (z2 [[1;2;3]]%Z), 3, 2. repeat (split; [reflexivity || (vm_compute; lia)|]).
  eexists. split; [vm_compute; reflexivity|]. simpl. lia.
Qed.
Print Assumptions C09_one_row_refuted.

(** When one dimension grows while the other shrinks nothing is interpolated: every output row is
    the average over all rows. *)
Theorem C09_mixed_averages_all_rows : forall a o0 s0 s1 k q,
  2 <= k -> 1 <= o0 -> s0 = o0 * k -> 1 <= s1 -> 2 <= q -> rows a = o0 -> cols a = s1 * q ->
  exists out, rebin false (D2 a) (s0, s1) false = Ok (D2 out)
    /\ rows out = s0 /\ cols out = s1
    /\ forall i j, i < s0 -> j < s1 ->
        at2 out i j = (Qcsum_n o0 (fun r => Qcsum_n q (fun t => at2 a r (j * q + t)%nat)) / qc_of_nat (o0 * q)%nat)%Qc.
Proof. exact rebin_mixed_rows. Qed.
Print Assumptions C09_mixed_averages_all_rows.

(** The docstring examples. *)
Example C09_case :
  show (rebin true (D2 (z2 [[-5; 4; 2; -8; 1]; [3; 0; 5; -5; 1]; [6; -7; 4; -4; -8]; [-1; -5; -14; 2; 1]]%Z)) (8, 10) false)
  = Ok [[-5; -1;  4;   3;   2; -3; -8; -4;  1;  1];
        [-1;  0;  2;   2;   3; -2; -7; -3;  1;  1];
        [ 3;  1;  0;   2;   5;  0; -5; -2;  1;  1];
        [ 4;  0; -4;   0;   4; -1; -5; -5; -4; -4];
        [ 6; -1; -7;  -2;   4;  0; -4; -6; -8; -8];
        [ 2; -2; -6;  -6;  -5; -3; -1; -3; -4; -4];
        [-1; -3; -5; -10; -14; -6;  2;  1;  1;  1];
        [-1; -3; -5; -10; -14; -6;  2;  1;  1;  1]]%Q
  /\ show (rebin true (D1 (z2 [[0; 10; 20; 30]]%Z)) (2, 8) false)
  = Ok [[0; 5; 10; 15; 20; 25; 30; 30]; [0; 5; 10; 15; 20; 25; 30; 30]]%Q.
Proof. split; vm_compute; reflexivity. Qed.
