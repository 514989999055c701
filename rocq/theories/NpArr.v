(** 2-D NumPy arrays as a shape and a total index function. Only indices inside the shape
    are meaningful; every operation that can fail on shapes returns a [result]. *)
From Coq Require Import ZifyBool ZifyNat.
From Verif Require Import Base Cplx.
Open Scope nat_scope.

Record arr2 (A : Type) := Arr2 { rows : nat; cols : nat; at2 : nat -> nat -> A }.
Arguments Arr2 {A}. Arguments rows {A}. Arguments cols {A}. Arguments at2 {A}.

(** Same shape and same entries. *)
Definition arr_eq {A} (a b : arr2 A) : Prop :=
  rows a = rows b /\ cols a = cols b
  /\ forall i j, i < rows a -> j < cols a -> at2 a i j = at2 b i j.

Definition of_lists {A} (d : A) (l : list (list A)) : arr2 A :=
  Arr2 (length l) (length (hd [] l)) (fun i j => nth j (nth i l []) d).
Definition to_lists {A} (a : arr2 A) : list (list A) :=
  map (fun i => map (at2 a i) (seq 0 (cols a))) (seq 0 (rows a)).

(** [np.tile(a, (r, c))] *)
Definition np_tile {A} (a : arr2 A) (r c : nat) : arr2 A :=
  Arr2 (rows a * r) (cols a * c) (fun i j => at2 a (i mod rows a) (j mod cols a)).
(** [np.repeat(a, k, axis)] *)
Definition np_repeat0 {A} (a : arr2 A) (k : nat) : arr2 A :=
  Arr2 (rows a * k) (cols a) (fun i j => at2 a (i / k) j).
Definition np_repeat1 {A} (a : arr2 A) (k : nat) : arr2 A :=
  Arr2 (rows a) (cols a * k) (fun i j => at2 a i (j / k)).
(** [np.diff(a, axis)] *)
Definition np_diff0 (a : arr2 Qc) : arr2 Qc :=
  Arr2 (rows a - 1) (cols a) (fun i j => (at2 a (S i) j - at2 a i j)%Qc).
Definition np_diff1 (a : arr2 Qc) : arr2 Qc :=
  Arr2 (rows a) (cols a - 1) (fun i j => (at2 a i (S j) - at2 a i j)%Qc).
(** [np.pad(a, (0, k))]: k zero rows and k zero columns appended. *)
Definition np_pad (a : arr2 Qc) (k : nat) : arr2 Qc :=
  Arr2 (rows a + k) (cols a + k)
       (fun i j => if (i <? rows a) && (j <? cols a) then at2 a i j else 0%Qc).
(** [a[:-k]] and [a[:, :-k]] for k >= 1. *)
Definition drop_rows {A} (a : arr2 A) (k : nat) : arr2 A := Arr2 (rows a - k) (cols a) (at2 a).
Definition drop_cols {A} (a : arr2 A) (k : nat) : arr2 A := Arr2 (rows a) (cols a - k) (at2 a).
(** [a[::k]] and [a[:, ::k]]: ceil(n/k) entries. *)
Definition stride0 {A} (a : arr2 A) (k : nat) : arr2 A :=
  Arr2 ((rows a + k - 1) / k) (cols a) (fun i j => at2 a (i * k) j).
Definition stride1 {A} (a : arr2 A) (k : nat) : arr2 A :=
  Arr2 (rows a) ((cols a + k - 1) / k) (fun i j => at2 a i (j * k)).
Definition amap {A B} (f : A -> B) (a : arr2 A) : arr2 B :=
  Arr2 (rows a) (cols a) (fun i j => f (at2 a i j)).
(** Elementwise operation with NumPy broadcasting; ValueError on incompatible shapes. *)
Definition bdim (m n : nat) : option nat :=
  if m =? n then Some m else if m =? 1 then Some n else if n =? 1 then Some m else None.
Definition bidx (m i : nat) : nat := if m =? 1 then 0 else i.
Definition azip {A B D} (f : A -> B -> D) (a : arr2 A) (b : arr2 B) : result (arr2 D) :=
  match bdim (rows a) (rows b), bdim (cols a) (cols b) with
  | Some r, Some c =>
      Ok (Arr2 r c (fun i j => f (at2 a (bidx (rows a) i) (bidx (cols a) j))
                                (at2 b (bidx (rows b) i) (bidx (cols b) j))))
  | _, _ => Err ValueError
  end.

(** Sum over a range: sum_{k<n} f k. *)
Definition Qcsum_n (n : nat) (f : nat -> Qc) : Qc := Qcsum (map f (seq 0 n)).
