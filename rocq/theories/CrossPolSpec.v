(** Vocabulary for the statements about crosspol_reformat. *)
From Verif Require Import Base Cplx NpArr.
Open Scope nat_scope.

(** The pixel at the opposite {u,v}, on an axis of n pixels whose zero is pixel 0 modulo n. *)
Definition opposite (n i : nat) : nat := if i =? 0 then 0 else n - i.
(** [b] holds at each {u,v} the conjugate of what [a] holds at the opposite {u,v}. *)
Definition conjugates (a b : arr2 C) : Prop :=
  rows b = rows a /\ cols b = cols a
  /\ forall i j, i < rows a -> j < cols a -> at2 b i j = Cconj (at2 a (opposite (rows a) i) (opposite (cols a) j)).
Definition csum (l : list C) : C := fold_right Cadd C0 l.
(** The sum over all pixels *)
Definition total (a : arr2 C) : C :=
  csum (map (fun i => csum (map (at2 a i) (seq 0 (cols a)))) (seq 0 (rows a))).
Definition zero_plane (a : arr2 C) : Prop := forall i j, i < rows a -> j < cols a -> at2 a i j = C0.
