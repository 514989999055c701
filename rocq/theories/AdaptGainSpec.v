(** What a user of calculate_adaptive_gain relies on. *)
From Verif Require Import Base Cplx WeightInvert AdaptGain.
Open Scope nat_scope.

(** Between base/2 and max(1, base). *)
Definition gain_in_range (base q : Qc) : Prop := (base / Q2Qc 2 <= q)%Qc /\ ((q <= 1)%Qc \/ (q <= base)%Qc).
Definition gain_ok (base : Qc) (g : xf) : Prop := g = NaN \/ exists q, g = Fin q /\ gain_in_range base q.

(** [history base est conv n gl]: [gl] is the gain list after the calls for iterations 0, ..., n-1,
    when [conv i] is the convergence list at call [i]. *)
Inductive history (base : Qc) (est : option xf) (conv : nat -> list xf) (gl0 : list xf)
  : nat -> list xf -> Prop :=
| history_0 : history base est conv gl0 0 gl0
| history_S n gl g gl' : history base est conv gl0 n gl ->
    calculate_adaptive_gain gl (conv n) n (Fin base) est = Ok (g, gl') ->
    history base est conv gl0 (S n) gl'.
