(** What a user of weight_invert relies on. *)
From Verif Require Import Base Cplx WeightInvert.
Open Scope Qc_scope.

(** The value of a finite entry as a complex number. *)
Definition value (w : num) : option C :=
  match w with
  | NFloat (Fin x) => Some (mkC x 0)
  | NInt z => Some (mkC (Q2Qc (inject_Z z)) 0)
  | NCplx (Fin x) (Fin y) => Some (mkC x y)
  | _ => None
  end.

(** |c| >= t, for a finite complex number and any threshold; without using square roots. *)
Definition abs_at_least (c : C) (t : xf) : Prop :=
  match t with
  | NaN | PInf => False
  | NInf => True
  | Fin t => t < 0 \/ t * t <= re c * re c + im c * im c
  end.
Definition real_at_least (x : Qc) (t : xf) : Prop :=
  match t with NaN | PInf => False | NInf => True | Fin t => t <= x end.

(** The entry meets the threshold: compared by absolute value for complex numbers or when
    asked to, by value otherwise. *)
Definition meets (threshold : option xf) (use_abs : bool) (w : num) (c : C) : Prop :=
  match threshold with
  | None => True
  | Some t =>
      match w with
      | NCplx _ _ => abs_at_least c t
      | _ => if use_abs then abs_at_least c t else real_at_least (re c) t
      end
  end.

(** Usable: finite, non-zero and meeting the threshold. *)
Definition usable (threshold : option xf) (use_abs : bool) (w : num) (c : C) : Prop :=
  value w = Some c /\ c <> C0 /\ meets threshold use_abs w c.

Definition is_integer_dtype (w : num) : Prop := match w with NInt _ => True | _ => False end.
