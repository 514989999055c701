(** C07: property theorems about weight_invert. *)
From Verif Require Import Base Cplx WeightInvert WeightInvertSpec WeightInvertProofs.
Open Scope Qc_scope.

Definition entries (w : weights_arg) : list num :=
  match w with WScalar x => [x] | WArray l => l end.

(** C07 for float and complex arrays. Every output entry is a finite number of the same
    dtype; it is the reciprocal of the input entry when that is usable and 0 otherwise.
    One-element arrays come back as scalars, other sizes are kept. *)
Theorem C07_weight_invert_partial : forall (weights : weights_arg) (threshold : option xf) (use_abs : bool),
  (forall w, In w (entries weights) -> ~ is_integer_dtype w) ->
  let out := weight_invert weights threshold use_abs in
  length (entries out) = length (entries weights)
  /\ (length (entries weights) = 1%nat <-> exists x, out = WScalar x)
  /\ forall k, (k < length (entries weights))%nat ->
       exists w w' c',
         nth_error (entries weights) k = Some w /\ nth_error (entries out) k = Some w'
         /\ same_kind w w' /\ value w' = Some c'
         /\ (forall c, usable threshold use_abs w c -> (c' * c)%C = C1)
         /\ ((forall c, ~ usable threshold use_abs w c) -> c' = C0).
Proof.
  intros weights t ua Hk out.
  assert (E : entries out = map (invert_entry t ua) (entries weights)).
  { unfold out, weight_invert. fold (entries weights).
    destruct (entries weights) as [|a [|b l]]; reflexivity. }
  split; [|split].
  - now rewrite E, map_length.
  - unfold out, weight_invert. fold (entries weights).
    destruct (entries weights) as [|a [|b l]]; simpl; split; intros H; try discriminate.
    + now destruct H.
    + eexists; reflexivity.
    + reflexivity.
    + now destruct H.
  - intros k Hlt. destruct (nth_error (entries weights) k) as [w|] eqn:Ew.
    2:{ apply nth_error_None in Ew. lia. }
    assert (Hw : In w (entries weights)) by (eapply nth_error_In; eauto).
    destruct (entry_float_complex t ua w (Hk w Hw)) as (c' & H1 & H2 & H3).
    exists w, (invert_entry t ua w), c'. split; auto. split.
    { rewrite E. now apply map_nth_error. }
    split; [apply entry_kind|]. auto.
Qed.
Print Assumptions C07_weight_invert_partial.

(** The property fails for integer arrays: the reciprocal is stored in an integer array,
    so it is truncated, ... *)
Theorem C07_integer_truncated_refuted :
  exists w c c', usable None false w c
    /\ value (invert_entry None false w) = Some c' /\ (c' * c)%C <> C1.
Proof.
  exists (NInt 2), (mkC (Q2Qc (inject_Z 2)) 0), C0. split; [|split].
  - split; [reflexivity|]. split; [|exact I]. intros E. inversion E.
  - reflexivity.
  - intros E. inversion E.
Qed.
Print Assumptions C07_integer_truncated_refuted.

(** ... and with a threshold that admits zero, a zero weight becomes INT64_MIN. *)
Theorem C07_integer_zero_refuted :
  exists t w, (forall c, ~ usable (Some t) false w c)
    /\ invert_entry (Some t) false w = NInt (- 2 ^ 63).
Proof.
  exists (Fin 0), (NInt 0). split.
  - intros c (Hv & Hc & _). injection Hv as <-. apply Hc. reflexivity.
  - reflexivity.
Qed.
Print Assumptions C07_integer_zero_refuted.

(** The exact behaviour on integers. *)
Theorem C07_integer_exact : forall t ua z,
  invert_entry t ua (NInt z) =
  NInt (if used t ua (NInt z)
        then if (z =? 0)%Z then int_min else if (Z.abs z =? 1)%Z then z else 0%Z
        else 0%Z).
Proof. exact entry_int. Qed.
Print Assumptions C07_integer_exact.

Example C07_case :
  weight_invert (WArray [NFloat (Fin (Q2Qc 4)); NFloat NaN; NFloat PInf; NFloat (Fin (Q2Qc (1#2))); NFloat (Fin 0)])
                (Some (Fin 1)) false
  = WArray [NFloat (Fin (Q2Qc (1#4))); NFloat (Fin 0); NFloat (Fin 0); NFloat (Fin 0); NFloat (Fin 0)]
  /\ usable (Some (Fin 1)) false (NFloat (Fin (Q2Qc 4))) (mkC (Q2Qc 4) 0)
  /\ weight_invert (WScalar (NCplx (Fin (Q2Qc 3)) (Fin (Q2Qc 4)))) None false
     = WScalar (NCplx (Fin (Q2Qc (3#25))) (Fin (Q2Qc (-4#25)))).
Proof.
  split; [vm_compute; reflexivity|].
  split; [|vm_compute; apply f_equal, f_equal2; apply f_equal; apply Qc_is_canon; reflexivity].
  split; [reflexivity|]. split; [intros E; inversion E|]. simpl. unfold Qcle. vm_compute. discriminate.
Qed.
