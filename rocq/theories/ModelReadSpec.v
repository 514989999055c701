(** Vocabulary for the statements about the reading of model visibilities. *)
From Coq Require Import String.
From Verif Require Import Base Cplx Obs ModelRead.
Import ListNotations.
Open Scope nat_scope.
Open Scope list_scope.

(** [idx] is an index into an array of the given shape. *)
Definition within (shape idx : list nat) : Prop := Forall2 lt idx shape.
(** The model of polarisation [pol] is the array [a]: packed by a pointer, or an array of other than one entry. *)
Definition model_file {P} (dir : savdir P) (obs_id pol : string) (a : ndarr C) : Prop :=
  let content := s_vis dir (obs_id ++ "_vis_model_" ++ pol ++ ".sav")%string in
  content = Some (Some (Packed a))
  \/ content = Some (Some (Direct a)) /\ fold_right Nat.mul 1 (nd_shape a) <> 1.
(** The directory holds the models [a] of the first [n] polarisations and the parameters. *)
Definition model_dir {P} (dir : savdir P) (obs_id : string) (pols : list string) (n : nat) (a : nat -> ndarr C)
  (params : P) : Prop :=
  n <= List.length pols
  /\ (forall p, p < n -> model_file dir obs_id (nth p pols ""%string) (a p))
  /\ s_params dir (obs_id ++ "_params.sav")%string = Some params.
