(** Vocabulary for the statements about quickview. *)
From Coq Require Import String Reals.
From Verif Require Import Base NpArr Sky DirtyImage DirtyImageSpec Quickview.
Import ListNotations.
Open Scope R_scope.

Definition sized {A} (n : nat) (a : arr2 A) : Prop := rows a = n /\ cols a = n.
(** One plane of n by n entries for every polarisation. *)
Definition planes (n k : nat) (l : list (arr2 cx)) : Prop := List.length l = k /\ Forall (sized n) l.
Definition plane_of (l : list (arr2 cx)) (pol : nat) : arr2 cx := nth pol l (Arr2 0 0 (fun _ _ => (0, 0))).
(** The filter for weights [w] is [f w]: it is of the size of the plane and multiplies it entry by entry. *)
Definition filters (uniform : arr2 cx -> arr2 cx -> result (arr2 cx * arr2 R)) (n : nat) (f : arr2 cx -> arr2 R) : Prop :=
  forall w uv, sized n w -> sized n uv ->
    sized n (f w) /\ exists p, uniform w uv = Ok (p, f w) /\ arr_eq p (weighted (at2 (f w)) uv).
(** The contents of a file on disk: the last ones written. *)
Definition kind_eqb (a b : kind) : bool :=
  match a, b with KDirty, KDirty | KModel, KModel | KResidual, KResidual | KBeam, KBeam | KWeights, KWeights => true | _, _ => false end.
Definition on_disk (fs : list file) (k : kind) (p : string) : option (list (arr2 R)) :=
  option_map f_data (find (fun f => kind_eqb (f_kind f) k && String.eqb (f_pol f) p) (rev fs)).
(** Solid angle of a pixel. *)
Definition solid_angle (degpix : R) : R := (degpix * (PI / 180)) ^ 2.
(** The image of the filtered plane in units of the image of the weights in the middle: a source of flux S in the middle,
    for which every visibility is S, gives S in the middle. *)
Definition flux (f : arr2 R) (w uv : arr2 cx) (n y x : nat) : R :=
  fst (fourier (weighted (at2 f) uv) y x) / fst (fourier (weighted (at2 f) w) (n / 2) (n / 2)).
(** Multiplication by one more beam, relative to the middle, for the optimal filter. *)
Definition optimal_factor (cfg : config) (b : arr2 R) (n y x : nat) : R :=
  if c_optimal cfg then at2 b y x / at2 b (n / 2) (n / 2) else 1.
(** No padding: 1 <= pad < 2 and the padded dimension is the old one. *)
Definition unpadded (cfg : config) (n : nat) : Prop :=
  Qround.Qfloor (c_pad cfg) = 1%Z /\ Qround.Qfloor (natQ n * c_pad cfg) = Z.of_nat n.
(** An observation on an n by n grid with n even, uv planes of that size and beams: what quickview is given. [o'] is the
    observation as update_obs leaves it. *)
Record setting (uniform : arr2 cx -> arr2 cx -> result (arr2 cx * arr2 R)) (beam_image : qobs -> nat -> result (arr2 R)) (horizon : qobs -> arr2 R)
    (n : nat) (f : arr2 cx -> arr2 R) (o o' : qobs) (image weights model : list (arr2 cx)) : Prop := {
  s_size : (0 < n)%nat; s_even : Nat.Even n; s_filters : filters uniform n f;
  s_dimension : q_dimension o = n; s_kpix : 0 < q_kpix o; s_updated : update_obs o n (q_kpix o) None None = Ok o';
  s_image : planes n (q_npol o) image; s_weights : planes n (q_npol o) weights; s_model : planes n (q_npol o) model;
  s_names : (q_npol o <= List.length (q_names o))%nat;
  s_beams : forall pol, (pol < q_npol o)%nat -> exists b, beam_image o' pol = Ok b /\ sized n b;
  s_horizon : sized n (horizon o') }.
(** The beam of a polarisation, 0 below the horizon. *)
Definition is_beam (beam_image : qobs -> nat -> result (arr2 R)) (horizon : qobs -> arr2 R) (n : nat) (o : qobs) (pol : nat) (b : arr2 R) : Prop :=
  sized n b /\ exists bi, beam_image o pol = Ok bi /\ forall y x, (y < n)%nat -> (x < n)%nat -> at2 b y x = at2 bi y x * at2 (horizon o) y x.
(** The middle of the image of the filtered weights is not 0, and for the optimal filter the beam is not 0 there. *)
Definition normalizable (cfg : config) (n : nat) (f : arr2 cx -> arr2 R) (w : arr2 cx) (b : arr2 R) : Prop :=
  fst (fourier (weighted (at2 (f w)) w) (n / 2) (n / 2)) <> 0 /\ (c_optimal cfg = true -> at2 b (n / 2) (n / 2) <> 0).
