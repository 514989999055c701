(** Vocabulary for the statements about dirty_image_generate. *)
From Coq Require Import Reals.
From Verif Require Import Base NpArr Sky DirtyImage.
Open Scope R_scope.

(** The Fourier transform of a plane about its middle, at a pixel counted from the middle, divided by the number of pixels. *)
Definition fourier (a : arr2 cx) (y x : nat) : cx :=
  cscale (/ (INR (rows a) * INR (cols a)))
    (csum (rows a) (fun e => csum (cols a) (fun d =>
       cmul (at2 a e d)
         (cexp_i (- (2 * PI * ((INR e - half (rows a)) * (INR y - half (rows a)) / INR (rows a)
                               + (INR d - half (cols a)) * (INR x - half (cols a)) / INR (cols a)))))))).
(** [image] is that of the plane [a], real if asked for. *)
Definition is_image (not_real : bool) (a image : arr2 cx) : Prop :=
  rows image = rows a /\ cols image = cols a
  /\ forall y x, (y < rows a)%nat -> (x < cols a)%nat ->
       at2 image y x = if not_real then fourier a y x else (fst (fourier a y x), 0).
(** A plane whose entries at opposite positions about the middle are conjugate. *)
Definition hermitian (a : arr2 cx) : Prop := forall e d, (e < rows a)%nat -> (d < cols a)%nat ->
  at2 a ((rows a - e) mod rows a) ((cols a - d) mod cols a) = (fst (at2 a e d), - snd (at2 a e d)).
(** Distance of an entry from the middle of the plane. *)
Definition radius (a : arr2 cx) (e d : nat) : R := sqrt ((INR d - half (cols a)) ^ 2 + (INR e - half (rows a)) ^ 2).
Definition even_sizes (a : arr2 cx) : Prop := (0 < rows a)%nat /\ (0 < cols a)%nat /\ Nat.Even (rows a) /\ Nat.Even (cols a).
(** Every entry multiplied by a number of its own. *)
Definition weighted (w : nat -> nat -> R) (a : arr2 cx) : arr2 cx :=
  Arr2 (rows a) (cols a) (fun i j => cscale (w i j) (at2 a i j)).
(** Options with no mask, filter, resizing, beam or normalisation. *)
Definition plain (threshold : option R) (width : option nat) (pad : option Q) (degpix : option R) (not_real : bool) : options :=
  {| o_mask := None; o_threshold := threshold; o_width := width; o_filter := None; o_resize := None; o_pad := pad;
     o_degpix := degpix; o_not_real := not_real; o_beam := None; o_norm := None; o_optimal := false |}.
(** The factor of line 475. *)
Definition per_steradian (degpix : option R) : R := match degpix with None => 1 | Some d => / (radians d ^ 2) end.
(** The entries the threshold removes. *)
Definition removed (t : R) (a : arr2 cx) (e d : nat) : Prop := (0 <= t /\ radius a e d < t) \/ (t < 0 /\ - t < radius a e d).
(** Options with a mask and a filter of the shape of the plane, but no threshold on the baselines or one that removes
    nothing; no resizing, padding, beam or normalisation. *)
Definition same_shape {A B} (a : arr2 A) (b : arr2 B) : Prop := rows a = rows b /\ cols a = cols b.
Definition factor (f : option (arr2 R)) (i j : nat) : R := match f with None => 1 | Some f => at2 f i j end.
Definition simple (o : options) (a : arr2 cx) : Prop :=
  (o_threshold o = None \/ (o_threshold o = Some 0 /\ rows a = cols a /\ (kernel_width (rows a) (cols a) (o_width o) <= rows a)%nat))
  /\ (forall m, o_mask o = Some m -> same_shape m a) /\ (forall f, o_filter o = Some f -> same_shape f a)
  /\ o_resize o = None /\ o_pad o = None /\ o_beam o = None /\ o_norm o = None.
(** The plane such options make the image of. *)
Definition used (o : options) (a : arr2 cx) : arr2 cx :=
  weighted (fun i j => per_steradian (o_degpix o) * (factor (o_filter o) i j * factor (o_mask o) i j)) a.
Definition with_norm (o : options) (n : option normal) : options :=
  {| o_mask := o_mask o; o_threshold := o_threshold o; o_width := o_width o; o_filter := o_filter o; o_resize := o_resize o;
     o_pad := o_pad o; o_degpix := o_degpix o; o_not_real := o_not_real o; o_beam := o_beam o; o_norm := n; o_optimal := o_optimal o |}.
