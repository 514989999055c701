(** Vocabulary for the statements about rephasing and the sizes of the export. *)
From Coq Require Import Reals.
From Verif Require Import Base NpArr Sky DirtyImage Quickview ExportSize.
Open Scope R_scope.

(** The Fourier transform of a plane about its middle at any position, in pixels (DirtyImageSpec.fourier at a pixel). *)
Definition fourier_at (a : arr2 cx) (y x : R) : cx :=
  cscale (/ (INR (rows a) * INR (cols a)))
    (csum (rows a) (fun e => csum (cols a) (fun d =>
       cmul (at2 a e d)
         (cexp_i (- (2 * PI * ((INR e - half (rows a)) * (y - half (rows a)) / INR (rows a)
                               + (INR d - half (cols a)) * (x - half (cols a)) / INR (cols a)))))))).
(** Square degrees of the sphere, and of one of the 12 n^2 pixels of a HEALPix grid. *)
Definition sphere : R := 4 * PI * (180 / PI) ^ 2.
Definition healpix_area (nside : R) : R := sphere / (12 * nside ^ 2).
(** The sizes fit together and the new observation has them. *)
Definition consistent (z : sizes) : Prop :=
  z_fov z * z_kbinsize z = 180 / PI /\ z_degpix z * INR (z_dimension z) = z_fov z
  /\ q_kpix (z_obs z) = z_kbinsize z /\ q_degpix (z_obs z) = z_degpix z
  /\ q_dimension (z_obs z) = z_dimension z /\ q_elements (z_obs z) = z_dimension z
  /\ q_obsx (z_obs z) = (natQ (z_dimension z) / 2)%Q /\ q_obsy (z_obs z) = (natQ (z_dimension z) / 2)%Q.
