(** Fields on the sky and the lists of HEALPix pixels that belong to them; horizon. *)
From Coq Require Import String Reals.
From Verif Require Import Base.
Open Scope R_scope.

(** The unit vector to a right ascension and declination in degrees, and the angle between two of them, in degrees. *)
Definition direction (ra dec : R) : R * R * R :=
  let a := ra * PI / 180 in let d := dec * PI / 180 in (cos d * cos a, cos d * sin a, sin d).
Definition dot (u v : R * R * R) : R :=
  fst (fst u) * fst (fst v) + snd (fst u) * snd (fst v) + snd u * snd v.
Definition apart (u v : R * R * R) : R := acos (dot u v) * 180 / PI.

(** The two fields of the Epoch of Reionisation project, and the two bands; MHz. *)
Inductive field := EoR0 | EoR1.
Inductive band := High | Low.
Definition centre (f : field) : R * R * R := match f with EoR0 => direction 0 (-30) | EoR1 => direction 60 (-30) end.
Definition band_MHz (b : band) : R := match b with High => 182 | Low => 151 end.
Definition list_file (f : field) (b : band) : string :=
  match f, b with
  | EoR0, High => "EoR0_high_healpix_inds.h5"
  | EoR0, Low => "EoR0_low_healpix_inds.h5"
  | EoR1, High => "EoR1_high_healpix_inds.h5"
  | EoR1, Low => "EoR1_low_healpix_inds.h5"
  end.
(** The pointing is as near to field f as to the other one, up to one degree. *)
Definition near (pointing : R * R * R) (f : field) : Prop := forall g, apart pointing (centre f) <= apart pointing (centre g) + 1.
