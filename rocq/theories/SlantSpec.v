(** Direction cosines, and the slant orthographic projection of the FITS standard (Calabretta and Greisen 2002, section 5.1.5). *)
From Coq Require Import Reals.
Open Scope R_scope.

(** East, north and towards the phase centre (ra0, dec0); degrees. *)
Definition cosines (ra0 dec0 ra dec : R) : R * R * R :=
  let d0 := dec0 * PI / 180 in let d := dec * PI / 180 in let h := (ra - ra0) * PI / 180 in
  (cos d * sin h, sin d * cos d0 - cos d * sin d0 * cos h, sin d * sin d0 + cos d * cos d0 * cos h).
(** Position in the plane of the direction (l, m, n) for the parameters (xi, eta), in radians. *)
Definition projected (pv : R * R) (lmn : R * R * R) : R * R :=
  let '(l, m, n) := lmn in (l + fst pv * (1 - n), m + snd pv * (1 - n)).
(** A baseline (u, v, w), in wavelengths, of an array that is flat at its site: at right angles to the zenith. *)
Definition flat (zenith : R * R * R) (uvw : R * R * R) : Prop :=
  let '(l, m, n) := zenith in let '(u, v, w) := uvw in u * l + v * m + w * n = 0.
(** Phase of a source, in turns: the delay relative to the phase centre. *)
Definition fringe (uvw lmn : R * R * R) : R :=
  let '(l, m, n) := lmn in let '(u, v, w) := uvw in u * l + v * m + w * (n - 1).
