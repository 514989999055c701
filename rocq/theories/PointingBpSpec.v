(** Vocabulary for the statements about pointings. *)
From Coq Require Import Qabs.
From Verif Require Import Base.
Import ListNotations.
Open Scope nat_scope.
Open Scope list_scope.

(** The delays of the sixteen dipoles of a tile, four rows of four, at a pointing from 5 before to 5 after the zenith: they grow
    with the column, away from the side the tile looks to, and far from the zenith with the row as well. *)
Definition dipole_delay (p : Z) (i : nat) : Z :=
  let row := Z.of_nat (i / 4) in
  let column := Z.of_nat (i mod 4) in
  ((if p <=? 0 then column * - p else (3 - column) * p) + (if 4 <=? Z.abs p then row else 0))%Z.
Definition delays_at (p : Z) : list Z := map (dipole_delay p) (seq 0 16).

(** The time of day belongs to slot k: it is at or after the start of pointing k, and before the next, if there is one. *)
Definition in_slot (starts : list Q) (k : nat) (t : Q) : Prop :=
  k < length starts /\ (nth k starts 0 <= t)%Q /\ (S k < length starts -> (t < nth (S k) starts 0)%Q).
Definition increasing (l : list Q) : Prop := forall i j, i < j -> j < length l -> (nth i l 0 < nth j l 0)%Q.
(** The part of a Julian date after its whole days *)
Definition day_fraction (d : Q) : Q := (d - inject_Z (Qfloor d))%Q.

(** The times of day (UTC, as parts of a Julian day) at which the pointings -5 to 4 started on 23 August 2013, and how much earlier
    the sky comes round each day: 24 hours less the sidereal day. *)
Definition starts_2013 : list Q :=
  [0.13611; 0.15157; 0.17565; 0.19963; 0.22222; 0.24342593; 0.26453705; 0.28574074; 0.30694; 0.33657407]%Q.
Definition per_day : Q := ((24 - 23.9344699) / 24)%Q.
(** The starts used for an observation and a file, by their Julian dates *)
Definition starts_for (obs_date file_date : Q) : list Q :=
  map (fun x => x + per_day * inject_Z (Qfloor obs_date - Qfloor file_date))%Q starts_2013.
