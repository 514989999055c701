(** Vocabulary for the statements about create_obs and read_metafits. *)
From Coq Require Import String Sorted Qabs.
From Verif Require Import Base ObsFull.
Import ListNotations.
Open Scope list_scope.

(** The configuration with other values of some options. *)
Definition with_fov (c : config) (f : option Q) : config :=
  {| c_n_pol := c_n_pol c; c_nfreq_avg := c_nfreq_avg c; c_fov := f; c_kbinsize := c_kbinsize c; c_dimension := c_dimension c;
     c_elements := c_elements c; c_min_baseline := c_min_baseline c; c_time_cut := c_time_cut c; c_simulation := c_simulation c;
     c_phasera := c_phasera c; c_phasedec := c_phasedec c |}.
Definition with_dimensions (c : config) (d e : option Z) : config :=
  {| c_n_pol := c_n_pol c; c_nfreq_avg := c_nfreq_avg c; c_fov := c_fov c; c_kbinsize := c_kbinsize c; c_dimension := d;
     c_elements := e; c_min_baseline := c_min_baseline c; c_time_cut := c_time_cut c; c_simulation := c_simulation c;
     c_phasera := c_phasera c; c_phasedec := c_phasedec c |}.
Definition with_time_cut (c : config) (l : option (list cutval)) : config :=
  {| c_n_pol := c_n_pol c; c_nfreq_avg := c_nfreq_avg c; c_fov := c_fov c; c_kbinsize := c_kbinsize c; c_dimension := c_dimension c;
     c_elements := c_elements c; c_min_baseline := c_min_baseline c; c_time_cut := l; c_simulation := c_simulation c;
     c_phasera := c_phasera c; c_phasedec := c_phasedec c |}.

(** A sample of the data in wavelengths: a frequency times the coordinates of a visibility. *)
Definition sample (h : header) (p : uvpar) (x y : Q) : Prop :=
  exists f i, In f (d_freq h) /\ i < List.length (u_uu p) /\ x = (f * nth i (u_uu p) 0)%Q /\ y = (f * nth i (u_vv p) 0)%Q.
(** It lies on the uv grid. *)
Definition on_grid (k : Q) (dimension elements : Z) (x y : Q) : Prop :=
  (Qabs x / k < inject_Z dimension / 2)%Q /\ (Qabs y / k < inject_Z elements / 2)%Q.

(** A table with one row for each antenna and polarisation, and a choice of one row for each antenna, in the order of the
    antennas. *)
Definition complete_table (rows : list row) : Prop :=
  NoDup (map (fun r => (r_antenna r, r_pol r)) rows)
  /\ forall r r', In r rows -> In r' rows -> exists x, In x rows /\ r_antenna x = r_antenna r /\ r_pol x = r_pol r'.
Definition one_per_antenna (rows sel : list row) : Prop :=
  incl sel rows /\ StronglySorted Z.lt (map r_antenna sel)
  /\ (forall a, In a (map r_antenna rows) -> In a (map r_antenna sel))
  /\ exists pol, forall r, In r sel -> r_pol r = pol.

(** The cards read_metafits needs. *)
Definition has_cards (f : metafits) : Prop :=
  (forall k, In k ["RA"; "DEC"; "RAPHASE"; "DECPHASE"; "INTTIME"]%string -> mf_num f k <> None) /\ mf_delays f <> None.

(** Two angles in degrees that are the same direction. *)
Definition same_direction (a b : Q) : Prop := exists n : Z, (a == b + inject_Z (360 * n))%Q.
