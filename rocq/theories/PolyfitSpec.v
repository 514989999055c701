(** What a user of vis_cal_polyfit relies on. *)
From Verif Require Import Base Cplx VisWeights GridLoc CalFlagSpec Polyfit.
Open Scope nat_scope.

(** The value of a polynomial with the given coefficients, lowest first. *)
Fixpoint poly (c : list Qc) (x : Qc) : Qc :=
  match c with [] => 0%Qc | a :: c => (a + x * poly c x)%Qc end.

(** NumPy's result of a fit: never empty, and trailing zeros are dropped. *)
Definition trimmed (c : list Qc) : Prop := c <> [] /\ (length c = 1 \/ last c 0%Qc <> 0%Qc).

(** The degrees in effect: an unset degree becomes 2 for the amplitudes, 1 for the phases. *)
Definition amp_degree (cfg : polyfit_config) : nat := match c_amp_degree cfg with 0 => 2 | d => d end.
Definition phase_degree (cfg : polyfit_config) : nat := match c_phase_degree cfg with 0 => 1 | d => d end.

Definition no_reflections (cfg : polyfit_config) : Prop :=
  c_file cfg = false /\ c_theory cfg = 0%Qc /\ c_delay cfg = false /\ c_hyper cfg = false.

(** The amplitudes and the phases of a tile at the listed channels *)
Definition amps (abs_ : C -> Qc) (gain : arr3 (option C)) (p t : nat) (freqs : list nat) : list (option Qc) :=
  map (fun f => option_map abs_ (at3 gain p f t)) freqs.
Definition phases (arg_ : C -> Qc) (gain : arr3 (option C)) (p t : nat) (freqs : list nat) : list (option Qc) :=
  map (fun f => option_map arg_ (at3 gain p f t)) freqs.

(** The number of periods a reflection in a cable makes over the band: the bandwidth (n channels, the first and the last
    of them [span] apart) times the time light takes to the end of the cable and back. *)
Definition reflection_periods (light span : Qc) (n : nat) (k : cable_row) : Qc :=
  let bandwidth := (qc_nat n * (span / qc_nat (n - 1)))%Qc in
  let speed := (light * k_vf k)%Qc in
  (bandwidth * ((k_length k + k_length k) / speed))%Qc.
