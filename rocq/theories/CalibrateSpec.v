(** What a user of calibrate relies on. *)
From Verif Require Import Base Cplx VisWeights CalFlagSpec BandpassSpec CalApplySpec Calibrate.
Open Scope nat_scope.

Definition shape {A} (g : arr3 A) (n_pol n_freq n_tile : nat) : Prop :=
  d_pol g = n_pol /\ d_freq g = n_freq /\ d_bl g = n_tile.

(** [d] is the difference of [a] and [b], and NaN where either is. *)
Definition difference (a b d : option C) : Prop :=
  match a, b with
  | Some x, Some y => exists z, d = Some z /\ (y + z)%C = x
  | _, _ => d = None
  end.

(** [m] is the mean of a list of amplitudes: NaN if one of them is, 0 when there is nothing to average. *)
Definition mean_of (l : list (option Qc)) (m : option Qc) : Prop :=
  (l = [] /\ m = Some 0%Qc)
  \/ (In None l /\ m = None)
  \/ (l <> [] /\ exists q, m = Some q
      /\ exists vs, l = map Some vs /\ (q * Q2Qc (inject_Z (Z.of_nat (length vs))))%Qc = fold_right Qcplus 0%Qc vs).

(** The steps succeed and keep the shape of the gains; the sets in use refer to existing tiles and channels. *)
Definition fits (u : used_sets) (nf nt : nat) : Prop := length (u_tile u) <= nt /\ length (u_freq u) <= nf.
Record steps_succeed {A R H} (st : cal_stages A R H) (np nf nt : nat) : Prop := {
  w_autos : exists a, s_autos st = Ok a;
  w_init : forall a, exists g, s_auto_init st a = Ok g /\ shape g np nf nt;
  w_solve : forall g, shape g np nf nt -> exists g', s_solve st g = Ok g' /\ shape g' np nf nt;
  w_flag : forall g u, fits u nf nt -> shape g np nf nt -> exists u', s_flag st g u = Ok u'
             /\ fits u' nf nt;
  w_divide : forall u g a, fits u nf nt -> shape g np nf nt -> exists g' r, s_divide st u g a = Ok (g', r) /\ shape g' np nf nt;
  w_bandpass : forall u g, fits u nf nt -> shape g np nf nt -> exists b r, s_bandpass st u g = Ok (b, r) /\ shape b np nf nt /\ shape r np nf nt;
  w_polyfit : forall u g r, fits u nf nt -> shape g np nf nt -> exists g', s_polyfit st u g r = Ok g' /\ shape g' np nf nt;
  w_remultiply : forall g r a, shape g np nf nt -> exists g', s_remultiply st g r a = Ok g' /\ shape g' np nf nt;
  w_auto_fit : forall u g a, fits u nf nt -> shape g np nf nt -> exists g', s_auto_fit st u g a = Ok g' /\ shape g' np nf nt;
  w_apply : forall g, shape g np nf nt -> exists v, s_apply st g = Ok v;
  w_hist : forall v, exists h, s_hist st v = Ok h;
  w_plots : forall g r, exists t, s_plots st g r = Ok t }.
