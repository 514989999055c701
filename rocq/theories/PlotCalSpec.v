(** What a reader of the calibration plots expects to see. *)
From Coq Require Import String QArith.
From Verif Require Import Base PlotCal.
Import ListNotations.
Open Scope nat_scope.

Inductive kind := Solution | Residual | Raw.
Definition kinds : list kind := [Solution; Residual; Raw].

(** The two files of each kind of plot, in the plots/calibration directory. *)
Definition files_of (obs_id : string) (k : kind) : string * string :=
  match k with
  | Solution => (obs_id ++ "_cal_amp.png", obs_id ++ "_cal_phase.png")
  | Residual => (obs_id ++ "_cal_residual_amp.png", obs_id ++ "_cal_residual_phase.png")
  | Raw => (obs_id ++ "_cal_raw_amp.png", obs_id ++ "_cal_raw_phase.png")
  end%string.

Section Spec.
  Context {G V : Type}.
  Variable gadd : G -> G -> G.
  Variable vabs varg : G -> V.
  Variable vsub : V -> V -> V.
  Variable unwrap : list V -> list V.
  Variable isnan : V -> bool.
  Variable i : plot_input G.

  (** The unflagged channels, in increasing order. *)
  Definition good_channels : list nat :=
    filter (fun f => nth f (in_freq_use i) false) (seq 0 (List.length (in_freq_use i))).

  Definition along (c : nat -> V) : list V := map c good_channels.
  Definition gain_of (p t f : nat) : G := in_gain i p f t.
  Definition raw_of (p t f : nat) : G := gadd (in_gain i p f t) (in_residual i p f t).

  Definition differences (a b : list V) : list V := map (fun '(x, y) => vsub x y) (combine a b).

  (** Amplitude and phase (radians) of a tile along the unflagged channels: of the solution, of the
      per-channel solution, and the second less the first. *)
  Definition amplitude (k : kind) (p t : nat) : list V :=
    match k with
    | Solution => along (fun f => vabs (gain_of p t f))
    | Raw => along (fun f => vabs (raw_of p t f))
    | Residual => along (fun f => vsub (vabs (raw_of p t f)) (vabs (gain_of p t f)))
    end.
  Definition phase (k : kind) (p t : nat) : list V :=
    match k with
    | Solution => along (fun f => varg (gain_of p t f))
    | Raw => along (fun f => varg (raw_of p t f))
    | Residual => differences (unwrap (along (fun f => varg (raw_of p t f))))
                              (unwrap (along (fun f => varg (gain_of p t f))))
    end.

  (** All the numbers of a kind of curve, for every polarisation and every tile, flagged or not. *)
  Definition every (c : nat -> nat -> list V) : list V :=
    concat (map (fun pt => c (fst pt) (snd pt)) (list_prod (seq 0 (in_n_pol i)) (seq 0 (in_n_tile i)))).

  Definition undefined (k : kind) (p t : nat) : Prop :=
    forall v, In v (amplitude k p t ++ phase k p t) -> isnan v = true.
  Definition visible (k : kind) (p t : nat) : Prop :=
    nth t (in_tile_use i) false = true /\ ~ undefined k p t.

  (** The panel of tile [t], in reading order on a page of 8 rows of 16. *)
  Record shows_tile (k : kind) (t : nat) (pn : panel V) : Prop := {
    st_place : pn_row pn < 8 /\ pn_col pn < 16 /\ t = 16 * pn_row pn + pn_col pn;
    st_title : nth_error (in_tile_names i) t = Some (pn_title pn);
    st_lines : forall l, In l (pn_lines pn) <->
      exists p, p < in_n_pol i /\ visible k p t /\
        l = Line p (map (fun f => (in_freq i f / 1000000)%Q) good_channels) (amplitude k p t) (phase k p t);
    st_once : NoDup (map ln_pol (pn_lines pn));
    st_axes : pn_off pn = false <-> forall p, p < in_n_pol i -> visible k p t
  }.

  (** ** Whole pages *)
  Variable isfinite : V -> bool.
  Variable nanmin nanmax : list V -> V.
  Variable full_turn : V * V.

  (** There is something to plot: one or two named polarisations and an unflagged channel. *)
  Definition ready : Prop :=
    0 < in_n_tile i /\ 0 < in_n_pol i /\ in_n_pol i <= 2 /\ in_n_pol i <= List.length (in_pol_names i) /\
    (exists f, nth f (in_freq_use i) false = true) /\ (forall l, List.length (unwrap l) = List.length l).

  (** The vertical range of the panels: of amplitudes, the smallest and the largest number of that
      kind; of phases a full turn, but for the residuals. *)
  Definition amp_limits (k : kind) : V * V := (nanmin (every (amplitude k)), nanmax (every (amplitude k))).
  Definition phase_limits (k : kind) : V * V :=
    match k with
    | Residual => (nanmin (every (phase Residual)), nanmax (every (phase Residual)))
    | _ => full_turn
    end.
  Definition finite (l : V * V) : Prop := isfinite (fst l) = true /\ isfinite (snd l) = true.

  (** A page with the first 128 tiles. *)
  Definition page_of (k : kind) (pg : page V) : Prop :=
    (pg_amp_file pg, pg_phase_file pg) = files_of (in_obs_id i) k /\
    pg_amp_lim pg = amp_limits k /\ pg_phase_lim pg = phase_limits k /\
    Forall2 (shows_tile k) (seq 0 128) (pg_panels pg).
End Spec.
