(** C93: what the calibration plots show for 128 to 255 tiles.
    C94: every tile of every array is plotted, on an axis set by the unflagged tiles — refuted. *)
From Coq Require Import String QArith Qabs.
From Verif Require Import Base PyIndex TransferBp ModelReadProofs PlotCal PlotCalSpec PlotCalProofs.
Import ListNotations.
Open Scope nat_scope.

Section Props.
Context {G V : Type}.
Variable gadd : G -> G -> G.
Variable vabs varg : G -> V.
Variable vsub : V -> V -> V.
Variable unwrap : list V -> list V.
Variable isnan isfinite : V -> bool.
Variable nanmin nanmax : list V -> V.
Variable full_turn : V * V.
Variable show : nat -> string.

Local Notation plots := (plot_cals gadd vabs varg vsub unwrap isnan isfinite nanmin nanmax full_turn show).
Local Notation page_for i := (page_of gadd vabs varg vsub unwrap isnan i nanmin nanmax full_turn).
Local Notation amp_range i := (amp_limits gadd vabs vsub i nanmin nanmax).
Local Notation phase_range i := (phase_limits gadd varg vsub unwrap i nanmin nanmax full_turn).

(** One page of amplitudes and one of phases for the solutions, the residuals and the raw
    solutions, each with the first 128 tiles in reading order: own name, own curves. *)
Theorem C93_pages (i : plot_input G) :
  ready unwrap i -> 128 <= in_n_tile i < 256 -> List.length (in_tile_names i) = in_n_tile i ->
  (forall k, finite isfinite (amp_range i k) /\ finite isfinite (phase_range i k)) ->
  exists pages, plots i = Ok pages /\ Forall2 (page_for i) kinds pages.
Proof. intros R [A B] L F. apply plot_first; try assumption. lia. Qed.

(** More than two polarisations, or fewer names than polarisations. *)
Theorem C93_polarisations (i : plot_input G) :
  (2 < in_n_pol i \/ List.length (in_pol_names i) < in_n_pol i) -> forall pages, plots i <> Ok pages.
Proof.
  intros P pages. unfold plot_cals.
  destruct (minmax nanmin nanmax i (sol_amp vabs i)); cbn [bind]; [|discriminate].
  destruct (minmax nanmin nanmax i (res_amp gadd vabs vsub i)); cbn [bind]; [|discriminate].
  destruct (minmax nanmin nanmax i (raw_amp gadd vabs i)); cbn [bind]; [|discriminate].
  destruct (minmax nanmin nanmax i (res_phase gadd varg vsub unwrap i)); cbn [bind]; [|discriminate].
  replace ((2 <? in_n_pol i) || (List.length (in_pol_names i) <? in_n_pol i)) with true; [discriminate|].
  symmetry. apply Bool.orb_true_iff. rewrite !Nat.ltb_lt. exact P.
Qed.

(** Fewer than 128 tiles: nothing is plotted, and nothing is said. *)
Theorem C94_few_refuted (i : plot_input G) : ready unwrap i -> in_n_tile i < 128 -> plots i = Ok [].
Proof. apply plot_few. Qed.

(** Between 129 and 255: the tiles after the first 128 are on no page. *)
Theorem C94_rest_refuted (i : plot_input G) :
  ready unwrap i -> 128 < in_n_tile i < 256 -> List.length (in_tile_names i) = in_n_tile i -> NoDup (in_tile_names i) ->
  (forall k, finite isfinite (amp_range i k) /\ finite isfinite (phase_range i k)) ->
  exists pages, plots i = Ok pages /\
    forall t pg pn, 128 <= t < in_n_tile i -> In pg pages -> In pn (pg_panels pg) ->
      nth_error (in_tile_names i) t <> Some (pn_title pn).
Proof.
  intros R [A B] L N F. destruct (C93_pages i R (conj (Nat.lt_le_incl _ _ A) B) L F) as (pages & E & P).
  exists pages. split; [exact E|]. intros t pg pn T Ip In_.
  assert (Ex : exists k, page_for i k pg).
  { clear E. revert Ip. induction P as [|k q ks qs Pk Pr IH]; intros Ip; [destruct Ip|].
    destruct Ip as [<-|Ip]; [exists k; exact Pk|exact (IH Ip)]. }
  destruct Ex as (k & _ & _ & _ & Fs).
  assert (Et : exists t', t' < 128 /\ nth_error (in_tile_names i) t' = Some (pn_title pn)).
  { assert (Bound : forall x, In x (seq 0 128) -> x < 128) by (intros x Ix; apply in_seq in Ix; lia).
    revert Bound In_. generalize (seq 0 128) as xs, (pg_panels pg) as qs, Fs. clear.
    intros xs qs F. induction F as [|x q xs qs S Fr IH]; intros Bound I; [destruct I|].
    destruct I as [<-|I].
    - exists x. split; [apply Bound; left; reflexivity|apply (st_title _ _ _ _ _ _ _ _ _ _ S)].
    - apply IH; [intros y Iy; apply Bound; right; exact Iy|exact I]. }
  destruct Et as (t' & Lt & Et). intros Eq. rewrite <- Et in Eq.
  apply NoDup_nth_error in Eq; [lia|exact N|rewrite L; lia].
Qed.

(** 256 tiles or more: IndexError, whatever the gains. *)
Theorem C94_many_refuted (i : plot_input G) :
  ready unwrap i -> 256 <= in_n_tile i -> List.length (in_tile_names i) = in_n_tile i ->
  finite isfinite (amp_range i Solution) -> finite isfinite full_turn -> plots i = Err IndexError.
Proof. apply plot_many. Qed.

(** The common vertical range must contain the amplitudes of the flagged tiles too. *)
Theorem C94_limits_refuted (le : V -> V -> Prop) (i : plot_input G) pages :
  ready unwrap i -> 128 <= in_n_tile i < 256 -> List.length (in_tile_names i) = in_n_tile i ->
  (forall k, finite isfinite (amp_range i k) /\ finite isfinite (phase_range i k)) ->
  (forall l v, In v l -> isnan v = false -> le v (nanmax l)) ->
  plots i = Ok pages ->
  forall p t f, p < in_n_pol i -> t < in_n_tile i -> nth f (in_freq_use i) false = true ->
    nth t (in_tile_use i) false = false -> isnan (vabs (in_gain i p f t)) = false ->
    exists pg rest, pages = pg :: rest /\ le (vabs (in_gain i p f t)) (snd (pg_amp_lim pg)).
Proof.
  intros R T L F M E p t f Hp Ht Hf _ Hn.
  destruct (C93_pages i R T L F) as (pages' & E' & P). rewrite E in E'. injection E' as <-.
  unfold kinds in P. inversion P as [|? pg ? rest P1 P2]; subst. exists pg, rest. split; [reflexivity|].
  destruct P1 as (_ & -> & _). unfold amp_limits. cbn [snd]. apply M; [|exact Hn].
  apply (every_in i (amplitude gadd vabs vsub i Solution) p t); try assumption.
  unfold amplitude, along, gain_of. apply in_map_iff. exists f. split; [reflexivity|].
  unfold good_channels. apply filter_In. split; [|exact Hf]. apply in_seq.
  destruct (Nat.lt_ge_cases f (List.length (in_freq_use i))) as [Lf|Lf]; [lia|].
  rewrite nth_overflow in Hf by exact Lf. discriminate.
Qed.
End Props.

Print Assumptions C93_pages.
Print Assumptions C93_polarisations.
Print Assumptions C94_few_refuted.
Print Assumptions C94_rest_refuted.
Print Assumptions C94_many_refuted.
Print Assumptions C94_limits_refuted.

(** A concrete array: 130 tiles, real gains, tile 5 flagged with a gain of 100, channel 1 flagged. *)
Module demo.
  Definition gain (p f t : nat) : Q := if t =? 5 then 100%Q else inject_Z (Z.of_nat (f + p + 1)).
  Definition maximum (l : list Q) : Q := fold_right (fun a b => if Qle_bool a b then b else a) 0%Q l.
  Definition obs (n : nat) : plot_input Q := {|
    in_n_tile := n; in_n_pol := 2; in_freq_use := [true; false; true]; in_freq := fun f => inject_Z (180000000 + Z.of_nat f);
    in_tile_use := map (fun t => negb (t =? 5)) (seq 0 n); in_tile_names := map (fun t => String.append "Tile" (String (Ascii.ascii_of_nat t) "")) (seq 0 n);
    in_pol_names := ["XX"; "YY"]%string; in_gain := gain; in_residual := fun _ _ _ => 0%Q; in_obs_id := "1061316296" |}.
  Definition run (n : nat) := plot_cals Qplus Qabs (fun _ => 0%Q) Qminus (fun l => l) (fun _ => false) (fun _ => true)
    (fun _ => 0%Q) maximum ((-3)%Q, 3%Q) (fun _ => "0"%string) (obs n).

  Example is_ready : ready (V := Q) (fun l => l) (obs 130).
  Proof. repeat split; try (cbn; lia). exists 0. reflexivity. Qed.
  Example six_files : match run 130 with
    | Ok pages => map (fun pg => (pg_amp_file pg, pg_phase_file pg, List.length (pg_panels pg), snd (pg_amp_lim pg))) pages =
        [("1061316296_cal_amp.png", "1061316296_cal_phase.png", 128, 100%Q);
         ("1061316296_cal_residual_amp.png", "1061316296_cal_residual_phase.png", 128, 0%Q);
         ("1061316296_cal_raw_amp.png", "1061316296_cal_raw_phase.png", 128, 100%Q)]%string
    | Err _ => False end.
  Proof. vm_compute. reflexivity. Qed.
  Example flagged_blank : match run 130 with
    | Ok (pg :: _) => match nth_error (pg_panels pg) 5, nth_error (pg_panels pg) 18 with
        | Some a, Some b => pn_lines a = [] /\ pn_off a = true /\ pn_row b = 1 /\ pn_col b = 2 /\ map ln_amp (pn_lines b) = [[1; 3]; [2; 4]]%Q
        | _, _ => False end
    | _ => False end.
  Proof. vm_compute. repeat split. Qed.
  Example few : run 100 = Ok [].
  Proof. vm_compute. reflexivity. Qed.
  Example many : run 256 = Err IndexError.
  Proof. vm_compute. reflexivity. Qed.
End demo.
