(** C95: the hyperresolved search finds the strongest mode, and an exact reflection exactly.
    C96: with autocorrelations, the reflection in the phases is found.
    C97: the tiles a reflection is compared with have other cables — refuted. *)
From Coq Require Import Reals Lra.
From Verif Require Import Base Sky DirtyImage DirtyImageProofs Kernel Reflect ReflectSpec ReflectProofs.
Import ListNotations.
Open Scope R_scope.

(** Whatever the gains: of the 101 modes within 2.5 of the nominal one, the strongest. *)
Theorem C95_strongest arg i t : fi_auto i = None ->
  exists m, fit arg i t = (m, Some (cabs (spectrum i t m) / INR (length (fi_freq_use i)), arg (spectrum i t m))) /\
    candidate (nth t (fi_modes i) 0) m /\
    forall m', candidate (nth t (fi_modes i) 0) m' -> cabs (spectrum i t m') <= cabs (spectrum i t m).
Proof. apply search_best. Qed.
Print Assumptions C95_strongest.

(** A constant and a reflection whose mode is a tested whole number: mode, amplitude and phase. *)
Theorem C95_exact arg i t background a phi m :
  fi_auto i = None -> unflagged i -> (6 <= fi_n_freq i)%nat -> is_angle arg ->
  0 < a -> candidate (nth t (fi_modes i) 0) m -> proper (fi_n_freq i) m ->
  (forall f, (f < fi_n_freq i)%nat -> fi_gain i f t = cadd background (reflection (fi_n_freq i) a phi m f)) ->
  exists p, fit arg i t = (m, Some (a, p)) /\ cos p = cos phi /\ sin p = sin phi.
Proof.
  intros A U N An Pa C P H.
  destruct (exact_found arg i t (fi_n_freq i) background a phi m A U eq_refl N P Pa C H) as [_ E].
  eexists. split; [exact E|].
  assert (T : cexp_i (arg (cscale (INR (fi_n_freq i) * a) (cexp_i phi))) = cexp_i phi).
  { apply angle_turn; [exact An|]. apply Rmult_lt_0_compat; [apply lt_0_INR; lia|exact Pa]. }
  unfold cexp_i in T at 1 3. injection T as T1 T2. split; assumption.
Qed.
Print Assumptions C95_exact.

(** If the smooth fit leaves nothing but the reflection, the fit and the reflection give back the
    gain at every channel. *)
Theorem C95_restores arg i t a phi m :
  fi_auto i = None -> unflagged i -> (6 <= fi_n_freq i)%nat -> is_angle arg ->
  0 < a -> candidate (nth t (fi_modes i) 0) m -> proper (fi_n_freq i) m ->
  (forall f, (f < fi_n_freq i)%nat -> fi_gain i f t = cadd (1, 0) (reflection (fi_n_freq i) a phi m f)) ->
  forall f, (f < fi_n_freq i)%nat -> factor arg i t f = Some (fi_gain i f t).
Proof.
  intros A U N An Pa C P H. apply (factor_exact arg i t (fi_n_freq i) a phi m); auto.
Qed.
Print Assumptions C95_restores.

(** The tiles averaged are those used, with a known cable, and a nominal mode other than [m]. *)
Theorem C96_reference i m s : In s (incoherent i m) <->
  nth s (fi_tile_use i) false = true /\ 0 < nth s (fi_modes i) 0 /\ 1 / 100 < Rabs (nth s (fi_modes i) 0 - m).
Proof. apply incoherent_in. Qed.
Print Assumptions C96_reference.

(** The phase of the gain, less the average phase of those tiles, is that of a reflection: amplitude
    and phase are found, and the gain is turned by exactly that phase. *)
Theorem C96_exact arg i t auto a phi m :
  fi_auto i = Some auto -> unflagged i -> (0 < fi_n_freq i)%nat -> is_angle arg -> 0 < a ->
  fst (fit arg i t) = m -> proper (fi_n_freq i) (2 * m) -> incoherent i m <> [] ->
  (forall f, (f < fi_n_freq i)%nat ->
     arg (fi_gain i f t) - fold_right Rplus 0 (map (fun s => arg (fi_gain i f s)) (incoherent i m)) / INR (length (incoherent i m))
     = snd (reflection (fi_n_freq i) a phi m f)) ->
  (exists p, fit arg i t = (m, Some (a, p)) /\ cos p = cos phi /\ sin p = sin phi) /\
  forall f, (f < fi_n_freq i)%nat -> factor arg i t f = Some (cexp_i (snd (reflection (fi_n_freq i) a phi m f))).
Proof.
  intros A U N An Pa Sm P Nt H.
  assert (Sm' : fst (search arg i t) = m) by (unfold fit in Sm; rewrite A in Sm; exact Sm).
  split.
  - destruct (phase_exact arg i t (fi_n_freq i) a phi m auto _ A U eq_refl N P Pa An eq_refl Nt H) as (p & Ep & Cp).
    exists p. unfold fit. rewrite A. cbv zeta. rewrite Sm', Ep. split; [reflexivity|].
    unfold cexp_i in Cp. injection Cp as C1 C2. split; assumption.
  - intros f F. apply (phase_factor arg i t (fi_n_freq i) a phi m auto _ A U eq_refl N P Pa An eq_refl Nt Sm' H f F).
Qed.
Print Assumptions C96_exact.

(** The mode is one of the 101 tested here too. *)
Theorem C96_candidate arg i t : candidate (nth t (fi_modes i) 0) (fst (fit arg i t)).
Proof. unfold fit. destruct (fi_auto i); cbn [fst]; apply search_candidate. Qed.
Print Assumptions C96_candidate.

(** No used tile has another cable: whatever the autocorrelations and gains, the mode found is the
    lowest one tested, 2.5 below the nominal. *)
Theorem C97_same_cable_refuted arg i t auto :
  fi_auto i = Some auto -> (forall s, ~ other_cables i t s) -> fst (fit arg i t) = nth t (fi_modes i) 0 - 5 / 2.
Proof. apply no_reference. Qed.
Print Assumptions C97_same_cable_refuted.

(** As soon as the search moves away from the nominal mode, the tile and all those with the same
    cable are among the tiles with which its phase is compared. *)
Theorem C97_self_refuted arg i t s :
  0 < nth t (fi_modes i) 0 -> fst (fit arg i t) <> nth t (fi_modes i) 0 ->
  nth s (fi_tile_use i) false = true -> nth s (fi_modes i) 0 = nth t (fi_modes i) 0 ->
  In s (incoherent i (fst (fit arg i t))).
Proof.
  intros P N U E. apply incoherent_in. unfold nominal. rewrite E. repeat split; try assumption.
  destruct (C96_candidate arg i t) as (j & J & Ej). rewrite Ej in N |- *.
  replace (nth t (fi_modes i) 0 - (nth t (fi_modes i) 0 + IZR j / 20)) with (- (IZR j / 20)) by ring. rewrite Rabs_Ropp.
  assert (NZ : j <> 0%Z) by (intros ->; apply N; lra).
  destruct (Z.le_gt_cases 1 j) as [L|L].
  - apply IZR_le in L. rewrite Rabs_pos_eq; lra.
  - assert (L' : (j <= -1)%Z) by lia. apply IZR_le in L'. rewrite Rabs_left; lra.
Qed.
Print Assumptions C97_self_refuted.

(** A concrete reflection: 8 channels, nominal mode 2, the true mode 3, amplitude 1/10. *)
Module demo.
  Definition obs : fit_input := {|
    fi_n_freq := 8; fi_freq_use := seq 0 8; fi_tile_use := [true; true]; fi_modes := [2; 2];
    fi_gain := fun f _ => cadd (1, 0) (reflection 8 (1 / 10) (1 / 2) 3 f); fi_auto := None |}.
  Example hypotheses : unflagged obs /\ (6 <= fi_n_freq obs)%nat /\ candidate (nth 0 (fi_modes obs) 0) 3 /\ proper 8 3.
  Proof.
    split; [reflexivity|]. split; [cbn; lia|]. split.
    - exists 20%Z. split; [lia|]. cbn [obs fi_modes nth]. lra.
    - exists 3%Z. split; [reflexivity|]. intros [k K]. lia.
  Qed.
  Example found arg : is_angle arg -> exists p, fit arg obs 0 = (3, Some (1 / 10, p)) /\ cos p = cos (1 / 2) /\ sin p = sin (1 / 2).
  Proof.
    intros An. destruct hypotheses as (U & N & C & P).
    apply (C95_exact arg obs 0 (1, 0) (1 / 10) (1 / 2) 3); try assumption; try reflexivity; try lra.
  Qed.
  (** Two tiles with the same cable and autocorrelations: the mode found is -1/2. *)
  Definition autos : fit_input := {|
    fi_n_freq := 8; fi_freq_use := seq 0 8; fi_tile_use := [true; true]; fi_modes := [2; 2];
    fi_gain := fun f _ => cadd (1, 0) (reflection 8 (1 / 10) (1 / 2) 3 f); fi_auto := Some (fun f t => 1) |}.
  Example lost arg : fst (fit arg autos 0) = - (1 / 2).
  Proof.
    rewrite (C97_same_cable_refuted arg autos 0 (fun f t => 1) eq_refl).
    - cbn [autos fi_modes nth]. lra.
    - intros s (U & A & B). destruct s as [|[|s]]; cbn [autos fi_modes nth] in *.
      + rewrite Rminus_diag_eq, Rabs_R0 in B by reflexivity. lra.
      + rewrite Rminus_diag_eq, Rabs_R0 in B by reflexivity. lra.
      + destruct s; cbn [nth] in A; lra.
  Qed.

  (** An angle function exists. *)
  Definition angle (z : cx) : R := if Rle_dec 0 (snd z) then acos (fst z / cabs z) else - acos (fst z / cabs z).
  Lemma angle_ok : is_angle angle.
  Proof.
    intros z. destruct (Req_dec (cabs z) 0) as [E|NZ].
    - rewrite E. pose proof (cabs_sq z) as Q. rewrite E in Q. assert (fst z = 0) by nra. assert (snd z = 0) by nra.
      apply cx_eq; unfold cscale; cbn [fst snd]; lra.
    - pose proof (cabs_nonneg z) as P. assert (P' : 0 < cabs z) by lra. pose proof (cabs_sq z) as Q.
      assert (B : -1 <= fst z / cabs z <= 1).
      { split; [apply (Rmult_le_reg_r (cabs z)); [exact P'|]|apply (Rmult_le_reg_r (cabs z)); [exact P'|]];
        replace (fst z / cabs z * cabs z) with (fst z) by (field; lra); nra. }
      assert (S0 : sqrt (1 - (fst z / cabs z) ^ 2) = Rabs (snd z) / cabs z).
      { apply Rsqr_inj; [apply sqrt_pos|apply Rmult_le_pos; [apply Rabs_pos|left; apply Rinv_0_lt_compat; exact P']|].
        rewrite Rsqr_sqrt by nra. unfold Rsqr. replace (Rabs (snd z) / cabs z * (Rabs (snd z) / cabs z)) with (Rabs (snd z) * Rabs (snd z) / (cabs z * cabs z)) by (field; lra).
        replace (Rabs (snd z) * Rabs (snd z)) with (snd z * snd z) by (unfold Rabs; destruct (Rcase_abs (snd z)); ring).
        apply (Rmult_eq_reg_r (cabs z * cabs z)); [|nra].
        replace (snd z * snd z / (cabs z * cabs z) * (cabs z * cabs z)) with (snd z * snd z) by (field; lra).
        replace ((1 - (fst z / cabs z) ^ 2) * (cabs z * cabs z)) with (cabs z * cabs z - fst z ^ 2) by (field; lra). rewrite Q. ring. }
      unfold angle. destruct (Rle_dec 0 (snd z)) as [Y|Y]; apply cx_eq; unfold cscale, cexp_i; cbn [fst snd].
      + rewrite cos_acos by exact B. field. lra.
      + rewrite sin_acos by exact B. replace ((fst z / cabs z)²) with ((fst z / cabs z) ^ 2) by (unfold Rsqr; ring).
        rewrite S0, Rabs_pos_eq by exact Y. field. lra.
      + rewrite cos_neg, cos_acos by exact B. field. lra.
      + rewrite sin_neg, sin_acos by exact B. replace ((fst z / cabs z)²) with ((fst z / cabs z) ^ 2) by (unfold Rsqr; ring).
        rewrite S0, Rabs_left by lra. field. lra.
  Qed.
  Lemma angle_small x : - 1 <= x <= 1 -> angle (cexp_i x) = x.
  Proof.
    intros B. pose proof PI2_1 as P. unfold angle. rewrite cabs_exp. unfold cexp_i. cbn [fst snd].
    replace (cos x / 1) with (cos x) by field.
    destruct (Rle_dec 0 (sin x)) as [Y|Y].
    - assert (0 <= x). { destruct (Rle_dec 0 x); [assumption|]. exfalso. assert (0 < sin (- x)) by (apply sin_gt_0; lra). rewrite sin_neg in H. lra. }
      apply acos_cos. lra.
    - assert (x < 0). { destruct (Rlt_dec x 0); [assumption|]. exfalso. apply Y. apply sin_ge_0; lra. }
      rewrite <- (cos_neg x), acos_cos by lra. ring.
  Qed.

  (** Two tiles with different cables, nominal modes 7/2 and 10, flat autocorrelations: the mode
      found is 1, both tiles are averaged, and the first has a reflection in its phase. *)
  Definition phases : fit_input := {|
    fi_n_freq := 8; fi_freq_use := seq 0 8; fi_tile_use := [true; true]; fi_modes := [7 / 2; 10];
    fi_gain := fun f t => if (t =? 0)%nat then cexp_i (snd (reflection 8 (1 / 5) (1 / 2) 1 f)) else cexp_i 0;
    fi_auto := Some (fun f t => 1) |}.
  Lemma flat_argmax l v : (forall x, In x l -> x = v) -> argmax l = 0%nat.
  Proof.
    destruct l as [|x l]; [reflexivity|]. intros E. unfold argmax. rewrite (E x) by (left; reflexivity).
    assert (E' : forall y, In y l -> y = v) by (intros y I; apply E; right; exact I). clear E x.
    generalize 1%nat. induction l as [|y l IH]; intros k; [reflexivity|]. cbn [argmax_from].
    rewrite (E' y) by (left; reflexivity).
    destruct (Rltb v v) eqn:Q; [apply Rltb_true in Q; lra|]. apply IH. intros z I. apply E'. right. exact I.
  Qed.
  Lemma tiles_both : incoherent phases 1 = [0%nat; 1%nat] /\ incoherent phases (7 / 2) = [1%nat].
  Proof.
    assert (T : forall a b, a < b -> Rltb a b = true) by (intros a b L; apply Rltb_true; exact L).
    assert (F : forall a b, ~ a < b -> Rltb a b = false) by (intros a b L; destruct (Rltb a b) eqn:Q; [apply Rltb_true in Q; lra|reflexivity]).
    unfold incoherent, phases, nominal. cbn [fi_tile_use fi_modes length seq filter nth]. split.
    - rewrite !T; [reflexivity| | | |]; try lra; rewrite Rabs_pos_eq; lra.
    - rewrite (F _ (Rabs (7 / 2 - 7 / 2))); [rewrite !T; [reflexivity| | |]|]; try lra.
      + rewrite Rabs_pos_eq; lra.
      + rewrite Rminus_diag_eq, Rabs_R0 by reflexivity. lra.
  Qed.
  Lemma mode_one : fst (fit angle phases 0) = 1.
  Proof.
    unfold fit. cbn [phases fi_auto]. cbn [fst]. unfold search, fit_data, res_autos. cbn [phases fi_auto].
    change (nominal phases 0) with (7 / 2). rewrite (proj2 tiles_both). cbv zeta.
    set (g := fun f : nat => _ : cx).
    rewrite (flat_argmax _ 0).
    - cbn [fst]. rewrite tested_nth by lia. change (Z.of_nat 0 - 50)%Z with (-50)%Z. lra.
    - intros x I. apply in_map_iff in I as (z & <- & I). apply in_map_iff in I as (m & <- & _).
      assert (G0 : forall f, g f = (0, 0)).
      { intros f. unfold g. change (fi_n_freq phases) with 8%nat.
        assert (A1 : fold_right Rplus 0 (map (fun _ : nat => 1) (seq 0 8)) / INR (length (map (fun _ : nat => 1) (seq 0 8))) = 1)
          by (cbn [seq map fold_right length INR]; field).
        rewrite A1. set (l := seq 0 8). cbn [map fold_right length]. change (INR 1) with 1.
        replace (1 / 1 / ((1 / 1 + 0) / 1)) with 1 by field. unfold l. rewrite A1. f_equal. ring. }
      unfold dft, total_c. cbn [fi_freq_use phases fi_n_freq]. transitivity (cabs (0, 0)); [f_equal|apply cabs_0].
      induction (seq 0 8) as [|f l IH]; [reflexivity|]. cbn [map fold_right]. rewrite IH, G0.
      apply cx_eq; unfold cadd, cmul; cbn [fst snd]; ring.
  Qed.
  Example phases_found :
    (exists p, fit angle phases 0 = (1, Some (1 / 10, p)) /\ cos p = cos (1 / 2) /\ sin p = sin (1 / 2)).
  Proof.
    apply (C96_exact angle phases 0 (fun f t => 1) (1 / 10) (1 / 2) 1); try reflexivity; try lra.
    - cbn. lia.
    - apply angle_ok.
    - apply mode_one.
    - exists 2%Z. split; [lra|]. cbn [phases fi_n_freq]. intros [k K]. lia.
    - rewrite (proj1 tiles_both). discriminate.
    - intros f F. rewrite (proj1 tiles_both). cbn [map fold_right length phases fi_gain fi_n_freq Nat.eqb].
      rewrite (angle_small 0) by lra.
      assert (B : -1 <= snd (reflection 8 (1 / 5) (1 / 2) 1 f) <= 1).
      { unfold reflection. cbn [snd]. match goal with |- context [sin ?x] => pose proof (SIN_bound x) end. lra. }
      rewrite angle_small by exact B. unfold reflection. cbn [snd INR]. field.
  Qed.
End demo.
