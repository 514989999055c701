(** C31: property theorems about vis_calibration_flag. *)
From Coq Require Import ZifyBool ZifyNat.
From Verif Require Import Base Cplx WeightInvert CalFlag CalFlagSpec CalFlagProofs VisWeightsProps.
Open Scope nat_scope.
Ltac Zify.zify_post_hook ::= idtac.

(** Whatever the statistics are: nothing that was flagged returns to use, and without the option to flag
    frequencies these stay as they were. *)
Theorem C31_only_removes : forall std median nanstd fuel sts flag_frequencies tile_use freq_use t f,
  vis_calibration_flag std median nanstd fuel sts flag_frequencies tile_use freq_use = Ok (t, f) ->
  only_removes tile_use t /\ only_removes freq_use f /\ (flag_frequencies = false -> f = freq_use).
Proof.
  intros std median nanstd fuel sts ff tu fu t f H. unfold vis_calibration_flag in H.
  destruct (fold_res _ _ _) as [r|] eqn:E; cbn [bind] in H; [|discriminate].
  apply pols_remove in E as [E1 E2]. cbn [fst snd] in *. injection H as <- <-.
  split; [exact E1|]. destruct ff; split; auto; [discriminate|apply only_refl].
Qed.
Print Assumptions C31_only_removes.

(** Three passes per test are enough: as long as the fits succeed there is a result. *)
Theorem C31_bounded : forall std median nanstd fuel sts flag_frequencies tile_use freq_use,
  3 <= fuel ->
  (forall st, In st sts -> forall ts fs, (exists l, st_tile_fom st ts fs = Ok l) /\ exists l, st_phase st ts fs = Ok l) ->
  exists r, vis_calibration_flag std median nanstd fuel sts flag_frequencies tile_use freq_use = Ok r.
Proof.
  intros std median nanstd fuel sts ff tu fu Hf Hs. unfold vis_calibration_flag.
  assert (P : forall u, exists u', fold_res (fun u st => flag_pol std median nanstd fuel st u) sts u = Ok u').
  { induction sts as [|st sts IH]; intros [t f]; cbn [fold_res]; [eauto|].
    assert (E : exists u', flag_pol std median nanstd fuel st (t, f) = Ok u').
    { unfold flag_pol. destruct (Hs st (or_introl eq_refl) (nonzero t) (nonzero f)) as [[l ->] _]. cbn [bind].
      edestruct (amp_loop_ok std median fuel 0) as (fc & tc & k & -> & _); [lia|]. cbn [bind].
      edestruct (Hs st (or_introl eq_refl)) as [_ [l' ->]]. cbn [bind].
      edestruct (phase_loop_ok median nanstd fuel 0) as (c & q & ->); [lia|]. cbn [bind]. eauto. }
    destruct E as [u' ->]. cbn [bind]. apply IH. intros st' Hst. apply Hs. now right. }
  destruct (P (tu, fu)) as [u' ->]. cbn [bind]. eauto.
Qed.
Print Assumptions C31_bounded.

(** In every polarisation: the used tiles whose amplitude is below half or above twice the median one are
    flagged; then, among the tiles [t1] left, those whose absolute phase slope or phase spread stands out. *)
Theorem C31_flags : forall std median nanstd fuel pre st post flag_frequencies tile_use freq_use t f,
  (forall s, In s (pre ++ st :: post) -> shaped s) ->
  vis_calibration_flag std median nanstd fuel (pre ++ st :: post) flag_frequencies tile_use freq_use = Ok (t, f) ->
  exists t0 f0 t1 f1 slopes spreads tiles0 freqs0 tiles1 freqs1,
    only_removes tile_use t0 /\ only_removes t0 t1 /\ only_removes t1 t
    /\ only_removes freq_use f0 /\ only_removes f0 f1
    /\ in_use t0 tiles0 /\ in_use f0 freqs0 /\ in_use t1 tiles1 /\ in_use f1 freqs1
    /\ (pre = [] -> t0 = tile_use /\ f0 = freq_use)
    /\ (forall k typical amp, k < length tiles0 ->
          median (st_tile_avg st tiles0 freqs0) = Fin typical ->
          nth k (st_tile_avg st tiles0 freqs0) NaN = Fin amp -> bad_amplitude typical amp ->
          nth (nth k tiles0 0) t1 0%Z = 0%Z)
    /\ st_phase st tiles1 freqs1 = Ok (slopes, spreads)
    /\ (forall k, k < length tiles1 ->
          is_out median nanstd (map xabs slopes) slopes k \/ is_out median nanstd spreads spreads k ->
          nth (nth k tiles1 0) t 0%Z = 0%Z).
Proof.
  intros std median nanstd fuel pre st post ff tu fu t f Sh H. unfold vis_calibration_flag in H.
  destruct (fold_res _ _ _) as [r|] eqn:E; cbn [bind] in H; [|discriminate]. injection H as <- _.
  rewrite fold_res_app in E. destruct (fold_res _ pre _) as [[t0 f0]|] eqn:E0; cbn [bind] in E; [|discriminate].
  cbn [fold_res] in E. destruct (flag_pol _ _ _ _ _ _) as [[t2 f2]|] eqn:E1; cbn [bind] in E; [|discriminate].
  pose proof (pol_removes _ _ _ _ _ _ _ _ _ E1) as [_ R1].
  assert (Sst : shaped st) by (apply Sh; apply in_or_app; right; now left).
  destruct (pol_stages _ _ _ _ _ _ _ _ _ Sst E1) as (t1 & A1 & A2 & A3 & sl & sg & A4 & A5).
  assert (Epre := E0). apply pols_remove in E0 as [B1 B2]. apply pols_remove in E as [C1 C2]. cbn [fst snd] in *.
  exists t0, f0, t1, f2, sl, sg, (nonzero t0), (nonzero f0), (nonzero t1), (nonzero f2).
  split; [exact B1|]. split; [exact A1|]. split; [eapply only_trans; eauto|]. split; [exact B2|]. split; [exact R1|].
  split; [apply nonzero_in_use|]. split; [apply nonzero_in_use|]. split; [apply nonzero_in_use|].
  split; [apply nonzero_in_use|]. split; [intros ->; cbn in Epre; injection Epre as -> ->; auto|]. split.
  - intros k typ amp Hk M E2 B. apply A3; auto. eapply bad_test; eauto.
  - split; [exact A4|]. intros k Hk O. eapply removed_stays; [exact C1|]. apply A5; auto.
    unfold out_test. apply orb_true_iff. destruct O as [O|O]; [left|right]; now apply xgt_out.
Qed.
Print Assumptions C31_flags.

(** Equal statistics everywhere: nothing is flagged. *)
Theorem C31_uniform : forall std median nanstd fuel sts flag_frequencies tile_use freq_use,
  fair std median nanstd -> 3 <= fuel -> (forall st, In st sts -> uniform st) ->
  vis_calibration_flag std median nanstd fuel sts flag_frequencies tile_use freq_use = Ok (tile_use, freq_use).
Proof.
  intros std median nanstd fuel sts ff tu fu F Hf U. unfold vis_calibration_flag.
  assert (E : fold_res (fun u st => flag_pol std median nanstd fuel st u) sts (tu, fu) = Ok (tu, fu)).
  { induction sts as [|st sts IH]; auto. cbn [fold_res]. rewrite uniform_pol; auto; [|apply U; now left].
    cbn [bind]. apply IH. intros; apply U; now right. }
  rewrite E. cbn [bind fst snd]. destruct ff; reflexivity.
Qed.
Print Assumptions C31_uniform.

(** Nothing is flagged without a reason. A channel that was in use and is flagged had, in one polarisation, a spread over
    the tiles more than 5 standard deviations above the median of the channels it was compared with. *)
Theorem C31_channel_reasons : forall std median nanstd fuel sts flag_frequencies tile_use freq_use t f j,
  vis_calibration_flag std median nanstd fuel sts flag_frequencies tile_use freq_use = Ok (t, f) ->
  nth j freq_use 0%Z <> 0%Z -> nth j f 0%Z = 0%Z ->
  flag_frequencies = true
  /\ exists st t0 f0 tiles0 freqs0 spreads k pool, In st sts /\ only_removes tile_use t0 /\ only_removes freq_use f0
    /\ in_use t0 tiles0 /\ in_use f0 freqs0 /\ spreads = map statistic (st_freq_fom st tiles0 freqs0)
    /\ k < length spreads /\ nth k freqs0 0 = j
    /\ screened std median spreads (fun _ => False) pool /\ exceeds std median spreads pool (nth k spreads NaN).
Proof.
  intros std median nanstd fuel sts ff tu fu t f j H J0 J. unfold vis_calibration_flag in H.
  destruct (fold_res _ _ _) as [r|] eqn:E; cbn [bind] in H; [|discriminate]. injection H as <- <-.
  destruct ff; [|contradiction]. split; [reflexivity|].
  apply (pols_step std median nanstd fuel (fun u => nth j (snd u) 0%Z = 0%Z)) in E;
    [|exact J0|exact J|intros v; destruct (Z.eq_dec (nth j (snd v) 0%Z) 0%Z); auto].
  destruct E as (pre & st & post & [t0 f0] & [t' f'] & -> & P1 & P2 & P3 & P4 & P5). cbn [snd] in P4, P5.
  apply pols_remove in P1 as [Q1 Q2]. cbn [fst snd] in Q1, Q2.
  destruct (pol_reasons _ _ _ _ _ _ _ _ _ P2) as (t1 & tf & sl & sg & _ & _ & _ & _ & R & _).
  destruct (R j P4 P5) as (k & pool & K & N & S & X).
  exists st, t0, f0, (nonzero t0), (nonzero f0), (map statistic (st_freq_fom st (nonzero t0) (nonzero f0))), k, pool.
  split; [apply in_or_app; right; left; reflexivity|]. split; [exact Q1|]. split; [exact Q2|].
  split; [apply nonzero_in_use|]. split; [apply nonzero_in_use|]. split; [reflexivity|].
  split; [now rewrite map_length|]. split; [exact N|]. split; [exact S|exact X].
Qed.
Print Assumptions C31_channel_reasons.

(** A tile that was in use and is flagged had, in one polarisation: an amplitude outside half to twice the typical one; or a
    spread about its fit more than 5 standard deviations above the median of the tiles it was compared with; or a phase
    whose slope or spread stands out among the tiles left. *)
Theorem C31_tile_reasons : forall std median nanstd fuel sts flag_frequencies tile_use freq_use t f j,
  vis_calibration_flag std median nanstd fuel sts flag_frequencies tile_use freq_use = Ok (t, f) ->
  nth j tile_use 0%Z <> 0%Z -> nth j t 0%Z = 0%Z ->
  exists st t0 f0 tiles0 freqs0, In st sts /\ only_removes tile_use t0 /\ only_removes freq_use f0
    /\ in_use t0 tiles0 /\ in_use f0 freqs0
    /\ let amps := st_tile_avg st tiles0 freqs0 in
       let out := fun k => amplitude_out (median amps) (nth k amps NaN) in
       (exists fom spreads k, st_tile_fom st tiles0 freqs0 = Ok fom /\ spreads = map statistic fom
          /\ k < length spreads /\ nth k tiles0 0 = j
          /\ (out k \/ exists pool, screened std median spreads out pool
                        /\ exceeds std median spreads pool (nth k spreads NaN)))
       \/ exists t1 f1 tiles1 freqs1 slopes spreads k, only_removes t0 t1 /\ only_removes f0 f1
          /\ in_use t1 tiles1 /\ in_use f1 freqs1 /\ st_phase st tiles1 freqs1 = Ok (slopes, spreads)
          /\ k < length slopes /\ nth k tiles1 0 = j /\ phase_out median nanstd slopes spreads k.
Proof.
  intros std median nanstd fuel sts ff tu fu t f j H J0 J. unfold vis_calibration_flag in H.
  destruct (fold_res _ _ _) as [r|] eqn:E; cbn [bind] in H; [|discriminate]. injection H as <- <-.
  apply (pols_step std median nanstd fuel (fun u => nth j (fst u) 0%Z = 0%Z)) in E;
    [|exact J0|exact J|intros v; destruct (Z.eq_dec (nth j (fst v) 0%Z) 0%Z); auto].
  destruct E as (pre & st & post & [t0 f0] & [t' f'] & -> & P1 & P2 & P3 & P4 & P5). cbn [fst] in P4, P5.
  apply pols_remove in P1 as [Q1 Q2]. cbn [fst snd] in Q1, Q2.
  pose proof (pol_removes _ _ _ _ _ _ _ _ _ P2) as [_ Rf].
  destruct (pol_reasons _ _ _ _ _ _ _ _ _ P2) as (t1 & tf & sl & sg & Et & Ep & O1 & O2 & _ & Ra & Rp).
  exists st, t0, f0, (nonzero t0), (nonzero f0).
  split; [apply in_or_app; right; left; reflexivity|]. split; [exact Q1|]. split; [exact Q2|].
  split; [apply nonzero_in_use|]. split; [apply nonzero_in_use|]. cbn zeta.
  destruct (Z.eq_dec (nth j t1 0%Z) 0%Z) as [Z1|Z1].
  - left. destruct (Ra j P4 Z1) as (k & K & N & X). exists tf, (map statistic tf), k. split; [exact Et|]. split; [reflexivity|].
    split; [now rewrite map_length|]. split; [exact N|exact X].
  - right. destruct (Rp j Z1 P5) as (k & K & N & X). exists t1, f', (nonzero t1), (nonzero f'), sl, sg, k.
    split; [exact O1|]. split; [exact Rf|]. split; [apply nonzero_in_use|]. split; [apply nonzero_in_use|].
    split; [exact Ep|]. repeat split; auto.
Qed.
Print Assumptions C31_tile_reasons.

(** Stand-ins for the statistics: the first entry as median, no spread. *)
Definition demo_med (l : list xf) : xf := hd NaN l.
Definition demo_std (l : list xf) : xf := match l with [] => NaN | _ => Fin 0%Qc end.
Definition demo_stats (tile_fom avg : nat -> Qc) : stats :=
  {| st_freq_fom := fun _ fs => map (fun _ => Fin 1%Qc) fs;
     st_tile_fom := fun ts _ => Ok (map (fun t => Fin (tile_fom t)) ts);
     st_tile_avg := fun ts _ => map (fun t => Fin (avg t)) ts;
     st_phase := fun ts _ => Ok (map (fun _ => Fin 0%Qc) ts, map (fun _ => Fin 0%Qc) ts) |}.

Lemma demo_shaped tf avg : shaped (demo_stats tf avg).
Proof.
  intros ts fs. cbn. rewrite !map_length. repeat split; auto.
  - intros l E. injection E as <-. apply map_length.
  - injection H as <- <-. apply map_length.
  - injection H as <- <-. apply map_length.
Qed.
Lemma demo_fair : fair demo_std demo_med demo_std.
Proof. split; reflexivity. Qed.

(** Tile 2 has three times the usual amplitude and is flagged; tile 1 was flagged before. *)
Example C31_demo :
  shaped (demo_stats (fun _ => 1%Qc) (fun t => if t =? 2 then Q2Qc 3 else 1%Qc))
  /\ vis_calibration_flag demo_std demo_med demo_std 3 [demo_stats (fun _ => 1%Qc) (fun t => if t =? 2 then Q2Qc 3 else 1%Qc)]
       true [1; 0; 1; 1]%Z [1; 1]%Z = Ok ([1; 0; 0; 1], [1; 1])%Z.
Proof. split; [apply demo_shaped|]. vm_compute. reflexivity. Qed.

(** The reason in that case: the amplitude 3 is above twice the typical 1. *)
Example C31_reasons_case : nth 2 [1; 0; 1; 1]%Z 0%Z <> 0%Z /\ nth 2 [1; 0; 0; 1]%Z 0%Z = 0%Z
  /\ amplitude_out (demo_med [Fin 1%Qc; Fin (Q2Qc 3); Fin 1%Qc]) (Fin (Q2Qc 3))
  /\ exceeds demo_std demo_med [Fin 1%Qc; Fin (Q2Qc 3)] [0] (Fin (Q2Qc 3))
  /\ screened demo_std demo_med [Fin 1%Qc; Fin (Q2Qc 3)] (fun _ => False) [0].
Proof.
  assert (X0 : ~ exceeds demo_std demo_med [Fin 1%Qc; Fin (Q2Qc 3)] [0; 1] (Fin 1%Qc)) by (cbv; discriminate).
  assert (X1 : exceeds demo_std demo_med [Fin 1%Qc; Fin (Q2Qc 3)] [0; 1] (Fin (Q2Qc 3))) by (cbv; reflexivity).
  split; [discriminate|]. split; [reflexivity|]. split; [right; cbv; reflexivity|]. split; [cbv; reflexivity|].
  apply (screened_next _ _ _ _ [0; 1]); [|repeat constructor|].
  - apply screened_first; [repeat constructor|]. intros [|[|k]]; cbn [In length nth]; split; try tauto; try (intros _; split; [lia|discriminate]); intuition lia.
  - intros [|[|k]]; cbn [In nth]; try tauto; intuition discriminate.
Qed.

(** A used tile whose amplitude statistic is 0 stays in use: lines 234 and 238 write into a copy. *)
Theorem C31_zero_refuted : exists std median nanstd st tile_use freq_use t f fom,
  fair std median nanstd /\ shaped st
  /\ vis_calibration_flag std median nanstd 3 [st] true tile_use freq_use = Ok (t, f)
  /\ in_use tile_use [0; 1; 2] /\ in_use freq_use [0; 1]
  /\ st_tile_fom st [0; 1; 2] [0; 1] = Ok fom /\ nth 1 fom NaN = Fin 0%Qc
  /\ nth 1 t 0%Z <> 0%Z.
Proof.
  exists demo_std, demo_med, demo_std, (demo_stats (fun t => if t =? 1 then 0%Qc else 1%Qc) (fun _ => 1%Qc)),
    [1; 1; 1]%Z, [1; 1]%Z, [1; 1; 1]%Z, [1; 1]%Z, [Fin 1%Qc; Fin 0%Qc; Fin 1%Qc].
  split; [apply demo_fair|]. split; [apply demo_shaped|]. split; [vm_compute; reflexivity|].
  split; [exact (nonzero_in_use [1; 1; 1]%Z)|]. split; [exact (nonzero_in_use [1; 1]%Z)|].
  split; [reflexivity|]. split; [reflexivity|]. discriminate.
Qed.
Print Assumptions C31_zero_refuted.
