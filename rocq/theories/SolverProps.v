(** C30 and C59: property theorems about the calibration solver. *)
From Coq Require Import ZifyBool ZifyNat.
From Verif Require Import Base Cplx WeightInvert WeightInvertProofs AdaptGain AdaptGainSpec AdaptGainProofs Solver SolverSpec
  SolverProofs VisWeightsProps.
Open Scope nat_scope.
Ltac Zify.zify_post_hook ::= idtac.

(** The decision "usable" as a filter. *)
Definition decides (good : baseline -> bool) : Prop := forall b, good b = true <-> usable b.

Lemma decides_positive good : decides good -> forall l, filter good l = filter positive l.
Proof.
  intros D l. apply filter_ext. intros b. apply Bool.eq_true_iff_eq. now rewrite (D b), positive_usable.
Qed.

(** An iteration limit below 1 is rejected. *)
Theorem C30_limit : forall cabs cfg bls n g0, (s_max cfg < 1)%Z ->
  exists e, solve cabs cfg (equations bls) n g0 = Err e.
Proof.
  intros cabs cfg bls n g0 H. unfold solve. destruct (s_max cfg <? 0)%Z eqn:E; [eauto|].
  replace (Z.to_nat (s_max cfg)) with 0 by lia. cbn. eauto.
Qed.
Print Assumptions C30_limit.

(** The reported iteration is below the limit. *)
Theorem C30_iteration : forall cabs cfg bls n g0 r, (0 <= s_phase cfg)%Z ->
  solve cabs cfg (equations bls) n g0 = Ok r -> (0 <= r_iter r < s_max cfg)%Z.
Proof.
  intros cabs cfg bls n g0 r Hp H. unfold solve in H. destruct (s_max cfg <? 0)%Z eqn:E; [discriminate|].
  apply loop_iter in H; auto. lia.
Qed.
Print Assumptions C30_iteration.

(** Without a reference tile the solver always answers. *)
Theorem C30_total_partial : forall cabs cfg bls n g0, (1 <= s_max cfg)%Z -> s_noref cfg = true ->
  exists r g, solve cabs cfg (equations bls) n g0 = Ok r /\ r_gain r = Some g /\ length g = n.
Proof.
  intros cabs cfg bls n g0 H Nr. unfold solve. replace (s_max cfg <? 0)%Z with false by lia.
  destruct (Z.to_nat (s_max cfg)) as [|m] eqn:E; [lia|].
  apply loop_total; auto; rewrite ?repeat_length; auto.
  unfold initial. now rewrite map_length, seq_length.
Qed.
Print Assumptions C30_total_partial.

(** The returned gains are the last of at most max_cal_iter + 1 solutions, the first the starting one,
    each obtained from the one before by an update; or, when 0 is the least-squares solution of every
    tile, they are 0. The number of updates kept is the reported iteration or one more. *)
Theorem C30_trace : forall cabs cfg bls good n g0 r g,
  modulus_like cabs -> (0 < s_base cfg)%Qc -> (0 <= s_thr cfg)%Qc -> decides good ->
  solve cabs cfg (equations bls) n g0 = Ok r -> r_gain r = Some g ->
  let used := filter good bls in
  exists vs,
    1 <= length vs /\ (Z.of_nat (length vs) <= s_max cfg + 1)%Z
    /\ starts used n g0 (nth 0 vs [])
    /\ updates cabs cfg used n 0 vs
    /\ (g = last vs []
        \/ length g = n /\ forall t, t < n -> at_ g t = C0
             /\ (5 <= n_eq used t -> least_squares used (at_ (last vs [])) t C0))
    /\ (r_iter r <= Z.of_nat (length vs - 1) <= r_iter r + 1)%Z.
Proof.
  intros cabs cfg bls good n g0 r g M Hb Ht D H Hr. cbv zeta. rewrite (decides_positive good D).
  unfold solve in H. destruct (s_max cfg <? 0)%Z eqn:E; [discriminate|].
  pose proof (initial_starts bls n g0) as St.
  eapply loop_trace in H; eauto; [|apply St|intros _ j Hj; lia].
  destruct H as (vs & V0 & Vl & Vu & Vg & Vi & _). exists vs. rewrite V0.
  split; [lia|]. split; [lia|]. split; [exact St|]. split; [exact Vu|]. split; [exact Vg|]. lia.
Qed.
Print Assumptions C30_trace.

(** Tiles without enough equations end with the gain 0. *)
Theorem C30_few : forall cabs cfg bls good n g0 r g t,
  modulus_like cabs -> (0 < s_base cfg)%Qc -> (0 <= s_thr cfg)%Qc -> decides good ->
  solve cabs cfg (equations bls) n g0 = Ok r -> r_gain r = Some g ->
  t < n -> n_eq (filter good bls) t < 5 -> at_ g t = C0.
Proof.
  intros cabs cfg bls good n g0 r g t M Hb Ht D H Hr Htn N.
  destruct (C30_trace _ _ _ _ _ _ _ _ M Hb Ht D H Hr) as (vs & Vl & _ & St & Vu & Vg & _).
  cbv zeta in *. destruct Vg as [->|[_ Z]]; [|now apply Z].
  assert (P : forall k, k < length vs -> at_ (nth k vs []) t = C0).
  { induction k as [|k IH]; intros Hk.
    - now apply St.
    - eapply few_update; [apply (Vu k Hk)|exact Htn|exact N|]. apply IH. lia. }
  rewrite nth_last. apply P. lia.
Qed.
Print Assumptions C30_few.

(** After at least one update the reference tile has phase 0. *)
Theorem C30_reference_partial : forall cabs cfg bls good n g0 r g,
  modulus_like cabs -> (0 < s_base cfg)%Qc -> (0 <= s_thr cfg)%Qc -> decides good ->
  s_noref cfg = false -> s_ref cfg < n ->
  solve cabs cfg (equations bls) n g0 = Ok r -> r_gain r = Some g -> (1 <= r_iter r)%Z ->
  im (at_ g (s_ref cfg)) = 0%Qc /\ (0 <= re (at_ g (s_ref cfg)))%Qc.
Proof.
  intros cabs cfg bls good n g0 r g M Hb Ht D Nr Hn H Hr Hi.
  destruct (C30_trace _ _ _ _ _ _ _ _ M Hb Ht D H Hr) as (vs & Vl & _ & St & Vu & Vg & Vi).
  cbv zeta in *. destruct Vg as [->|[_ Z]].
  - rewrite nth_last. destruct (length vs) as [|[|k]] eqn:E; [lia|cbn in Vi; lia|].
    replace (S (S k) - 1) with (S k) by lia.
    destruct (reference_update _ _ _ _ _ _ _ M Nr Hn (Vu k ltac:(lia))) as [I R].
    split; auto. now apply Qclt_le_weak.
  - rewrite (proj1 (Z _ Hn)). split; [reflexivity|discriminate].
Qed.
Print Assumptions C30_reference_partial.

(** A solution counted as converged: every reported change is within the threshold, or the mean change
    of the update before the last one was. *)
Theorem C30_converged_partial : forall cabs cfg bls good n g0 r g,
  modulus_like cabs -> (0 < s_base cfg)%Qc -> (0 <= s_thr cfg)%Qc -> decides good -> (0 <= s_phase cfg)%Z ->
  solve cabs cfg (equations bls) n g0 = Ok r -> r_gain r = Some g -> r_converged r = true ->
  (forall q, In q (r_conv r) -> exists x, q = Some x /\ (x <= s_thr cfg)%Qc)
  \/ exists vs, starts (filter good bls) n g0 (nth 0 vs []) /\ updates cabs cfg (filter good bls) n 0 vs
       /\ g = last vs [] /\ 3 <= length vs
       /\ (mean_change cabs n (nth (length vs - 3) vs []) (nth (length vs - 2) vs []) <= s_thr cfg)%Qc.
Proof.
  intros cabs cfg bls good n g0 r g M Hb Ht D Hp H Hr Hc. rewrite (decides_positive good D).
  unfold solve in H. destruct (s_max cfg <? 0)%Z eqn:E; [discriminate|].
  pose proof (initial_starts bls n g0) as St.
  eapply loop_trace in H; eauto; [|apply St|intros _ j Hj; lia].
  destruct H as (vs & V0 & _ & Vu & _ & _ & H). destruct (H Hc) as [|(Vl & Vg & Vi & Vp & Vc)]; [now left|right].
  exists vs. rewrite V0. split; [exact St|]. split; [exact Vu|]. split; [exact Vg|].
  unfold prev_loose in Vc. destruct (length vs <=? 2) eqn:L; [lia|]. split; [lia|]. now apply xge_fin.
Qed.
Print Assumptions C30_converged_partial.

(** |re| + |im|: equals the modulus on the real and the imaginary axis. *)
Definition qabs (q : Qc) : Qc := if Qcleb 0 q then q else (- q)%Qc.
Definition demo_abs (c : C) : Qc := (qabs (re c) + qabs (im c))%Qc.

Lemma qabs_nonneg q : (0 <= qabs q)%Qc.
Proof.
  unfold qabs. destruct (Qcleb 0 q) eqn:E; [now apply Qcleb_true|].
  destruct (Qclt_le_dec q 0) as [L|L]; [|apply Qcleb_true in L; congruence].
  apply Qclt_le_weak, Qcopp_le_compat in L. now rewrite (eq_refl : (- 0)%Qc = 0%Qc) in L.
Qed.
Lemma qabs_zero q : qabs q = 0%Qc -> q = 0%Qc.
Proof. unfold qabs. destruct (Qcleb 0 q); auto. intros H. rewrite <- (Qcopp_involutive q), H. reflexivity. Qed.
Lemma demo_abs_modulus : modulus_like demo_abs.
Proof.
  split.
  - intros c. unfold demo_abs. replace 0%Qc with (0 + 0)%Qc by ring. apply Qcplus_le_compat; apply qabs_nonneg.
  - intros c. split; [|intros ->; reflexivity]. unfold demo_abs. intros H.
    pose proof (Qc_sum_nonneg_0 _ _ (qabs_nonneg _) (qabs_nonneg _) H) as E.
    rewrite E, Qcplus_0_l in H. apply C_ext; [now apply qabs_zero|now apply qabs_zero].
Qed.

(** Six tiles, a baseline of weight 1 for every pair. *)
Definition demo_bls (f : nat -> nat -> C) : list baseline :=
  flat_map (fun a => map (fun b => {| b_a := a; b_b := b; b_data := f a b; b_model := C1; b_weight := 1%Qc |})
                         (seq (S a) (5 - a))) (seq 0 6).
Definition demo_cfg (max phase : Z) (thr : Qc) (noref : bool) : scfg :=
  {| s_max := max; s_phase := phase; s_base := 1%Qc; s_thr := thr; s_adapt := false; s_ref := 0; s_noref := noref |}.

(** A concrete run: data that the gains (2, 1, 1, 1, 1, 1) explain exactly, starting from 1. It does two
    updates and reports iteration 1; the hypotheses of the theorems above are met. *)
Example C30_demo : exists r g,
  solve demo_abs (demo_cfg 2 0 (Q2Qc (1#4)) false) (equations (demo_bls (fun a b => RtoC (if a =? 0 then Q2Qc 2 else 1%Qc)))) 6
    (repeat C1 6) = Ok r
  /\ r_gain r = Some g /\ r_iter r = 1%Z /\ length g = 6
  /\ at_ g 0 <> C1 /\ (forall t, t < 6 -> 5 <= n_eq (filter positive (demo_bls (fun _ _ => C0))) t).
Proof.
  assert (R : exists r, solve demo_abs (demo_cfg 2 0 (Q2Qc (1#4)) false)
      (equations (demo_bls (fun a b => RtoC (if a =? 0 then Q2Qc 2 else 1%Qc)))) 6 (repeat C1 6) = Ok r
    /\ (match r_gain r with Some g => (length g =? 6) && negb (Ceqb (at_ g 0) C1) | None => false end
        && (r_iter r =? 1)%Z)%bool = true) by (apply run_check; vm_compute; reflexivity).
  destruct R as (r & R & H). destruct (r_gain r) as [g|] eqn:G; [|discriminate H].
  exists r, g. split; [exact R|]. clear R. split; [exact G|].
  apply Bool.andb_true_iff in H as [H I]. apply Bool.andb_true_iff in H as [L N].
  split; [now apply Z.eqb_eq|]. split; [now apply Nat.eqb_eq|]. split.
  - intros E. unfold Ceqb in N. destruct (C_eq_dec _ _); [discriminate N|contradiction].
  - intros t Ht. do 6 (destruct t as [|t]; [vm_compute; lia|]). lia.
Qed.

(** The code counts a solution as converged although neither its mean change nor the change of any
    tile meets the threshold, and only the one before (which it does not return) did. *)
Theorem C30_converged_refuted : exists cabs cfg bls n g0 r,
  modulus_like cabs /\ (0 < s_base cfg)%Qc /\ (0 <= s_thr cfg)%Qc
  /\ (forall t, t < n -> 5 <= n_eq (filter positive bls) t)
  /\ solve cabs cfg (equations bls) n g0 = Ok r /\ r_gain r <> None /\ r_converged r = true
  /\ n <> 0 /\ length (r_conv r) = n
  /\ forall q, In q (r_conv r) -> exists x, q = Some x /\ (s_thr cfg < x)%Qc.
Proof.
  set (bls := demo_bls (fun _ _ => RtoC (-(1))%Qc)). set (cfg := demo_cfg 8 2 (Q2Qc (1#2)) true).
  assert (R : exists r, solve demo_abs cfg (equations bls) 6 (repeat C1 6) = Ok r
    /\ (match r_gain r with Some _ => true | None => false end && r_converged r && (length (r_conv r) =? 6)
        && forallb (fun q => match q with Some x => negb (Qcleb x (Q2Qc (1#2))) | None => false end) (r_conv r))%bool = true)
    by (apply run_check; vm_compute; reflexivity).
  destruct R as (r & R & H).
  exists demo_abs, cfg, bls, 6, (repeat C1 6), r.
  split; [apply demo_abs_modulus|]. split; [reflexivity|]. split; [discriminate|].
  split; [intros t Ht; do 6 (destruct t as [|t]; [vm_compute; lia|]); lia|].
  split; [exact R|]. clear R. 
  apply Bool.andb_true_iff in H as [H F]. apply Bool.andb_true_iff in H as [H L]. apply Bool.andb_true_iff in H as [G Cv].
  split; [intros E; rewrite E in G; discriminate G|]. split; [exact Cv|]. split; [lia|].
  split; [now apply Nat.eqb_eq|]. intros q Hq.
  assert (Fq := proj1 (forallb_forall _ _) F q Hq). cbv beta in Fq. destruct q as [x|]; [|discriminate Fq].
  exists x. split; auto. apply Bool.negb_true_iff in Fq.
  change (s_thr cfg) with (Q2Qc (1#2)). destruct (Qclt_le_dec (Q2Qc (1#2)) x) as [|X]; auto.
  apply Qcleb_true in X. congruence.
Qed.
Print Assumptions C30_converged_refuted.

(** Whenever the reference tile has too few equations, and the first least-squares solution of another
    tile is not 0, there are no gains at all: the solver fails or returns NaN everywhere. *)
Theorem C30_reference_refuted : forall cabs cfg bls good n g0 r t,
  modulus_like cabs -> (0 < s_base cfg)%Qc -> decides good ->
  s_noref cfg = false -> s_ref cfg < n -> n_eq (filter good bls) (s_ref cfg) < 5 ->
  t < n -> 5 <= n_eq (filter good bls) t ->
  (forall g, starts (filter good bls) n g0 g -> ~ least_squares (filter good bls) (at_ g) t C0) ->
  solve cabs cfg (equations bls) n g0 = Ok r -> r_gain r = None.
Proof.
  intros cabs cfg bls good n g0 r t M Hb D Nr Hr N Ht Et LS H.
  rewrite (decides_positive good D) in *. unfold solve in H.
  destruct (s_max cfg <? 0)%Z; [discriminate|]. destruct (Z.to_nat (s_max cfg)) as [|m]; [discriminate|].
  pose proof (initial_starts bls n g0) as St. set (g := initial (equations bls) n g0) in *. clearbody g.
  rewrite loop_S in H. destruct (Qc_eq_dec _ _) as [Z|Nz].
  { exfalso. pose proof (proj1 (sum_cabs_0 cabs _ M) Z) as Z'. rewrite map_length, seq_length in Z'.
    specialize (Z' t Ht). unfold at_ in Z'. rewrite nth_map_seq in Z' by auto.
    apply (LS g St). rewrite <- Z'. now apply solve_tile_spec. }
  destruct (if s_adapt cfg then _ else _) as [cg|] eqn:Ecg; cbn [bind] in H; [|discriminate].
  destruct (gain_step cfg 0 _ _ cg Hb ltac:(intros _ j Hj; lia) Ecg) as [G _].
  unfold tick in H. set (ph := phase_only _ _ _ _ _ _) in H.
  destruct (blend_spec cabs cfg n (fst cg) g ph Hb G (proj1 St)) as [_ B].
  assert (E : at_ (blend cabs cfg n (fst cg) g ph) (s_ref cfg) = C0).
  { rewrite (B _ Hr). cbv zeta. generalize (lam_of cabs (s_base cfg) (fst cg) (at_ g (s_ref cfg)) (at_ ph (s_ref cfg))).
    intros a. rewrite (proj2 (proj2 St _ Hr) N). unfold ph. rewrite phase_only_at by auto.
    unfold at_. rewrite nth_map_seq by auto. rewrite (proj2 (solve_tile_spec bls g (s_ref cfg)) N).
    destruct (_ <? _)%Z; apply C_ext; cbn; ring. }
  assert (Rp : rephase cabs cfg n (blend cabs cfg n (fst cg) g ph) = None).
  { unfold rephase. rewrite Nr. fold (at_ (blend cabs cfg n (fst cg) g ph) (s_ref cfg)). rewrite E.
    destruct (Qc_eq_dec _ _) as [|X]; auto. exfalso. apply X. now apply (ml_zero _ M). }
  rewrite Rp in H. cbv zeta in H. cbn [xof] in H. unfold decide in H.
  assert (K : match m with
     | O => Ok (finish cabs n 0 (Some g) None (upd (repeat (Fin 0%Qc) (S m)) 0 NaN) false false false)
     | S _ => loop cabs cfg (equations bls) n m 1 None NaN (upd (repeat (Fin 0%Qc) (S m)) 0 NaN) (snd cg) end = Ok r)
    by (destruct (negb _); exact H).
  destruct m as [|m]; [injection K as <-; reflexivity|]. exfalso. eapply None_loop; eauto.
Qed.
Print Assumptions C30_reference_refuted.

(** Six tiles with good data and a seventh, the reference, without baselines: one iteration gives NaN
    everywhere, two fail. *)
Definition lone_cfg (max : Z) : scfg :=
  {| s_max := max; s_phase := 0; s_base := 1%Qc; s_thr := 0%Qc; s_adapt := false; s_ref := 6; s_noref := false |}.
Example C30_reference_demo :
  (exists r, solve demo_abs (lone_cfg 1) (equations (demo_bls (fun _ _ => C1))) 7 (repeat C1 7) = Ok r /\ r_gain r = None)
  /\ solve demo_abs (lone_cfg 2) (equations (demo_bls (fun _ _ => C1))) 7 (repeat C1 7) = Err ValueError
  /\ n_eq (filter positive (demo_bls (fun _ _ => C1))) 6 < 5.
Proof.
  split; [|split; [vm_compute; reflexivity|vm_compute; lia]].
  assert (R : exists r, solve demo_abs (lone_cfg 1) (equations (demo_bls (fun _ _ => C1))) 7 (repeat C1 7) = Ok r
    /\ match r_gain r with None => true | Some _ => false end = true) by (apply run_check; vm_compute; reflexivity).
  destruct R as (r & R & H). exists r. split; [exact R|]. destruct (r_gain r); [discriminate H|reflexivity].
Qed.

(** C59: the true gains are a fixed point. *)
Theorem C59_fixed_point : forall cabs cfg bls good n g,
  modulus_like cabs -> (0 < s_base cfg)%Qc -> (0 <= s_thr cfg)%Qc -> (1 <= s_max cfg)%Z -> decides good ->
  length g = n -> 0 < n -> (forall t, t < n -> at_ g t <> C0) ->
  (s_noref cfg = false -> s_ref cfg < n /\ im (at_ g (s_ref cfg)) = 0%Qc
     /\ cabs (at_ g (s_ref cfg)) = re (at_ g (s_ref cfg))) ->
  (forall b, In b bls -> usable b -> b_data b = (at_ g (b_a b) * Cconj (at_ g (b_b b)) * b_model b)%C) ->
  (forall t, t < n -> 5 <= n_eq (filter good bls) t
     /\ exists b, In b bls /\ usable b /\ b_model b <> C0 /\ b_a b < n /\ b_b b < n /\ (b_a b = t \/ b_b b = t)) ->
  exists r, solve cabs cfg (equations bls) n g = Ok r
    /\ r_gain r = Some g
    /\ r_conv r = repeat (Some 0%Qc) n
    /\ (r_converged r = true \/ r_iter r = (s_max cfg - 1)%Z).
Proof.
  intros cabs cfg bls good n g M Hb Ht Hm D L Hn Nz Ref Dat Tile. unfold solve.
  rewrite (decides_positive good D) in Tile.
  replace (s_max cfg <? 0)%Z with false by lia.
  destruct (Z.to_nat (s_max cfg)) as [|m] eqn:E; [lia|].
  assert (I : initial (equations bls) n g = g).
  { destruct (initial_starts bls n g) as [Li S']. apply (list_ext C0); [congruence|]. rewrite Li. intros k Hk.
    destruct (Tile k Hk) as [N _]. now apply S'. }
  rewrite I.
  destruct (fixed_loop cabs cfg bls n g M Hb Ht L Hn Nz) with (fuel := m) (i := 0) (lp := Fin 0%Qc)
    (convs := repeat (Fin 0%Qc) (S m)) (gains := repeat (Fin 0%Qc) (S m)) as (r & R & G & Cv & It).
  - intros t Htn. destruct (Tile t Htn) as (N & b & Hb' & U & Mo & Ha & Hbb & X). apply solve_tile_exact; auto.
    exists b. split; [exact Hb'|]. split; [exact U|]. split; [exact Mo|].
    destruct X as [X|X]; [left|right]; auto.
  - exact Ref.
  - now rewrite repeat_length.
  - now rewrite repeat_length.
  - intros _ j Hj. lia.
  - exists r. split; [exact R|]. split; [exact G|]. split; [exact Cv|]. destruct It as [|It]; [now left|right]. lia.
Qed.
Print Assumptions C59_fixed_point.

(** The hypotheses are met: the gains (3, i, 1, 2, -1, 1+i) of six tiles, reference tile 0. *)
Definition demo_true : list C :=
  [RtoC (Q2Qc 3); Ci; C1; RtoC (Q2Qc 2); RtoC (-(1))%Qc; mkC 1 1].
Definition demo_exact : list baseline := demo_bls (fun a b => (at_ demo_true a * Cconj (at_ demo_true b))%C).

Example C59_demo :
  (forall t, t < 6 -> at_ demo_true t <> C0)
  /\ im (at_ demo_true 0) = 0%Qc /\ demo_abs (at_ demo_true 0) = re (at_ demo_true 0)
  /\ (forall b, In b demo_exact -> b_data b = (at_ demo_true (b_a b) * Cconj (at_ demo_true (b_b b)) * b_model b)%C)
  /\ (forall t, t < 6 -> 5 <= n_eq (filter positive demo_exact) t
     /\ exists b, In b demo_exact /\ usable b /\ b_model b <> C0 /\ b_a b < 6 /\ b_b b < 6 /\ (b_a b = t \/ b_b b = t)).
Proof.
  split; [intros t Ht; do 6 (destruct t as [|t]; [vm_compute; discriminate|]); lia|].
  split; [reflexivity|]. split; [reflexivity|]. split.
  - intros b Hb. unfold demo_exact, demo_bls in Hb. apply in_flat_map in Hb as (a & _ & Hb).
    apply in_map_iff in Hb as (c & <- & _). cbn [b_data b_a b_b b_model]. ring.
  - intros t Ht. split; [do 6 (destruct t as [|t]; [vm_compute; lia|]); lia|].
    destruct t as [|t].
    + exists {| b_a := 0; b_b := 1; b_data := (at_ demo_true 0 * Cconj (at_ demo_true 1))%C; b_model := C1; b_weight := 1%Qc |}.
      split; [left; reflexivity|]. split; [reflexivity|]. split; [apply C1_neq_C0|]. cbn. lia.
    + exists {| b_a := 0; b_b := S t; b_data := (at_ demo_true 0 * Cconj (at_ demo_true (S t)))%C; b_model := C1; b_weight := 1%Qc |}.
      split; [|split; [reflexivity|split; [apply C1_neq_C0|cbn; lia]]].
      unfold demo_exact, demo_bls. apply in_flat_map. exists 0. split; [apply in_seq; lia|].
      apply in_map_iff. exists (S t). split; auto. apply in_seq. lia.
Qed.
