(** C29: property theorems about calculate_adaptive_gain. *)
From Coq Require Import ZifyBool ZifyNat.
From Verif Require Import Base Cplx WeightInvert WeightInvertProofs AdaptGain AdaptGainSpec AdaptGainProofs.
Open Scope nat_scope.

(** For every sequence of convergence lists, finite or not, and every estimate of the final
    convergence: the gain recorded by each call is NaN or lies between base/2 and max(1, base), the
    first three are the base gain, and later slots are untouched. *)
Theorem C29_range_partial : forall base est conv gl0 n gl,
  (0 < base)%Qc -> history base est conv gl0 n gl ->
  length gl = length gl0
  /\ (forall j, j < n -> nth j gl NaN = NaN
        \/ exists q, nth j gl NaN = Fin q /\ gain_in_range base q)
  /\ (forall j, j < n -> j <= 2 -> nth j gl NaN = Fin base)
  /\ (forall j, n <= j -> nth j gl NaN = nth j gl0 NaN).
Proof.
  intros base est conv gl0 n gl Hb H. destruct (history_ok _ _ _ _ _ _ Hb H) as (L & I1 & I2 & I3).
  split; auto. split; [intros j Hj; now apply I1|]. auto.
Qed.
Print Assumptions C29_range_partial.

(** A call never fails while the lists have room. *)
Theorem C29_total : forall base est gl conv n, n < length gl -> length conv = length gl ->
  exists g, calculate_adaptive_gain gl conv n (Fin base) est = Ok (g, upd gl n g).
Proof. intros. now apply step_total. Qed.
Print Assumptions C29_total.

(** With the estimate 0 that the solver passes, a finite history whose last but one convergence is
    not 0 gives a number in the range. *)
Theorem C29_finite : forall base gl conv n q c0 c1,
  (0 < base)%Qc -> 2 < n -> n < length gl -> n - 1 < length conv ->
  nth (n - 1) gl NaN = Fin q -> gain_in_range base q ->
  nth (n - 2) conv NaN = Fin c0 -> nth (n - 1) conv NaN = Fin c1 -> c0 <> 0%Qc ->
  exists g, calculate_adaptive_gain gl conv n (Fin base) (Some (Fin 0)) = Ok (Fin g, upd gl n (Fin g))
    /\ gain_in_range base g.
Proof. intros. eapply step_finite; eauto. Qed.
Print Assumptions C29_finite.

(** The value, for a finite history with the estimate [e] of the final convergence: the mean of the last gain and of 1 less
    the misfit of the last convergence, relative to the distance from the final one; at least half of base_gain. *)
Theorem C29_value : forall base e gl conv n q c0 c1,
  2 < n -> n < length gl -> n - 1 < length conv ->
  nth (n - 1) gl NaN = Fin q -> nth (n - 2) conv NaN = Fin c0 -> nth (n - 1) conv NaN = Fin c1 ->
  (base + q)%Qc <> 0%Qc -> c0 <> e ->
  exists misfit g, ((base + q) * c1 = e * q + c0 + misfit * (c0 - e) \/ (base + q) * c1 = e * q + c0 - misfit * (c0 - e))%Qc
    /\ (0 <= misfit)%Qc
    /\ calculate_adaptive_gain gl conv n (Fin base) (Some (Fin e)) = Ok (Fin g, upd gl n (Fin g))
    /\ (base / Q2Qc 2 <= g /\ (1 - misfit + q) / Q2Qc 2 <= g)%Qc
    /\ (g = base / Q2Qc 2 \/ g = (1 - misfit + q) / Q2Qc 2)%Qc.
Proof.
  intros base e gl conv n q c0 c1 H2 Hn Hc Eq E0 E1 B Nz.
  assert (PL : forall (l : list xf) i a, i < length l -> nth i l NaN = a -> CalApply.py_list l i = Ok a).
  { intros l i a Hi <-. unfold CalApply.py_list. now rewrite (nth_error_nth' l NaN Hi). }
  assert (D : (c0 - e)%Qc <> 0%Qc) by (intros Z; apply Nz; rewrite <- (Qcplus_0_l e), <- Z; ring).
  unfold calculate_adaptive_gain. replace (2 <? n) with true by lia. cbn [bind].
  rewrite (PL gl (n - 1) _ ltac:(lia) Eq), (PL conv (n - 2) _ ltac:(lia) E0), (PL conv (n - 1) _ ltac:(lia) E1). cbn [bind].
  replace (length gl <=? n) with false by lia. match goal with |- context [Ok (?G, upd gl n ?G)] => set (gain := G) end.
  cut (exists misfit g, ((base + q) * c1 = e * q + c0 + misfit * (c0 - e) \/ (base + q) * c1 = e * q + c0 - misfit * (c0 - e))%Qc
    /\ (0 <= misfit)%Qc /\ gain = Fin g
    /\ (base / Q2Qc 2 <= g /\ (1 - misfit + q) / Q2Qc 2 <= g)%Qc
    /\ (g = base / Q2Qc 2 \/ g = (1 - misfit + q) / Q2Qc 2)%Qc).
  { intros (m & g & A1 & A2 & -> & A3). exists m, g. auto. }
  set (d := (((e * q + c0) / (base + q) - c1) / ((c0 - e) / (base + q)))%Qc).
  assert (Dl : xdiv (xsub (xdiv (xadd (xmul (Fin e) (Fin q)) (Fin c0)) (xadd (Fin base) (Fin q))) (Fin c1)) (xdiv (xsub (Fin c0) (Fin e)) (xadd (Fin base) (Fin q))) = Fin d).
  { cbn [xadd xmul xsub xopp]. unfold xdiv at 2 3. destruct (Qc_eq_dec (base + q)%Qc 0); [contradiction|]. cbn [xadd xopp xsub].
    unfold xdiv at 1. destruct (Qc_eq_dec ((c0 + - e) / (base + q))%Qc 0) as [Z|Z]; [|reflexivity].
    exfalso. apply D. transitivity ((c0 + - e) / (base + q) * (base + q))%Qc; [field; auto|]. rewrite Z. ring. }
  assert (Ed : (d * (c0 - e) = e * q + c0 - (base + q) * c1)%Qc).
  { unfold d. field. split; [exact B|]. exact D. }
  unfold gain. clear gain. rewrite Dl. clearbody d. cbn [xabs xsub xopp xadd]. rewrite !xhalf_fin, xmax_fin. set (a := if Qclt_le_dec d 0 then (- d)%Qc else d).
  eexists a, _. split; [|split; [|split; [reflexivity|]]].
  - unfold a. destruct (Qclt_le_dec d 0).
    + left. replace (- d * (c0 - e))%Qc with (- (d * (c0 - e)))%Qc by ring. rewrite Ed. ring.
    + right. rewrite Ed. ring.
  - unfold a. destruct (Qclt_le_dec d 0); auto. now apply WeightInvertProofs.Qc_neg_pos.
  - clearbody a. change (1 + - a)%Qc with (1 - a)%Qc. destruct (Qcleb ((1 - a + q) / Q2Qc 2)%Qc (base / Q2Qc 2)%Qc) eqn:E.
    + apply Qcleb_true in E. split; [|left; reflexivity]. split; [apply Qcle_refl|exact E].
    + split; [|right; reflexivity]. split; [|apply Qcle_refl]. destruct (Qclt_le_dec (base / Q2Qc 2)%Qc ((1 - a + q) / Q2Qc 2)%Qc) as [L|L]; [now apply Qclt_le_weak|].
      apply Qcleb_true in L. congruence.
Qed.
Print Assumptions C29_value.

(** Without an estimate, a history of convergences that approach [e] as predicted is used with the estimate [e]. *)
Theorem C29_estimate : forall base gl conv (g c : nat -> Qc) e n, 2 < n -> n - 1 <= length gl -> n <= length conv -> (0 <= e)%Qc ->
  (forall i, i < n - 1 -> nth i gl NaN = Fin (g i) /\ g i <> 0%Qc) -> (forall i, i < n -> nth i conv NaN = Fin (c i)) ->
  (forall i, i < n - 1 -> ((1 + g i) * c (S i) = e * g i + c i)%Qc) ->
  calculate_adaptive_gain gl conv n base None = calculate_adaptive_gain gl conv n base (Some (Fin e)).
Proof. intros. now apply (step_limit gl conv base g c e n). Qed.
Print Assumptions C29_estimate.
Example C29_estimate_case : let gl := map Fin [1; 1; 1; 0]%Qc in let conv := map Fin [Q2Qc 9; Q2Qc 5; Q2Qc 3; 0%Qc] in
  (forall i, i < 2 -> nth i gl NaN = Fin 1%Qc)
  /\ (forall i, i < 2 -> ((1 + 1) * nth (S i) [Q2Qc 9; Q2Qc 5; Q2Qc 3] 0 = 1 * 1 + nth i [Q2Qc 9; Q2Qc 5; Q2Qc 3] 0)%Qc)
  /\ calculate_adaptive_gain gl conv 3 (Fin 1%Qc) None = Ok (Fin (Q2Qc (2#2)), map Fin [1%Qc; 1%Qc; 1%Qc; Q2Qc (2#2)]).
Proof.
  cbv zeta. split; [intros [|[|i]] Hi; [reflexivity..|lia]|]. split; [|vm_compute; reflexivity].
  intros [|[|i]] Hi; [apply Qc_is_canon; reflexivity..|lia].
Qed.

(** The value: half of the last gain plus 1 minus the relative misfit of the prediction
    last_conv / (base + last_gain), but at least base/2. *)
Example C29_example :
  (0 < 1)%Qc /\ gain_in_range 1 1
  /\ calculate_adaptive_gain (map Fin [1; 1; 1; 0]%Qc) (map Fin [Q2Qc (8#10); Q2Qc (4#10); Q2Qc (3#10); 0%Qc]) 3 (Fin 1%Qc)
       (Some (Fin 0%Qc)) = Ok (Fin (Q2Qc (3#4)), map Fin [1%Qc; 1%Qc; 1%Qc; Q2Qc (3#4)])
  /\ exists gl, history 1 None (fun _ => map Fin [Q2Qc (8#10); Q2Qc (4#10); Q2Qc (3#10); 0%Qc])
       (map Fin [0; 0; 0; 0]%Qc) 4 gl.
Proof.
  split; [reflexivity|]. split; [split; [discriminate|left; discriminate]|].
  split; [vm_compute; reflexivity|].
  eexists. eapply history_S; [eapply history_S; [eapply history_S; [eapply history_S; [apply history_0|]|]|]|];
    vm_compute; reflexivity.
Qed.

(** Two zero convergences, as an exact starting solution gives, make the gain NaN, which every later
    call then propagates. *)
Theorem C29_nan_refuted : forall n k conv gl g gl', 3 <= n ->
  (forall i, i < n -> conv i = Fin 0%Qc) ->
  nth (n - 1) gl NaN = Fin 1%Qc ->
  calculate_adaptive_gain gl (map conv (seq 0 (n + k))) n (Fin 1%Qc) (Some (Fin 0%Qc)) = Ok (g, gl') ->
  g = NaN.
Proof.
  intros n k conv gl g gl' Hn Hc Hg. unfold calculate_adaptive_gain.
  replace (2 <? n) with true by (symmetry; apply Nat.ltb_lt; lia). cbn [bind].
  destruct (CalApply.py_list gl (n - 1)) as [lg|] eqn:E; cbn [bind]; [|discriminate].
  destruct (py_list_spec _ _ _ E NaN) as [_ E']. rewrite Hg in E'. subst lg.
  assert (P : forall i, i < n -> CalApply.py_list (map conv (seq 0 (n + k))) i = Ok (Fin 0%Qc)).
  { intros i Hi. unfold CalApply.py_list. rewrite nth_error_map.
    rewrite (nth_error_nth' (seq 0 (n + k)) 0) by (rewrite seq_length; lia).
    rewrite seq_nth by lia. cbn [option_map Nat.add]. now rewrite Hc. }
  rewrite !P by lia. cbn [bind]. destruct (length gl <=? n); [discriminate|]. now intros [= <- _].
Qed.
Print Assumptions C29_nan_refuted.
Example C29_nan_example :
  calculate_adaptive_gain (map Fin [1; 1; 1; 0]%Qc) (map (fun _ => Fin 0%Qc) (seq 0 (3 + 1))) 3 (Fin 1%Qc) (Some (Fin 0%Qc))
  = Ok (NaN, [Fin 1%Qc; Fin 1%Qc; Fin 1%Qc; NaN]).
Proof. vm_compute. reflexivity. Qed.
