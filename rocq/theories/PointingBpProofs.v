(** Proofs about pointings and the interpolation to finer channels. *)
From Coq Require Import Qabs Lqa.
From Verif Require Import Base PyIndex Obs PointingBp PointingBpSpec.
Import ListNotations.
Open Scope nat_scope.
Open Scope list_scope.

Lemma Qlt_bool_spec a b : Qlt_bool a b = true <-> (a < b)%Q.
Proof.
  unfold Qlt_bool. rewrite negb_true_iff. destruct (Qle_bool b a) eqn:E.
  - apply Qle_bool_iff in E. split; [discriminate|lra].
  - split; [|reflexivity]. intros _. apply Qnot_le_lt. intros H. apply Qle_bool_iff in H. congruence.
Qed.
Lemma Qlt_bool_false a b : Qlt_bool a b = false <-> (b <= a)%Q.
Proof.
  destruct (Qlt_bool a b) eqn:E.
  - apply Qlt_bool_spec in E. split; [discriminate|lra].
  - split; [|reflexivity]. intros _. destruct (Qlt_le_dec a b) as [H|H]; [|exact H]. apply Qlt_bool_spec in H. congruence.
Qed.

Lemma argmin_from_spec l : forall pre best m, best < length pre -> nth best pre 0%Q = m ->
  (forall i, i < length pre -> (m <= nth i pre 0)%Q) ->
  let r := argmin_from l (length pre) best m in
  r < length (pre ++ l) /\ forall i, i < length (pre ++ l) -> (nth r (pre ++ l) 0 <= nth i (pre ++ l) 0)%Q.
Proof.
  induction l as [|x l IH]; intros pre best m Hb Hm Hle; cbn [argmin_from].
  - rewrite app_nil_r. rewrite Hm. auto.
  - replace (pre ++ x :: l) with ((pre ++ [x]) ++ l) by now rewrite <- app_assoc.
    replace (S (length pre)) with (length (pre ++ [x])) by (rewrite app_length; cbn; lia).
    assert (Hx : nth (length pre) (pre ++ [x]) 0%Q = x) by (rewrite app_nth2, Nat.sub_diag by lia; reflexivity).
    assert (Hp : forall i, i < length pre -> nth i (pre ++ [x]) 0%Q = nth i pre 0%Q) by (intros i Hi; now apply app_nth1).
    destruct (Qlt_bool x m) eqn:E.
    + apply Qlt_bool_spec in E. apply IH.
      * rewrite app_length; cbn; lia.
      * exact Hx.
      * intros i Hi. rewrite app_length in Hi. cbn in Hi. destruct (Nat.eq_dec i (length pre)) as [->|Hn]; [rewrite Hx; lra|].
        rewrite Hp by lia. specialize (Hle i ltac:(lia)). lra.
    + apply Qlt_bool_false in E. apply IH.
      * rewrite app_length; cbn; lia.
      * rewrite Hp by exact Hb. exact Hm.
      * intros i Hi. rewrite app_length in Hi. cbn in Hi. destruct (Nat.eq_dec i (length pre)) as [->|Hn]; [rewrite Hx; lra|].
        rewrite Hp by lia. apply Hle. lia.
Qed.
Lemma argmin_spec l : l <> [] -> argmin l < length l /\ forall i, i < length l -> (nth (argmin l) l 0 <= nth i l 0)%Q.
Proof.
  destruct l as [|x l]; [congruence|]. intros _. unfold argmin.
  apply (argmin_from_spec l [x] 0 x); [cbn; lia|reflexivity|]. intros [|i] Hi; [cbn; lra|cbn in Hi; lia].
Qed.

(** The nearest start, or the one before it if that is later than the time, is the start of the slot. *)
Lemma nearest_slot ref k t : increasing ref -> in_slot ref k t ->
  let i := argmin (map (fun x => Qabs (x - t)) ref) in
  (if Qlt_bool t (nth i ref 0%Q) then (Z.of_nat i - 1)%Z else Z.of_nat i) = Z.of_nat k.
Proof.
  intros Hi (Hk & H1 & H2). cbn zeta.
  assert (Hn : map (fun x => Qabs (x - t)) ref <> []) by (destruct ref; [cbn in Hk; lia|discriminate]).
  destruct (argmin_spec _ Hn) as [Hr Hmin]. set (i := argmin _) in *. rewrite map_length in Hr, Hmin.
  assert (A : forall j, j < length ref -> nth j (map (fun x => Qabs (x - t)) ref) 0%Q = Qabs (nth j ref 0 - t)%Q).
  { intros j Hj. rewrite (nth_indep _ 0%Q (Qabs (0 - t))) by (now rewrite map_length).
    exact (map_nth (fun x => Qabs (x - t)) ref 0%Q j). }
  clearbody i. destruct (Nat.lt_trichotomy i k) as [L|[->|L]].
  - exfalso. specialize (Hmin k Hk). rewrite !A in Hmin by lia. assert (Hlt := Hi i k L Hk).
    rewrite !Qabs_neg in Hmin by lra. lra.
  - destruct (Qlt_bool t (nth k ref 0%Q)) eqn:E; [|reflexivity]. apply Qlt_bool_spec in E. lra.
  - assert (Hs : (t < nth (S k) ref 0)%Q) by (apply H2; lia).
    destruct (Nat.eq_dec i (S k)) as [->|Hne].
    + destruct (Qlt_bool t (nth (S k) ref 0%Q)) eqn:E; [lia|]. apply Qlt_bool_false in E. lra.
    + exfalso. assert (Hlt := Hi (S k) i ltac:(lia) Hr). specialize (Hmin (S k) ltac:(lia)). rewrite !A in Hmin by lia.
      rewrite !Qabs_pos in Hmin by lra. lra.
Qed.

(** Before the first start the index is -1. *)
Lemma nearest_before ref t : increasing ref -> 0 < length ref -> (t < nth 0 ref 0)%Q ->
  let i := argmin (map (fun x => Qabs (x - t)) ref) in
  (if Qlt_bool t (nth i ref 0%Q) then (Z.of_nat i - 1)%Z else Z.of_nat i) = (-1)%Z.
Proof.
  intros Hi Hl Ht. cbn zeta.
  assert (Hn : map (fun x => Qabs (x - t)) ref <> []) by (destruct ref; [cbn in Hl; lia|discriminate]).
  destruct (argmin_spec _ Hn) as [Hr Hmin]. set (i := argmin _) in *. rewrite map_length in Hr, Hmin.
  assert (A : forall j, j < length ref -> nth j (map (fun x => Qabs (x - t)) ref) 0%Q = Qabs (nth j ref 0 - t)%Q).
  { intros j Hj. rewrite (nth_indep _ 0%Q (Qabs (0 - t))) by (now rewrite map_length).
    exact (map_nth (fun x => Qabs (x - t)) ref 0%Q j). }
  clearbody i. destruct (Nat.eq_dec i 0) as [->|Hne].
  - apply Qlt_bool_spec in Ht. now rewrite Ht.
  - exfalso. assert (Hlt := Hi 0 i ltac:(lia) Hr). specialize (Hmin 0 Hl). rewrite !A in Hmin by lia.
    rewrite !Qabs_pos in Hmin by lra. lra.
Qed.

(** The starts of the pointings, shifted *)
Definition starts (s : Q) : list Q := map (fun x => x + s)%Q reference_starts.
Lemma starts_nth s i : i < 10 -> nth i (starts s) 0%Q = (nth i reference_starts 0 + s)%Q.
Proof.
  intros H. unfold starts. rewrite (nth_indep _ 0%Q (0 + s)%Q) by (rewrite map_length; exact H).
  exact (map_nth (fun x => x + s)%Q reference_starts 0%Q i).
Qed.
Lemma starts_length s : length (starts s) = 10.
Proof. reflexivity. Qed.
Lemma starts_increasing s : increasing (starts s).
Proof.
  assert (B : forallb (fun i => forallb (fun j => negb (i <? j) || Qlt_bool (nth i reference_starts 0%Q) (nth j reference_starts 0%Q)) (seq 0 10)) (seq 0 10) = true)
    by (vm_compute; reflexivity).
  intros i j Hij Hj. rewrite starts_length in Hj. rewrite !starts_nth by lia. rewrite forallb_forall in B.
  specialize (B i). rewrite forallb_forall in B. specialize (B ltac:(apply in_seq; lia) j ltac:(apply in_seq; lia)).
  destruct (Nat.ltb_spec i j); [|lia]. cbn [negb orb] in B. apply Qlt_bool_spec in B. lra.
Qed.
Lemma qmax_starts s : (qmax (starts s) == nth 9 (starts s) 0)%Q.
Proof.

  unfold qmax, starts, reference_starts. cbn [map fold_left].
  repeat match goal with |- context [Qlt_bool ?a ?b] =>
    replace (Qlt_bool a b) with true by (symmetry; apply Qlt_bool_spec; lra) end.
  cbn [nth]. lra.
Qed.
Lemma qmin_starts s : (qmin (starts s) == nth 0 (starts s) 0)%Q.
Proof.
  unfold qmin, starts, reference_starts. cbn [map fold_left].
  repeat match goal with |- context [Qlt_bool ?a ?b] =>
    replace (Qlt_bool a b) with false by (symmetry; apply Qlt_bool_false; lra) end.
  cbn [nth]. lra.
Qed.

(** The delays determine the pointing. *)
Lemma zlist_eqb_spec a b : zlist_eqb a b = true <-> a = b.
Proof.
  revert b. induction a as [|x a IH]; intros [|y b]; cbn; try (split; congruence).
  rewrite andb_true_iff, Z.eqb_eq, IH. split; [intros [-> ->]; reflexivity|intros H; injection H; auto].
Qed.
Lemma patterns_eq : map snd delay_patterns = map delays_at [-5; -4; -3; -2; -1; 0; 5; 4; 3; 2; 1]%Z.
Proof. vm_compute. reflexivity. Qed.
Lemma obs_pointing_at p : (-5 <= p <= 5)%Z -> obs_pointing (delays_at p) = Some p.
Proof.
  intros H. assert (D : (p = -5 \/ p = -4 \/ p = -3 \/ p = -2 \/ p = -1 \/ p = 0 \/ p = 1 \/ p = 2 \/ p = 3 \/ p = 4 \/ p = 5)%Z) by lia.
  repeat (destruct D as [-> | D]; [vm_compute; reflexivity|]). subst p. vm_compute. reflexivity.
Qed.
Lemma obs_pointing_inv delays p : obs_pointing delays = Some p -> (-5 <= p <= 5)%Z /\ delays = delays_at p.
Proof.
  intros H. unfold obs_pointing in H.
  assert (G : forall l r, (forall q, r = Some q -> (-5 <= q <= 5)%Z /\ delays = delays_at q) ->
    (forall k pat, In (k, pat) l -> (-5 <= k <= 5)%Z /\ pat = delays_at k) ->
    forall q, fold_left (fun r kp => if zlist_eqb delays (snd kp) then Some (fst kp) else r) l r = Some q -> (-5 <= q <= 5)%Z /\ delays = delays_at q).
  { induction l as [|[k pat] l IH]; intros r Hr Hl q Hq; [now apply Hr|]. cbn [fold_left fst snd] in Hq. revert Hq. apply IH.
    - intros q' Hq'. destruct (zlist_eqb delays pat) eqn:E; [|now apply Hr]. apply zlist_eqb_spec in E.
      injection Hq' as <-. destruct (Hl k pat (or_introl eq_refl)) as [H1 H2]. now rewrite E.
    - intros k' pat' Hin. apply Hl. now right. }
  apply (G delay_patterns None); [discriminate| |exact H].
  intros k pat Hin. cbn in Hin. repeat (destruct Hin as [E|Hin]; [injection E as <- <-; split; [lia|vm_compute; reflexivity]|]). destruct Hin.
Qed.
