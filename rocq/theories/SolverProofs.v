From Coq Require Import ZifyBool ZifyNat Lqa.
From Verif Require Import Base SortLib PyIndex Cplx WeightInvert WeightInvertProofs CalApply AdaptGain AdaptGainSpec
  AdaptGainProofs Solver SolverSpec.
Open Scope nat_scope.
Ltac Zify.zify_post_hook ::= idtac.

(** ** Least squares with one unknown *)
Lemma Csum_re l : re (Csum l) = Qcsum (map re l).
Proof. induction l as [|a l IH]; [reflexivity|]. cbn [Csum fold_right map Qcsum Cadd re].
  fold (Csum l) (Qcsum (map re l)). now rewrite IH. Qed.
Lemma Csum_im l : im (Csum l) = Qcsum (map im l).
Proof. induction l as [|a l IH]; [reflexivity|]. cbn [Csum fold_right map Qcsum Cadd im].
  fold (Csum l) (Qcsum (map im l)). now rewrite IH. Qed.
Lemma Csum_cons a l : Csum (a :: l) = (a + Csum l)%C. Proof. reflexivity. Qed.
Lemma Qcsum_cons a l : Qcsum (a :: l) = (a + Qcsum l)%Qc. Proof. reflexivity. Qed.
Lemma Cnorm2_nonneg c : (0 <= Cnorm2 c)%Qc.
Proof.
  unfold Cnorm2. replace 0%Qc with (0 + 0)%Qc by ring. apply Qcplus_le_compat; apply Qc_sq_nonneg.
Qed.
Lemma Qcsum_nonneg l : (forall x, In x l -> (0 <= x)%Qc) -> (0 <= Qcsum l)%Qc.
Proof.
  induction l as [|a l IH]; intros H; [apply Qcle_refl|]. rewrite Qcsum_cons.
  replace 0%Qc with (0 + 0)%Qc by ring. apply Qcplus_le_compat; [apply H; now left|].
  apply IH. intros; apply H; now right.
Qed.
Lemma Qcsum_zero l : (forall x, In x l -> (0 <= x)%Qc) -> Qcsum l = 0%Qc -> forall x, In x l -> x = 0%Qc.
Proof.
  induction l as [|a l IH]; intros H E x Hx; [destruct Hx|]. rewrite Qcsum_cons in E.
  assert (Ha : (0 <= a)%Qc) by (apply H; now left).
  assert (Hl : (0 <= Qcsum l)%Qc) by (apply Qcsum_nonneg; intros; apply H; now right).
  pose proof (Qc_sum_nonneg_0 _ _ Ha Hl E) as ->.
  destruct Hx as [<-|Hx]; auto. apply IH; auto; [intros; apply H; now right|].
  rewrite <- E. ring.
Qed.

Definition sqdist (l : list (C * C)) (g : C) : Qc :=
  Qcsum (map (fun p => Cnorm2 (snd p - fst p * g)%C) l).

Lemma sqdist_expand l g h :
  sqdist l h = (sqdist l g + Qcsum (map (fun p => Cnorm2 (fst p)) l) * Cnorm2 (g - h)%C
    + Q2Qc 2 * re (Cconj (Csum (map (fun p => Cconj (fst p) * (snd p - fst p * g)) l)) * (g - h))%C)%Qc.
Proof.
  unfold sqdist. induction l as [|[x y] l IH].
  - cbn. unfold Cnorm2. cbn. ring.
  - cbn [map]. rewrite !Qcsum_cons, Csum_cons, IH. cbn [fst snd].
    generalize (Csum (map (fun p => (Cconj (fst p) * (snd p - fst p * g))%C) l)). intros s.
    generalize (Qcsum (map (fun p => Cnorm2 (snd p - fst p * g)%C) l)). intros a.
    generalize (Qcsum (map (fun p => Cnorm2 (fst p)) l)). intros b.
    unfold Cnorm2. destruct x as [xr xi], y as [yr yi], g as [gr gi], h as [hr hi], s as [sr si]. cbn [re im Cconj Cmul Csub Cadd].
    replace (Q2Qc 2) with (1 + 1)%Qc by reflexivity. ring.
Qed.

Lemma lsq_normal l : Csum (map (fun p => (Cconj (fst p) * (snd p - fst p * lsq l))%C) l) = C0.
Proof.
  assert (E : forall g, Csum (map (fun p => (Cconj (fst p) * (snd p - fst p * g))%C) l)
     = (Csum (map (fun p => Cconj (fst p) * snd p) l) - Csum (map (fun p => Cconj (fst p) * fst p) l) * g)%C).
  { intros g. induction l as [|[x y] l IH]; [cbn; apply C_ext; cbn; ring|].
    cbn [map]. rewrite !Csum_cons, IH. cbn [fst snd]. ring. }
  rewrite E. unfold lsq. set (P := Csum (map (fun p => (Cconj (fst p) * snd p)%C) l)).
  set (S0 := Csum (map (fun p => (Cconj (fst p) * fst p)%C) l)).
  destruct (C_eq_dec S0 C0) as [Z|Z].
  - assert (P = C0).
    { assert (N : forall p, In p l -> fst p = C0).
      { intros p Hp. apply Cnorm2_0.
        apply (Qcsum_zero (map (fun p => Cnorm2 (fst p)) l)).
        - intros x Hx. apply in_map_iff in Hx as (q & <- & _). apply Cnorm2_nonneg.
        - apply (f_equal re) in Z. unfold S0 in Z. rewrite Csum_re, map_map in Z. cbn [re C0] in Z.
          rewrite <- Z. f_equal. apply map_ext. intros [x y]. unfold Cnorm2. cbn [fst]. destruct x. cbn. ring.
        - apply in_map_iff. eauto. }
      unfold P. clear -N. induction l as [|p l IH]; auto. cbn [map]. rewrite Csum_cons, IH.
      - rewrite (N p (or_introl eq_refl)). rewrite Cconj_0. ring.
      - intros q Hq. apply N. now right. }
    rewrite H, Z. ring.
  - transitivity (P - P * (Cinv S0 * S0))%C; [ring|]. rewrite Cinv_l by auto. ring.
Qed.

Lemma lsq_min l h : (sqdist l (lsq l) <= sqdist l h)%Qc.
Proof.
  rewrite (sqdist_expand l (lsq l) h), lsq_normal.
  replace (re (Cconj C0 * (lsq l - h))%C) with 0%Qc by (cbn; ring).
  set (a := sqdist l (lsq l)). set (b := (Qcsum _ * _)%Qc).
  assert (B : (0 <= b)%Qc).
  { apply Qcmul_nonneg; [apply Qcsum_nonneg|apply Cnorm2_nonneg].
    intros x Hx. apply in_map_iff in Hx as (q & <- & _). apply Cnorm2_nonneg. }
  clearbody a b. apply Qc_sub_nonneg. replace (a + b + Q2Qc 2 * 0 - a)%Qc with b by ring. exact B.
Qed.

(** ** Baselines and equations *)
Lemma positive_usable b : positive b = true <-> usable b.
Proof.
  unfold positive, usable. rewrite negb_true_iff. split; intros H.
  - destruct (Qclt_le_dec 0 (b_weight b)) as [|L]; auto. apply Qcleb_true in L. congruence.
  - destruct (Qcleb _ _) eqn:E; auto. apply Qcleb_true in E. exfalso. eapply Qclt_not_le; eauto.
Qed.

Lemma filter_map_comm {A B} (f : A -> B) (p : B -> bool) l :
  filter p (map f l) = map f (filter (fun a => p (f a)) l).
Proof. induction l as [|a l IH]; cbn [map filter]; auto. destruct (p (f a)); cbn [map]; now rewrite IH. Qed.

Lemma eqs_of_length l t : length (eqs_of (equations l) t) = n_eq (filter positive l) t.
Proof.
  unfold eqs_of, equations, n_eq. rewrite filter_app, app_length, !filter_map_comm, !map_length. reflexivity.
Qed.

Lemma enough_spec l t : enough (equations l) t = true <-> 5 <= n_eq (filter positive l) t.
Proof. unfold enough, min_eq. rewrite Nat.leb_le, eqs_of_length. reflexivity. Qed.
Lemma enough_false l t : enough (equations l) t = false <-> n_eq (filter positive l) t < 5.
Proof. unfold enough, min_eq. rewrite Nat.leb_gt, eqs_of_length. reflexivity. Qed.

Definition pairs (l : list eqn) (g : list C) : list (C * C) :=
  map (fun e => ((e_model e * Cconj (nth (e_b e) g C0))%C, e_data e)) l.

Lemma sqdist_misfit l g t h :
  sqdist (pairs (eqs_of (equations l) t) g) h = misfit (filter positive l) (at_ g) t h.
Proof.
  unfold eqs_of, equations. rewrite filter_app, !filter_map_comm. generalize (filter positive l). clear l. intros l.
  unfold pairs, sqdist. rewrite !map_app, !map_map, Qcsum_app. cbn [e_a e_b e_data e_model fst snd].
  unfold misfit. induction l as [|b l IH]; [reflexivity|].
  cbn [map filter]. rewrite Qcsum_cons, <- IH. unfold at_.
  replace (b_model b * Cconj (nth (b_b b) g C0) * h)%C with (h * Cconj (nth (b_b b) g C0) * b_model b)%C by ring.
  replace (Cconj (b_model b) * Cconj (nth (b_a b) g C0) * h)%C
    with (h * Cconj (nth (b_a b) g C0) * Cconj (b_model b))%C by ring.
  destruct (b_a b =? t), (b_b b =? t); cbn [map]; rewrite ?Qcsum_cons; 
  replace (b_model b * Cconj (nth (b_b b) g C0) * h)%C with (h * Cconj (nth (b_b b) g C0) * b_model b)%C by ring;
  replace (Cconj (b_model b) * Cconj (nth (b_a b) g C0) * h)%C
    with (h * Cconj (nth (b_a b) g C0) * Cconj (b_model b))%C by ring; ring.
Qed.

Lemma solve_tile_spec l g t :
  (5 <= n_eq (filter positive l) t -> least_squares (filter positive l) (at_ g) t (solve_tile (equations l) g t))
  /\ (n_eq (filter positive l) t < 5 -> solve_tile (equations l) g t = C0).
Proof.
  unfold solve_tile. split; intros H.
  - apply enough_spec in H. rewrite H. intros h. rewrite <- !sqdist_misfit. apply lsq_min.
  - apply enough_false in H. now rewrite H.
Qed.

(** ** One update *)
Lemma Qclt_irrefl_ (x : Qc) : ~ (x < x)%Qc.
Proof. intros H. now apply Qclt_not_eq in H. Qed.

Definition lam_of (cabs : C -> Qc) (base : Qc) (cg : xf) (o w : C) : Qc :=
  match cg with
  | Fin q =>
      let u := Cscale (Qcinv (base + q)) (Cscale q w + Cscale base o)%C in
      if negb (Qcleb (cabs o / Q2Qc 2) (cabs u * Qcinv (cabs o)))%Qc then Q2Qc (1#3) else (q / (base + q))%Qc
  | _ => 0%Qc
  end.

Lemma gain_pos b q : (0 < b)%Qc -> gain_in_range b q -> (0 < q)%Qc.
Proof.
  intros Hb [H _]. unfold Qcdiv in H. replace (/ Q2Qc 2)%Qc with (Q2Qc (1#2)) in H by reflexivity.
  qc_to_q. lra.
Qed.

Lemma frac_range b q : (0 < b)%Qc -> (0 < q)%Qc -> (0 <= q / (b + q))%Qc /\ (q / (b + q) < 1)%Qc.
Proof.
  intros Hb Hq.
  assert (P : (0 < b + q)%Qc) by (qc_to_q; lra).
  assert (Nz : (b + q)%Qc <> 0%Qc) by (intros E; rewrite E in P; now apply Qclt_irrefl_ in P).
  assert (I : (0 < / (b + q))%Qc).
  { destruct (Qclt_le_dec 0 (/ (b + q))) as [|L]; auto. exfalso.
    pose proof (Qcmult_le_compat_r _ _ (b + q) L (Qclt_le_weak _ _ P)) as M.
    rewrite (Qcmult_comm (/ _)), Qcmult_inv_r, Qcmult_0_l in M by auto. apply (Qcle_not_lt _ _ M). reflexivity. }
  unfold Qcdiv. split.
  - apply Qcmul_nonneg; now apply Qclt_le_weak.
  - replace 1%Qc with ((b + q) * / (b + q))%Qc by (apply Qcmult_inv_r; auto).
    apply Qcmult_lt_compat_r; auto. qc_to_q. lra.
Qed.

Lemma lam_of_range cabs b cg o w : (0 < b)%Qc -> gain_ok b cg ->
  (0 <= lam_of cabs b cg o w)%Qc /\ (lam_of cabs b cg o w < 1)%Qc.
Proof.
  intros Hb [->|(q & -> & R)]; [split; [discriminate|reflexivity]|].
  unfold lam_of. cbv zeta. destruct (negb _).
  - split; [discriminate|reflexivity].
  - apply frac_range; auto. eapply gain_pos; eauto.
Qed.

Lemma blend_spec cabs cfg n cg old new : (0 < s_base cfg)%Qc -> gain_ok (s_base cfg) cg -> length old = n ->
  length (blend cabs cfg n cg old new) = n
  /\ forall t, t < n -> at_ (blend cabs cfg n cg old new) t
       = (let l := lam_of cabs (s_base cfg) cg (at_ old t) (at_ new t) in
          Cscale l (at_ new t) + Cscale (1 - l)%Qc (at_ old t))%C.
Proof.
  intros Hb [->|(q & -> & R)] L.
  - cbn [blend lam_of]. split; auto. intros t Ht. cbv zeta. apply C_ext; cbn; ring.
  - cbn [blend lam_of]. split; [now rewrite map_length, seq_length|].
    intros t Ht. unfold at_ at 1. rewrite nth_map_seq by auto. unfold at_. cbv zeta.
    destruct (negb _).
    + replace (Qcinv (Q2Qc 3)) with (Q2Qc (1#3)) by reflexivity.
      replace (1 - Q2Qc (1#3))%Qc with (Q2Qc (1#3) * Q2Qc 2)%Qc by (apply Qc_is_canon; reflexivity).
      generalize (Q2Qc (1#3)). intros a. apply C_ext; cbn [re im Cscale Cadd]; ring.
    + pose proof (gain_pos _ _ Hb R) as Hq.
      assert (Nz : (s_base cfg + q)%Qc <> 0%Qc).
      { intros E. assert (P : (0 < s_base cfg + q)%Qc) by (qc_to_q; lra). rewrite E in P. now apply Qclt_irrefl_ in P. }
      apply C_ext; cbn [re im Cscale Cadd]; field; auto.
Qed.

Lemma phase_only_at cabs cfg n i old new t : t < n -> at_ (phase_only cabs cfg n i old new) t =
  if (Z.of_nat i <? s_phase cfg)%Z then Cscale (cabs (at_ old t) / cabs (at_ new t))%Qc (at_ new t) else at_ new t.
Proof.
  intros Ht. unfold phase_only.
  destruct (0 <? s_phase cfg - Z.of_nat i)%Z eqn:E, (Z.of_nat i <? s_phase cfg)%Z eqn:E'; try lia; auto.
  unfold at_ at 1. now rewrite nth_map_seq.
Qed.

Lemma one_update cabs cfg bls n i cg old c : (0 < s_base cfg)%Qc -> gain_ok (s_base cfg) cg -> length old = n ->
  rephase cabs cfg n (blend cabs cfg n cg old (phase_only cabs cfg n i old (map (solve_tile (equations bls) old) (seq 0 n))))
    = Some c ->
  update cabs cfg (filter positive bls) n i old c.
Proof.
  intros Hb Hg L R. set (new := map _ _) in R. set (ph := phase_only _ _ _ _ _ _) in R.
  destruct (blend_spec cabs cfg n cg old ph Hb Hg L) as [Lb B].
  set (u := blend cabs cfg n cg old ph) in *.
  assert (Lc : length c = n).
  { unfold rephase in R. destruct (s_noref cfg); [congruence|]. destruct (Qc_eq_dec _ _); [discriminate|].
    injection R as <-. now rewrite map_length, seq_length. }
  split; [exact Lc|].
  exists (solve_tile (equations bls) old), (at_ u),
    (fun t => lam_of cabs (s_base cfg) cg (at_ old t) (at_ ph t)).
  split.
  - intros t Ht. destruct (solve_tile_spec bls old t) as [S1 S2].
    destruct (lam_of_range cabs (s_base cfg) cg (at_ old t) (at_ ph t) Hb Hg) as [R1 R2].
    split; [exact S1|]. split; [exact S2|]. split; [exact R1|]. split; [exact R2|].
    rewrite (B t Ht). cbv zeta. unfold ph at 2. rewrite phase_only_at by auto.
    replace (at_ new t) with (solve_tile (equations bls) old t) by (unfold new, at_; now rewrite nth_map_seq).
    reflexivity.
  - unfold rephase in R. destruct (s_noref cfg).
    + injection R as <-. auto.
    + fold (at_ u (s_ref cfg)) in R. destruct (Qc_eq_dec _ _) as [|Nz]; [discriminate|].
      injection R as <-. split; auto. intros t Ht. unfold at_ at 1. rewrite nth_map_seq by auto.
      replace (1 / cabs (at_ u (s_ref cfg)))%Qc with (/ cabs (at_ u (s_ref cfg)))%Qc; [reflexivity|].
      unfold Qcdiv. ring.
Qed.

(** ** The loop *)
Lemma updates_cons cabs cfg l n i v w vs : update cabs cfg l n i v w -> updates cabs cfg l n (S i) (w :: vs) ->
  updates cabs cfg l n i (v :: w :: vs).
Proof.
  intros U Us k Hk. destruct k as [|k].
  - cbn [nth]. now rewrite Nat.add_0_r.
  - specialize (Us k). cbn [length nth] in *. replace (i + S k) with (S i + k) by lia. apply Us. lia.
Qed.

Lemma updates_one cabs cfg l n i v : updates cabs cfg l n i [v].
Proof. intros k Hk. cbn in Hk. lia. Qed.

Lemma sum_cabs_0 cabs l : modulus_like cabs -> (Qcsum (map cabs l) = 0%Qc <-> forall t, t < length l -> at_ l t = C0).
Proof.
  intros [N Z]. split.
  - intros E t Ht. apply Z. apply (Qcsum_zero (map cabs l)); auto.
    + intros x Hx. apply in_map_iff in Hx as (c & <- & _). apply N.
    + apply in_map. now apply nth_In.
  - intros H. induction l as [|a l IH]; auto. cbn [map]. rewrite Qcsum_cons, IH.
    + replace a with C0 by (symmetry; apply (H 0); cbn; lia). rewrite (proj2 (Z C0) eq_refl). ring.
    + intros t Ht. apply (H (S t)). cbn. lia.
Qed.

Definition zeroed (l : list baseline) (n : nat) (old g : list C) : Prop :=
  length g = n /\ forall t, t < n -> at_ g t = C0 /\ (5 <= n_eq l t -> least_squares l (at_ old) t C0).

Definition prev_loose (cabs : C -> Qc) (n : nat) (lp : xf) (vs : list (list C)) (k : nat) : xf :=
  if k <=? 2 then lp else Fin (mean_change cabs n (nth (k - 3) vs []) (nth (k - 2) vs [])).

Lemma change_mean cabs n old new : qc_mean (change cabs n old new) = mean_change cabs n old new.
Proof. unfold qc_mean, mean_change, change. rewrite map_length, seq_length. reflexivity. Qed.

Lemma qc_max_ge l x : In x l -> (x <= qc_max l)%Qc.
Proof.
  induction l as [|a l IH]; intros H; [destruct H|]. cbn [qc_max fold_right]. fold (qc_max l).
  destruct (Qcleb a (qc_max l)) eqn:E.
  - apply Qcleb_true in E. destruct H as [->|H]; auto.
  - assert (L : (qc_max l <= a)%Qc).
    { destruct (Qclt_le_dec (qc_max l) a) as [L|L]; [now apply Qclt_le_weak|]. apply Qcleb_true in L. congruence. }
    destruct H as [->|H]; [apply Qcle_refl|]. eapply Qcle_trans; eauto.
Qed.

Lemma xge_fin a b : xge (Fin a) (Fin b) = true -> (b <= a)%Qc.
Proof. cbn. intros H. now apply Qcleb_true. Qed.

Lemma decide_stop cfg i strict loose lp convs c b d : decide cfg i strict loose lp convs = Stop c b d ->
  (s_phase cfg + 3 < Z.of_nat i)%Z
  /\ (c = true -> d = false /\ ((b = false /\ xge (Fin (s_thr cfg)) strict = true)
        \/ (b = true /\ xge (Fin (s_thr cfg)) loose = true)
        \/ (b = false /\ xge (Fin (s_thr cfg)) lp = true)))
  /\ (c = false -> b = false /\ d = true).
Proof.
  unfold decide. destruct (s_phase cfg + 3 <? Z.of_nat i)%Z eqn:E; cbn [negb]; [|discriminate].
  apply Z.ltb_lt in E. intros H. split; [exact E|].
  destruct (xge (Fin (s_thr cfg)) strict) eqn:E1.
  { injection H as <- <- <-. split; [intros _; split; auto|discriminate]. }
  destruct (xge loose lp); [|discriminate].
  destruct (xge (Fin (s_thr cfg)) loose) eqn:E2; cbn [orb] in H.
  { injection H as <- <- <-. split; [intros _; split; auto|discriminate]. }
  destruct (xge (Fin (s_thr cfg)) lp) eqn:E3.
  { injection H as <- <- <-. split; [intros _; split; auto|discriminate]. }
  destruct (_ || _); [|discriminate]. injection H as <- <- <-. split; [discriminate|auto].
Qed.

Lemma None_loop cabs cfg eqs n fuel i lp convs gains old r : modulus_like cabs ->
  Qcsum (map cabs (map (solve_tile eqs old) (seq 0 n))) <> 0%Qc ->
  loop cabs cfg eqs n fuel i None lp convs gains = Ok r -> False.
Proof.
  intros M Nz H. destruct fuel as [|fuel]; [discriminate|]. cbn [loop] in H.
  destruct (existsb (enough eqs) (seq 0 n)) eqn:E; [discriminate|]. apply Nz.
  apply (proj2 (sum_cabs_0 cabs _ M)). rewrite map_length, seq_length. intros t Ht. unfold at_. rewrite nth_map_seq by auto.
  unfold solve_tile. replace (enough eqs t) with false; auto. symmetry.
  destruct (enough eqs t) eqn:E'; auto.
  assert (existsb (enough eqs) (seq 0 n) = true); [|congruence].
  apply existsb_exists. exists t. split; auto. apply in_seq. lia.
Qed.

Lemma gain_ok_base b : (0 < b)%Qc -> gain_ok b (Fin b).
Proof. intros H. right. exists b. split; auto. now apply base_itself. Qed.

Lemma gain_step cfg i gains convs cg : (0 < s_base cfg)%Qc ->
  (s_adapt cfg = true -> forall j, j < i -> gain_ok (s_base cfg) (nth j gains NaN)) ->
  (if s_adapt cfg then calculate_adaptive_gain gains convs i (Fin (s_base cfg)) (Some (Fin 0%Qc))
   else Ok (Fin (s_base cfg), gains)) = Ok cg ->
  gain_ok (s_base cfg) (fst cg)
  /\ (s_adapt cfg = true -> forall j, j < S i -> gain_ok (s_base cfg) (nth j (snd cg) NaN)).
Proof.
  intros Hb Hg E. destruct (s_adapt cfg).
  - destruct cg as [g gl']. destruct (step_ok (s_base cfg) (Some (Fin 0%Qc)) gains convs i g gl' Hb (fun H => Hg eq_refl (i - 1) ltac:(lia)) E) as (G & L & -> & _).
    split; auto. intros _ j Hj. cbn [snd]. rewrite nth_upd. destruct (_ && _) eqn:B.
    + exact G.
    + apply Hg; auto. lia.
  - injection E as <-. split; [now apply gain_ok_base|discriminate].
Qed.

Lemma loop_trace cabs cfg bls n : modulus_like cabs -> (0 < s_base cfg)%Qc -> (0 <= s_thr cfg)%Qc ->
  forall fuel i g lp convs gains r g', length g = n ->
  (s_adapt cfg = true -> forall j, j < i -> gain_ok (s_base cfg) (nth j gains NaN)) ->
  loop cabs cfg (equations bls) n fuel i (Some g) lp convs gains = Ok r -> r_gain r = Some g' ->
  exists vs, nth 0 vs [] = g /\ 1 <= length vs <= S fuel
    /\ updates cabs cfg (filter positive bls) n i vs
    /\ (g' = last vs [] \/ zeroed (filter positive bls) n (last vs []) g')
    /\ (Z.of_nat (length vs) = r_iter r - Z.of_nat i + 2 \/ Z.of_nat (length vs) = r_iter r - Z.of_nat i + 1)%Z
    /\ (r_converged r = true ->
          (forall q, In q (r_conv r) -> exists x, q = Some x /\ (x <= s_thr cfg)%Qc)
          \/ 2 <= length vs /\ g' = last vs [] /\ Z.of_nat (length vs) = (r_iter r - Z.of_nat i + 2)%Z
             /\ (s_phase cfg + 3 < r_iter r)%Z /\ xge (Fin (s_thr cfg)) (prev_loose cabs n lp vs (length vs)) = true).
Proof.
  intros M Hb Ht. induction fuel as [|fuel IH]; intros i g lp convs gains r g' L Hg H Hr; [discriminate|].
  cbn [loop bind] in H. destruct (Qc_eq_dec _ _) as [Z|Nz].
  - (* every solution is 0 *)
    injection H as <-. exists [g]. cbn [nth length last]. split; auto. split; [lia|]. split; [apply updates_one|].
    cbn [finish r_gain] in Hr. injection Hr as <-. split; [right|].
    + pose proof (proj1 (sum_cabs_0 cabs _ M) Z) as Z'. clear Z. rename Z' into Z. rewrite map_length, seq_length in Z.
      split; [now rewrite map_length, seq_length|]. intros t Htn. specialize (Z t Htn). split; auto.
      intros N. unfold at_ in Z. rewrite nth_map_seq in Z by auto. rewrite <- Z. now apply solve_tile_spec.
    + split; [right; cbn [finish r_iter]; lia|]. cbn. discriminate.
  - destruct (if s_adapt cfg then _ else _) as [cg|] eqn:Ecg; cbn [bind] in H; [|discriminate].
    destruct (gain_step cfg i gains convs cg Hb Hg Ecg) as [G Hg'].
    destruct (rephase _ _ _ _) as [c|] eqn:Ec.
    + pose proof (one_update _ _ _ _ _ _ _ _ Hb G L Ec) as U.
      assert (Lc : length c = n) by apply U. cbn [xof] in H.
      destruct (decide _ _ _ _ _ _) as [|cv bu dv] eqn:Ed.
      * destruct fuel as [|fuel].
        -- injection H as <-. cbn [finish r_gain] in Hr. injection Hr as <-.
           exists [g; c]. cbn [nth length last]. split; auto. split; [lia|].
           split; [apply updates_cons; auto; apply updates_one|]. split; auto.
           split; [left; cbn [finish r_iter]; lia|]. cbn. discriminate.
        -- destruct (IH _ _ _ _ _ _ _ Lc Hg' H Hr) as (vs & V0 & Vl & Vu & Vg & Vi & Vc).
           destruct vs as [|v vs]; [cbn in Vl; lia|]. cbn [nth] in V0. subst v.
           exists (g :: c :: vs). split; auto. split; [cbn [length] in *; lia|].
           split; [now apply updates_cons|]. split; [exact Vg|].
           split; [cbn [length] in *; lia|]. intros Cv. destruct (Vc Cv) as [|(K & KL & KI & KP & P)]; [now left|right].
           split; [cbn [length] in *; lia|]. split; [exact KL|]. split; [cbn [length] in *; lia|]. split; [exact KP|]. rewrite change_mean in P. unfold prev_loose in *.
           cbn [length] in *. replace (S (S (length vs)) <=? 2) with false by (symmetry; apply Nat.leb_gt; lia).
           destruct (S (length vs) <=? 2) eqn:K2.
           ++ apply Nat.leb_le in K2. replace (length vs) with 1 by lia. exact P.
           ++ apply Nat.leb_gt in K2. destruct (length vs) as [|[|k]] eqn:EL; [lia|lia|].
              replace (S (S (S k)) - 3) with k in P by lia. replace (S (S (S k)) - 2) with (S k) in P by lia.
              replace (S (S (S (S k))) - 3) with (S k) by lia. replace (S (S (S (S k))) - 2) with (S (S k)) by lia.
              exact P.
      * injection H as <-. destruct (decide_stop _ _ _ _ _ _ _ _ _ Ed) as (D0 & D1 & D2).
        destruct cv.
        -- destruct (D1 eq_refl) as (-> & [[-> X]|[[-> X]|[-> X]]]); cbn [finish r_gain r_conv r_iter r_converged] in *;
             injection Hr as <-.
           ++ exists [g; c]. cbn [nth length last]. split; auto. split; [lia|].
              split; [apply updates_cons; auto; apply updates_one|]. split; auto. split; [left; lia|].
              intros _. left. intros q Hq. apply in_map_iff in Hq as (x & <- & Hx). exists x. split; auto.
              apply xge_fin in X. eapply Qcle_trans; [|exact X]. now apply qc_max_ge.
           ++ exists [g]. cbn [nth length last]. split; auto. split; [lia|]. split; [apply updates_one|].
              split; auto. split; [right; lia|]. intros _. left. intros q Hq.
              apply in_map_iff in Hq as (x & <- & Hx). exists x. split; auto.
              unfold change in Hx. apply in_map_iff in Hx as (t & <- & _).
              replace (nth t g C0 - nth t g C0)%C with C0 by ring.
              rewrite (proj2 (ml_zero _ M C0) eq_refl), Qcmult_0_l. exact Ht.
           ++ exists [g; c]. cbn [nth length last]. split; auto. split; [lia|].
              split; [apply updates_cons; auto; apply updates_one|]. split; auto. split; [left; lia|].
              intros _. right. split; [lia|]. split; auto. split; [lia|]. split; [exact D0|]. exact X.
        -- destruct (D2 eq_refl) as (-> & ->). cbn [finish r_gain r_conv r_iter r_converged] in *. injection Hr as <-.
           exists [g]. cbn [nth length last]. split; auto. split; [lia|]. split; [apply updates_one|].
           split; auto. split; [left; lia|discriminate].
    + cbn [xof] in H. unfold decide in H. destruct (negb _).
      * destruct fuel as [|fuel]; [injection H as <-; discriminate|]. exfalso. eapply None_loop; eauto.
      * cbn [xge] in H. destruct fuel as [|fuel]; [injection H as <-; discriminate|].
        exfalso. eapply None_loop; eauto.
Qed.

Lemma loop_iter cabs cfg eqs n : (0 <= s_phase cfg)%Z ->
  forall fuel i g lp convs gains r, loop cabs cfg eqs n fuel i g lp convs gains = Ok r ->
  (0 <= r_iter r < Z.of_nat (i + fuel))%Z.
Proof.
  intros Hp. induction fuel as [|fuel IH]; intros i g lp convs gains r H; [discriminate|].
  cbn [loop] in H. destruct (match g with Some _ => _ | None => _ end) as [new|]; cbn [bind] in H; [|discriminate].
  destruct (Qc_eq_dec _ _).
  - injection H as <-. cbn [finish r_iter]. lia.
  - destruct g as [g|]; [|discriminate].
    destruct (if s_adapt cfg then _ else _) as [cg|]; cbn [bind] in H; [|discriminate].
    destruct (decide _ _ _ _ _ _) as [|cv bu dv] eqn:Ed.
    + destruct fuel as [|fuel]; [injection H as <-; cbn [finish r_iter]; lia|].
      apply IH in H. lia.
    + injection H as <-. apply decide_stop in Ed as (E & _). unfold finish. destruct dv; cbn [r_iter]; lia.
Qed.

Lemma initial_starts bls n g0 : starts (filter positive bls) n g0 (initial (equations bls) n g0).
Proof.
  unfold initial, starts, at_. split; [now rewrite map_length, seq_length|]. intros t Ht. rewrite nth_map_seq by auto.
  split; intros N.
  - apply enough_spec in N. now rewrite N.
  - apply enough_false in N. now rewrite N.
Qed.

Lemma few_update cabs cfg l n i old new t : update cabs cfg l n i old new -> t < n -> n_eq l t < 5 ->
  at_ old t = C0 -> at_ new t = C0.
Proof.
  intros (L & sol & u & lam & U & R) Ht N O. destruct (U t Ht) as (_ & Z & _ & _ & E).
  assert (Eu : u t = C0).
  { rewrite E, (Z N), O. cbv zeta. destruct (_ <? _)%Z; apply C_ext; cbn; ring. }
  destruct (s_noref cfg).
  - now rewrite R.
  - destruct R as [_ R]. rewrite (R t Ht), Eu. ring.
Qed.

Lemma nth_last {A} (l : list A) d : last l d = nth (length l - 1) l d.
Proof.
  induction l as [|a [|b l] IH]; auto. change (last (a :: b :: l) d) with (last (b :: l) d). rewrite IH.
  cbn [length]. replace (S (S (length l)) - 1) with (S (S (length l) - 1)) by lia. reflexivity.
Qed.

Definition tick cabs cfg eqs n (fuel i : nat) (old : list C) (lp : xf) (convs : list xf) (cg : xf * list xf) : result sout :=
  let curr := rephase cabs cfg n (blend cabs cfg n (fst cg) old (phase_only cabs cfg n i old (map (solve_tile eqs old) (seq 0 n)))) in
  let strict := xof (match curr with Some c => Some (qc_max (change cabs n old c)) | None => None end) in
  let loose := xof (match curr with Some c => Some (qc_mean (change cabs n old c)) | None => None end) in
  let convs := upd convs i strict in
  match decide cfg i strict loose lp convs with
  | Stop converged back_up diverged => Ok (finish cabs n i (Some old) curr convs converged back_up diverged)
  | Go => match fuel with
          | O => Ok (finish cabs n i (Some old) curr convs false false false)
          | S _ => loop cabs cfg eqs n fuel (S i) curr loose convs (snd cg)
          end
  end.

Lemma loop_S cabs cfg eqs n fuel i old lp convs gains :
  loop cabs cfg eqs n (S fuel) i (Some old) lp convs gains =
  if Qc_eq_dec (Qcsum (map cabs (map (solve_tile eqs old) (seq 0 n)))) 0
  then Ok (finish cabs n i (Some old) (Some (map (solve_tile eqs old) (seq 0 n))) convs false false false)
  else cg <- (if s_adapt cfg then calculate_adaptive_gain gains convs i (Fin (s_base cfg)) (Some (Fin 0%Qc))
              else Ok (Fin (s_base cfg), gains)) ;;
       tick cabs cfg eqs n fuel i old lp convs cg.
Proof. reflexivity. Qed.

Lemma loop_total cabs cfg eqs n : s_noref cfg = true ->
  forall fuel i g lp convs gains, length g = n -> length convs = i + S fuel -> length gains = i + S fuel ->
  exists r g', loop cabs cfg eqs n (S fuel) i (Some g) lp convs gains = Ok r /\ r_gain r = Some g' /\ length g' = n.
Proof.
  intros Nr. induction fuel as [|fuel IH]; intros i g lp convs gains L Lc Lg; rewrite loop_S;
  (destruct (Qc_eq_dec _ _);
   [eexists; eexists; split; [reflexivity|]; split; [reflexivity|]; now rewrite map_length, seq_length|]).
  all: assert (E : exists cg, (if s_adapt cfg then calculate_adaptive_gain gains convs i (Fin (s_base cfg)) (Some (Fin 0%Qc))
     else Ok (Fin (s_base cfg), gains)) = Ok cg /\ length (snd cg) = length gains)
   by (destruct (s_adapt cfg);
       [destruct (step_total (s_base cfg) (Some (Fin 0%Qc)) gains convs i) as [g' E]; [lia|lia|];
        eexists; split; [exact E|]; cbn; apply upd_length
       |eexists; split; [reflexivity|reflexivity]]).
  all: destruct E as (cg & -> & Lcg); cbn [bind]; unfold tick.
  all: set (c := blend _ _ _ _ _ _).
  all: assert (Lb : length c = n)
    by (unfold c, blend; destruct (fst cg); auto; now rewrite map_length, seq_length).
  all: assert (Rc : rephase cabs cfg n c = Some c) by (unfold rephase; now rewrite Nr).
  all: rewrite Rc; clearbody c; cbv zeta.
  all: destruct (decide _ _ _ _ _ _) as [|cv bu dv];
    [|unfold finish; eexists; exists (if dv then g else if bu then g else c); split; [reflexivity|];
      destruct dv, bu; auto].
  - eexists; exists c. split; [reflexivity|]. auto.
  - apply IH; auto; rewrite ?upd_length; lia.
Qed.

Lemma reference_update cabs cfg l n i old new : modulus_like cabs -> s_noref cfg = false -> s_ref cfg < n ->
  update cabs cfg l n i old new ->
  im (at_ new (s_ref cfg)) = 0%Qc /\ (0 < re (at_ new (s_ref cfg)))%Qc.
Proof.
  intros [N Z] Nr Hr (L & sol & u & lam & _ & R). rewrite Nr in R. destruct R as [Nz R]. rewrite (R _ Hr).
  set (v := u (s_ref cfg)) in *.
  assert (P : (0 < 1 / cabs v)%Qc).
  { destruct (Qclt_le_dec 0 (1 / cabs v)) as [|Q]; auto. exfalso.
    pose proof (Qcmult_le_compat_r _ _ (cabs v) Q (N v)) as M.
    unfold Qcdiv in M. rewrite Qcmult_1_l, (Qcmult_comm (/ _)), Qcmult_inv_r, Qcmult_0_l in M by auto.
    apply (Qcle_not_lt _ _ M). reflexivity. }
  assert (Q : (0 < Cnorm2 v)%Qc).
  { destruct (Qclt_le_dec 0 (Cnorm2 v)) as [|Q]; auto. exfalso. apply Nz, Z, Cnorm2_0.
    apply Qcle_antisym; auto. apply Cnorm2_nonneg. }
  generalize dependent (1 / cabs v)%Qc. intros a Ha. split.
  - cbn. ring.
  - replace (re (v * Cscale a (Cconj v))%C) with (a * Cnorm2 v)%Qc by (unfold Cnorm2; cbn; ring).
    replace 0%Qc with (0 * Cnorm2 v)%Qc by ring. now apply Qcmult_lt_compat_r.
Qed.

(** ** A solution that explains the data *)
Lemma lsq_exact l g : Csum (map (fun p => (Cconj (fst p) * fst p)%C) l) <> C0 ->
  (forall p, In p l -> snd p = (fst p * g)%C) -> lsq l = g.
Proof.
  intros Nz H. unfold lsq.
  replace (Csum (map (fun p => (Cconj (fst p) * snd p)%C) l))
    with (Csum (map (fun p => (Cconj (fst p) * fst p)%C) l) * g)%C.
  - set (s := Csum _) in *. transitivity ((Cinv s * s) * g)%C; [ring|]. rewrite Cinv_l by auto. ring.
  - clear Nz. induction l as [|p l IH]; [cbn; ring|]. cbn [map]. rewrite !Csum_cons, <- IH.
    + rewrite (H p (or_introl eq_refl)). ring.
    + intros q Hq. apply H. now right.
Qed.

Lemma norm_sum_nz (l : list (C * C)) p : In p l -> fst p <> C0 ->
  Csum (map (fun p => (Cconj (fst p) * fst p)%C) l) <> C0.
Proof.
  intros Hp Nz E. apply Nz, Cnorm2_0. apply (f_equal re) in E. rewrite Csum_re, map_map in E.
  apply (Qcsum_zero (map (fun p => Cnorm2 (fst p)) l)).
  - intros x Hx. apply in_map_iff in Hx as (q & <- & _). apply Cnorm2_nonneg.
  - cbn [re C0] in E. rewrite <- E. f_equal. apply map_ext. intros [[xr xi] y]. unfold Cnorm2. cbn. ring.
  - apply in_map_iff. eauto.
Qed.

Lemma in_eqs_of l t e : In e (eqs_of (equations l) t) <->
  exists b, In b l /\ usable b /\
    ((b_a b = t /\ e = {| e_a := b_a b; e_b := b_b b; e_data := b_data b; e_model := b_model b |})
     \/ (b_b b = t /\ e = {| e_a := b_b b; e_b := b_a b; e_data := Cconj (b_data b); e_model := Cconj (b_model b) |})).
Proof.
  unfold eqs_of, equations. rewrite filter_In, in_app_iff, !in_map_iff. split.
  - intros [[(b & <- & Hb)|(b & <- & Hb)] E]; cbn [e_a] in E; apply Nat.eqb_eq in E;
      apply filter_In in Hb as [Hb P]; apply positive_usable in P; exists b; auto.
  - intros (b & Hb & P & [[E ->]|[E ->]]); cbn [e_a]; rewrite E, Nat.eqb_refl; split; auto; [left|right]; exists b;
      (split; [now rewrite E|]); apply filter_In; split; auto; now apply positive_usable.
Qed.

Lemma solve_tile_exact bls g t :
  (forall b, In b bls -> usable b -> b_data b = (at_ g (b_a b) * Cconj (at_ g (b_b b)) * b_model b)%C) ->
  5 <= n_eq (filter positive bls) t ->
  (exists b, In b bls /\ usable b /\ b_model b <> C0
     /\ (b_a b = t /\ at_ g (b_b b) <> C0 \/ b_b b = t /\ at_ g (b_a b) <> C0)) ->
  solve_tile (equations bls) g t = at_ g t.
Proof.
  intros H N (b & Hb & U & M & E). unfold solve_tile. rewrite (proj2 (enough_spec _ _) N).
  apply lsq_exact.
  - destruct E as [[E G]|[E G]].
    + eapply norm_sum_nz with (p := ((b_model b * Cconj (nth (b_b b) g C0))%C, b_data b)).
      * apply in_map_iff. eexists; split; [|apply in_eqs_of; exists b; split; [exact Hb|split; [exact U|left; split; [exact E|reflexivity]]]].
        reflexivity.
      * cbn [fst]. intros Z. apply Cmul_integral in Z as [Z|Z]; auto. apply G. now apply Cconj_eq0.
    + eapply norm_sum_nz with (p := ((Cconj (b_model b) * Cconj (nth (b_a b) g C0))%C, Cconj (b_data b))).
      * apply in_map_iff. eexists; split; [|apply in_eqs_of; exists b; split; [exact Hb|split; [exact U|right; split; [exact E|reflexivity]]]].
        reflexivity.
      * cbn [fst]. intros Z. apply Cmul_integral in Z as [Z|Z]; [apply M; now apply Cconj_eq0|]. apply G. now apply Cconj_eq0.
  - intros p Hp. apply in_map_iff in Hp as (e & <- & He). apply in_eqs_of in He as (d & Hd & Ud & [[<- ->]|[<- ->]]);
      cbn [fst snd e_a e_b e_data e_model]; rewrite (H d Hd Ud); unfold at_.
    + ring.
    + rewrite !Cconj_mul, Cconj_involutive. ring.
Qed.

Lemma qc_max_zeros n : qc_max (repeat 0%Qc n) = 0%Qc.
Proof. induction n as [|n IH]; [reflexivity|]. cbn [repeat qc_max fold_right]. fold (qc_max (repeat 0%Qc n)). now rewrite IH. Qed.

Lemma change_same cabs n g : modulus_like cabs -> change cabs n g g = repeat 0%Qc n.
Proof.
  intros M. unfold change. rewrite (map_ext _ (fun _ => 0%Qc)).
  - generalize 0. induction n as [|n IH]; intros s; auto. cbn [seq map repeat]. now rewrite IH.
  - intros t. replace (nth t g C0 - nth t g C0)%C with C0 by ring.
    rewrite (proj2 (ml_zero _ M C0) eq_refl). ring.
Qed.

Lemma map_repeat_ {A B} (f : A -> B) x n : map f (repeat x n) = repeat (f x) n.
Proof. induction n as [|n IH]; auto. cbn [repeat map]. now rewrite IH. Qed.

Lemma decide_zero cfg i l lp cv : (0 <= s_thr cfg)%Qc ->
  decide cfg i (Fin 0%Qc) l lp cv = Go \/ decide cfg i (Fin 0%Qc) l lp cv = Stop true false false.
Proof.
  intros H. unfold decide. destruct (negb _); auto. cbn [xge].
  rewrite (proj2 (Qcleb_true _ _) H). auto.
Qed.

Lemma fixed_loop cabs cfg bls n g : modulus_like cabs -> (0 < s_base cfg)%Qc -> (0 <= s_thr cfg)%Qc ->
  length g = n -> 0 < n -> (forall t, t < n -> at_ g t <> C0) ->
  (forall t, t < n -> solve_tile (equations bls) g t = at_ g t) ->
  (s_noref cfg = false -> s_ref cfg < n /\ im (at_ g (s_ref cfg)) = 0%Qc
     /\ cabs (at_ g (s_ref cfg)) = re (at_ g (s_ref cfg))) ->
  forall fuel i lp convs gains, length convs = i + S fuel -> length gains = i + S fuel ->
  (s_adapt cfg = true -> forall j, j < i -> gain_ok (s_base cfg) (nth j gains NaN)) ->
  exists r, loop cabs cfg (equations bls) n (S fuel) i (Some g) lp convs gains = Ok r
    /\ r_gain r = Some g /\ r_conv r = repeat (Some 0%Qc) n
    /\ (r_converged r = true \/ r_iter r = Z.of_nat (i + fuel)).
Proof.
  intros M Hb Ht L Hn Nz Sg Ref.
  assert (New : map (solve_tile (equations bls) g) (seq 0 n) = g).
  { apply (list_ext C0); rewrite map_length, seq_length; auto. intros k Hk. rewrite nth_map_seq by auto. now apply Sg. }
  assert (Ph : forall i, phase_only cabs cfg n i g g = g).
  { intros i. assert (Lp : length (phase_only cabs cfg n i g g) = n)
      by (unfold phase_only; destruct (_ <? _)%Z; auto; now rewrite map_length, seq_length).
    apply (list_ext C0); [congruence|]. rewrite Lp. intros k Hk. fold (at_ (phase_only cabs cfg n i g g) k) (at_ g k).
    rewrite phase_only_at by auto. destruct (_ <? _)%Z; auto.
    assert (Nc : cabs (at_ g k) <> 0%Qc) by (intros Z; apply (Nz k Hk), (ml_zero _ M), Z).
    replace (cabs (at_ g k) / cabs (at_ g k))%Qc with 1%Qc by (field; auto). apply C_ext; cbn; ring. }
  assert (Bl : forall cg, gain_ok (s_base cfg) cg -> blend cabs cfg n cg g g = g).
  { intros cg G. destruct (blend_spec cabs cfg n cg g g Hb G L) as [Lb B].
    apply (list_ext C0); [congruence|]. rewrite Lb. intros k Hk. fold (at_ (blend cabs cfg n cg g g) k) (at_ g k).
    rewrite (B k Hk). cbv zeta. generalize (lam_of cabs (s_base cfg) cg (at_ g k) (at_ g k)). intros a.
    apply C_ext; cbn; ring. }
  assert (Re : rephase cabs cfg n g = Some g).
  { unfold rephase. destruct (s_noref cfg); auto. destruct (Ref eq_refl) as (Hr & I & A).
    fold (at_ g (s_ref cfg)). assert (Nc : cabs (at_ g (s_ref cfg)) <> 0%Qc)
      by (intros Z; apply (Nz _ Hr), (ml_zero _ M), Z).
    destruct (Qc_eq_dec _ _); [contradiction|]. f_equal.
    apply (list_ext C0); rewrite map_length, seq_length; auto. intros k Hk. rewrite nth_map_seq by auto.
    replace (Cscale (/ cabs (at_ g (s_ref cfg))) (Cconj (at_ g (s_ref cfg)))) with C1; [ring|].
    rewrite A in *. apply C_ext; cbn [re im Cscale Cconj C1].
    - rewrite Qcmult_comm, Qcmult_inv_r; auto.
    - rewrite I. ring. }
  assert (Sum : Qcsum (map cabs g) <> 0%Qc).
  { intros Z. apply (Nz 0 Hn). apply (proj1 (sum_cabs_0 cabs g M) Z). lia. }
  induction fuel as [|fuel IH]; intros i lp convs gains Lc Lg Hg; rewrite loop_S, New;
    (destruct (Qc_eq_dec _ _); [contradiction|]).
  all: assert (E : exists cg, (if s_adapt cfg then calculate_adaptive_gain gains convs i (Fin (s_base cfg)) (Some (Fin 0%Qc))
     else Ok (Fin (s_base cfg), gains)) = Ok cg /\ length (snd cg) = length gains)
   by (destruct (s_adapt cfg);
       [destruct (step_total (s_base cfg) (Some (Fin 0%Qc)) gains convs i) as [g' E]; [lia|lia|];
        eexists; split; [exact E|]; cbn; apply upd_length
       |eexists; split; [reflexivity|reflexivity]]).
  all: destruct E as (cg & E & Lcg); destruct (gain_step cfg i gains convs cg Hb Hg E) as [G Hg'].
  all: rewrite E; cbn [bind]; unfold tick; rewrite New, Ph, (Bl _ G), Re; cbv zeta.
  all: rewrite (change_same cabs n g M), qc_max_zeros; cbn [xof].
  all: match goal with |- context [decide ?cf ?j (Fin ?z) ?l ?lp ?cv] => destruct (decide_zero cf j l lp cv Ht) as [->| ->] end.
  - eexists; split; [reflexivity|]. cbn [finish r_gain r_conv r_iter]. rewrite (change_same cabs n g M), map_repeat_.
    repeat (split; auto); right; lia.
  - eexists; split; [reflexivity|]. cbn [finish r_gain r_conv r_iter]. rewrite (change_same cabs n g M), map_repeat_.
    repeat (split; auto).
  - destruct (IH (S i) (Fin (qc_mean (repeat 0%Qc n))) (upd convs i (Fin 0%Qc)) (snd cg)) as (r & Er & H);
      rewrite ?upd_length; [lia|lia|auto|].
    exists r. split; [exact Er|]. destruct H as (? & ? & [?|?]); repeat (split; auto); right; lia.
  - eexists; split; [reflexivity|]. cbn [finish r_gain r_conv r_iter]. rewrite (change_same cabs n g M), map_repeat_.
    repeat (split; auto).
Qed.
