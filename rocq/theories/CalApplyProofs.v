From Coq Require Import ZifyBool ZifyNat.
From Verif Require Import Base SortLib NpArr PyIndex Cplx WeightInvert WeightInvertSpec WeightInvertProofs
  VisWeights CalApply CalApplySpec.
Open Scope nat_scope.
Ltac Zify.zify_post_hook ::= idtac.

(** ** weight_invert on one complex entry *)
Lemma winv_value x : value (invert_entry None false (cplx_of x)) = Some (winv x).
Proof.
  destruct (entry_float_complex None false (cplx_of x)) as (c' & E & _ & _).
  { destruct x; intros H; exact H. }
  unfold winv. pose proof (entry_kind None false (cplx_of x)) as K.
  destruct (invert_entry None false (cplx_of x)) as [r|z|r i].
  1,2: destruct x; destruct K.
  cbn [value] in *. destruct r, i; try discriminate. reflexivity.
Qed.

Lemma winv_inv c : c <> C0 -> (winv (Some c) * c)%C = C1.
Proof.
  intros H. pose proof (winv_value (Some c)) as V.
  destruct (entry_float_complex None false (cplx_of (Some c))) as (c' & E & H1 & _).
  { intros K; exact K. }
  rewrite E in V. injection V as <-. apply H1. split; [|split]; auto; [|exact I].
  cbn. now destruct c.
Qed.
Lemma winv_bad x : unusable x -> winv x = C0.
Proof.
  intros H. pose proof (winv_value x) as V.
  destruct (entry_float_complex None false (cplx_of x)) as (c' & E & _ & H2).
  { destruct x; intros K; exact K. }
  rewrite E in V. injection V as <-. apply H2. intros c (V & N & _).
  destruct H as [-> | ->]; cbn in V; [discriminate|]. injection V as <-. now apply N.
Qed.

(** ** vis_calibration_apply *)
Lemma norm_tile n v : (1 <= v <= Z.of_nat n)%Z -> norm_index n (v - 1) = Ok (Z.to_nat (v - 1)).
Proof.
  intros H. unfold norm_index. replace ((0 <=? v - 1)%Z && (v - 1 <? Z.of_nat n)%Z) with true; auto.
  symmetry. apply andb_true_intro. split; [apply Z.leb_le|apply Z.ltb_lt]; lia.
Qed.

Lemma map_res_map {A B} (f : A -> result B) (g : A -> B) l :
  (forall a, In a l -> f a = Ok (g a)) -> map_res f l = Ok (map g l).
Proof.
  induction l as [|a l IH]; intros H; cbn [map_res map]; auto.
  rewrite (H a) by now left. cbn [bind]. rewrite IH by (intros; apply H; now right). reflexivity.
Qed.

Lemma tiles_ok n m l : good_tiles n m l ->
  map_res (fun v => norm_index n (v - 1)) l = Ok (map (fun v => Z.to_nat (v - 1)) l).
Proof.
  intros [L H]. apply map_res_map. intros v Hv. apply norm_tile.
  apply (In_nth _ _ 0%Z) in Hv as (b & Hb & <-). apply H. lia.
Qed.

Lemma apply_pol_ok vis tile_a tile_b gain pol v : matching vis tile_a tile_b gain ->
  pol < d_pol vis -> d_pol v = d_pol vis -> d_freq v = d_freq vis -> d_bl v = d_bl vis ->
  exists out, apply_pol (d_freq vis) tile_a tile_b gain pol v = Ok out
    /\ d_pol out = d_pol v /\ d_freq out = d_freq v /\ d_bl out = d_bl v
    /\ forall p f b, b < d_bl vis ->
         at3 out p f b = if p =? pol
           then (at3 v p f b * winv (gain_prod (gain_a gain tile_a p f b) (gain_b gain tile_b p f b)))%C
           else at3 v p f b.
Proof.
  intros M Hp E1 E2 E3. destruct M as [Mf Mp Mg Ma Mb].
  assert (P1 : py_list gain_pol_1 pol = Ok (fst (feeds pol))).
  { destruct pol as [|[|[|[|?]]]]; try reflexivity. lia. }
  assert (P2 : py_list gain_pol_2 pol = Ok (snd (feeds pol))).
  { destruct pol as [|[|[|[|?]]]]; try reflexivity. lia. }
  unfold apply_pol. rewrite P1, P2. cbn [bind].
  destruct (Mg pol Hp) as [G1 G2]. apply Nat.ltb_lt in G1, G2. rewrite G1, G2. cbn [andb negb].
  rewrite Mf, Nat.ltb_irrefl. rewrite (tiles_ok _ _ _ Ma), (tiles_ok _ _ _ Mb). cbn [bind].
  destruct Ma as [La Ha], Mb as [Lb Hb]. rewrite La, Lb, E2, E3, !Nat.eqb_refl. cbn [andb negb].
  eexists. split; [reflexivity|]. cbn [d_pol d_freq d_bl at3]. repeat (split; auto).
  intros p f b B. destruct (p =? pol) eqn:Ep; auto. apply Nat.eqb_eq in Ep. subst p.
  set (G := fun v => Z.to_nat (v - 1)).
  rewrite (nth_indep _ 0 (G 0%Z)) by (rewrite map_length; lia). rewrite (map_nth G).
  rewrite (nth_indep (map G tile_b) 0 (G 0%Z)) by (rewrite map_length; lia). rewrite (map_nth G).
  reflexivity.
Qed.

Lemma apply_fold vis tile_a tile_b gain : matching vis tile_a tile_b gain ->
  forall k v start, start + k <= d_pol vis ->
  d_pol v = d_pol vis -> d_freq v = d_freq vis -> d_bl v = d_bl vis ->
  exists out, fold_res (fun v pol => apply_pol (d_freq vis) tile_a tile_b gain pol v) (seq start k) v = Ok out
    /\ d_pol out = d_pol v /\ d_freq out = d_freq v /\ d_bl out = d_bl v
    /\ forall p f b, b < d_bl vis ->
         at3 out p f b = if (start <=? p) && (p <? start + k)
           then (at3 v p f b * winv (gain_prod (gain_a gain tile_a p f b) (gain_b gain tile_b p f b)))%C
           else at3 v p f b.
Proof.
  intros M. induction k as [|k IH]; intros v start Hk E1 E2 E3; cbn [seq fold_res].
  - exists v. repeat (split; auto). intros p f b B.
    replace ((start <=? p) && (p <? start + 0)) with false; auto. symmetry.
    apply Bool.andb_false_iff. rewrite Nat.leb_gt, Nat.ltb_ge. lia.
  - destruct (apply_pol_ok vis tile_a tile_b gain start v M) as (v1 & A1 & D1 & D2 & D3 & H1); auto; [lia|].
    rewrite A1. cbn [bind].
    destruct (IH v1 (S start)) as (out & A2 & D4 & D5 & D6 & H2); try congruence; [lia|].
    exists out. rewrite A2. repeat (split; [congruence|]). intros p f b B.
    rewrite (H2 p f b B), (H1 p f b B).
    destruct (Nat.eq_dec p start) as [->|Hne].
    + rewrite Nat.eqb_refl. rewrite Nat.leb_refl.
      replace (S start <=? start) with false by (symmetry; apply Nat.leb_gt; lia).
      replace (start <? start + S k) with true by (symmetry; apply Nat.ltb_lt; lia). reflexivity.
    + apply Nat.eqb_neq in Hne. rewrite Hne. apply Nat.eqb_neq in Hne.
      replace ((S start <=? p) && (p <? S start + k)) with ((start <=? p) && (p <? start + S k)); auto.
      apply eq_true_iff_eq. rewrite !andb_true_iff, !Nat.leb_le, !Nat.ltb_lt. lia.
Qed.

Lemma apply_ok vis tile_a tile_b gain arrays : matching vis tile_a tile_b gain ->
  (d_pol vis = 4 -> arrays = false) ->
  exists out, vis_calibration_apply vis (d_freq vis) tile_a tile_b gain arrays = Ok out
    /\ d_pol out = d_pol vis /\ d_freq out = d_freq vis /\ d_bl out = d_bl vis
    /\ forall p f b, p < d_pol vis -> b < d_bl vis ->
         at3 out p f b
         = (at3 vis p f b * winv (gain_prod (gain_a gain tile_a p f b) (gain_b gain tile_b p f b)))%C.
Proof.
  intros M A. unfold vis_calibration_apply.
  destruct (apply_fold vis tile_a tile_b gain M (d_pol vis) vis 0) as (out & E & D1 & D2 & D3 & H); auto.
  rewrite E. cbn [bind]. exists out. rewrite D1.
  destruct (d_pol vis =? 4) eqn:E4.
  - apply Nat.eqb_eq in E4. rewrite (A E4). cbn [andb]. repeat (split; [congruence|]).
    intros p f b P B. rewrite (H p f b B). cbn [Nat.leb andb Nat.add].
    apply Nat.ltb_lt in P. now rewrite P.
  - cbn [andb]. repeat (split; [congruence|]). intros p f b P B. rewrite (H p f b B). cbn [Nat.leb andb Nat.add].
    apply Nat.ltb_lt in P. now rewrite P.
Qed.
