(** C26, C27, C32, C58: property theorems about applying calibration solutions and about the
    autocorrelation helpers. *)
From Coq Require Import ZifyBool ZifyNat Sorting.Sorted.
From Verif Require Import Base NpArr PyIndex Cplx VisWeights CalApply CalApplySpec CalApplyProofs AutoProofs.
Open Scope nat_scope.
Ltac Zify.zify_post_hook ::= idtac.

Lemma divide_back ga gb V : ga <> C0 -> gb <> C0 ->
  (ga * Cconj gb * V * winv (gain_prod (Some ga) (Some gb)))%C = V.
Proof.
  intros Na Nb. cbn [gain_prod].
  assert (N : (ga * Cconj gb)%C <> C0).
  { intros Z. apply Cmul_integral in Z as [Z|Z]; [auto|]. now apply (proj1 (Cconj_eq0 gb)) in Z. }
  pose proof (winv_inv _ N) as W. revert W. generalize (winv (Some (ga * Cconj gb)%C)). intros w W.
  transitivity (V * (w * (ga * Cconj gb)))%C; [ring|]. rewrite W. ring.
Qed.
Lemma unusable_prod x y : unusable x \/ unusable y -> unusable (gain_prod x y).
Proof.
  unfold unusable. intros [[-> | ->]|[-> | ->]]; try now left.
  - destruct y as [c|]; [right|now left]. cbn [gain_prod]. now replace (C0 * Cconj c)%C with C0 by ring.
  - destruct x; now left.
  - destruct x as [c|]; [right|now left]. cbn [gain_prod]. rewrite Cconj_0.
    now replace (c * C0)%C with C0 by ring.
Qed.
Lemma Cmul_0_r c : (c * C0)%C = C0.
Proof. ring. Qed.

(** ** C26 *)

(** Unless there are four polarisations and a model to fit a cross phase to: every visibility is
    divided by the gain of its first tile and the conjugate of that of its second tile, each at the
    visibility's own frequency and feed, and set to 0 when one of these is 0 or NaN. *)
Theorem C26_apply_partial : forall vis tile_a tile_b gain arrays,
  matching vis tile_a tile_b gain -> (d_pol vis = 4 -> arrays = false) ->
  exists out, vis_calibration_apply vis (d_freq vis) tile_a tile_b gain arrays = Ok out
    /\ d_pol out = d_pol vis /\ d_freq out = d_freq vis /\ d_bl out = d_bl vis
    /\ forall p f b, p < d_pol vis -> f < d_freq vis -> b < d_bl vis ->
         (forall ga gb V, gain_a gain tile_a p f b = Some ga -> gain_b gain tile_b p f b = Some gb ->
            ga <> C0 -> gb <> C0 -> at3 vis p f b = (ga * Cconj gb * V)%C -> at3 out p f b = V)
         /\ (unusable (gain_a gain tile_a p f b) \/ unusable (gain_b gain tile_b p f b) ->
               at3 out p f b = C0).
Proof.
  intros vis ta tb gain arrays M A.
  destruct (apply_ok vis ta tb gain arrays M A) as (out & E & D1 & D2 & D3 & H).
  exists out. repeat (split; auto).
  - intros ga gb V Ea Eb Na Nb Ev. rewrite (H p f b) by auto. rewrite Ea, Eb, Ev. now apply divide_back.
  - intros U. rewrite (H p f b) by auto. rewrite (winv_bad _ (unusable_prod _ _ U)). apply Cmul_0_r.
Qed.
Print Assumptions C26_apply_partial.

(** With four polarisations and a model, as main calls it, no input is calibrated: the function
    raises (it asks the observation for "n_times"). *)
Theorem C26_four_pols_refuted : forall vis n_freq tile_a tile_b gain,
  d_pol vis = 4 -> exists e, vis_calibration_apply vis n_freq tile_a tile_b gain true = Err e.
Proof.
  intros vis n_freq ta tb gain H4. unfold vis_calibration_apply. rewrite H4.
  destruct (fold_res _ _ vis) as [v|e] eqn:E; cbn [bind]; [|eauto].
  assert (D : d_pol v = 4).
  { clear -E H4. revert vis E H4. generalize (seq 0 4). induction l as [|p l IH]; intros vis E H4; cbn [fold_res] in E.
    - congruence.
    - destruct (apply_pol n_freq ta tb gain p vis) as [v1|] eqn:E1; cbn [bind] in E; [|discriminate].
      apply (IH v1 E). clear -E1 H4. unfold apply_pol in E1.
      destruct (py_list gain_pol_1 p) as [p1|]; cbn [bind] in E1; [|discriminate].
      destruct (py_list gain_pol_2 p) as [p2|]; cbn [bind] in E1; [|discriminate].
      destruct (negb _); [discriminate|]. destruct (_ <? _); [discriminate|].
      destruct (map_res _ ta); cbn [bind] in E1; [|discriminate].
      destruct (map_res _ tb); cbn [bind] in E1; [|discriminate].
      destruct (negb _); [discriminate|]. injection E1 as <-. exact H4. }
  rewrite D. cbn. eauto.
Qed.
Print Assumptions C26_four_pols_refuted.

(** Two feeds, one channel, tiles 1-2 and 2-1, with an imaginary gain and a NaN gain. *)
Definition ex_gain : arr3 (option C) := Arr3 2 1 2 (fun p f t =>
  match p, t with 0, 0 => Some (mkC 0 (Q2Qc 2)) | 0, _ => Some (mkC 1 1) | _, 0 => None | _, _ => Some C1 end).
Definition ex_vis : arr3 C := Arr3 2 1 2 (fun p f b => mkC (Q2Qc (inject_Z (Z.of_nat (3 + b)))) 1).
Example C26_example : matching ex_vis [1%Z; 2%Z] [2%Z; 1%Z] ex_gain /\ (d_pol ex_vis = 4 -> true = false)
  /\ gain_a ex_gain [1%Z; 2%Z] 0 0 0 = Some (mkC 0 (Q2Qc 2))
  /\ gain_b ex_gain [2%Z; 1%Z] 0 0 0 = Some (mkC 1 1)
  /\ unusable (gain_a ex_gain [1%Z; 2%Z] 1 0 0).
Proof.
  assert (G : forall l, length l = 2 -> (forall v, In v l -> (1 <= v <= 2)%Z) -> good_tiles 2 2 l).
  { intros l L H. split; auto. intros b Hb. apply H, nth_In. lia. }
  split; [|split; [discriminate|split; [reflexivity|split; [reflexivity|now left]]]].
  split; cbn [d_freq d_pol d_bl ex_vis ex_gain]; auto.
  - intros p Hp. destruct p as [|[|p]]; cbn; lia.
  - apply G; auto. intros v [<-|[<-|[]]]; lia.
  - apply G; auto. intros v [<-|[<-|[]]]; lia.
Qed.

(** ** C27 *)

(** For any square root that is positive on positive numbers, whatever np.empty returns: dividing by
    the ratio and multiplying it back restores the gain of every tile whose autocorrelation (the last
    one listed, if several) and the reference column are positive. *)
Theorem C27_restores_partial : forall sqrt_ junk n_pol n_freq n_tile gain vis_auto tiles ref,
  (forall x, (0 < x)%Qc -> (0 < sqrt_ x)%Qc) ->
  ratio_input n_pol n_freq n_tile gain vis_auto tiles ref ->
  exists g ratio g',
    cal_auto_ratio_divide sqrt_ junk n_pol n_freq n_tile gain vis_auto tiles (Z.of_nat ref) = Ok (g, ratio)
    /\ cal_auto_ratio_remultiply n_pol g ratio tiles = Ok g'
    /\ forall p f t k, p < n_pol -> f < n_freq -> last_pos tiles t k ->
         (0 < at3 vis_auto p f k)%Qc -> (0 < at3 vis_auto p f (Z.to_nat (nth ref tiles 0%Z)))%Qc ->
         at3 ratio p f t
           = sqrt_ (at3 vis_auto p f k / at3 vis_auto p f (Z.to_nat (nth ref tiles 0%Z)))%Qc
         /\ (at3 ratio p f t <> 0)%Qc
         /\ at3 g p f t = Cscale (/ at3 ratio p f t)%Qc (at3 gain p f t)
         /\ at3 g' p f t = at3 gain p f t.
Proof.
  intros sqrt_ junk n_pol n_freq n_tile gain va tiles ref Hs I.
  destruct (divide_ok sqrt_ junk _ _ _ _ _ _ _ I) as (g & r & E & D1 & D2 & D3 & D4 & H1 & H2 & _).
  destruct (remultiply_ok n_pol n_tile g r tiles D3 D4 (ri_tiles _ _ _ _ _ _ _ I))
    as (g' & E' & _ & _ & _ & R1 & _).
  exists g, r, g'. split; auto. split; auto. intros p f t k Hp Hf Hk Pa Pr.
  assert (P : (0 < at3 r p f t)%Qc).
  { rewrite (H2 p f t k Hk). apply Hs, Qc_pos_div; auto. }
  split; [exact (H2 p f t k Hk)|]. split; [intros Z; rewrite Z in P; now apply Qclt_not_eq in P|].
  split; [now apply H1|]. rewrite (R1 p f t k Hp Hk), (H1 p f t Hp). now apply scale_back.
Qed.
Print Assumptions C27_restores_partial.

(** Two tiles of which only the first has an autocorrelation. *)
Definition ex_g : arr3 C := Arr3 1 1 2 (fun _ _ _ => C1).
Definition ex_auto : arr3 Qc := Arr3 1 1 1 (fun _ _ _ => Q2Qc 4).
Example C27_example : ratio_input 1 1 2 ex_g ex_auto [0%Z] 0 /\ last_pos [0%Z] 0 0
  /\ (0 < at3 ex_auto 0 0 0)%Qc.
Proof.
  split; [|split; [|reflexivity]].
  - split; cbn [d_pol d_freq d_bl ex_g ex_auto length nth]; auto; try lia. intros v [<-|[]]. lia.
  - split; [cbn; lia|split; [reflexivity|intros j Hj; cbn in Hj; lia]].
Qed.

(** The gain of the second tile comes out divided by whatever np.empty left in the ratio array: it is
    only unchanged if that memory happened to hold 1. *)
Theorem C27_other_tiles_refuted : forall sqrt_ junk,
  exists g ratio g',
    cal_auto_ratio_divide sqrt_ junk 1 1 2 ex_g ex_auto [0%Z] 0 = Ok (g, ratio)
    /\ cal_auto_ratio_remultiply 1 g ratio [0%Z] = Ok g'
    /\ ~ In 1%Z [0%Z]
    /\ (at3 g' 0 0 1 = at3 ex_g 0 0 1 <-> junk 0 0 1 = 1%Qc).
Proof.
  intros sqrt_ junk. destruct C27_example as [I _].
  destruct (divide_ok sqrt_ junk _ _ _ _ _ _ _ I) as (g & r & E & D1 & D2 & D3 & D4 & H1 & _ & H3).
  destruct (remultiply_ok 1 2 g r [0%Z] D3 D4 (ri_tiles _ _ _ _ _ _ _ I)) as (g' & E' & _ & _ & _ & _ & R2).
  assert (N : ~ In (Z.of_nat 1) [0%Z]) by (intros [K|[]]; discriminate).
  exists g, r, g'. split; auto. split; auto. split; auto.
  rewrite (R2 0 0 1 N), (H1 0 0 1 (Nat.lt_0_1)), (H3 0 0 1 N). cbn [at3 ex_g].
  set (j := junk 0 0 1). split.
  - intros K. apply (f_equal re) in K. cbn [Cscale re C1] in K.
    destruct (Qc_eq_dec j 0) as [Z|Z]; [rewrite Z in K; discriminate K|].
    transitivity (j * (/ j * 1))%Qc; [rewrite K; ring|field; auto].
  - intros ->. apply C_ext; reflexivity.
Qed.
Print Assumptions C27_other_tiles_refuted.

(** ** C58 *)

(** When every tile has one autocorrelation, in tile order, the ratio of tile t is the square root of
    its autocorrelation over that of the reference tile. *)
Theorem C58_reference_partial : forall sqrt_ junk n_pol n_freq n_tile gain vis_auto ref,
  0 < n_pol -> ref < n_tile ->
  d_pol gain = n_pol -> d_freq gain = n_freq -> d_bl gain = n_tile ->
  d_pol vis_auto = n_pol -> d_freq vis_auto = n_freq -> d_bl vis_auto = n_tile ->
  exists g ratio,
    cal_auto_ratio_divide sqrt_ junk n_pol n_freq n_tile gain vis_auto (map Z.of_nat (seq 0 n_tile)) (Z.of_nat ref)
      = Ok (g, ratio)
    /\ forall p f t, p < n_pol -> f < n_freq -> t < n_tile ->
         at3 ratio p f t = sqrt_ (at3 vis_auto p f t / at3 vis_auto p f ref)%Qc.
Proof.
  intros sqrt_ junk n_pol n_freq n_tile gain va ref P R G1 G2 G3 A1 A2 A3.
  assert (N : forall k, k < n_tile -> nth k (map Z.of_nat (seq 0 n_tile)) 0%Z = Z.of_nat k).
  { intros k Hk. change 0%Z with (Z.of_nat 0). rewrite map_nth, seq_nth by auto. reflexivity. }
  assert (I : ratio_input n_pol n_freq n_tile gain va (map Z.of_nat (seq 0 n_tile)) ref).
  { split; rewrite ?map_length, ?seq_length; auto.
    - intros v Hv. apply in_map_iff in Hv as (k & <- & Hk). apply in_seq in Hk. lia.
    - rewrite N by auto. lia. }
  destruct (divide_ok sqrt_ junk _ _ _ _ _ _ _ I) as (g & r & E & _ & _ & _ & _ & _ & H2 & _).
  exists g, r. split; auto. intros p f t Hp Hf Ht.
  rewrite (H2 p f t t).
  - rewrite N by auto. now rewrite Nat2Z.id.
  - split; [now rewrite map_length, seq_length|]. split; [now apply N|].
    rewrite map_length, seq_length. intros j Hj. rewrite N by lia. lia.
Qed.
Print Assumptions C58_reference_partial.

(** Three tiles, autocorrelations 4 and 1 of tiles 1 and 2 only, and the first of them as reference:
    the reference tile's own ratio is sqrt(4/1), not sqrt(4/4); with the second as reference the
    call raises. *)
Definition ex_auto2 : arr3 Qc := Arr3 1 1 2 (fun _ _ k => if k =? 0 then Q2Qc 4 else 1%Qc).
Definition ex_g3 : arr3 C := Arr3 1 1 3 (fun _ _ _ => C1).
Theorem C58_reference_refuted : forall sqrt_ junk,
  (exists g ratio,
     cal_auto_ratio_divide sqrt_ junk 1 1 3 ex_g3 ex_auto2 [1%Z; 2%Z] 0 = Ok (g, ratio)
     /\ at3 ratio 0 0 1 = sqrt_ (Q2Qc 4))
  /\ cal_auto_ratio_divide sqrt_ junk 1 1 3 ex_g3 ex_auto2 [1%Z; 2%Z] 1 = Err IndexError.
Proof.
  intros sqrt_ junk. split; [|reflexivity].
  eexists _, _. split; [reflexivity|]. cbn -[Q2Qc Qcmult Qcinv]. f_equal.
  apply Qc_is_canon. reflexivity.
Qed.
Print Assumptions C58_reference_refuted.

(** ** C32 *)

(** Without time averaging: one column per autocorrelation, in order, with its tile. *)
Theorem C32_all : forall n_pol n_freq tile_a tile_b time_use vis,
  length tile_b = length tile_a -> d_bl vis = length tile_a -> n_pol <= d_pol vis ->
  (exists b, auto tile_a tile_b b) ->
  exists out tiles which,
    vis_extract_autocorr n_pol n_freq tile_a tile_b time_use false vis = Ok (out, tiles)
    /\ d_pol out = n_pol /\ d_freq out = d_freq vis /\ d_bl out = length which /\ length tiles = length which
    /\ StronglySorted lt which /\ (forall b, In b which <-> auto tile_a tile_b b)
    /\ forall k, k < length which ->
         nth k tiles 0%Z = (nth (nth k which 0%nat) tile_a 0 - 1)%Z
         /\ forall p f, p < n_pol -> f < d_freq vis -> at3 out p f k = at3 vis p f (nth k which 0).
Proof.
  intros n_pol n_freq ta tb tu vis L D P X.
  destruct (extract_all_ok n_pol n_freq ta tb tu vis L D P X) as (out & E & D1 & D2 & D3 & H).
  exists out. eexists. exists (autos ta tb). split; [exact E|]. rewrite map_length.
  split; [exact D1|]. split; [exact D2|]. split; [exact D3|]. split; [reflexivity|].
  split; [apply autos_sorted|]. split; [apply autos_In|]. intros k Hk. split; [|intros; apply H].
  - set (G := fun b => (nth b ta 0 - 1)%Z). rewrite (nth_indep _ 0%Z (G 0)) by now rewrite map_length.
    apply (map_nth G).
Qed.
Print Assumptions C32_all.

(** With time averaging and at least two used times: one column per tile with autocorrelations, in
    increasing order, each the mean over the used times. *)
Theorem C32_average_partial : forall n_pol n_freq tile_a tile_b time_use vis obs_at,
  length tile_b = length tile_a -> d_bl vis = length tile_a -> d_freq vis = n_freq -> n_pol <= d_pol vis ->
  auto_layout tile_a tile_b (length time_use) obs_at ->
  (exists b, auto tile_a tile_b b) ->
  forall used : nat -> bool, (forall s, used s = true <-> nth s time_use 0%Z <> 0%Z) ->
  let times := filter used (seq 0 (length time_use)) in
  2 <= length times ->
  exists out tiles,
    vis_extract_autocorr n_pol n_freq tile_a tile_b time_use true vis = Ok (out, tiles)
    /\ d_pol out = n_pol /\ d_freq out = n_freq /\ d_bl out = length tiles
    /\ StronglySorted Z.lt tiles
    /\ (forall v, In v tiles <-> exists b, auto tile_a tile_b b /\ nth b tile_a 0%Z = (v + 1)%Z)
    /\ forall p f k, p < n_pol -> f < n_freq -> k < length tiles ->
         (at3 out p f k * Q2Qc (inject_Z (Z.of_nat (length times))))%Qc
         = Qcsum (map (fun s => at3 vis p f (obs_at (nth k tiles 0 + 1)%Z s)) times).
Proof.
  intros n_pol n_freq ta tb tu vis obs_at L D Df P Lay X used HU times H2.
  assert (ET : times = used_times tu).
  { apply filter_ext. intros s. apply eq_true_iff_eq. rewrite HU, negb_true_iff, Z.eqb_neq. tauto. }
  rewrite ET in *. clear ET times.
  destruct (extract_avg_ok n_pol n_freq ta tb tu vis obs_at L D Df P Lay X H2)
    as (out & tiles & E & D1 & D2 & D3 & S1 & T1 & H).
  exists out, tiles. split; [exact E|]. split; [exact D1|]. split; [exact D2|]. split; [exact D3|].
  split; [exact S1|]. split; [exact T1|].
  intros p f k Hp Hf Hk. rewrite (H p f k Hk). field.
  intros Z. apply (f_equal this) in Z. assert (inject_Z (Z.of_nat (length (used_times tu))) == 0)%Q.
  { rewrite <- (Qred_correct (inject_Z _)). change (Qred (inject_Z ?z)) with (this (Q2Qc (inject_Z z))).
    rewrite Z. reflexivity. }
  unfold Qeq in H0. cbn in H0. lia.
Qed.
Print Assumptions C32_average_partial.

(** Two times, tiles 1 and 2, baselines 1-1, 1-2, 2-2 at each time. *)
Definition ex_ta : list Z := [1; 1; 2; 1; 1; 2]%Z.
Definition ex_tb : list Z := [1; 2; 2; 1; 2; 2]%Z.
Definition ex_at (v : Z) (s : nat) : nat := s * 3 + (if (v =? 1)%Z then 0 else 2).
Example C32_example : auto_layout ex_ta ex_tb 2 ex_at /\ (exists b, auto ex_ta ex_tb b).
Proof.
  assert (A : forall b, auto ex_ta ex_tb b <-> b = 0 \/ b = 2 \/ b = 3 \/ b = 5).
  { intros b. split.
    - intros [H1 H2]. cbn in H1. destruct b as [|[|[|[|[|[|b]]]]]]; cbn in H2; try lia.
    - intros [-> | [-> | [-> | ->]]]; split; cbn; auto; lia. }
  split; [|exists 0; apply A; auto].
  intros v (b0 & Hb0 & Hv). apply A in Hb0.
  assert (V : v = 1%Z \/ v = 2%Z) by (destruct Hb0 as [-> | [-> | [-> | ->]]]; cbn in Hv; lia).
  split.
  - intros s s' Hs. unfold ex_at. destruct V as [-> | ->]; cbn; lia.
  - intros b. rewrite A. unfold ex_at. split.
    + intros [[-> | [-> | [-> | ->]]] K]; clear Hv V; cbn in K; subst v; cbn;
        first [exists 0; split; [lia|reflexivity] | exists 1; split; [lia|reflexivity]].
    + intros (s & Hs & ->). destruct s as [|[|s]]; [| |lia]; destruct V as [-> | ->]; cbn; auto 10.
Qed.

(** With averaging and a single used time (of several channels) no input gives a result. *)
Theorem C32_single_time_refuted : forall n_pol n_freq tile_a tile_b time_use vis,
  (exists b, auto tile_a tile_b b) -> 0 < n_pol -> 2 <= n_freq ->
  (exists s, s < length time_use /\ nth s time_use 0%Z <> 0%Z
     /\ forall s', s' < length time_use -> nth s' time_use 0%Z <> 0%Z -> s' = s) ->
  exists e, vis_extract_autocorr n_pol n_freq tile_a tile_b time_use true vis = Err e.
Proof.
  intros n_pol n_freq ta tb tu vis X P F (s & Hs & Hz & Hu). apply extract_one_err; auto.
  assert (S1 : StronglySorted lt (used_times tu)) by (apply filter_sorted, seq_sorted).
  assert (All : forall x, In x (used_times tu) -> x = s).
  { intros x Hx. apply filter_In in Hx as [H1 H2]. apply in_seq in H1.
    apply negb_true_iff, Z.eqb_neq in H2. apply Hu; auto. lia. }
  destruct (used_times tu) as [|x [|y l]]; cbn; try lia. exfalso.
  inversion S1 as [|? ? _ Hl]; subst. inversion Hl as [|? ? Hxy _]; subst.
  rewrite (All x) in Hxy by (now left). rewrite (All y) in Hxy by (right; now left). lia.
Qed.
Print Assumptions C32_single_time_refuted.
