(** C77: beams from Gaussian lobes: the beam image of a channel, of a band, its square, and the cube of power beams with its
    mask. Model: Beam.v; vocabulary: BeamSpec.v. *)
From Coq Require Import String Reals Lra.
From Verif Require Import Base NpArr PyIndex Sky DirtyImage Quickview QuickviewSpec Beam BeamSpec BeamProofs.
Import ListNotations.
Open Scope R_scope.
Ltac Zify.zify_post_hook ::= idtac.

(** The image of the lobes in the parameters, whose number must be a multiple of five: their sum at every position of the
    grid. *)
Theorem C77_image : forall xs ys p, List.length xs = List.length ys ->
  (forall ls, p = parameters ls -> exists a, gaussian_decomp xs ys p None None = Ok (a, p) /\ sized (List.length xs) a
     /\ forall i j, (i < List.length xs)%nat -> (j < List.length xs)%nat -> at2 a i j = pattern ls (nth i ys 0) (nth j xs 0))
  /\ ((forall ls, p <> parameters ls) -> forall npix res, gaussian_decomp xs ys p npix res = Err ValueError)
  /\ ((exists ls, p = parameters ls) <-> (List.length p mod 5 = 0)%nat).
Proof.
  intros xs ys p L. split; [|split].
  - intros ls ->. destruct (decomp_ok xs ys ls None None L) as (a & E & R0 & C0 & V). exists a. cbn [widen move] in E. rewrite map_id in E. split; [exact E|].
    split; [split; assumption|]. intros i j I J. now rewrite V.
  - intros H npix res. destruct (lobes_five p) as [(ls & _ & E)|(E & _)]; [destruct (H ls E)|]. unfold gaussian_decomp. rewrite E. reflexivity.
  - split.
    + intros (ls & ->). unfold parameters. induction ls as [|l ls IH]; [reflexivity|]. cbn [map List.concat row app List.length].
      replace (S (S (S (S (S (List.length (List.concat (map row ls))))))))%nat with (List.length (List.concat (map row ls)) + 1 * 5)%nat by lia. now rewrite Nat.mod_add by lia.
    + intros M. destruct (lobes_five p) as [(ls & _ & E)|(_ & N)]; [eauto|contradiction].
Qed.
Print Assumptions C77_image.

(** On a grid of n pixels with [r] pixels for one of the fit, whose [m] pixels have the same centre: the value of the fitted
    pattern in the same direction. *)
Theorem C77_regrid : forall xs ys ls m r, List.length xs = List.length ys -> r <> 0 -> round_lobes ls ->
  exists a p, gaussian_decomp xs ys (parameters ls) (Some m) (Some r) = Ok (a, p) /\ sized (List.length xs) a
  /\ forall i j, (i < List.length xs)%nat -> (j < List.length xs)%nat ->
     at2 a i j = pattern ls ((nth i ys 0 - INR (List.length xs) / 2) / r + m / 2) ((nth j xs 0 - INR (List.length xs) / 2) / r + m / 2).
Proof.
  intros xs ys ls m r L R0 RL. destruct (decomp_ok xs ys ls (Some m) (Some r) L) as (a & E & S1 & S2 & V). eexists a, _. split; [exact E|]. split; [split; assumption|].
  intros i j I J. rewrite V by assumption. unfold pattern. f_equal. apply map_ext_in. intros l IL. unfold round_lobes in RL. rewrite Forall_forall in RL. destruct (RL l IL).
  now apply regrid_lobe.
Qed.
Print Assumptions C77_regrid.

(** The caller's parameters are not those of before whenever the two grids differ in size, so that a second call with the
    same arguments gives something else. *)
Theorem C77_params_refuted : forall xs ys l ls m res, List.length xs = List.length ys -> m <> INR (List.length xs) ->
  exists a p, gaussian_decomp xs ys (parameters (l :: ls)) (Some m) res = Ok (a, p) /\ nth 1 p 0 = l_ox l + (INR (List.length xs) - m) / 2
  /\ p <> parameters (l :: ls).
Proof.
  intros xs ys l ls m res L M. destruct (decomp_ok xs ys (l :: ls) (Some m) res L) as (a & E & _). eexists a, _. split; [exact E|].
  assert (N : nth 1 (parameters (map (fun l0 => widen res (move (List.length xs) (Some m) l0)) (l :: ls))) 0 = l_ox l + (INR (List.length xs) - m) / 2).
  { cbn [map]. rewrite move_some. destruct res; reflexivity. }
  split; [exact N|]. intros C. rewrite C in N. cbn in N. lra.
Qed.
Print Assumptions C77_params_refuted.
(** An image that is not square cannot be made. *)
Theorem C77_not_square_refuted : forall xs ys l ls npix res, List.length xs <> List.length ys ->
  gaussian_decomp xs ys (parameters (l :: ls)) npix res = Err ValueError.
Proof.
  intros xs ys l ls npix res N. unfold gaussian_decomp. rewrite lobes_parameters. cbn [bind map]. cbv zeta. unfold axis_ok.
  destruct (Nat.eqb_spec (List.length ys) (List.length xs)); [congruence|]. destruct (Nat.eqb_spec (List.length xs) (List.length ys)); [congruence|].
  destruct (Nat.eqb_spec (List.length ys) 1), (Nat.eqb_spec (List.length xs) 1); cbn [orb andb]; try reflexivity. congruence.
Qed.
Print Assumptions C77_not_square_refuted.
(** The transform of several lobes is an error unless there are as many lobes as columns. *)
Theorem C77_transform_refuted : forall xs ys ls npix res, (2 <= List.length ls)%nat -> List.length ls <> List.length ys ->
  gaussian_transform xs ys (parameters ls) npix res = Err ValueError.
Proof.
  intros xs ys ls npix res N M. unfold gaussian_transform. rewrite lobes_parameters. cbn [bind]. cbv zeta. rewrite map_length. unfold axis_ok.
  destruct (Nat.eqb_spec (List.length ls) (List.length ys)); [congruence|]. destruct (Nat.eqb_spec (List.length ls) 1); [lia|]. reflexivity.
Qed.
Print Assumptions C77_transform_refuted.
(** That of one lobe is smallest, not largest, at the centre. *)
Theorem C77_transform_grows_refuted : forall xs ys l hx hy, l_amp l <> 0 -> l_sx l <> 0 -> l_sy l <> 0 ->
  List.length xs = (2 * hx)%nat -> List.length ys = (2 * hy)%nat -> (0 < hx)%nat -> (0 < hy)%nat ->
  exists a, gaussian_transform xs ys (parameters [l]) None None = Ok a
  /\ forall i j, (i < 2 * hx)%nat -> (j < 2 * hy)%nat -> i <> hx \/ j <> hy -> cx_abs (at2 a hx hy) < cx_abs (at2 a i j).
Proof.
  intros xs ys l hx hy A SX SY LX LY HX HY. unfold gaussian_transform. rewrite lobes_parameters. cbn [bind]. cbv zeta. rewrite map_length. cbn [List.length].
  unfold axis_ok. rewrite Nat.eqb_refl, orb_true_r. eexists. split; [reflexivity|]. intros i j I J D. cbn [at2].
  assert (MAG : forall c t, cx_abs (cscale c (cexp_i t)) = Rabs c).
  { intros c t. unfold cx_abs, cscale, cexp_i. cbn [fst snd]. replace ((c * cos t) ^ 2 + (c * sin t) ^ 2) with (Rsqr c * (Rsqr (sin t) + Rsqr (cos t))) by (unfold Rsqr; ring).
    rewrite sin2_cos2, Rmult_1_r. apply sqrt_Rsqr_abs. }
  rewrite !MAG. unfold bidx. cbn [Nat.eqb map nth move widen spread]. rewrite LX, LY, !mult_INR. change (INR 2) with 2.
  assert (X : 0 < INR hx) by (apply lt_0_INR; lia). assert (Y : 0 < INR hy) by (apply lt_0_INR; lia). assert (PP := PI_RGT_0).
  set (a := l_amp l ^ 2 * PI / (2 * INR hx * (2 * INR hy)) * l_sx l * l_sy l).
  assert (NA : a <> 0).
  { assert (D0 : 0 < 2 * INR hx * (2 * INR hy)) by (apply Rmult_lt_0_compat; lra). assert (A2 : l_amp l ^ 2 <> 0) by (now apply pow_nonzero).
    unfold a, Rdiv. apply Rmult_integral_contrapositive_currified; [|exact SY]. apply Rmult_integral_contrapositive_currified; [|exact SX].
    apply Rmult_integral_contrapositive_currified; [|apply Rinv_neq_0_compat; lra]. apply Rmult_integral_contrapositive_currified; [exact A2|lra]. }
  rewrite !Rabs_mult. apply Rmult_lt_compat_l; [now apply Rabs_pos_lt|]. rewrite !Rabs_pos_eq by (left; apply exp_pos). apply exp_increasing.
  replace (INR hx - 2 * INR hx / 2) with 0 by lra. replace (INR hy - 2 * INR hy / 2) with 0 by lra.
  set (c := 2 * PI ^ 2 / (2 * INR hx * (2 * INR hy))). assert (C : 0 < c).
  { unfold c. apply Rdiv_lt_0_compat; [|apply Rmult_lt_0_compat; lra]. apply Rmult_lt_0_compat; [lra|]. now apply pow_lt. }
  assert (SQ : forall u, u <> 0 -> 0 < u ^ 2) by (intros u U; rewrite <- Rsqr_pow2; now apply Rlt_0_sqr).
  assert (SN : forall u, 0 <= u ^ 2) by (intros u; apply pow2_ge_0).
  assert (KX : i <> hx -> INR i - 2 * INR hx / 2 <> 0) by (intros N E; apply N, INR_eq; lra).
  assert (KY : j <> hy -> INR j - 2 * INR hy / 2 <> 0) by (intros N E; apply N, INR_eq; lra).
  replace (c * l_sx l ^ 2 * 0 ^ 2 + l_sy l ^ 2 * 0 ^ 2) with 0 by ring.
  assert (P1 : 0 < c * l_sx l ^ 2) by (apply Rmult_lt_0_compat; auto). assert (P2 : 0 < l_sy l ^ 2) by auto.
  destruct D as [D|D].
  - apply Rplus_lt_le_0_compat; [apply Rmult_lt_0_compat; auto|apply Rmult_le_pos; [lra|apply SN]].
  - apply Rplus_le_lt_0_compat; [apply Rmult_le_pos; [lra|apply SN]|apply Rmult_lt_0_compat; auto].
Qed.
Print Assumptions C77_transform_grows_refuted.

(** The beam over a band: the sum of the responses of the channels in use over the sum of their norms. *)
Theorem C77_mean : forall p o pol ls fs, usable p o pol ls -> channels_are o fs -> sumR (map (fun f => norm_of p (bin_of o f)) fs) <> 0 ->
  exists a, beam_image p o pol None false = Ok a /\ sized (b_dim o) a
  /\ forall i j, (i < b_dim o)%nat -> (j < b_dim o)%nat ->
     at2 a i j = sumR (map (fun f => response (ls (bin_of o f)) (p_horizon p) (b_dim o) i j) fs) / sumR (map (fun f => norm_of p (bin_of o f)) fs).
Proof. intros p o pol ls fs U C N. now apply mean_ok. Qed.
Print Assumptions C77_mean.
(** It does not depend on the size of the image: two images of different size have the same value in the same direction. *)
Theorem C77_grid : forall p o o' pol ls, usable p o pol ls -> usable p o' pol ls -> b_fbin o' = b_fbin o -> b_use o' = b_use o ->
  sumR (map (fun f => norm_of p (bin_of o f)) (used_channels o)) <> 0 ->
  exists a a', beam_image p o pol None false = Ok a /\ beam_image p o' pol None false = Ok a'
  /\ forall i j i' j', (i < b_dim o)%nat -> (j < b_dim o)%nat -> (i' < b_dim o')%nat -> (j' < b_dim o')%nat ->
     INR i / INR (b_dim o) = INR i' / INR (b_dim o') -> INR j / INR (b_dim o) = INR j' / INR (b_dim o') -> at2 a' i' j' = at2 a i j.
Proof.
  intros p o o' pol ls U U' FB FU NZ.
  assert (CA : channels_are o (used_channels o)).
  { split; [|apply used_is]. unfold used_channels. rewrite (where_spec _ _ false). apply NoDup_filter, seq_NoDup. }
  assert (CA' : channels_are o' (used_channels o)) by (unfold channels_are, is_used in *; now rewrite FU).
  assert (BE : forall f, bin_of o' f = bin_of o f) by (intros f; unfold bin_of; now rewrite FB).
  assert (ME : map (fun f => norm_of p (bin_of o' f)) (used_channels o) = map (fun f => norm_of p (bin_of o f)) (used_channels o)) by (apply map_ext; intros f; now rewrite BE).
  destruct (mean_ok p o pol ls U _ CA NZ) as (a & E & _ & V). destruct (mean_ok p o' pol ls U' _ CA') as (a' & E' & _ & V'); [now rewrite ME|].
  exists a, a'. split; [exact E|]. split; [exact E'|]. intros i j i' j' I J I' J' X Y. rewrite V, V' by assumption. rewrite ME. f_equal. f_equal. apply map_ext. intros f. rewrite BE.
  assert (N : INR (b_dim o) <> 0) by (apply not_0_INR; lia). assert (N' : INR (b_dim o') <> 0) by (apply not_0_INR; lia).
  assert (FP : forall k k', INR k / INR (b_dim o) = INR k' / INR (b_dim o') -> fit_pixel (p_horizon p) (b_dim o') k' = fit_pixel (p_horizon p) (b_dim o) k).
  { intros k k' K. unfold fit_pixel. f_equal. replace ((INR k' - INR (b_dim o') / 2) * (p_horizon p / INR (b_dim o'))) with ((INR k' / INR (b_dim o') - 1 / 2) * p_horizon p) by (now field).
    rewrite <- K. now field. }
  unfold response. now rewrite (FP _ _ X), (FP _ _ Y).
Qed.
Print Assumptions C77_grid.

(** The power beam of a channel, or of a band in one bin: the square of the response over the norm of the bin. *)
Theorem C77_square_partial : forall p o pol ls, usable p o pol ls ->
  (forall f, (f < List.length (b_fbin o))%nat -> norm_of p (bin_of o f) <> 0 ->
     exists a, beam_image p o pol (Some f) true = Ok a /\ is_power p o (ls (bin_of o f)) (bin_of o f) a)
  /\ (forall b, (exists f, is_used o f) -> (forall f, is_used o f -> bin_of o f = b) -> norm_of p b <> 0 ->
     exists a, beam_image p o pol None true = Ok a /\ is_power p o (ls b) b a).
Proof.
  intros p o pol ls U. split.
  - intros f F N. destruct (square_channel p o pol ls f U F N) as (a & E & S0 & V). exists a. split; [exact E|]. split; assumption.
  - intros b (f & F) H N. pose proof U as []. assert (CL : forall f, In f (used_channels o) -> (f < List.length (b_fbin o))%nat) by (intros g G; pose proof (used_lt _ _ G); lia).
    assert (L : (b < List.length (p_fnorm p))%nat) by (rewrite <- (H f F); apply u_bins, CL; now apply used_is).
    destruct (square_const p o pol ls None (map (bin_of o) (used_channels o)) b U) as (a & E & S0 & V); auto.
    + now apply lookup_bins.
    + apply used_is in F. destruct (used_channels o); [destruct F|discriminate].
    + intros x X. apply in_map_iff in X as (g & <- & G). apply H. now apply used_is.
    + exists a. split; [exact E|]. split; assumption.
Qed.
Print Assumptions C77_square_partial.
(** With two channels in different bins the response of the lower bin, divided by the number of baselines, is added to that of
    the higher one before it is squared. *)
Theorem C77_square_refuted : forall p o pol ls f1 f2 ids, usable p o pol ls -> p_id p pol = Ok ids -> channels_are o [f1; f2] -> (f1 < f2)%nat ->
  (bin_of o f1 < bin_of o f2)%nat -> norm_of p (bin_of o f1) + norm_of p (bin_of o f2) <> 0 ->
  exists a, beam_image p o pol None true = Ok a
  /\ (forall i j, (i < b_dim o)%nat -> (j < b_dim o)%nat ->
     let r1 := response (ls (bin_of o f1)) (p_horizon p) (b_dim o) i j in let r2 := response (ls (bin_of o f2)) (p_horizon p) (b_dim o) i j in
     at2 a i j = (r1 ^ 2 + (r2 + r1 / INR (List.length ids)) ^ 2) / (norm_of p (bin_of o f1) + norm_of p (bin_of o f2))
     /\ (0 < r1 -> 0 < r2 -> at2 a i j <> (r1 ^ 2 + r2 ^ 2) / (norm_of p (bin_of o f1) + norm_of p (bin_of o f2)))).
Proof.
  intros p o pol ls f1 f2 ids U EI CA LT BL NZ.
  assert (EU : used_channels o = [f1; f2]).
  { pose proof (CalAutoProofs.where_sorted (fun b : bool => b) (b_use o) false) as ST. fold (used_channels o) in ST. pose proof (used_are _ _ CA) as PM.
    pose proof (Permutation.Permutation_length PM) as PL. destruct (used_channels o) as [|x [|y [|z r]]]; try discriminate PL.
    apply Permutation.Permutation_length_2_inv in PM. destruct PM as [PM|PM]; [now symmetry|]. injection PM as <- <-. inversion ST as [|? ? _ FA]; subst.
    rewrite Forall_forall in FA. specialize (FA f1 (or_introl eq_refl)). lia. }
  destruct (square_two p o pol ls f1 f2 ids U EI EU BL NZ) as (a & E & _ & V). exists a. split; [exact E|]. intros i j I J. cbv zeta. rewrite V by assumption. cbv zeta. split; [reflexivity|].
  set (r1 := response (ls (bin_of o f1)) _ _ _ _). set (r2 := response (ls (bin_of o f2)) _ _ _ _). intros P1 P2 C.
  assert (LI : 0 < INR (List.length ids)).
  { apply lt_0_INR. pose proof U as []. destruct u_ids as (ids' & EI' & OG & _). assert (ids' = ids) as -> by congruence. destruct ids; [congruence|cbn; lia]. }
  assert (Q : 0 < r1 / INR (List.length ids)) by (now apply Rdiv_lt_0_compat). set (q := r1 / INR (List.length ids)) in *.
  apply (f_equal (fun x => x * (norm_of p (bin_of o f1) + norm_of p (bin_of o f2)))) in C. unfold Rdiv in C. rewrite !Rmult_assoc, Rinv_l, !Rmult_1_r in C by exact NZ.
  assert (M : 0 < r2 * q) by (now apply Rmult_lt_0_compat). assert (M2 : 0 < q * q) by (now apply Rmult_lt_0_compat). lra.
Qed.
Print Assumptions C77_square_refuted.
(** Baselines in more than one group, one channel without the square, or beams without Gaussian lobes: always an error. *)
Theorem C77_groups_refuted : forall p o pol freq_i square ids a b im, p_id p pol = Ok ids -> In a ids -> In b ids -> a <> b -> p_gauss p <> None ->
  beam_image p o pol freq_i square <> Ok im.
Proof. intros. now apply (groups_error p o pol freq_i square ids a b). Qed.
Print Assumptions C77_groups_refuted.
Theorem C77_channel_refuted : forall p o pol f im, beam_image p o pol (Some f) false <> Ok im.
Proof. intros. apply channel_error. Qed.
Print Assumptions C77_channel_refuted.
Theorem C77_tables_refuted : forall p o pol freq_i square im, p_gauss p = None -> beam_image p o pol freq_i square <> Ok im.
Proof. intros. now apply tables_error. Qed.
Print Assumptions C77_tables_refuted.

(** A cube of power beams: a plane for every polarisation of the observation (whichever were asked for) and every channel asked
    for; it is the power beam of the highest bin that has channels on both sides of it. The mask is 1 where the region around
    the pointing of every polarisation and bin has the pixel, else 0. *)
Theorem C77_cube_partial : forall grow p o ls region channels n_freq_bin freq_i_arr pols threshold,
  b_elem o = b_dim o -> (0 <= b_obsx o + b_obsy o * natQ (b_dim o))%Q -> (List.length (b_fbin o) <= b_nfreq o)%nat ->
  asked o n_freq_bin freq_i_arr channels -> channels <> [] ->
  (forall f, In f channels -> (f < List.length (b_fbin o))%nat /\ norm_of p (bin_of o f) <> 0) ->
  (forall pol, (pol < b_npol o)%nat -> usable p o pol (ls pol)) ->
  (forall pol f, (pol < b_npol o)%nat -> In f channels ->
     grows grow p o (ls pol (bin_of o f)) (bin_of o f) (match threshold with Some t => t | None => 5 / 100 end) (region pol (bin_of o f))) ->
  exists cubes mask, beam_image_cube grow p o freq_i_arr pols n_freq_bin true threshold = Ok (cubes, mask)
  /\ List.length cubes = b_npol o
  /\ (forall pol, (pol < b_npol o)%nat -> List.length (nth pol cubes []) = List.length channels
      /\ forall k, (k < List.length channels)%nat -> forall d,
         (forall b, shown (map (bin_of o) channels) k b -> is_power p o (ls pol b) b (nth k (nth pol cubes []) d))
         /\ (no_lower_between (map (bin_of o) channels) ->
             is_power p o (ls pol (bin_of o (nth k channels 0%nat))) (bin_of o (nth k channels 0%nat)) (nth k (nth pol cubes []) d)))
  /\ sized (b_dim o) mask
  /\ forall i j, (at2 mask i j = 1 <-> forall pol f, (pol < b_npol o)%nat -> In f channels -> In (i * b_dim o + j)%nat (region pol (bin_of o f)))
                 /\ (at2 mask i j = 1 \/ at2 mask i j = 0).
Proof.
  intros grow p o ls region channels nb fa pols th EL XY NF A NE CH U G.
  destruct (cube_ok grow p o channels ls region EL XY (fun f F => proj1 (CH f F)) (fun f F => proj2 (CH f F)) NE NF nb fa pols th A U) as (cubes & mask & E & LC & V & SM & M).
  { intros pol b P B. apply in_map_iff in B as (f & <- & F). now apply G. }
  exists cubes, mask. split; [exact E|]. split; [exact LC|]. split; [|split; [exact SM|]].
  - intros pol P. destruct (V pol P) as (L & W). split; [exact L|]. intros k K d.
    assert (W' : forall b, shown (map (bin_of o) channels) k b -> is_power p o (ls pol b) b (nth k (nth pol cubes []) d)).
    { intros b B. rewrite (nth_indep _ d (Arr2 0 0 (fun _ _ => 0))) by (now rewrite L). now apply W. }
    split; [exact W'|]. intros NL. rewrite <- (nth_bin _ _ _ K). apply W'. apply shown_own; [exact NL|]. now rewrite map_length.
  - intros i j. rewrite M. set (t := forallb _ _).
    assert (T : t = true <-> forall pol f, (pol < b_npol o)%nat -> In f channels -> In (i * b_dim o + j)%nat (region pol (bin_of o f))).
    { unfold t. rewrite forallb_forall. split.
      - intros H pol f P F. specialize (H pol ltac:(apply in_seq; lia)). rewrite forallb_forall in H. specialize (H _ (in_map (bin_of o) _ _ F)).
        unfold inside in H. apply existsb_exists in H as (x & X & EX). apply Nat.eqb_eq in EX. now rewrite EX.
      - intros H pol P. apply in_seq in P. apply forallb_forall. intros b B. apply in_map_iff in B as (f & <- & F). unfold inside. apply existsb_exists.
        eexists. split; [apply (H pol f); [lia|exact F]|]. apply Nat.eqb_refl. }
    destruct t; split; auto; split; auto; intros H; try (exfalso; lra); try tauto. apply T in H. discriminate.
Qed.
Print Assumptions C77_cube_partial.
(** So a channel of a low bin between two of a higher bin gets the beam of the higher one. *)
Theorem C77_cube_order_refuted : forall grow p o ls region f1 f2 f3 pols threshold,
  b_elem o = b_dim o -> (0 <= b_obsx o + b_obsy o * natQ (b_dim o))%Q -> (List.length (b_fbin o) <= b_nfreq o)%nat ->
  (forall f, In f [f1; f2; f3] -> (f < List.length (b_fbin o))%nat /\ norm_of p (bin_of o f) <> 0) ->
  (forall pol, (pol < b_npol o)%nat -> usable p o pol (ls pol)) ->
  (forall pol f, (pol < b_npol o)%nat -> In f [f1; f2; f3] ->
     grows grow p o (ls pol (bin_of o f)) (bin_of o f) (match threshold with Some t => t | None => 5 / 100 end) (region pol (bin_of o f))) ->
  bin_of o f3 = bin_of o f1 -> (bin_of o f2 < bin_of o f1)%nat ->
  exists cubes mask, beam_image_cube grow p o (Some [f1; f2; f3]) pols None true threshold = Ok (cubes, mask)
  /\ forall pol d, (pol < b_npol o)%nat -> is_power p o (ls pol (bin_of o f1)) (bin_of o f1) (nth 1 (nth pol cubes []) d).
Proof.
  intros grow p o ls region f1 f2 f3 pols th EL XY NF CH U G B3 B2.
  destruct (C77_cube_partial grow p o ls region [f1; f2; f3] None (Some [f1; f2; f3]) pols th EL XY NF eq_refl ltac:(discriminate) CH U G) as (cubes & mask & E & _ & V & _).
  exists cubes, mask. split; [exact E|]. intros pol d P. destruct (V pol P) as (_ & W). apply (W 1%nat ltac:(cbn; lia) d). cbn [map]. split.
  - exists 0%nat, 2%nat. cbn. auto with arith.
  - intros b (i & j & IJ & J & Ei & Ej). cbn in J. assert (i = 0 \/ i = 1)%nat as [->| ->] by lia; cbn in Ei; lia.
Qed.
Print Assumptions C77_cube_order_refuted.
(** Frequencies instead of channel numbers: always an error. *)
Theorem C77_cube_hertz_refuted : forall grow p o freqs pols square threshold, freqs <> [] -> (forall f, In f freqs -> (b_nfreq o < f)%nat) ->
  exists e, beam_image_cube grow p o (Some freqs) pols None square threshold = Err e.
Proof. intros. now apply cube_hertz. Qed.
Print Assumptions C77_cube_hertz_refuted.

(** A psf with two bins and an observation of three channels of which the first and the last are used. *)
Definition demo_lobes (b : nat) : list lobe := [Lobe 1 6 2 6 2; Lobe (INR b) 3 1 4 1].
Definition demo_psf : psf := {| p_dim := 2; p_fnorm := [1; 2]; p_horizon := 10; p_id := fun _ => Ok [3; 3; 3]%nat;
  p_gauss := Some (fun _ b => Ok (parameters (demo_lobes b))); p_table := fun _ => Err IndexError |}.
Definition demo_bobs (bins : list nat) : bobs := {| b_npol := 2; b_nfreq := 3; b_dim := 4; b_elem := 4; b_kpix := 1 / 2; b_obsx := 2; b_obsy := 2;
  b_freq := [100; 101; 102]%Q; b_fbin := bins; b_use := [true; false; true] |}.
Definition demo_grow (a : arr2 R) (start : Z) (low : R) : result (option (list nat)) := if (start =? 10)%Z then Ok (Some [5; 6; 9; 10]%nat) else Ok None.
Lemma demo_usable bins pol : List.length bins = 3%nat -> (forall b, In b bins -> (b < 2)%nat) -> usable demo_psf (demo_bobs bins) pol demo_lobes.
Proof.
  intros L B. constructor.
  - exists [3; 3; 3]%nat. split; [reflexivity|]. split; [discriminate|]. exists 3%nat. intros i I. cbn in I. intuition.
  - eexists. split; [reflexivity|]. intros b _. split; [reflexivity|]. repeat constructor; cbn; lra.
  - intros f F. cbn in *. apply B. now apply nth_In.
  - cbn. lia.
  - cbn. lra.
  - cbn. lra.
  - cbn. lia.
Qed.
Example C77_demo :
  (exists a, beam_image demo_psf (demo_bobs [0; 0; 1]%nat) 0 None false = Ok a
     /\ at2 a 2 2 = (response (demo_lobes 0) 10 4 2 2 + response (demo_lobes 1) 10 4 2 2) / 3)
  /\ (exists a, beam_image demo_psf (demo_bobs [0; 0; 1]%nat) 0 None true = Ok a
     /\ at2 a 2 2 = (response (demo_lobes 0) 10 4 2 2 ^ 2 + (response (demo_lobes 1) 10 4 2 2 + response (demo_lobes 0) 10 4 2 2 / 3) ^ 2) / 3)
  /\ (exists cubes mask, beam_image_cube demo_grow demo_psf (demo_bobs [0; 0; 1]%nat) None (Some [1%nat]) (Some 3%nat) true None = Ok (cubes, mask)
     /\ List.length cubes = 2%nat /\ at2 mask 2 2 = 1 /\ at2 mask 3 3 = 0)
  /\ (exists cubes mask, beam_image_cube demo_grow demo_psf (demo_bobs [1; 0; 1]%nat) (Some [0; 1; 2]%nat) None None true None = Ok (cubes, mask)
     /\ is_power demo_psf (demo_bobs [1; 0; 1]%nat) (demo_lobes 1) 1 (nth 1 (nth 0 cubes []) (Arr2 0 0 (fun _ _ => 0)))).
Proof.
  assert (U : forall pol, usable demo_psf (demo_bobs [0; 0; 1]%nat) pol demo_lobes) by (intros; apply demo_usable; [reflexivity|cbn; intuition lia]).
  assert (U' : forall pol, usable demo_psf (demo_bobs [1; 0; 1]%nat) pol demo_lobes) by (intros; apply demo_usable; [reflexivity|cbn; intuition lia]).
  assert (CA : channels_are (demo_bobs [0; 0; 1]%nat) [0; 2]%nat).
  { split; [repeat constructor; cbn; intuition lia|]. unfold is_used. cbn [demo_bobs b_use]. intros f. destruct f as [|[|[|f]]]; cbn; try (intuition congruence).
    split; [intuition lia|]. destruct f; discriminate. }
  assert (GR : forall bins b pol, grows demo_grow demo_psf (demo_bobs bins) (demo_lobes b) pol (5 / 100) [5; 6; 9; 10]%nat).
  { intros bins b pol. split; [cbn; intuition lia|]. intros a _. reflexivity. }
  assert (CH : forall bins, List.length bins = 3%nat -> (forall b, In b bins -> (b < 2)%nat) -> forall f, In f [0; 1; 2]%nat ->
    (f < List.length (b_fbin (demo_bobs bins)))%nat /\ norm_of demo_psf (bin_of (demo_bobs bins) f) <> 0).
  { intros bins L B f F. cbn [b_fbin demo_bobs]. assert (FL : (f < List.length bins)%nat) by (rewrite L; cbn in F; intuition lia). split; [exact FL|].
    unfold bin_of. cbn [demo_bobs b_fbin]. pose proof (B _ (nth_In bins 0%nat FL)) as X. unfold norm_of, demo_psf. cbn [p_fnorm].
    destruct (nth f bins 0%nat) as [|[|?]]; cbn; [lra|lra|lia]. }
  split; [|split; [|split]].
  - destruct (C77_mean demo_psf (demo_bobs [0; 0; 1]%nat) 0 demo_lobes [0; 2]%nat (U 0%nat) CA) as (a & E & _ & V); [cbn; lra|].
    exists a. split; [exact E|]. rewrite V by (cbn; lia). cbn [map sumR fold_right]. unfold bin_of, norm_of. cbn [demo_bobs b_fbin nth demo_psf p_fnorm p_horizon b_dim]. lra.
  - destruct (C77_square_refuted demo_psf (demo_bobs [0; 0; 1]%nat) 0 demo_lobes 0 2 [3; 3; 3]%nat (U 0%nat) eq_refl CA) as (a & E & V); [lia|cbn; lia|cbn; lra|].
    exists a. split; [exact E|]. destruct (V 2%nat 2%nat) as (V' & _); [cbn; lia|cbn; lia|]. rewrite V'. unfold bin_of, norm_of. cbn [demo_bobs b_fbin nth demo_psf p_fnorm p_horizon b_dim List.length INR].
    replace (1 + 1 + 1) with 3 by lra. replace (1 + 2) with 3 by lra. reflexivity.
  - destruct (C77_cube_partial demo_grow demo_psf (demo_bobs [0; 0; 1]%nat) (fun _ => demo_lobes) (fun _ _ => [5; 6; 9; 10]%nat) [0; 1; 2]%nat (Some 3%nat) None (Some [1%nat]) None
      eq_refl ltac:(cbv; discriminate) (le_n 3) eq_refl ltac:(discriminate) (CH [0; 0; 1]%nat eq_refl ltac:(cbn; intuition lia)) (fun pol _ => U pol) (fun pol f _ _ => GR _ _ _))
      as (cubes & mask & E & L & _ & _ & M).
    + exists cubes, mask. split; [exact E|]. split; [exact L|]. split.
      * destruct (M 2%nat 2%nat) as ((_ & M2) & _). apply M2. intros pol f _ _. cbn. tauto.
      * destruct (M 3%nat 3%nat) as (M1 & [X|X]); [|exact X]. exfalso. pose proof (proj1 M1 X 0%nat 0%nat ltac:(cbn; lia) ltac:(cbn; auto)) as Y. cbn in Y. intuition lia.
  - destruct (C77_cube_order_refuted demo_grow demo_psf (demo_bobs [1; 0; 1]%nat) (fun _ => demo_lobes) (fun _ _ => [5; 6; 9; 10]%nat) 0 1 2 None None
      eq_refl ltac:(cbv; discriminate) (le_n 3) (CH [1; 0; 1]%nat eq_refl ltac:(cbn; intuition lia)) (fun pol _ => U' pol) (fun pol f _ _ => GR _ _ _) eq_refl (le_n 1))
      as (cubes & mask & E & V).
    + exists cubes, mask. split; [exact E|]. exact (V 0%nat _ ltac:(cbn; lia)).
Qed.
