(** Lemmas about beams. *)
From Coq Require Import String Reals Lqa Lra Sorted Permutation.
From Verif Require Import Base NpArr PyIndex SortLib Histogram HistogramSpec HistogramFinal RegionGrow RegionGrowProofs ArrayMatchProofs AutoProofs CalAutoProofs Sky
  DirtyImage DirtyImageProofs ObsFull Quickview QuickviewSpec QuickviewProofs Beam BeamSpec.
Import ListNotations.
Open Scope R_scope.
Ltac Zify.zify_post_hook ::= idtac.

Lemma lobes_parameters ls : lobes (parameters ls) = Ok ls.
Proof.
  induction ls as [|l ls IH]; [reflexivity|]. unfold parameters in *. cbn [map List.concat row app lobes]. rewrite IH. cbn [bind]. destruct l; reflexivity.
Qed.
Lemma lobes_five p : (exists ls, lobes p = Ok ls /\ p = parameters ls) \/ (lobes p = Err ValueError /\ (List.length p mod 5)%nat <> 0%nat).
Proof.
  remember (List.length p) as n eqn:E. revert p E. induction n as [n IH] using lt_wf_ind. intros p E.
  destruct p as [|a [|b [|c [|d [|e r]]]]]; try (right; split; [reflexivity|]; subst n; cbn; discriminate).
  - left. exists []. auto.
  - destruct (IH (List.length r)) with (p := r) as [(ls & L & ->)|(L & M)]; [subst n; cbn; lia|reflexivity|left|right].
    + exists (Lobe a b c d e :: ls). cbn [lobes]. rewrite L. auto.
    + cbn [lobes]. rewrite L. split; [reflexivity|]. subst n. cbn [List.length]. replace (S (S (S (S (S (List.length r)))))) with (List.length r + 1 * 5)%nat by lia.
      now rewrite Nat.mod_add by lia.
Qed.
Lemma fold_sum {A} (f : A -> R) l s : fold_left (fun s x => s + f x) l s = s + sumR (map f l).
Proof. revert s. induction l as [|a l IH]; intros s; cbn [fold_left map sumR fold_right]; [lra|]. rewrite IH. unfold sumR. lra. Qed.
Lemma gauss_lobe l y x : l_amp l * (gauss y (l_oy l) (l_sy l) * gauss x (l_ox l) (l_sx l)) = lobe_at l y x.
Proof. unfold gauss, lobe_at. rewrite <- exp_plus. f_equal. f_equal. unfold Rdiv. ring. Qed.
Lemma move_some n m l : move n (Some m) l = Lobe (l_amp l) (l_ox l + (INR n - m) / 2) (l_sx l) (l_oy l + (INR n - m) / 2) (l_sy l).
Proof.
  unfold move. destruct (Rlt_dec m (INR n)) as [H|H].
  - rewrite Rabs_pos_eq by lra. f_equal; lra.
  - rewrite Rabs_pos_eq by lra. f_equal; lra.
Qed.
Lemma regrid_lobe n m r l y x : r <> 0 -> l_sx l <> 0 -> l_sy l <> 0 ->
  lobe_at (spread n n (Some r) (widen (Some r) (move n (Some m) l))) y x = lobe_at l ((y - INR n / 2) / r + m / 2) ((x - INR n / 2) / r + m / 2).
Proof.
  intros R0 X Y. rewrite move_some. unfold widen, spread, lobe_at. cbn [l_amp l_ox l_oy l_sx l_sy]. f_equal. f_equal. field. auto.
Qed.
Lemma decomp_ok xs ys ls npix res : List.length xs = List.length ys ->
  exists a, gaussian_decomp xs ys (parameters ls) npix res
    = Ok (a, parameters (map (fun l => widen res (move (List.length xs) npix l)) ls))
  /\ rows a = List.length xs /\ cols a = List.length xs
  /\ forall i j, (i < List.length xs)%nat -> (j < List.length xs)%nat ->
     at2 a i j = sumR (map (fun l => lobe_at (spread (List.length xs) (List.length xs) res (widen res (move (List.length xs) npix l))) (nth i ys 0) (nth j xs 0)) ls).
Proof.
  intros L. unfold gaussian_decomp. rewrite lobes_parameters. cbn [bind]. rewrite <- L. cbv zeta.
  assert (B : (match map (spread (List.length xs) (List.length xs) res) (map (fun x => widen res (move (List.length xs) npix x)) ls) with
               | [] => true | _ => axis_ok (List.length xs) (List.length xs) && axis_ok (List.length xs) (List.length xs) end) = true).
  { destruct (map _ (map _ ls)); [reflexivity|]. unfold axis_ok. rewrite Nat.eqb_refl. reflexivity. }
  rewrite B. eexists. split; [reflexivity|]. split; [reflexivity|]. split; [reflexivity|]. intros i j I J. cbn [at2].
  assert (BI : forall k, (k < List.length xs)%nat -> bidx (List.length xs) k = k) by (intros k K; unfold bidx; destruct (Nat.eqb_spec (List.length xs) 1); lia).
  rewrite !BI by assumption. rewrite fold_sum. rewrite Rplus_0_l, !map_map. f_equal. apply map_ext. intros l. apply gauss_lobe.
Qed.
Lemma arange_length n : List.length (arange n) = n.
Proof. unfold arange. now rewrite map_length, seq_length. Qed.
Lemma arange_nth n k : (k < n)%nat -> nth k (arange n) 0 = INR k.
Proof. intros K. unfold arange. rewrite (nth_indep _ 0 (INR 0)) by (now rewrite map_length, seq_length). rewrite map_nth, seq_nth by exact K. reflexivity. Qed.

(** ** One group *)
Lemma count_zero (l : list nat) g v : (forall i, In i l -> i = g) -> v <> g -> positions l v = [].
Proof.
  intros H N. unfold positions. destruct (filter _ _) as [|k r] eqn:E; [reflexivity|]. exfalso.
  assert (I : In k (filter (fun k => nth k l 0 =? v)%nat (seq 0 (List.length l)))) by (rewrite E; now left).
  apply filter_In in I as (I & V). apply in_seq in I. apply Nat.eqb_eq in V. apply N. rewrite <- V. apply H. apply nth_In. lia.
Qed.
Lemma positions_all (l : list nat) g : (forall i, In i l -> i = g) -> positions l g = seq 0 (List.length l).
Proof.
  intros H. unfold positions. apply filter_all. intros k K. apply in_seq in K. apply Nat.eqb_eq. apply H. apply nth_In. lia.
Qed.
Lemma filter_none {A} (f : A -> bool) l : (forall x, In x l -> f x = false) -> filter f l = [].
Proof. intros H. induction l as [|a l IH]; [reflexivity|]. cbn [filter]. rewrite (H a) by (now left). apply IH. intros; apply H; now right. Qed.
Lemma filter_map {A B} (f : A -> B) p (l : list A) : filter p (map f l) = map f (filter (fun x => p (f x)) l).
Proof. induction l as [|a l IH]; [reflexivity|]. cbn [map filter]. destruct (p (f a)); cbn [map]; now rewrite IH. Qed.
Lemma seq_filter_one n g : (g < n)%nat -> filter (fun i => (i =? g)%nat) (seq 0 n) = [g].
Proof.
  intros G. replace n with (g + S (n - g - 1))%nat by lia. rewrite seq_app, filter_app. cbn [seq]. rewrite filter_none, app_nil_l.
  - cbn [filter Nat.add]. rewrite Nat.eqb_refl. f_equal. apply filter_none. intros x X. apply in_seq in X. apply Nat.eqb_neq. lia.
  - intros x X. apply in_seq in X. apply Nat.eqb_neq. lia.
Qed.
Lemma group_sizes_one ids : one_group ids -> group_sizes ids = Ok [List.length ids].
Proof.
  intros (NE & g & H). unfold group_sizes. destruct (histogram_nat ids 0 NE) as (c & bins & ri & _ & MX & E & _).
  change (inject_Z (Z.of_nat 0)) with 0%Q in E. rewrite E. cbn [bind]. f_equal. rewrite filter_map.
  assert (G : (g <= c)%nat). { destruct ids as [|i ids]; [congruence|]. rewrite <- (H i) by (now left). apply MX. now left. }
  rewrite (filter_ext_in _ (fun i => (i =? g)%nat)).
  - replace (c - 0 + 1)%nat with (c + 1)%nat by lia. rewrite seq_filter_one by lia. cbn [map Nat.add]. rewrite (positions_all _ _ H), seq_length. reflexivity.
  - intros i I. cbn [Nat.add]. destruct (Nat.eqb_spec i g) as [->|N].
    + rewrite (positions_all _ _ H), seq_length. destruct ids; [congruence|reflexivity].
    + rewrite (count_zero _ _ _ H N). reflexivity.
Qed.
Lemma single_one n k g s : (0 < k)%nat -> single_beam n [k] g s = Ok (fun i j => (s i j + g i j * INR k) / INR k).
Proof.
  intros K. unfold single_beam, add_groups. cbn [List.length seq fold_res Nat.eqb]. unfold axis_ok. cbn [Nat.eqb]. rewrite orb_true_r. cbn [bind sum_nat fold_right].
  rewrite Nat.add_0_r. destruct (Nat.eqb_spec k 0); [lia|]. reflexivity.
Qed.

(** ** One beam *)
Lemma grid_ok p o : p_horizon p <> 0 -> b_kpix o <> 0 -> grid_of p o = Ok (p_horizon p * (13 / 10), 2 * b_kpix o * INR (b_dim o) / p_horizon p * (1 / 2 / b_kpix o)).
Proof. intros H K. unfold grid_of. destruct (Req_EM_T _ 0); [contradiction|]. destruct (Req_EM_T _ 0); [contradiction|]. reflexivity. Qed.
Lemma beam_ok p o pol ls params b : p_gauss p = Some params -> params pol b = Ok (parameters (ls b)) -> round_lobes (ls b) ->
  p_horizon p <> 0 -> b_kpix o <> 0 -> (0 < b_dim o)%nat ->
  exists g, beam_of params o (p_horizon p * (13 / 10), 2 * b_kpix o * INR (b_dim o) / p_horizon p * (1 / 2 / b_kpix o)) pol b = Ok g
  /\ forall i j, (i < b_dim o)%nat -> (j < b_dim o)%nat -> g i j = response (ls b) (p_horizon p) (b_dim o) i j.
Proof.
  intros PG PP RL H K D. unfold beam_of. rewrite PP. cbn [bind fst snd].
  set (m := p_horizon p * (13 / 10)). set (r := 2 * b_kpix o * INR (b_dim o) / p_horizon p * (1 / 2 / b_kpix o)).
  destruct (decomp_ok (arange (b_dim o)) (arange (b_dim o)) (ls b) (Some m) (Some r) eq_refl) as (a & -> & _ & _ & V). cbn [bind].
  eexists. split; [reflexivity|]. intros i j I J. rewrite arange_length in V. rewrite V by assumption. unfold response, pattern. f_equal. apply map_ext_in. intros l L.
  unfold round_lobes in RL. rewrite Forall_forall in RL. destruct (RL l L) as (X & Y).
  assert (N : INR (b_dim o) <> 0) by (apply not_0_INR; lia).
  assert (RE : r = INR (b_dim o) / p_horizon p) by (unfold r; field; auto).
  rewrite regrid_lobe; [|rewrite RE; unfold Rdiv; apply Rmult_integral_contrapositive_currified; [exact N|now apply Rinv_neq_0_compat]|exact X|exact Y].
  rewrite !arange_nth by assumption. unfold fit_pixel. f_equal; rewrite RE; unfold m; field; auto.
Qed.
Lemma lookup_ok {A} (l : list A) k d : (k < List.length l)%nat -> lookup l k = Ok (nth k l d).
Proof. intros K. unfold lookup. rewrite (nth_error_nth' l d K). reflexivity. Qed.
Lemma in_where {A} (q : A -> bool) l d f : In f (where_ q l) <-> (f < List.length l)%nat /\ q (nth f l d) = true.
Proof. rewrite (where_spec _ _ d), filter_In, in_seq. split; intros (X & Y); split; auto; lia. Qed.
Lemma used_lt o f : In f (used_channels o) -> (f < List.length (b_use o))%nat.
Proof. unfold used_channels. intros I. apply (in_where _ _ false) in I. tauto. Qed.
Lemma used_is o f : In f (used_channels o) <-> is_used o f.
Proof.
  unfold used_channels, is_used. rewrite (in_where _ _ false). split.
  - intros (L & V). rewrite (nth_error_nth' _ false L). now rewrite V.
  - intros N. assert (L : (f < List.length (b_use o))%nat) by (apply nth_error_Some; congruence). split; [exact L|]. now apply nth_error_nth.
Qed.
Lemma used_are o fs : channels_are o fs -> Permutation (used_channels o) fs.
Proof.
  intros (ND & H). apply NoDup_Permutation; [|exact ND|].
  - unfold used_channels. rewrite (where_spec _ _ false). apply NoDup_filter, seq_NoDup.
  - intros f. rewrite H. apply used_is.
Qed.
Lemma sumR_perm l l' : Permutation l l' -> sumR l = sumR l'.
Proof. unfold sumR. induction 1; cbn [fold_right]; try congruence; ring. Qed.
Lemma sumR_app l l' : sumR (l ++ l') = sumR l + sumR l'.
Proof. unfold sumR. induction l as [|a l IH]; cbn [app fold_right]; [ring|]. rewrite IH. ring. Qed.

Section One.
  Variables (p : psf) (o : bobs) (pol : nat) (ls : nat -> list lobe).
  Hypothesis U : usable p o pol ls.
  Lemma mean_fold ids params grid : p_id p pol = Ok ids -> one_group ids -> p_gauss p = Some params ->
    grid = (p_horizon p * (13 / 10), 2 * b_kpix o * INR (b_dim o) / p_horizon p * (1 / 2 / b_kpix o)) ->
    (forall b, (b < List.length (p_fnorm p))%nat -> params pol b = Ok (parameters (ls b)) /\ round_lobes (ls b)) ->
    forall fs base n, (forall f, In f fs -> (f < List.length (b_fbin o))%nat) ->
    exists base', fold_res (mean_step p o [List.length ids] (beam_of params o grid pol)) fs (base, n) = Ok (base', n + sumR (map (fun f => norm_of p (bin_of o f)) fs))
    /\ forall i j, (i < b_dim o)%nat -> (j < b_dim o)%nat -> base' i j = base i j + sumR (map (fun f => response (ls (bin_of o f)) (p_horizon p) (b_dim o) i j) fs).
  Proof.
    intros EI (NE & _) PG EG PP. destruct U. assert (LI : (0 < List.length ids)%nat) by (destruct ids; [congruence|cbn; lia]).
    induction fs as [|f fs IH]; intros base n L; cbn [fold_res map sumR fold_right].
    - exists base. split; [repeat f_equal; lra|]. intros i j _ _. lra.
    - unfold mean_step at 1. pose proof (L f (or_introl eq_refl)) as F. rewrite (lookup_ok _ f 0%nat F). cbn [bind].
      pose proof (u_bins f F) as B. destruct (PP _ B) as (P1 & P2). rewrite EG.
      destruct (beam_ok p o pol ls params (nth f (b_fbin o) 0%nat) PG P1 P2 u_horizon u_kpix u_dim) as (g & -> & V). cbn [bind].
      rewrite (single_one _ _ _ _ LI). cbn [bind]. rewrite (lookup_ok _ _ 0 B). cbn [bind]. rewrite <- EG.
      edestruct IH as (base' & -> & V'); [intros; apply L; now right|]. exists base'. split; [f_equal; f_equal; unfold norm_of, bin_of, sumR; lra|].
      intros i j I J. rewrite V' by assumption. cbv beta. rewrite V by assumption. unfold zero, bin_of, sumR.
      assert (N : INR (List.length ids) <> 0) by (apply not_0_INR; lia).
      replace ((0 + response (ls (nth f (b_fbin o) 0%nat)) (p_horizon p) (b_dim o) i j * INR (List.length ids)) / INR (List.length ids))
        with (response (ls (nth f (b_fbin o) 0%nat)) (p_horizon p) (b_dim o) i j) by (field; exact N). lra.
  Qed.
  Lemma mean_ok fs : channels_are o fs -> sumR (map (fun f => norm_of p (bin_of o f)) fs) <> 0 ->
    exists a, beam_image p o pol None false = Ok a /\ sized (b_dim o) a
    /\ forall i j, (i < b_dim o)%nat -> (j < b_dim o)%nat ->
       at2 a i j = sumR (map (fun f => response (ls (bin_of o f)) (p_horizon p) (b_dim o) i j) fs) / sumR (map (fun f => norm_of p (bin_of o f)) fs).
  Proof.
    intros CH NZ. pose proof (used_are _ _ CH) as PM. pose proof U as []. destruct u_ids as (ids & EI & OG). destruct u_params as (params & PG & PP).
    unfold beam_image. rewrite EI. cbn [bind]. rewrite (group_sizes_one _ OG). cbn [bind]. rewrite PG, (grid_ok _ _ u_horizon u_kpix). cbn [bind]. cbv zeta.
    destruct (mean_fold ids params _ EI OG PG eq_refl PP (used_channels o) zero 0) as (base & -> & V).
    { intros f I. pose proof (used_lt _ _ I). lia. }
    cbn [bind]. unfold normalise. rewrite Rplus_0_l, (sumR_perm _ _ (Permutation_map _ PM)).
    destruct (Req_EM_T _ 0); [contradiction|]. eexists. split; [reflexivity|]. split; [split; reflexivity|]. intros i j I J. cbn [at2]. rewrite V by assumption.
    unfold zero. rewrite Rplus_0_l. f_equal. apply sumR_perm, Permutation_map, PM.
  Qed.
End One.

(** ** Squares *)
Lemma dedup_const z l : (forall x, In x l -> x = z) -> l <> [] -> dedup l = [z].
Proof.
  induction l as [|x l IH]; intros H N; [congruence|]. cbn [dedup]. destruct l as [|y l].
  - rewrite (H x) by (now left). reflexivity.
  - rewrite (H x), (H y) by (cbn; auto). rewrite Z.eqb_refl. replace (z :: l) with (y :: l) by (rewrite (H y) by (cbn; auto); reflexivity). apply IH; [intros; apply H; now right|discriminate].
Qed.
Lemma unique_const b l : (forall x, In x l -> x = b) -> l <> [] -> unique l = [b].
Proof.
  intros H N. unfold unique, np_unique. rewrite (dedup_const (Z.of_nat b)).
  - cbn [map]. now rewrite Nat2Z.id.
  - intros x X. apply isort_In in X. apply in_map_iff in X as (y & <- & Y). now rewrite (H y Y).
  - intros E. pose proof (isort_perm Z.leb (map Z.of_nat l)) as P. unfold np_sort in E. rewrite E in P. apply Permutation_sym, Permutation_nil in P. destruct l; [congruence|discriminate].
Qed.
Lemma square_const p o pol ls fi bins b : usable p o pol ls ->
  map_res (lookup (b_fbin o)) (match fi with Some f => [f] | None => used_channels o end) = Ok bins ->
  bins <> [] -> (forall x, In x bins -> x = b) -> (b < List.length (p_fnorm p))%nat -> norm_of p b <> 0 ->
  exists a, beam_image p o pol fi true = Ok a /\ sized (b_dim o) a
  /\ forall i j, (i < b_dim o)%nat -> (j < b_dim o)%nat -> at2 a i j = response (ls b) (p_horizon p) (b_dim o) i j ^ 2 / norm_of p b.
Proof.
  intros U EB NE HB LB NZ. pose proof U as []. destruct u_ids as (ids & EI & OG). destruct u_params as (params & PG & PP).
  assert (LI : (0 < List.length ids)%nat) by (destruct OG; destruct ids; [congruence|cbn; lia]).
  unfold beam_image. rewrite EI. cbn [bind]. rewrite (group_sizes_one _ OG). cbn [bind]. rewrite PG, (grid_ok _ _ u_horizon u_kpix). cbn [bind]. cbv zeta.
  rewrite EB. cbn [bind]. rewrite (unique_const b) by assumption. cbn [fold_res]. unfold square_step. destruct (PP _ LB) as (P1 & P2).
  destruct (beam_ok p o pol ls params b PG P1 P2 u_horizon u_kpix u_dim) as (g & -> & V). cbn [bind].
  rewrite (single_one _ _ _ _ LI). cbn [bind]. rewrite (lookup_ok _ _ 0 LB). cbn [bind]. unfold normalise.
  assert (NF : INR (count_occ Nat.eq_dec bins b) <> 0).
  { apply not_0_INR. assert (I : In b bins) by (destruct bins as [|x bins]; [congruence|]; left; apply HB; now left). apply (count_occ_In Nat.eq_dec) in I. lia. }
  fold (norm_of p b). destruct (Req_EM_T _ 0) as [E|_].
  - exfalso. rewrite Rplus_0_l in E. apply Rmult_integral in E. tauto.
  - eexists. split; [reflexivity|]. split; [split; reflexivity|]. intros i j I J. cbn [at2]. rewrite V by assumption. unfold zero.
    assert (N : INR (List.length ids) <> 0) by (apply not_0_INR; lia). field. auto.
Qed.
Lemma square_channel p o pol ls f : usable p o pol ls -> (f < List.length (b_fbin o))%nat -> norm_of p (bin_of o f) <> 0 ->
  exists a, beam_image p o pol (Some f) true = Ok a /\ sized (b_dim o) a
  /\ forall i j, (i < b_dim o)%nat -> (j < b_dim o)%nat -> at2 a i j = response (ls (bin_of o f)) (p_horizon p) (b_dim o) i j ^ 2 / norm_of p (bin_of o f).
Proof.
  intros U F NZ. pose proof U as []. apply (square_const p o pol ls (Some f) [bin_of o f]); auto.
  - cbn [map_res]. rewrite (lookup_ok _ _ 0%nat F). reflexivity.
  - discriminate.
  - intros x [<-|[]]. reflexivity.
  - apply u_bins. exact F.
Qed.
(** Two channels in different bins. *)
Lemma unique_two a b : (a < b)%nat -> unique [a; b] = [a; b] .
Proof.
  intros H. unfold unique, np_unique, np_sort. cbn [map isort insert]. destruct (Z.leb_spec (Z.of_nat a) (Z.of_nat b)); [|lia].
  cbn [dedup]. destruct (Z.eqb_spec (Z.of_nat a) (Z.of_nat b)); [lia|]. cbn [map]. now rewrite !Nat2Z.id.
Qed.
Lemma square_two p o pol ls f1 f2 ids : usable p o pol ls -> p_id p pol = Ok ids -> used_channels o = [f1; f2] -> (bin_of o f1 < bin_of o f2)%nat ->
  norm_of p (bin_of o f1) + norm_of p (bin_of o f2) <> 0 ->
  exists a, beam_image p o pol None true = Ok a /\ sized (b_dim o) a
  /\ forall i j, (i < b_dim o)%nat -> (j < b_dim o)%nat ->
     let r1 := response (ls (bin_of o f1)) (p_horizon p) (b_dim o) i j in let r2 := response (ls (bin_of o f2)) (p_horizon p) (b_dim o) i j in
     at2 a i j = (r1 ^ 2 + (r2 + r1 / INR (List.length ids)) ^ 2) / (norm_of p (bin_of o f1) + norm_of p (bin_of o f2)).
Proof.
  intros U EI' EU LT NZ. pose proof U as []. destruct u_ids as (ids' & EI & OG). assert (ids' = ids) as -> by congruence. destruct u_params as (params & PG & PP).
  assert (LI : (0 < List.length ids)%nat) by (destruct OG; destruct ids; [congruence|cbn; lia]).
  assert (F1 : (f1 < List.length (b_fbin o))%nat) by (pose proof (used_lt o f1) as X; rewrite EU in X; specialize (X (or_introl eq_refl)); lia).
  assert (F2 : (f2 < List.length (b_fbin o))%nat) by (pose proof (used_lt o f2) as X; rewrite EU in X; specialize (X (or_intror (or_introl eq_refl))); lia).
  unfold beam_image. rewrite EI. cbn [bind]. rewrite (group_sizes_one _ OG). cbn [bind]. rewrite PG, (grid_ok _ _ u_horizon u_kpix). cbn [bind]. cbv zeta.
  rewrite EU. cbn [map_res]. rewrite (lookup_ok _ _ 0%nat F1), (lookup_ok _ _ 0%nat F2). cbn [bind]. fold (bin_of o f1) (bin_of o f2).
  rewrite (unique_two _ _ LT). pose proof (u_bins f1 F1) as B1. pose proof (u_bins f2 F2) as B2. fold (bin_of o f1) in B1. fold (bin_of o f2) in B2.
  destruct (PP _ B1) as (P1 & P2). destruct (PP _ B2) as (P3 & P4).
  cbn [fold_res]. unfold square_step.
  destruct (beam_ok p o pol ls params _ PG P1 P2 u_horizon u_kpix u_dim) as (g1 & -> & V1). cbn [bind]. rewrite (single_one _ _ _ _ LI). cbn [bind]. rewrite (lookup_ok _ _ 0 B1). cbn [bind].
  destruct (beam_ok p o pol ls params _ PG P3 P4 u_horizon u_kpix u_dim) as (g2 & -> & V2). cbn [bind]. rewrite (single_one _ _ _ _ LI). cbn [bind]. rewrite (lookup_ok _ _ 0 B2). cbn [bind].
  fold (norm_of p (bin_of o f1)) (norm_of p (bin_of o f2)).
  assert (C1 : count_occ Nat.eq_dec [bin_of o f1; bin_of o f2] (bin_of o f1) = 1%nat).
  { cbn [count_occ]. destruct (Nat.eq_dec (bin_of o f1) (bin_of o f1)); [|lia]. destruct (Nat.eq_dec (bin_of o f2) (bin_of o f1)); [lia|reflexivity]. }
  assert (C2 : count_occ Nat.eq_dec [bin_of o f1; bin_of o f2] (bin_of o f2) = 1%nat).
  { cbn [count_occ]. destruct (Nat.eq_dec (bin_of o f1) (bin_of o f2)); [lia|]. destruct (Nat.eq_dec (bin_of o f2) (bin_of o f2)); [reflexivity|lia]. }
  rewrite C1, C2. unfold normalise. cbn [INR]. destruct (Req_EM_T _ 0) as [E|_]; [exfalso; apply NZ; lra|].
  eexists. split; [reflexivity|]. split; [split; reflexivity|]. intros i j I J. cbn [at2]. cbv zeta. rewrite V1, V2 by assumption. unfold zero.
  assert (N : INR (List.length ids) <> 0) by (apply not_0_INR; lia). field. split; [exact N|exact NZ].
Qed.

(** ** Cubes *)
Lemma set_range_length {A} (l : list A) i j x : List.length (set_range l i j x) = List.length l.
Proof. revert i j. induction l as [|a l IH]; intros i j; [reflexivity|]. destruct i, j; cbn [set_range List.length]; auto. Qed.
Lemma set_range_nth {A} (l : list A) d : forall i j k x, (i <= j)%nat -> (k < List.length l)%nat ->
  nth k (set_range l i j x) d = if (i <=? k)%nat && (k <=? j)%nat then x else nth k l d.
Proof.
  induction l as [|a l IH]; intros i j k x IJ K; [cbn in K; lia|]. cbn [List.length] in K.
  destruct i as [|i], j as [|j]; cbn [set_range].
  - destruct k; reflexivity.
  - destruct k; [reflexivity|]. cbn [nth]. rewrite IH by lia. reflexivity.
  - lia.
  - destruct k; [reflexivity|]. cbn [nth]. rewrite IH by lia. reflexivity.
Qed.
Lemma positions_ends l b : positions l b <> [] -> exists first last, (exists r, positions l b = first :: r) /\ List.last (positions l b) 0%nat = last
  /\ In first (positions l b) /\ In last (positions l b) /\ forall k, In k (positions l b) -> (first <= k <= last)%nat.
Proof.
  intros NE. assert (ST : StronglySorted lt (positions l b)).
  { unfold positions. apply AutoProofs.filter_sorted, AutoProofs.seq_sorted. }
  revert NE ST. generalize (positions l b). intros q. induction q as [|a q IH]; [congruence|]. intros _ ST. inversion ST as [|? ? S1 F1]; subst.
  destruct q as [|c q].
  - exists a, a. split; [eauto|]. split; [reflexivity|]. split; [now left|]. split; [now left|]. intros k [<-|[]]. lia.
  - destruct IH as (f & l' & (r & E) & L & I1 & I2 & B); [discriminate|exact S1|]. exists a, l'.
    assert (C : (a < c)%nat) by (rewrite Forall_forall in F1; apply F1; now left). injection E as <- <-.
    split; [eauto|]. split; [exact L|]. split; [now left|]. split; [now right|]. intros k [<-|K].
    + pose proof (B c (or_introl eq_refl)). lia.
    + pose proof (B k K). lia.
Qed.
Definition inside (n : nat) (l : list nat) (i j : nat) : bool := existsb (Nat.eqb (i * n + j)) l.
Section CubeProof.
  Variables (grow : arr2 R -> Z -> R -> result (option (list nat))) (p : psf) (o : bobs) (t : R) (channels ri : list nat).
  Variables (ls : nat -> nat -> list lobe) (region : nat -> nat -> list nat) (c : nat).
  Local Notation bins := (map (bin_of o) channels).
  Local Notation blank := (Arr2 0 0 (fun _ _ => 0)).
  Hypothesis EL : b_elem o = b_dim o.
  Hypothesis XY : (0 <= b_obsx o + b_obsy o * natQ (b_dim o))%Q.
  Hypothesis CH : forall f, In f channels -> (f < List.length (b_fbin o))%nat.
  Hypothesis NZ : forall f, In f channels -> norm_of p (bin_of o f) <> 0.
  Hypothesis RI : forall i, (i < c)%nat -> slice ri (nth i ri 0%nat) (nth (S i) ri 0%nat) = positions bins i.

  Lemma nth_bin k : (k < List.length channels)%nat -> nth k bins 0%nat = bin_of o (nth k channels 0%nat).
  Proof. intros K. rewrite (nth_indep _ 0%nat (bin_of o 0%nat)) by (now rewrite map_length). apply map_nth. Qed.
  Lemma step_ok pol b planes mask : usable p o pol (ls pol) -> (b < c)%nat -> positions bins b <> [] -> grows grow p o (ls pol b) b t (region pol b) ->
    List.length planes = List.length channels ->
    exists first last pl, cube_step grow p o channels ri true t pol (planes, mask) b
      = Ok (set_range planes first last pl, fun i j => mask i j * (if inside (b_dim o) (region pol b) i j then 1 else 0))
    /\ is_power p o (ls pol b) b pl /\ In first (positions bins b) /\ In last (positions bins b) /\ forall k, In k (positions bins b) -> (first <= k <= last)%nat.
  Proof.
    intros U B PN (GR & G) LP. destruct (positions_ends _ _ PN) as (first & last & (r & E) & L & I1 & I2 & BD). exists first, last.
    unfold cube_step. rewrite (RI _ B), E. rewrite <- E, L. apply (proj1 (In_positions _ _ _)) in I1 as (F1 & F2). rewrite map_length in F1.
    rewrite (lookup_ok _ _ 0%nat F1). cbn [bind]. rewrite (nth_bin _ F1) in F2.
    assert (FI : In (nth first channels 0%nat) channels) by (now apply nth_In).
    destruct (square_channel p o pol (ls pol) (nth first channels 0%nat) U (CH _ FI) (NZ _ FI)) as (a & -> & SZ & V). cbn [bind]. rewrite F2 in V.
    rewrite EL. destruct (assign_same _ _ SZ) as (pl & -> & AE). cbn [bind]. rewrite (py_int_floor _ XY).
    change (t ^ (if true then 2 else 1)%nat) with (t ^ 2). unfold natQ. rewrite (G a) by (split; assumption). cbn [bind]. unfold mask_of. rewrite EL.
    replace (forallb (fun k => k <? b_dim o * b_dim o)%nat (region pol b)) with true
      by (symmetry; apply forallb_forall; intros k K; apply Nat.ltb_lt; now apply GR).
    cbn [bind]. exists pl. split; [reflexivity|]. split.
    - destruct AE as (A1 & A2 & A3). destruct SZ as (S1 & S2). split; [split; congruence|]. intros i j I J. rewrite A3 by congruence. now apply V.
    - split; [|split; [exact I2|exact BD]]. rewrite E. now left.
  Qed.
  Lemma pol_fold pol : usable p o pol (ls pol) -> (forall b, In b bins -> grows grow p o (ls pol b) b t (region pol b)) ->
    forall bs planes mask, StronglySorted lt bs -> (forall b, In b bs -> (b < c)%nat /\ positions bins b <> []) -> List.length planes = List.length channels ->
    exists planes', exists mask' : img, fold_res (cube_step grow p o channels ri true t pol) bs (planes, mask) = Ok (planes', mask')
      /\ List.length planes' = List.length channels
      /\ (forall k b, (k < List.length channels)%nat -> In b bs -> encloses bins b k -> (forall b', In b' bs -> encloses bins b' k -> (b' <= b)%nat) ->
          is_power p o (ls pol b) b (nth k planes' blank))
      /\ (forall k, (k < List.length channels)%nat -> (forall b, In b bs -> ~ encloses bins b k) -> nth k planes' blank = nth k planes blank)
      /\ forall i j, mask' i j = mask i j * (if forallb (fun b => inside (b_dim o) (region pol b) i j) bs then 1 else 0).
  Proof.
    intros U G. induction bs as [|b bs IH]; intros planes mask ST HB LP; cbn [fold_res].
    - exists planes, mask. split; [reflexivity|]. split; [exact LP|]. split; [intros k b _ []|]. split; [auto|]. intros i j. cbn [forallb]. ring.
    - inversion ST as [|? ? S1 F1]; subst. rewrite Forall_forall in F1. destruct (HB b (or_introl eq_refl)) as (B & PN).
      assert (IB : In b bins). { destruct (positions bins b) as [|k r] eqn:E; [congruence|]. assert (K : In k (positions bins b)) by (rewrite E; now left). apply (proj1 (In_positions _ _ _)) in K as (K1 & K2). rewrite <- K2. now apply nth_In. }
      destruct (step_ok pol b planes mask U B PN (G b IB) LP) as (first & last & pl & -> & PW & I1 & I2 & BD). cbn [bind].
      destruct (IH (set_range planes first last pl) (fun i j => mask i j * (if inside (b_dim o) (region pol b) i j then 1 else 0))) as (planes' & mask' & EQ & L' & V1 & V2 & M).
      { exact S1. } { intros b' I. apply HB. now right. } { now rewrite set_range_length. }
      exists planes', mask'. split; [exact EQ|]. split; [exact L'|].
      assert (FL : (first <= last)%nat) by (specialize (BD _ I1); lia).
      split; [|split].
      + intros k b0 K [<-|I] EN HI; [|apply V1; auto; intros b' B' EB'; apply HI; [now right|exact EB']].
        rewrite V2; [|exact K|].
        * rewrite set_range_nth by (auto; lia). destruct EN as (i & j & IJ & J & Ei & Ej).
          assert (IP : In i (positions bins b)) by (apply In_positions; split; [lia|exact Ei]).
          assert (JP : In j (positions bins b)) by (apply In_positions; auto).
          apply BD in IP. apply BD in JP. destruct (Nat.leb_spec first k); [|lia]. destruct (Nat.leb_spec k last); [|lia]. exact PW.
        * intros b' B' EB'. specialize (F1 _ B'). specialize (HI b' (or_intror B') EB'). lia.
      + intros k K H. rewrite V2 by (auto; intros; apply H; now right). rewrite set_range_nth by (auto; lia).
        destruct (Nat.leb_spec first k); [|reflexivity]. destruct (Nat.leb_spec k last); [|reflexivity]. exfalso.
        apply (proj1 (In_positions _ _ _)) in I1 as (_ & E1). apply (proj1 (In_positions _ _ _)) in I2 as (E3 & E2).
        apply (H b (or_introl eq_refl)). exists first, last. auto.
      + intros i j. rewrite M. cbn [forallb]. destruct (inside _ (region pol b) i j); cbn [andb]; [ring|]. destruct (forallb _ _); ring.
  Qed.
End CubeProof.
Lemma median_le l m : l <> [] -> (forall q, In q l -> (q <= m)%Q) -> (median l <= m)%Q.
Proof.
  intros NE H. unfold median. cbv zeta. assert (LE : forall k, (k < List.length (isort Qle_bool l))%nat -> (nth k (isort Qle_bool l) 0 <= m)%Q).
  { intros k K. apply H. apply (isort_In Qle_bool). now apply nth_In. }
  assert (LN : (0 < List.length (isort Qle_bool l))%nat) by (rewrite isort_length; destruct l; [congruence|cbn; lia]).
  assert (H2 : (List.length (isort Qle_bool l) / 2 < List.length (isort Qle_bool l))%nat) by (apply Nat.div_lt; lia).
  destruct (Nat.even _).
  - pose proof (LE _ H2). pose proof (LE (List.length (isort Qle_bool l) / 2 - 1)%nat ltac:(lia)). apply Qle_shift_div_r; [reflexivity|]. Lqa.lra.
  - now apply LE.
Qed.
Lemma channels_ok o nb fa channels : asked o nb fa channels -> nb <> Some 0%nat -> cube_channels o nb fa = Ok channels.
Proof.
  unfold asked, cube_channels. destruct nb as [n|]; [|intros -> _; reflexivity]. intros -> N. destruct (Nat.eqb_spec n 0) as [->|N0]; [congruence|].
  f_equal. apply map_ext. intros k. unfold natQ. apply Nat2Z.inj. rewrite Nat2Z.inj_div, Nat2Z.inj_mul.
  assert (E : (inject_Z (Z.of_nat k) * (inject_Z (Z.of_nat (b_nfreq o)) / inject_Z (Z.of_nat n)) == inject_Z (Z.of_nat k * Z.of_nat (b_nfreq o)) / inject_Z (Z.of_nat n))%Q).
  { rewrite inject_Z_mult. unfold Qdiv. ring. }
  rewrite E. rewrite Z2Nat.id.
  - rewrite (Zdiv_Qdiv (Z.of_nat k * Z.of_nat (b_nfreq o)) (Z.of_nat n)). reflexivity.
  - rewrite <- Zdiv_Qdiv. apply Z.div_pos; lia.
Qed.
Lemma lookup_bins o channels : (forall f, In f channels -> (f < List.length (b_fbin o))%nat) -> map_res (lookup (b_fbin o)) channels = Ok (map (bin_of o) channels).
Proof.
  induction channels as [|f r IH]; intros H; [reflexivity|]. cbn [map_res map]. rewrite (lookup_ok _ _ 0%nat (H f (or_introl eq_refl))). cbn [bind].
  rewrite IH by (intros; apply H; now right). reflexivity.
Qed.
Lemma bins_used l c b : In b (where_ (fun n => negb (n =? 0)%nat) (map (fun i => List.length (positions l (0 + i))) (seq 0 c))) <-> (b < c)%nat /\ positions l b <> [].
Proof.
  rewrite where_map_seq, filter_In, in_seq. cbn [Nat.add]. rewrite negb_true_iff, Nat.eqb_neq. split; intros (X & Y); (split; [lia|]).
  - intros E. rewrite E in Y. cbn in Y. congruence.
  - destruct (positions l b); [congruence|discriminate].
Qed.
Lemma positions_in l b : In b l -> positions l b <> [].
Proof.
  intros I E. apply (In_nth _ _ 0%nat) in I as (k & K & V). assert (X : In k (positions l b)) by (now apply In_positions). rewrite E in X. exact X.
Qed.
Section CubeMain.
  Variables (grow : arr2 R -> Z -> R -> result (option (list nat))) (p : psf) (o : bobs) (channels : list nat).
  Variables (ls : nat -> nat -> list lobe) (region : nat -> nat -> list nat).
  Local Notation bins := (map (bin_of o) channels).
  Local Notation blank := (Arr2 0 0 (fun _ _ => 0)).
  Hypothesis EL : b_elem o = b_dim o.
  Hypothesis XY : (0 <= b_obsx o + b_obsy o * natQ (b_dim o))%Q.
  Hypothesis CH : forall f, In f channels -> (f < List.length (b_fbin o))%nat.
  Hypothesis NZ : forall f, In f channels -> norm_of p (bin_of o f) <> 0.
  Hypothesis NE : channels <> [].
  Hypothesis NF : (List.length (b_fbin o) <= b_nfreq o)%nat.
  Lemma cube_ok nb fa pols th : let t := match th with Some t => t | None => 5 / 100 end in
    asked o nb fa channels ->
    (forall pol, (pol < b_npol o)%nat -> usable p o pol (ls pol)) ->
    (forall pol b, (pol < b_npol o)%nat -> In b bins -> grows grow p o (ls pol b) b t (region pol b)) ->
    exists cubes mask, beam_image_cube grow p o fa pols nb true th = Ok (cubes, mask)
    /\ List.length cubes = b_npol o
    /\ (forall pol, (pol < b_npol o)%nat -> List.length (nth pol cubes []) = List.length channels
        /\ forall k b, (k < List.length channels)%nat -> shown bins k b -> is_power p o (ls pol b) b (nth k (nth pol cubes []) blank))
    /\ sized (b_dim o) mask
    /\ forall i j, at2 mask i j = if forallb (fun pol => forallb (fun b => inside (b_dim o) (region pol b) i j) bins) (seq 0 (b_npol o)) then 1 else 0.
  Proof.
    intros t A U G. unfold beam_image_cube. rewrite (channels_ok _ _ _ _ A).
    2:{ intros ->. unfold asked in A. now rewrite A in NE. }
    cbn [bind]. rewrite (proj2 (Qle_bool_iff _ _)).
    2:{ apply median_le; [now destruct channels|]. intros q Q. apply in_map_iff in Q as (f & <- & F). unfold natQ. rewrite <- Zle_Qle. specialize (CH f F). lia. }
    cbn [negb]. rewrite (lookup_bins _ _ CH). cbn [bind].
    destruct (histogram_nat bins 0) as (c & bn & ri & _ & MX & E & RI & _); [now destruct channels|]. change (inject_Z (Z.of_nat 0)) with 0%Q in E. rewrite E. cbn [bind]. cbv zeta.
    fold t. set (bs := where_ _ _).
    assert (SB : StronglySorted lt bs) by (apply (where_sorted _ _ 0%nat)).
    assert (HB : forall b, In b bs <-> (b < c - 0 + 1)%nat /\ positions bins b <> []) by (intros b; apply bins_used).
    assert (HB2 : forall b, In b bs <-> In b bins).
    { intros b. rewrite HB. split.
      - intros (_ & PN). destruct (positions bins b) as [|k r] eqn:EP; [congruence|]. assert (K : In k (positions bins b)) by (rewrite EP; now left).
        apply (proj1 (In_positions _ _ _)) in K as (K1 & K2). rewrite <- K2. now apply nth_In.
      - intros I. split; [specialize (MX b I); lia|now apply positions_in]. }
    set (body := fun st pol => _).
    assert (F : forall n st, (n <= b_npol o)%nat -> exists cubes, exists mask : img,
       fold_res body (seq 0 n) st = Ok (fst st ++ cubes, mask) /\ List.length cubes = n
       /\ (forall pol, (pol < n)%nat -> List.length (nth pol cubes []) = List.length channels
          /\ forall k b, (k < List.length channels)%nat -> shown bins k b -> is_power p o (ls pol b) b (nth k (nth pol cubes []) blank))
       /\ forall i j, mask i j = snd st i j * (if forallb (fun pol => forallb (fun b => inside (b_dim o) (region pol b) i j) bins) (seq 0 n) then 1 else 0)).
    { induction n as [|n IH]; intros st N.
      - exists [], (snd st). split; [cbn [seq fold_res]; rewrite app_nil_r; now destruct st|]. split; [reflexivity|]. split; [intros; lia|]. intros i j. cbn. ring.
      - destruct (IH st ltac:(lia)) as (cubes & mask & EQ & LC & V & M). rewrite seq_S, fold_res_app, EQ. cbn [bind fold_res Nat.add]. unfold body at 1. cbn [fst snd].
        destruct (pol_fold grow p o t channels ri ls region (c - 0 + 1) EL XY CH NZ RI n (U n ltac:(lia)) (fun b I => G n b ltac:(lia) I) bs
          (repeat (Arr2 (b_dim o) (b_elem o) (fun _ _ => 0)) (List.length channels)) mask SB (fun b I => proj1 (HB b) I) (repeat_length _ _))
          as (planes & mask' & EQ' & LP & V1 & _ & M').
        rewrite EQ'. cbn [bind]. exists (cubes ++ [planes]), mask'. split; [now rewrite app_assoc|]. split; [rewrite app_length; cbn; lia|]. split.
        + intros pol P. destruct (Nat.eq_dec pol n) as [->|PN].
          * rewrite app_nth2 by lia. rewrite LC, Nat.sub_diag. cbn [nth]. split; [exact LP|]. intros k b K (EN & HI). apply V1; auto.
            destruct EN as (i & j & _ & J & _ & Ej). apply HB2. rewrite <- Ej. now apply nth_In.
          * rewrite app_nth1 by lia. apply V. lia.
        + intros i j. rewrite M', M, forallb_app. cbn [forallb]. rewrite andb_true_r.
          assert (FB : forallb (fun b => inside (b_dim o) (region n b) i j) bs = forallb (fun b => inside (b_dim o) (region n b) i j) bins).
          { apply eq_true_iff_eq. rewrite !forallb_forall. split; intros H b I; apply H; now apply HB2. }
          rewrite FB. destruct (forallb _ (seq 0 n)); cbn [andb]; [ring|]. destruct (forallb _ bins); ring. }
    destruct (F (b_npol o) ([], fun _ _ => 1) (le_n _)) as (cubes & mask & EQ & LC & V & M). rewrite EQ. cbn [bind fst snd app].
    eexists _, _. split; [reflexivity|]. split; [exact LC|]. split; [exact V|]. split; [split; [reflexivity|exact EL]|]. intros i j. cbn [at2]. rewrite M. cbn [snd]. ring.
  Qed.
End CubeMain.
Lemma shown_own bins k : no_lower_between bins -> (k < List.length bins)%nat -> shown bins k (nth k bins 0%nat).
Proof.
  intros NL K. split; [exists k, k; auto|]. intros b (i & j & (I & J) & L & Ei & Ej). rewrite <- Ei. apply (NL i k j); auto. congruence.
Qed.
(** ** Failures *)
Lemma two_groups ids a b : In a ids -> In b ids -> a <> b -> exists s1 s2 r, group_sizes ids = Ok (s1 :: s2 :: r).
Proof.
  intros A B N. unfold group_sizes. destruct (histogram_nat ids 0) as (c & bins & ri & _ & MX & E & _); [now destruct ids|].
  change (inject_Z (Z.of_nat 0)) with 0%Q in E. rewrite E. cbn [bind]. rewrite filter_map.
  set (f := filter _ _). assert (H : forall g, In g ids -> In g f).
  { intros g G. apply filter_In. split; [apply in_seq; specialize (MX g G); lia|]. cbn [Nat.add]. pose proof (positions_in _ _ G). destruct (positions ids g); [congruence|reflexivity]. }
  assert (ND : NoDup f) by (apply NoDup_filter, seq_NoDup). apply H in A. apply H in B.
  destruct f as [|x [|y r]]; [destruct A| |cbn [map]; eauto]. destruct A as [<-|[]]. destruct B as [<-|[]]. congruence.
Qed.
Lemma groups_fail n s1 s2 r g s im : single_beam n (s1 :: s2 :: r) g s <> Ok im.
Proof.
  unfold single_beam, add_groups. cbn [List.length seq fold_res Nat.eqb]. destruct (axis_ok n _); cbn [bind]; discriminate.
Qed.
Lemma groups_error p o pol fi sq ids a b im : p_id p pol = Ok ids -> In a ids -> In b ids -> a <> b -> p_gauss p <> None -> beam_image p o pol fi sq <> Ok im.
Proof.
  intros EI A B N PG. destruct (two_groups _ _ _ A B N) as (s1 & s2 & r & ES). unfold beam_image. rewrite EI. cbn [bind]. rewrite ES. cbn [bind].
  destruct (p_gauss p) as [params|]; [|congruence]. destruct (grid_of p o) as [grid|e]; [|discriminate]. cbn [bind]. cbv zeta. destruct sq.
  - destruct (map_res _ _) as [bins|e]; [|discriminate]. cbn [bind]. destruct (unique bins) as [|u us].
    + cbn [fold_res bind]. unfold normalise. destruct (Req_EM_T 0 0); [discriminate|congruence].
    + cbn [fold_res]. unfold square_step at 1. destruct (beam_of _ _ _ _ _) as [g|e]; [|discriminate]. cbn [bind].
      destruct (single_beam _ _ _ _) as [s|e] eqn:E; [destruct (groups_fail _ _ _ _ _ _ _ E)|discriminate].
  - destruct fi; [discriminate|]. destruct (used_channels o) as [|u us].
    + cbn [fold_res bind]. unfold normalise. destruct (Req_EM_T 0 0); [discriminate|congruence].
    + cbn [fold_res]. unfold mean_step at 1. destruct (lookup _ u) as [fb|e]; [|discriminate]. cbn [bind]. destruct (beam_of _ _ _ _ _) as [g|e]; [|discriminate]. cbn [bind].
      destruct (single_beam _ _ _ _) as [s|e] eqn:E; [destruct (groups_fail _ _ _ _ _ _ _ E)|discriminate].
Qed.
Lemma tables_error p o pol fi sq im : p_gauss p = None -> beam_image p o pol fi sq <> Ok im.
Proof.
  intros PG. unfold beam_image. rewrite PG. destruct (p_id p pol) as [ids|e]; [|discriminate]. cbn [bind]. destruct (group_sizes ids) as [sizes|e]; [|discriminate]. cbn [bind]. cbv zeta.
  destruct sq.
  - destruct (map_res _ _) as [bins|e]; [|discriminate]. cbn [bind]. destruct (unique bins); [discriminate|]. destruct (table_beam _ _ _); discriminate.
  - destruct fi; [discriminate|]. destruct (map_res _ _); discriminate.
Qed.
Lemma channel_error p o pol f im : beam_image p o pol (Some f) false <> Ok im.
Proof.
  unfold beam_image. destruct (p_id p pol) as [ids|e]; [|discriminate]. cbn [bind]. destruct (group_sizes ids) as [sizes|e]; [|discriminate]. cbn [bind]. cbv zeta.
  destruct (p_gauss p); [|discriminate]. destruct (grid_of p o); discriminate.
Qed.
Lemma median_gt l m : l <> [] -> (forall q, In q l -> (m < q)%Q) -> (m < median l)%Q.
Proof.
  intros NE H. unfold median. cbv zeta. assert (LE : forall k, (k < List.length (isort Qle_bool l))%nat -> (m < nth k (isort Qle_bool l) 0)%Q).
  { intros k K. apply H. apply (isort_In Qle_bool). now apply nth_In. }
  assert (LN : (0 < List.length (isort Qle_bool l))%nat) by (rewrite isort_length; destruct l; [congruence|cbn; lia]).
  assert (H2 : (List.length (isort Qle_bool l) / 2 < List.length (isort Qle_bool l))%nat) by (apply Nat.div_lt; lia).
  destruct (Nat.even _).
  - pose proof (LE _ H2). pose proof (LE (List.length (isort Qle_bool l) / 2 - 1)%nat ltac:(lia)). apply Qlt_shift_div_l; [reflexivity|]. Lqa.lra.
  - now apply LE.
Qed.
Lemma cube_hertz grow p o l pols sq th : l <> [] -> (forall f, In f l -> (b_nfreq o < f)%nat) ->
  exists e, beam_image_cube grow p o (Some l) pols None sq th = Err e.
Proof.
  intros NE H. unfold beam_image_cube, cube_channels. cbn [bind].
  assert (M : (natQ (b_nfreq o) < median (map natQ l))%Q).
  { apply median_gt; [now destruct l|]. intros q Q. apply in_map_iff in Q as (f & <- & F). unfold natQ. rewrite <- Zlt_Qlt. specialize (H f F). lia. }
  destruct (Qle_bool _ _) eqn:E; [apply Qle_bool_iff in E; exfalso; exact (Qlt_not_le _ _ M E)|]. cbn [negb]. destruct (_ =? _)%nat; eauto.
Qed.
