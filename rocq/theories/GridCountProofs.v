(** Facts about visibility_count and about decoding bins. *)
From Coq Require Import Lqa ZifyBool ZifyNat.
From Verif Require Import Base Cplx NpArr PyIndex SumLib Histogram HistogramSpec HistogramProofs
  RebinProofs ArrayMatch GridLoc GridSpec GridLocProofs.
Open Scope nat_scope.

Lemma filter_filter {A} (p q : A -> bool) l : filter p (filter q l) = filter (fun x => q x && p x) l.
Proof. induction l as [|a l IH]; simpl; auto. destruct (q a); simpl; [destruct (p a)|]; now rewrite IH. Qed.

(** Key decoding *)
Lemma key_decode (dim x y : Z) : (0 <= x < dim)%Z -> ((x + y * dim) mod dim = x /\ (x + y * dim) / dim = y)%Z.
Proof.
  intros H. split.
  - rewrite Z.mod_add by lia. now apply Z.mod_small.
  - rewrite Z.div_add by lia. rewrite Z.div_small by lia. lia.
Qed.

Lemma kept_in_plane g fmin fmax fill mask m : kept_b g fmin fmax fill mask m = true ->
  in_plane (g_elements g) (g_psf_dim g) (corner_x g m) /\ in_plane (g_dimension g) (g_psf_dim g) (corner_y g m).
Proof. unfold kept_b. rewrite !andb_true_iff, !negb_true_iff, !out_of_range_spec. tauto. Qed.

Lemma key_inj g fmin fmax fill mask m m' : sensible g -> (g_elements g <= g_dimension g)%Z ->
  kept_b g fmin fmax fill mask m = true -> kept_b g fmin fmax fill mask m' = true ->
  key g m = key g m' -> corner_x g m = corner_x g m' /\ corner_y g m = corner_y g m'.
Proof.
  intros Hs Hle K1 K2 E. apply kept_in_plane in K1. apply kept_in_plane in K2.
  unfold in_plane in *. destruct Hs as (_ & _ & _ & _ & _ & Hp).
  destruct (key_decode (g_dimension g) (corner_x g m) (corner_y g m)) as [A B]; [lia|].
  destruct (key_decode (g_dimension g) (corner_x g m') (corner_y g m')) as [A' B']; [lia|].
  unfold key in E. rewrite E in A, B. split; congruence.
Qed.

Lemma slice_hd {A} (l : list A) lo hi d x t : slice l lo hi = x :: t -> nth lo l d = x.
Proof.
  unfold slice. intros H. rewrite <- (Nat.add_0_r lo), <- nth_skipn.
  destruct (hi - lo); [discriminate|]. destruct (skipn lo l); cbn [firstn] in H; [discriminate|]. simpl. congruence.
Qed.

(** value of the plane after the bin loop *)
Lemma count_loop_at l p a i j : l_bins l <> None ->
  forall bin_n bin_i ri, l_bins l = Some (bin_n, bin_i, ri) ->
  rows (count_loop l p a) = rows a /\ cols (count_loop l p a) = cols a /\
  at2 (count_loop l p a) i j = (at2 a i j +
    Qcsum (map (fun b => let idx := nth (nth b ri 0%nat) ri 0%nat in
       if covers (flat_at (l_ymin l) idx) (flat_at (l_xmin l) idx) p i j then qc_nat (nth b bin_n 0%nat) else 0) bin_i))%Qc.
Proof.
  intros _ bin_n bin_i ri E. unfold count_loop. rewrite E. clear E. revert a.
  induction bin_i as [|b bs IH]; intros a; cbn [fold_left map Qcsum fold_right].
  - repeat split. ring.
  - cbv zeta. match goal with |- context [fold_left ?f bs ?x] => destruct (IH x) as (R & Cc & E) end.
    rewrite R, Cc, E. repeat split. unfold add_const. cbn [at2].
    match goal with |- context [if ?c then _ else _] => destruct c end.
    + fold Qcsum. rewrite <- Qcplus_assoc. reflexivity.
    + rewrite Qcplus_0_l. reflexivity.
Qed.

Lemma qc_nat_plus m n : qc_nat (m + n) = (qc_nat m + qc_nat n)%Qc.
Proof.
  unfold qc_nat. apply Qc_is_canon. cbn [this Q2Qc Qcplus]. rewrite !Qred_correct.
  rewrite Nat2Z.inj_add, inject_Z_plus. reflexivity.
Qed.
Lemma qc_nat_0 : qc_nat 0 = 0%Qc.
Proof. reflexivity. Qed.
Lemma qc_nat_sum l : qc_nat (sum_nat l) = Qcsum (map qc_nat l).
Proof.
  induction l as [|a l IH]; [reflexivity|]. cbn [sum_nat fold_right map Qcsum]. fold (sum_nat l) (Qcsum (map qc_nat l)).
  rewrite qc_nat_plus, IH. reflexivity.
Qed.

Lemma count_filter_sum {A} (p : A -> bool) l : length (filter p l) = sum_nat (map (fun x => if p x then 1 else 0) l).
Proof. induction l as [|a l IH]; cbn [filter map sum_nat fold_right]; auto.
  fold (sum_nat (map (fun x => if p x then 1 else 0) l)). rewrite <- IH. destruct (p a); reflexivity. Qed.

Lemma sum_classes (f : nat -> nat) (class : nat -> nat) ks bs : NoDup bs ->
    (forall k, In k ks -> In (class k) bs) ->
    sum_nat (map (fun b => sum_nat (map f (filter (fun k => class k =? b) ks))) bs) = sum_nat (map f ks).
Proof. apply (msum_classes Nat.add 0); intros; lia. Qed.

(** The plane before mirroring counts the covering visibilities. *)
Theorem count_plane g bi fi fill interp mask l fmin fmax n m i j :
  sensible g -> (g_elements g <= g_dimension g)%Z ->
  loc_facts g bi fi fill interp mask l fmin fmax ->
  let N := length fi * length bi in
  let plane := count_loop l (g_psf_dim g) (zeros n m) in
  rows plane = n /\ cols plane = m /\
  at2 plane i j = qc_nat (count_if N (fun k =>
     kept_b g fmin fmax fill mask (meas_k g fi bi k)
     && covers (corner_y g (meas_k g fi bi k)) (corner_x g (meas_k g fi bi k)) (g_psf_dim g) i j)).
Proof.
  intros Hs Hle HL N plane.
  pose proof (loc_bins _ _ _ _ _ _ _ _ _ Hs HL) as HB.
  set (keep := fun k => kept_b g fmin fmax fill mask (meas_k g fi bi k)) in *.
  set (cov := fun k => covers (corner_y g (meas_k g fi bi k)) (corner_x g (meas_k g fi bi k)) (g_psf_dim g) i j).
  change (count_if N _) with (count_if N (fun k => keep k && cov k)).
  destruct (l_bins l) as [[[bin_n bin_i] ri]|] eqn:E.
  2:{ unfold plane, count_loop. rewrite E. repeat split. cbn [zeros at2]. cbn [bins_facts] in HB.
      unfold count_if. rewrite filter_none; [reflexivity|].
      intros k Hk%in_seq. rewrite HB by (unfold N in *; lia). reflexivity. }
  destruct (count_loop_at l (g_psf_dim g) (zeros n m) i j ltac:(congruence) _ _ _ E) as (R & Cc & V).
  unfold plane. rewrite R, Cc, V. repeat split. cbn [zeros at2]. clear V R Cc plane.
  cbn [bins_facts] in HB. destruct HB as (_ & Hkey & Hbin & Hbi & _ & _ & _).
  pose proof (lf_at _ _ _ _ _ _ _ _ _ HL) as HA. pose proof (lf_shape _ _ _ _ _ _ _ _ _ HL) as HS.
  assert (Hflat : forall k, k < N -> keep k = true ->
     flat_at (l_ymin l) k = corner_y g (meas_k g fi bi k) /\ flat_at (l_xmin l) k = corner_x g (meas_k g fi bi k)).
  { intros k Hk Ek. destruct (flat_split _ _ _ Hk) as (H1 & H2 & _).
    destruct (HS (l_xmin l)) as [Rx Cx]; [simpl; auto|].
    destruct (HS (l_ymin l)) as [Ry Cy]; [simpl; auto|].
    unfold flat_at. rewrite Cx, Cy. destruct (HA _ _ H1 H2) as (A & B & _).
    fold (meas_k g fi bi k) in A, B. unfold keep in Ek. rewrite Ek in A, B. auto. }
  rewrite (map_ext_in _ (fun b => qc_nat (sum_nat (map (fun k => if keep k && cov k then 1 else 0)
       (filter (fun k => Z.to_nat (key g (meas_k g fi bi k)) =? b) (filter keep (seq 0 N))))))).
  2:{ intros b Hb. cbv zeta. rewrite Hbi in Hb. apply filter_In in Hb. destruct Hb as [Hb%in_seq Hne].
      destruct (Hbin b ltac:(lia)) as (B1 & B2 & _).
      assert (EF : filter (fun k => keep k && (key g (meas_k g fi bi k) =? Z.of_nat b)%Z) (seq 0 N)
         = filter (fun k => Z.to_nat (key g (meas_k g fi bi k)) =? b) (filter keep (seq 0 N))).
      { rewrite filter_filter. apply filter_ext_in. intros k Hk%in_seq.
        destruct (keep k) eqn:Ek; cbn [andb]; auto. specialize (Hkey k ltac:(lia) Ek). lia. }
      fold N in B1, B2. rewrite EF in B1, B2.
      set (F := filter (fun k => Z.to_nat (key g (meas_k g fi bi k)) =? b) (filter keep (seq 0 N))) in *.
      assert (HF : forall k, In k F -> k < N /\ keep k = true /\ Z.to_nat (key g (meas_k g fi bi k)) = b).
      { intros k Hk. unfold F in Hk. apply filter_In in Hk. destruct Hk as [Hk Hb2].
        apply filter_In in Hk. destruct Hk as [Hk%in_seq Hk2]. apply Nat.eqb_eq in Hb2. split; [lia|auto]. }
      destruct F as [|k0 F'] eqn:EFF.
      { simpl in B2. rewrite B2 in Hne. discriminate. }
      rewrite (slice_hd _ _ _ 0 _ _ B1).
      destruct (HF k0 ltac:(now left)) as (H1 & H2 & H3).
      destruct (Hflat k0 H1 H2) as [-> ->].
      change (covers (corner_y g (meas_k g fi bi k0)) (corner_x g (meas_k g fi bi k0)) (g_psf_dim g) i j) with (cov k0).
      rewrite B2. rewrite <- EFF in *. clear EFF.
      assert (Hsame : forall k, In k F -> cov k = cov k0).
      { intros k Hk. destruct (HF k Hk) as (K1 & K2 & K3).
        pose proof (Hkey k K1 K2). pose proof (Hkey k0 H1 H2).
        destruct (key_inj g fmin fmax fill mask (meas_k g fi bi k) (meas_k g fi bi k0) Hs Hle K2 H2) as [Ex Ey]; [lia|].
        unfold cov. now rewrite Ex, Ey. }
      replace (if cov k0 then qc_nat (length F) else 0%Qc) with (qc_nat (if cov k0 then length F else 0)) by (destruct (cov k0); reflexivity).
      f_equal. rewrite <- count_filter_sum. destruct (cov k0).
      - rewrite filter_all; auto. intros k Hk. rewrite (Hsame k Hk). destruct (HF k Hk) as (_ & -> & _). reflexivity.
      - rewrite filter_none; auto. intros k Hk. rewrite (Hsame k Hk). apply andb_false_r. }
  rewrite <- (map_map (fun b => sum_nat _) qc_nat), <- qc_nat_sum.
  rewrite sum_classes.
  - rewrite <- count_filter_sum, filter_filter. unfold count_if.
    rewrite (filter_ext (fun x => keep x && (keep x && cov x)) (fun k => keep k && cov k)) by (intros k; destruct (keep k); reflexivity).
    ring.
  - rewrite Hbi. apply NoDup_filter, seq_NoDup.
  - intros k Hk. apply filter_In in Hk. destruct Hk as [Hk%in_seq Ek].
    pose proof (Hkey k ltac:(lia) Ek) as Hr. rewrite Hbi. apply filter_In. split; [apply in_seq; lia|].
    destruct (Hbin (Z.to_nat (key g (meas_k g fi bi k))) ltac:(lia)) as (_ & B2 & _).
    rewrite B2. apply negb_true_iff, Nat.eqb_neq. intros E0.
    apply length_zero_iff_nil in E0.
    assert (In k []) as []. rewrite <- E0. apply filter_In. split; [apply in_seq; fold N; lia|].
    rewrite Ek. cbn [andb]. lia.
Qed.

(** Total of the plane: every footprint has p x p pixels when it lies inside. *)
Lemma sum_range n (a : Z) (p : nat) : (0 <= a)%Z -> (a + Z.of_nat p <= Z.of_nat n)%Z ->
  sum_nat (map (fun i => if (a <=? Z.of_nat i)%Z && (Z.of_nat i <? a + Z.of_nat p)%Z then 1 else 0) (seq 0 n)) = p.
Proof.
  intros H1 H2.
  assert (G : forall n, sum_nat (map (fun i => if (a <=? Z.of_nat i)%Z && (Z.of_nat i <? a + Z.of_nat p)%Z then 1 else 0) (seq 0 n))
     = Nat.min p (n - Z.to_nat a)).
  { clear n H2. intros n. induction n as [|n IH]; [simpl; lia|].
    rewrite seq_S, map_app, sum_nat_app, IH. cbn [map sum_nat fold_right].
    destruct ((a <=? Z.of_nat (0 + n))%Z && (Z.of_nat (0 + n) <? a + Z.of_nat p)%Z) eqn:E; lia. }
  rewrite G. lia.
Qed.

Lemma sum_nat_scale {A} (f : A -> nat) c l : sum_nat (map (fun x => c * f x) l) = c * sum_nat (map f l).
Proof. induction l as [|a l IH]; cbn [map sum_nat fold_right]; [lia|].
  fold (sum_nat (map (fun x => c * f x) l)) (sum_nat (map f l)). rewrite IH. lia. Qed.

Lemma sum_nat_map_0 {A} (f : A -> nat) l : (forall x, f x = 0) -> sum_nat (map f l) = 0.
Proof. intros H. induction l as [|a l IH]; cbn [map sum_nat fold_right]; auto.
  fold (sum_nat (map f l)). rewrite IH, H. reflexivity. Qed.

Lemma sum_nat_swap {B D} (f : B -> D -> nat) l1 l2 :
    sum_nat (map (fun b => sum_nat (map (fun d => f b d) l2)) l1)
    = sum_nat (map (fun d => sum_nat (map (fun b => f b d) l1)) l2).
Proof. apply (msum_swap Nat.add 0); intros; lia. Qed.

Lemma footprint_size (y0 x0 : Z) (p n m : nat) :
  (0 <= y0)%Z -> (y0 + Z.of_nat p <= Z.of_nat n)%Z -> (0 <= x0)%Z -> (x0 + Z.of_nat p <= Z.of_nat m)%Z ->
  sum_nat (map (fun i => sum_nat (map (fun j => if covers y0 x0 (Z.of_nat p) i j then 1 else 0) (seq 0 m))) (seq 0 n)) = p * p.
Proof.
  intros H1 H2 H3 H4.
  transitivity (sum_nat (map (fun i => p * (if (y0 <=? Z.of_nat i)%Z && (Z.of_nat i <? y0 + Z.of_nat p)%Z then 1 else 0)) (seq 0 n))).
  - apply sum_nat_map_ext. intros i _.
    destruct ((y0 <=? Z.of_nat i)%Z && (Z.of_nat i <? y0 + Z.of_nat p)%Z) eqn:E.
    + rewrite Nat.mul_1_r. etransitivity; [|apply (sum_range m x0 p); auto]. apply sum_nat_map_ext.
      intros j _. unfold covers. rewrite E. reflexivity.
    + rewrite Nat.mul_0_r. rewrite <- count_filter_sum, filter_none; auto.
      intros j _. unfold covers. now rewrite E.
  - rewrite sum_nat_scale, sum_range by auto. reflexivity.
Qed.

Lemma count_total N (keep : nat -> bool) (y0 x0 : nat -> Z) (p n m : nat) :
  (forall k, k < N -> keep k = true ->
     (0 <= y0 k /\ y0 k + Z.of_nat p <= Z.of_nat n /\ 0 <= x0 k /\ x0 k + Z.of_nat p <= Z.of_nat m)%Z) ->
  sum_nat (map (fun i => sum_nat (map (fun j =>
     count_if N (fun k => keep k && covers (y0 k) (x0 k) (Z.of_nat p) i j)) (seq 0 m))) (seq 0 n))
  = p * p * count_if N keep.
Proof.
  intros H. unfold count_if.
  transitivity (sum_nat (map (fun i => sum_nat (map (fun k => sum_nat (map (fun j =>
     if keep k && covers (y0 k) (x0 k) (Z.of_nat p) i j then 1 else 0) (seq 0 m))) (seq 0 N))) (seq 0 n))).
  { apply sum_nat_map_ext. intros i _. rewrite sum_nat_swap. apply sum_nat_map_ext. intros j _.
    apply count_filter_sum. }
  rewrite sum_nat_swap, count_filter_sum, <- sum_nat_scale.
  apply sum_nat_map_ext. intros k Hk%in_seq. destruct (keep k) eqn:E.
  - destruct (H k ltac:(lia) E) as (H1 & H2 & H3 & H4).
    rewrite Nat.mul_1_r. cbn [andb]. now apply footprint_size.
  - rewrite Nat.mul_0_r. apply sum_nat_map_0. intros i. now apply sum_nat_map_0.
Qed.

(** Totality *)
Lemma hist_total zs : zs <> [] -> exists r, histogram (injs zs) 1 None (Some 0%Q) None = Ok r.
Proof.
  intros Hne. destruct (existsb (fun z => 0 <=? z)%Z zs) eqn:E.
  - apply existsb_exists in E. destruct E as (z & Hz & Hz0).
    destruct (hist_min0 zs) as (M & bs & ri & _ & _ & _ & E & _); [exists z; split; auto; lia|]. eauto.
  - destruct (np_max_spec (injs zs)) as (hi & Ehi & Inhi & Mhi); [destruct zs; [congruence|discriminate]|].
    rewrite (histogram_defaults (injs zs) 1 (Some 0%Q) None 0%Q hi None eq_refl Ehi).
    apply in_map_iff in Inhi. destruct Inhi as (M & <- & HM).
    assert (M < 0)%Z.
    { destruct (Z.leb_spec 0 M); auto. exfalso.
      assert (existsb (fun z => 0 <=? z)%Z zs = true) by (apply existsb_exists; exists M; split; auto; lia). congruence. }
    rewrite histogram_inverted by (change 0%Q with (inject_Z 0); rewrite <- Zlt_Qlt; auto).
    destruct (histogram_Z zs 0 0) as (bs & ri & E2 & _); [lia|]. unfold injs. change 0%Q with (inject_Z 0). rewrite E2. eauto.
Qed.

Lemma loc_total g bi_use fi_use fill interp mask bi :
  match bi_use with Some b => bi = b | None => default_bi_use g fill = Ok bi end ->
  let fi := choose_fi_use g fill fi_use in
  g_freq g <> [] ->
  (forall i, In i fi -> valid_index (length (g_freq g)) i /\ valid_index (rows (g_weights g)) i) ->
  (forall i, In i bi -> valid_index (cols (g_weights g)) i /\ valid_index (length (g_uu g)) i
                        /\ valid_index (length (g_vv g)) i) ->
  exists l, baseline_grid_locations g bi_use fi_use fill interp mask = Ok l.
Proof.
  intros Hbi fi Hne Hfi Hb. unfold baseline_grid_locations. cbv beta zeta. fold fi.
  rewrite (take_ok 0%Q (g_freq g) fi) by (intros; now apply Hfi). cbn [bind].
  replace (match bi_use with Some l => Ok l | None => default_bi_use g fill end) with (Ok bi)
    by (destruct bi_use; subst; auto). cbn [bind].
  destruct (take2_ok (g_weights g) fi bi) as [w ->]; [intros; now apply Hfi|intros; now apply Hb|]. cbn [bind].
  rewrite (take_ok 0%Q (g_uu g) bi) by (intros; now apply Hb). cbn [bind].
  rewrite (take_ok 0%Q (g_vv g) bi) by (intros; now apply Hb). cbn [bind].
  destruct (np_max_spec _ Hne) as (M & -> & _). destruct (np_min_spec _ Hne) as (M' & -> & _). cbn [bind].
  match goal with |- context [bind (if fill then ?a else ?b) _] =>
    assert (exists fd, (if fill then a else b) = Ok fd) as [fd ->] by (destruct fill; eauto) end.
  cbn [bind].
  match goal with |- context [if ?c then Ok None else _] => destruct c eqn:Ec end; cbn [bind]; [eauto|].
  match goal with |- context [histogram (injs ?zs) _ _ _ _] => destruct (hist_total zs) as [[[h b] r] ->] end.
  - destruct (length fi * length bi); [simpl in Ec; discriminate|]. discriminate.
  - cbn [bind]. eauto.
Qed.
