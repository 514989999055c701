(** Closed form of the planes accumulated by visibility_grid. *)
From Coq Require Import Permutation Lqa ZifyBool ZifyNat.
From Verif Require Import Base SortLib Cplx NpArr PyIndex SumLib Histogram ArrayMatch Utils1
  WeightInvert GridLoc GridSpec GridLocProofs GridCountProofs VisGrid VisGridSpec VisGridBoxProofs.
Open Scope nat_scope.

Lemma add_box_at {A} (op : A -> A -> A) y0 x0 p bx a a' : add_box op y0 x0 p bx a = Ok a' ->
  rows a' = rows a /\ cols a' = cols a /\ forall i j,
    at2 a' i j = if covers y0 x0 p i j
                 then op (at2 a i j) (bx (Z.to_nat ((Z.of_nat i - y0) * p + (Z.of_nat j - x0))))
                 else at2 a i j.
Proof. unfold add_box. destruct (_ && _); [|discriminate]. intros [= <-]. repeat split. Qed.

Lemma add_box_ok {A} (op : A -> A -> A) y0 x0 p bx a :
  (y0 + p <= Z.of_nat (rows a))%Z -> (x0 + p <= Z.of_nat (cols a))%Z -> exists a', add_box op y0 x0 p bx a = Ok a'.
Proof. intros H1 H2. unfold add_box. replace (_ && _) with true by lia. eauto. Qed.

(** ** Kernels *)
Lemma sub_step_offset res c : (0 < res)%Z -> Z.to_nat (pix_offset res c) = sub_step res c /\ (0 <= pix_offset res c < res)%Z.
Proof.
  intros Hr. unfold pix_offset, sub_step. change (c - inject_Z (Qfloor c))%Q with (frac c).
  assert (B : (0 <= Qfloor (frac c * inject_Z res) < res)%Z).
  { assert (Hr' : (0 < inject_Z res)%Q) by (change 0%Q with (inject_Z 0); rewrite <- Zlt_Qlt; auto).
    assert (F : (0 <= frac c < 1)%Q).
    { unfold frac. pose proof (Qfloor_le c). pose proof (Qlt_floor c) as H1. rewrite inject_Z_plus in H1.
      change (inject_Z 1) with 1%Q in H1. lra. }
    assert (Q0 : (0 <= frac c * inject_Z res)%Q) by (apply Qmult_le_0_compat; lra).
    assert (Q1 : (frac c * inject_Z res < inject_Z res)%Q).
    { apply Qlt_le_trans with (1 * inject_Z res)%Q; [apply Qmult_lt_r; lra|lra]. }
    split.
    - change 0%Z with (Qfloor (inject_Z 0)). apply Qfloor_resp_le. exact Q0.
    - rewrite Zlt_Qlt. eapply Qle_lt_trans; [apply Qfloor_le|exact Q1]. }
  rewrite Z.mod_small by auto. auto.
Qed.

Lemma Q2Qc_comp a b : (a == b)%Q -> Q2Qc a = Q2Qc b.
Proof. intros H. apply Qc_is_canon. cbn [this Q2Qc]. rewrite !Qred_correct. exact H. Qed.
Lemma Q2Qc_sub a b : Q2Qc (a - b) = (Q2Qc a - Q2Qc b)%Qc.
Proof. apply Qc_is_canon. unfold Qcminus, Qcopp, Qcplus. cbn [this Q2Qc]. rewrite !Qred_correct. reflexivity. Qed.
Lemma Q2Qc_mul a b : Q2Qc (a * b) = (Q2Qc a * Q2Qc b)%Qc.
Proof. apply Qc_is_canon. unfold Qcmult. cbn [this Q2Qc]. rewrite !Qred_correct. reflexivity. Qed.

Lemma vadd_nth' a b k : length a = length b -> nth k (vadd a b) C0 = (nth k a C0 + nth k b C0)%C.
Proof.
  intros H. unfold vadd. destruct (Nat.lt_ge_cases k (length a)) as [Hk|Hk].
  - rewrite (nth_map_lt _ _ _ (C0, C0)) by (rewrite combine_length; lia). rewrite combine_nth by auto. reflexivity.
  - rewrite !nth_overflow; try (rewrite ?map_length, ?combine_length; lia). ring.
Qed.
Lemma vscale_nth' w a k : nth k (vscale w a) C0 = Cscale w (nth k a C0).
Proof.
  unfold vscale. destruct (Nat.lt_ge_cases k (length a)) as [Hk|Hk].
  - now rewrite (nth_map_lt _ _ _ C0).
  - rewrite !nth_overflow by (rewrite ?map_length; lia). apply C_ext; cbn; ring.
Qed.
Lemma vadd_len a b n : length a = n -> length b = n -> length (vadd a b) = n.
Proof. intros. unfold vadd. rewrite map_length, combine_length. lia. Qed.
Lemma vscale_len w a : length (vscale w a) = length a.
Proof. apply map_length. Qed.

Lemma interpolate_nth (t : nat -> nat -> list C) n x y w00 w10 w01 w11 k : (forall y x, length (t y x) = n) ->
  length (interpolate_kernel t x y w00 w10 w01 w11) = n /\
  nth k (interpolate_kernel t x y w00 w10 w01 w11) C0
  = (Cscale w00 (nth k (t y x) C0) + Cscale w10 (nth k (t y (x + 1)%nat) C0)
     + Cscale w01 (nth k (t (y + 1)%nat x) C0) + Cscale w11 (nth k (t (y + 1)%nat (x + 1)%nat) C0))%C.
Proof.
  intros H. unfold interpolate_kernel.
  assert (L : forall w a b, length (vscale w (t a b)) = n) by (intros; rewrite vscale_len; auto).
  split; [repeat apply vadd_len; auto|].
  assert (L2 : forall a b, length a = n -> length b = n -> length (vadd a b) = n) by (intros; now apply vadd_len).
  rewrite !vadd_nth', !vscale_nth'; auto; repeat rewrite L2; auto; now rewrite !L.
Qed.

Section Planes.
  Context (cfg : grid_cfg) (gi : grid_input) (uniform : bool) (fi bi : list Z) (l : locs) (fmin fmax : Q).
  Let g := gi_loc gi.
  Let mask := c_mask_mirror cfg.
  Let p := g_psf_dim g.
  Hypothesis Hs : sensible g.
  Hypothesis Hle : (g_elements g <= g_dimension g)%Z.
  Hypothesis HL : loc_facts g bi fi false (c_interp cfg) mask l fmin fmax.
  Hypothesis Hmode : c_interp cfg = true \/ c_per_baseline cfg = false.
  Hypothesis Hbeam : beam_ok gi.
  Let N := length fi * length bi.
  Let keep := fun k => kept_b g fmin fmax false mask (meas_k g fi bi k).
  Context (fbin_use : list nat) (vis model : arr2 C) (n_vis : nat).
  Hypothesis Hfb : fbin_use = map (py_get 0 (gi_fbin gi)) fi.
  Context (bin_n bin_i ri : list nat).
  Hypothesis HB : l_bins l = Some (bin_n, bin_i, ri).
  Let kern := kernel_k cfg gi l fbin_use.
  Let inv := (/ qc_nat n_vis)%Qc.
  Let m k := meas_k g fi bi k.

  Lemma off_range a k : In a [l_x_offset l; l_y_offset l] -> k < N ->
    (0 <= flat_at a k < g_psf_resolution g)%Z.
  Proof.
    intros Ha Hk. destruct (flat_split _ _ _ Hk) as (H1 & H2 & _).
    destruct (lf_at _ _ _ _ _ _ _ _ _ HL _ _ H1 H2) as (_ & _ & A & B).
    destruct (lf_shape _ _ _ _ _ _ _ _ _ HL (l_x_offset l)) as [_ Cx]; [simpl; auto|].
    destruct (lf_shape _ _ _ _ _ _ _ _ _ HL (l_y_offset l)) as [_ Cy]; [simpl; auto|].
    destruct Hs as (_ & _ & _ & _ & Hr & _).
    destruct Ha as [<-|[<-|[]]]; unfold flat_at; rewrite ?Cx, ?Cy, ?A, ?B; now apply sub_step_offset.
  Qed.

  Lemma fbin_code k : k < N -> fbin_of fbin_use k = looked_up_bin gi fi k.
  Proof.
    intros Hk. unfold fbin_of, looked_up_bin. rewrite Hfb, map_length.
    rewrite (nth_map_lt _ _ _ 0%Z); auto. apply Nat.mod_upper_bound. unfold N in Hk. lia.
  Qed.

  (** The kernel used by the code is the kernel of the specification. *)
  Lemma kern_value k q : k < N ->
    length (kern k) = Z.to_nat (p ^ 2)
    /\ nth q (kern k) C0 = kernel_value (c_interp cfg) g (gi_beam gi (looked_up_bin gi fi k)) (m k) q.
  Proof.
    intros Hk. unfold kern, kernel_k. rewrite fbin_code by auto.
    destruct (flat_split _ _ _ Hk) as (H1 & H2 & _).
    destruct (lf_at _ _ _ _ _ _ _ _ _ HL _ _ H1 H2) as (_ & _ & A & B).
    destruct (lf_shape _ _ _ _ _ _ _ _ _ HL (l_x_offset l)) as [_ Cx]; [simpl; auto|].
    destruct (lf_shape _ _ _ _ _ _ _ _ _ HL (l_y_offset l)) as [_ Cy]; [simpl; auto|].
    change (meas_at g fi bi (k / length bi) (k mod length bi)) with (m k) in A, B.
    destruct Hs as (Hk0 & _ & _ & _ & Hr & Hp).
    assert (Ex : Z.to_nat (flat_at (l_x_offset l) k) = sub_step (g_psf_resolution g) (pos_x (g_kpix g) (m k))).
    { unfold flat_at. rewrite Cx, A. now apply sub_step_offset. }
    assert (Ey : Z.to_nat (flat_at (l_y_offset l) k) = sub_step (g_psf_resolution g) (pos_y (g_kpix g) (m k))).
    { unfold flat_at. rewrite Cy, B. now apply sub_step_offset. }
    rewrite Ex, Ey. unfold kernel_value.
    assert (T : forall f y x, length (gi_beam gi f y x) = Z.to_nat (p ^ 2)).
    { intros f y x. destruct Hbeam as [Hb _]. specialize (Hb f y x). fold g p in Hb. lia. }
    pose proof (lf_deriv _ _ _ _ _ _ _ _ _ HL) as HD.
    destruct (c_interp cfg) eqn:Ei; [|split; auto].
    destruct (l_deriv l) as [[[[d00 d01] d10] d11]|] eqn:Ed; [|discriminate].
    destruct HD as [_ HD]. specialize (HD _ _ H1 H2). cbv zeta in HD.
    change (meas_at g fi bi (k / length bi) (k mod length bi)) with (m k) in HD.
    assert (Cd : cols d00 = length bi /\ cols d01 = length bi /\ cols d10 = length bi /\ cols d11 = length bi).
    { pose proof (lf_dshape _ _ _ _ _ _ _ _ _ HL) as S. rewrite Ed in S. exact S. }
    destruct Cd as (C00 & C01 & C10 & C11).
    destruct HD as (D1 & D2 & D3 & D4).
    edestruct (interpolate_nth (gi_beam gi (looked_up_bin gi fi k)) (Z.to_nat (p ^ 2))) as [LL NN]; [apply T|].
    split; [apply LL|]. rewrite NN. unfold flat_at. rewrite C00, C01, C10, C11.
    rewrite (Q2Qc_comp _ _ D1), (Q2Qc_comp _ _ D2), (Q2Qc_comp _ _ D3), (Q2Qc_comp _ _ D4).
    rewrite !Q2Qc_mul, !Q2Qc_sub. change (Q2Qc 1) with 1%Qc.
    change (Q2Qc (pix_deriv ?r ?c)) with (sub_frac r c). unfold lerp.
    apply C_ext; cbn [re im Cadd Cscale]; ring.
  Qed.

  Definition pix (k i j : nat) : nat := footprint_pixel g (m k) i j.
  Definition cov (k i j : nat) : bool := in_footprint g (m k) i j.

  Lemma bin_members b : In b bin_i ->
    slice ri (nth b ri 0) (nth (S b) ri 0) = filter (fun k => Z.to_nat (key g (m k)) =? b) (filter keep (seq 0 N))
    /\ slice ri (nth b ri 0) (nth (S b) ri 0) <> []
    /\ nth b bin_n 0 = length (slice ri (nth b ri 0) (nth (S b) ri 0)).
  Proof.
    pose proof (loc_bins _ _ _ _ _ _ _ _ _ Hs HL) as HBF. rewrite HB in HBF. cbn [bins_facts] in HBF.
    destruct HBF as (_ & Hkey & Hbin & Hbi & _). intros Hb. rewrite Hbi in Hb. apply filter_In in Hb.
    destruct Hb as [Hb%in_seq Hne]. destruct (Hbin b ltac:(lia)) as (B1 & B2 & _).
    rewrite B1. fold N. split; [|split].
    - rewrite filter_filter. apply filter_ext_in. intros k Hk%in_seq.
      change (kept_b g fmin fmax false mask (meas_k g fi bi k)) with (keep k).
      destruct (keep k) eqn:Ek; cbn [andb]; auto. specialize (Hkey k ltac:(lia) Ek). unfold m. lia.
    - intros E. fold N in B2. rewrite E in B2. rewrite B2 in Hne. discriminate.
    - exact B2.
  Qed.

  Lemma bin_corner b k : In b bin_i -> In k (slice ri (nth b ri 0) (nth (S b) ri 0)) ->
    k < N /\ keep k = true
    /\ flat_at (l_ymin l) (nth 0 (slice ri (nth b ri 0) (nth (S b) ri 0)) 0) = corner_y g (m k)
    /\ flat_at (l_xmin l) (nth 0 (slice ri (nth b ri 0) (nth (S b) ri 0)) 0) = corner_x g (m k).
  Proof.
    intros Hb Hk. destruct (bin_members b Hb) as (E & Hne & _).
    set (inds := slice ri (nth b ri 0) (nth (S b) ri 0)) in *.
    assert (HF : forall k, In k inds -> k < N /\ keep k = true /\ Z.to_nat (key g (m k)) = b).
    { intros k' Hk'. rewrite E in Hk'. apply filter_In in Hk'. destruct Hk' as [Hk' H2].
      apply filter_In in Hk'. destruct Hk' as [Hk'%in_seq H3]. apply Nat.eqb_eq in H2. split; [lia|auto]. }
    set (k0 := nth 0 inds 0).
    assert (H0 : In k0 inds) by (apply nth_In; destruct inds; [congruence|simpl; lia]).
    destruct (HF k Hk) as (K1 & K2 & K3). destruct (HF k0 H0) as (J1 & J2 & J3).
    pose proof (loc_bins _ _ _ _ _ _ _ _ _ Hs HL) as HBF. rewrite HB in HBF. cbn [bins_facts] in HBF.
    destruct HBF as (_ & Hkey & _).
    pose proof (Hkey k K1 K2). pose proof (Hkey k0 J1 J2).
    destruct (key_inj g fmin fmax false mask (m k) (m k0) Hs Hle K2 J2) as [Ex Ey].
    { unfold m in *. lia. }
    split; [auto|]. split; [auto|].
    destruct (flat_split _ _ _ J1) as (I1 & I2 & _).
    destruct (lf_at _ _ _ _ _ _ _ _ _ HL _ _ I1 I2) as (A & B & _).
    destruct (lf_shape _ _ _ _ _ _ _ _ _ HL (l_xmin l)) as [_ Cx]; [simpl; auto|].
    destruct (lf_shape _ _ _ _ _ _ _ _ _ HL (l_ymin l)) as [_ Cy]; [simpl; auto|].
    change (meas_at g fi bi (k0 / length bi) (k0 mod length bi)) with (m k0) in A, B.
    change (kept_b g fmin fmax false mask (m k0)) with (keep k0) in A, B. rewrite J2 in A, B.
    unfold flat_at. rewrite Cx, Cy, A, B. split; congruence.
  Qed.

  (** value of the conjugate kernel of k at pixel (i, j), 0 outside of its footprint *)
  Definition dagv (k i j : nat) : C := if cov k i j then Cconj (nth (pix k i j) (kern k) C0) else C0.
  Definition absv (k i j : nat) : Qc := if cov k i j then Cnorm2 (nth (pix k i j) (kern k) C0) else 0%Qc.
  Definition members (b : nat) : list nat := slice ri (nth b ri 0) (nth (S b) ri 0).

  Definition added {A} (op : A -> A -> A) (a a' : arr2 A) (d : nat -> nat -> A) : Prop :=
    rows a' = rows a /\ cols a' = cols a /\ forall i j, at2 a' i j = op (at2 a i j) (d i j).

  Definition cpart (v : nat -> C) (b i j : nat) : C := Cscale inv (Csum (map (fun k => dagv k i j * v k)%C (members b))).

  Lemma cadd_added b (bx : nat -> C) (v : nat -> C) a a' : In b bin_i ->
    let ind0 := nth 0 (members b) 0 in
    (forall q, bx q = Cscale inv (Csum (map (fun k => Cconj (nth q (kern k) C0) * v k)%C (members b)))) ->
    add_box Cadd (flat_at (l_ymin l) ind0) (flat_at (l_xmin l) ind0) p bx a = Ok a' ->
    added Cadd a a' (cpart v b).
  Proof.
    intros Hb ind0 Hv E. apply add_box_at in E. destruct E as (R & Cc & V). split; [auto|]. split; [auto|].
    intros i j. rewrite V. unfold cpart. rewrite Hv.
    destruct (covers (flat_at (l_ymin l) ind0) (flat_at (l_xmin l) ind0) p i j) eqn:E.
    - f_equal. f_equal. apply Csum_ext. intros k Hk. destruct (bin_corner b k Hb Hk) as (_ & _ & Ey & Ex).
      fold (members b) ind0 in Ey, Ex. unfold dagv, cov, in_footprint. fold p. rewrite <- Ex, <- Ey, E.
      unfold pix, footprint_pixel. fold p. now rewrite <- Ex, <- Ey.
    - rewrite (Csum_ext _ (fun _ => C0)).
      + unfold inv. rewrite Csum_const_len. apply C_ext; cbn [re im Cadd Cscale C0]; ring.
      + intros k Hk. destruct (bin_corner b k Hb Hk) as (_ & _ & Ey & Ex).
        fold (members b) ind0 in Ey, Ex. unfold dagv, cov, in_footprint. fold p. rewrite <- Ex, <- Ey, E. ring.
  Qed.

  Definition vpart (b i j : nat) : Qc := (inv * Qcsum (map (fun k => absv k i j) (members b)))%Qc.
  Lemma radd_added b (bx : nat -> Qc) a a' : In b bin_i ->
    let ind0 := nth 0 (members b) 0 in
    (forall q, bx q = inv * Qcsum (map (fun k => Cnorm2 (nth q (kern k) C0)) (members b)))%Qc ->
    add_box Qcplus (flat_at (l_ymin l) ind0) (flat_at (l_xmin l) ind0) p bx a = Ok a' ->
    added Qcplus a a' (vpart b).
  Proof.
    intros Hb ind0 Hv E. apply add_box_at in E. destruct E as (R & Cc & V). split; [auto|]. split; [auto|].
    intros i j. rewrite V. unfold vpart. rewrite Hv.
    destruct (covers (flat_at (l_ymin l) ind0) (flat_at (l_xmin l) ind0) p i j) eqn:E.
    - f_equal. f_equal. apply Qcsum_ext. intros k Hk. destruct (bin_corner b k Hb Hk) as (_ & _ & Ey & Ex).
      fold (members b) ind0 in Ey, Ex. unfold absv, cov, in_footprint. fold p. rewrite <- Ex, <- Ey, E.
      unfold pix, footprint_pixel. fold p. now rewrite <- Ex, <- Ey.
    - rewrite (Qcsum_ext _ (fun _ => 0%Qc)).
      + rewrite Qcsum_const_len. ring.
      + intros k Hk. destruct (bin_corner b k Hb Hk) as (_ & _ & Ey & Ex).
        fold (members b) ind0 in Ey, Ex. unfold absv, cov, in_footprint. fold p. rewrite <- Ex, <- Ey, E. ring.
  Qed.

  Definition upart (b i j : nat) : Qc :=
    Qcsum (map (fun k => if cov k i j then 1%Qc else 0%Qc) (members b)).
  Lemma uadd_added b a : In b bin_i ->
    let ind0 := nth 0 (members b) 0 in
    added Qcplus a (add_const (flat_at (l_ymin l) ind0) (flat_at (l_xmin l) ind0) p (qc_nat (nth b bin_n 0)) a) (upart b).
  Proof.
    intros Hb ind0. split; [auto|]. split; [auto|]. intros i j. unfold add_const, upart. cbn [at2].
    destruct (bin_members b Hb) as (_ & _ & Hn). fold (members b) in Hn. rewrite Hn.
    assert (Ec : forall k, In k (members b) -> cov k i j = covers (flat_at (l_ymin l) ind0) (flat_at (l_xmin l) ind0) p i j).
    { intros k Hk. destruct (bin_corner b k Hb Hk) as (_ & _ & Ey & Ex).
      fold (members b) ind0 in Ey, Ex. unfold cov, in_footprint. fold p. now rewrite <- Ex, <- Ey. }
    destruct (covers (flat_at (l_ymin l) ind0) (flat_at (l_xmin l) ind0) p i j) eqn:E.
    - rewrite (Qcsum_ext _ (fun _ => 1%Qc)) by (intros k Hk; now rewrite Ec). rewrite Qcsum_const_len. ring.
    - rewrite (Qcsum_ext _ (fun _ => 0%Qc)) by (intros k Hk; now rewrite Ec). rewrite Qcsum_const_len. ring.
  Qed.

  Definition has_model := match gi_model gi with Some _ => true | None => false end.

  Lemma grid_bin_step st st' b : In b bin_i ->
    grid_bin cfg gi uniform l fbin_use vis model n_vis bin_n ri st b = Ok st' ->
    added Cadd (p_image st) (p_image st') (cpart (flat_at vis) b)
    /\ (if has_model then added Cadd (p_model st) (p_model st') (cpart (flat_at model) b) else p_model st' = p_model st)
    /\ (if c_weights cfg then added Cadd (p_weights st) (p_weights st') (cpart (fun _ => C1) b) else p_weights st' = p_weights st)
    /\ (if c_variance cfg then added Qcplus (p_variance st) (p_variance st') (vpart b) else p_variance st' = p_variance st)
    /\ (if uniform then added Qcplus (p_uniform st) (p_uniform st') (upart b) else p_uniform st' = p_uniform st).
  Proof.
    intros Hb. unfold grid_bin. cbv zeta. fold g p (members b).
    destruct (bin_box cfg gi l fbin_use vis model (members b)) as [bx|] eqn:Ebx; cbn [bind]; [|discriminate].
    apply bin_box_grouped in Ebx; auto.
    2:{ intros k Hk. apply off_range; [simpl; auto|]. now apply (bin_corner b k). }
    2:{ intros k Hk. apply off_range; [simpl; auto|]. now apply (bin_corner b k). }
    2:{ apply Hbeam. }
    fold kern in Ebx.
    match goal with |- context [if negb ?c then _ else _] => destruct c eqn:Elen end; cbn [negb]; [|discriminate].
    repeat match goal with |- bind ?x _ = _ -> _ =>
      let E := fresh "E" in let r := fresh "r" in destruct x as [r|] eqn:E; cbn [bind]; [|discriminate] end.
    intros [= <-]. cbn [p_image p_model p_weights p_variance p_uniform].
    fold has_model in *. unfold when in *.
    split; [|split; [|split; [|split]]].
    - eapply cadd_added; [exact Hb| |exact E4]. intros q. apply (sum_vis _ _ _ _ _ _ Ebx).
    - destruct has_model; [|congruence].
      eapply cadd_added; [exact Hb| |exact E3]. intros q. apply (sum_model _ _ _ _ _ _ Ebx).
    - destruct (c_weights cfg); [|congruence].
      eapply cadd_added; [exact Hb| |exact E5]. intros q. cbv beta. rewrite (sum_weights _ _ _ _ _ _ Ebx). fold inv.
      f_equal. apply Csum_ext. intros k _. ring.
    - destruct (c_variance cfg); [|congruence].
      eapply radd_added; [exact Hb| |exact E6]. intros q. apply (sum_variance _ _ _ _ _ _ Ebx).
    - destruct uniform; [|reflexivity]. now apply uadd_added.
  Qed.

  (** ** The loop *)
  Lemma loop_added {A} (op : A -> A -> A) (e : A) (P : planes -> arr2 A) (d : nat -> nat -> nat -> A) :
    (forall x y z, op x (op y z) = op (op x y) z) -> (forall x, op x e = x) ->
    forall bs st st',
    (forall b st st', In b bs -> grid_bin cfg gi uniform l fbin_use vis model n_vis bin_n ri st b = Ok st' ->
       added op (P st) (P st') (d b)) ->
    fold_res (grid_bin cfg gi uniform l fbin_use vis model n_vis bin_n ri) bs st = Ok st' ->
    added op (P st) (P st') (fun i j => msum op e (map (fun b => d b i j) bs)).
  Proof.
    intros Ha He. induction bs as [|b bs IH]; intros st st' Hst; cbn [fold_res].
    - intros [= <-]. split; [auto|]. split; [auto|]. intros i j. cbn [map msum fold_right]. now rewrite He.
    - destruct (grid_bin cfg gi uniform l fbin_use vis model n_vis bin_n ri st b) as [st1|] eqn:E; cbn [bind]; [|discriminate].
      intros E'. apply IH in E'; [|intros; eapply Hst; eauto; now right].
      apply Hst in E; [|now left]. destruct E as (R & Cc & V). destruct E' as (R' & Cc' & V').
      split; [congruence|]. split; [congruence|]. intros i j. rewrite V', V. cbn [map msum fold_right]. now rewrite Ha.
  Qed.

  Lemma loop_same {A} (P : planes -> A) :
    forall bs st st',
    (forall b st st', In b bs -> grid_bin cfg gi uniform l fbin_use vis model n_vis bin_n ri st b = Ok st' -> P st' = P st) ->
    fold_res (grid_bin cfg gi uniform l fbin_use vis model n_vis bin_n ri) bs st = Ok st' -> P st' = P st.
  Proof.
    induction bs as [|b bs IH]; intros st st' Hst; cbn [fold_res]; [congruence|].
    destruct (grid_bin cfg gi uniform l fbin_use vis model n_vis bin_n ri st b) as [st1|] eqn:E; cbn [bind]; [|discriminate].
    intros E'. apply IH in E'; [|intros; eapply Hst; eauto; now right].
    apply Hst in E; [|now left]. congruence.
  Qed.

  Lemma bins_nodup : NoDup bin_i.
  Proof.
    pose proof (loc_bins _ _ _ _ _ _ _ _ _ Hs HL) as HBF. rewrite HB in HBF. cbn [bins_facts] in HBF.
    destruct HBF as (_ & Hkey & Hbin & Hbi & _). rewrite Hbi. apply NoDup_filter, seq_NoDup.
  Qed.
  Lemma key_bin k : In k (filter keep (seq 0 N)) -> In (Z.to_nat (key g (m k))) bin_i.
  Proof.
    pose proof (loc_bins _ _ _ _ _ _ _ _ _ Hs HL) as HBF. rewrite HB in HBF. cbn [bins_facts] in HBF.
    destruct HBF as (_ & Hkey & Hbin & Hbi & _).
    intros Hk. apply filter_In in Hk. destruct Hk as [Hk%in_seq Ek].
    pose proof (Hkey k ltac:(fold N; lia) Ek) as Hr. rewrite Hbi. apply filter_In. split; [apply in_seq; unfold m; lia|].
    destruct (Hbin (Z.to_nat (key g (m k))) ltac:(unfold m; lia)) as (_ & B2 & _).
    rewrite B2. apply negb_true_iff, Nat.eqb_neq. intros E0.
    apply length_zero_iff_nil in E0.
    assert (In k []) as []. rewrite <- E0. apply filter_In. split; [apply in_seq; fold N; lia|].
    change (kept_b g fmin fmax false mask (meas_k g fi bi k)) with (keep k). rewrite Ek. cbn [andb]. unfold m. lia.
  Qed.

  Lemma classes_C (f : nat -> C) :
    Csum (map (fun b => Csum (map f (members b))) bin_i) = Csum (map f (filter keep (seq 0 N))).
  Proof.
    change (Csum (map f (filter keep (seq 0 N)))) with (msum Cadd C0 (map f (filter keep (seq 0 N)))).
    rewrite <- (msum_classes Cadd C0 ltac:(intros; ring) ltac:(intros; ring) ltac:(intros; ring) f (fun k => Z.to_nat (key g (m k)))
       (filter keep (seq 0 N)) bin_i bins_nodup key_bin).
    apply Csum_ext. intros b Hb. unfold members. destruct (bin_members b Hb) as (-> & _). reflexivity.
  Qed.
  Lemma classes_Q (f : nat -> Qc) :
    Qcsum (map (fun b => Qcsum (map f (members b))) bin_i) = Qcsum (map f (filter keep (seq 0 N))).
  Proof.
    change (Qcsum (map f (filter keep (seq 0 N)))) with (msum Qcplus 0%Qc (map f (filter keep (seq 0 N)))).
    rewrite <- (msum_classes Qcplus 0%Qc ltac:(intros; ring) ltac:(intros; ring) ltac:(intros; ring) f (fun k => Z.to_nat (key g (m k)))
       (filter keep (seq 0 N)) bin_i bins_nodup key_bin).
    apply Qcsum_ext. intros b Hb. unfold members. destruct (bin_members b Hb) as (-> & _). reflexivity.
  Qed.

  Definition closed (v : nat -> C) (i j : nat) : C :=
    Cscale inv (Csum (map (fun k => dagv k i j * v k)%C (filter keep (seq 0 N)))).

  Theorem planes_closed st st' :
    fold_res (grid_bin cfg gi uniform l fbin_use vis model n_vis bin_n ri) bin_i st = Ok st' ->
    added Cadd (p_image st) (p_image st') (closed (flat_at vis))
    /\ (has_model = true -> added Cadd (p_model st) (p_model st') (closed (flat_at model)))
    /\ (if c_weights cfg then added Cadd (p_weights st) (p_weights st') (closed (fun _ => C1)) else p_weights st' = p_weights st)
    /\ (if c_variance cfg then added Qcplus (p_variance st) (p_variance st')
          (fun i j => inv * Qcsum (map (fun k => absv k i j) (filter keep (seq 0 N))))%Qc else p_variance st' = p_variance st)
    /\ (if uniform then added Qcplus (p_uniform st) (p_uniform st')
          (fun i j => Qcsum (map (fun k => if cov k i j then 1%Qc else 0%Qc) (filter keep (seq 0 N)))) else p_uniform st' = p_uniform st).
  Proof.
    intros E.
    assert (CC : forall (P : planes -> arr2 C) v,
      (forall b st st', In b bin_i -> grid_bin cfg gi uniform l fbin_use vis model n_vis bin_n ri st b = Ok st' ->
         added Cadd (P st) (P st') (cpart v b)) -> added Cadd (P st) (P st') (closed v)).
    { intros P v Hst. destruct (loop_added Cadd C0 P (cpart v) ltac:(intros; ring) ltac:(intros; ring) bin_i st st' Hst E) as (R & Cc & V).
      split; [auto|]. split; [auto|]. intros i j. rewrite V. f_equal. unfold closed. rewrite <- classes_C, <- Csum_scale. reflexivity. }
    split; [|split; [|split; [|split]]].
    - apply CC. intros b s s' Hb Eb. apply (grid_bin_step s s' b Hb Eb).
    - intros Hm. apply CC. intros b s s' Hb Eb. destruct (grid_bin_step s s' b Hb Eb) as (_ & H & _). now rewrite Hm in H.
    - destruct (c_weights cfg) eqn:Ew.
      + apply CC. intros b s s' Hb Eb. destruct (grid_bin_step s s' b Hb Eb) as (_ & _ & H & _). now rewrite Ew in H.
      + eapply loop_same; [|exact E]. intros b s s' Hb Eb. destruct (grid_bin_step s s' b Hb Eb) as (_ & _ & H & _). now rewrite Ew in H.
    - destruct (c_variance cfg) eqn:Ew.
      + destruct (loop_added Qcplus 0%Qc p_variance vpart ltac:(intros; ring) ltac:(intros; ring) bin_i st st') as (R & Cc & V); auto.
        { intros b s s' Hb Eb. destruct (grid_bin_step s s' b Hb Eb) as (_ & _ & _ & H & _). now rewrite Ew in H. }
        split; [auto|]. split; [auto|]. intros i j. rewrite V. f_equal. rewrite <- classes_Q, <- Qcsum_mul_l. reflexivity.
      + eapply loop_same; [|exact E]. intros b s s' Hb Eb. destruct (grid_bin_step s s' b Hb Eb) as (_ & _ & _ & H & _). now rewrite Ew in H.
    - assert (Ec : uniform = true \/ uniform = false) by (destruct uniform; auto). destruct Ec as [Ew|Ew]; rewrite Ew.
      + destruct (loop_added Qcplus 0%Qc p_uniform upart ltac:(intros; ring) ltac:(intros; ring) bin_i st st') as (R & Cc & V); auto.
        { intros b s s' Hb Eb. destruct (grid_bin_step s s' b Hb Eb) as (_ & _ & _ & _ & H). now rewrite Ew in H. }
        split; [auto|]. split; [auto|]. intros i j. rewrite V. f_equal. rewrite <- classes_Q. reflexivity.
      + eapply loop_same; [|exact E]. intros b s s' Hb Eb. destruct (grid_bin_step s s' b Hb Eb) as (_ & _ & _ & _ & H). now rewrite Ew in H.
  Qed.
  (** ** Totality on square planes *)
  Definition shape_ok (n k : nat) (st : planes) : Prop :=
    let ok {A} (a : arr2 A) := rows a = n /\ cols a = k in
    ok (p_image st) /\ ok (p_weights st) /\ ok (p_variance st) /\ ok (p_model st)
    /\ ok (p_specA st) /\ ok (p_specB st) /\ ok (p_specD st) /\ ok (p_specM st).

  Lemma when_ok {A} c (f : arr2 A -> result (arr2 A)) a n k : rows a = n -> cols a = k ->
    (c = true -> exists a', f a = Ok a' /\ rows a' = n /\ cols a' = k) ->
    exists a', when c f a = Ok a' /\ rows a' = n /\ cols a' = k.
  Proof. intros. unfold when. destruct c; eauto. Qed.

  Lemma add_box_total {A} (op : A -> A -> A) y0 x0 (bx : nat -> A) a n k : rows a = n -> cols a = k ->
    (y0 + p <= Z.of_nat n)%Z -> (x0 + p <= Z.of_nat k)%Z ->
    exists a', add_box op y0 x0 p bx a = Ok a' /\ rows a' = n /\ cols a' = k.
  Proof.
    intros R Cc H1 H2. destruct (add_box_ok op y0 x0 p bx a) as [a' E]; [lia|lia|]. exists a'. split; auto.
    apply add_box_at in E. destruct E as (R' & C' & _). split; congruence.
  Qed.

  (** Every row of box_matrix has psf_dim^2 entries. *)
  Lemma rows_tabulated b bx : In b bin_i -> bin_box cfg gi l fbin_use vis model (members b) = Ok bx ->
    forallb (fun r => (Z.of_nat (length r) =? p ^ 2)%Z) (b_rows bx) = true.
  Proof.
    intros Hb Ebx.
    apply bin_box_grouped in Ebx; auto.
    2:{ intros q Hq. apply off_range; [simpl; auto|]. now apply (bin_corner b q). }
    2:{ intros q Hq. apply off_range; [simpl; auto|]. now apply (bin_corner b q). }
    2:{ apply Hbeam. }
    fold kern in Ebx.
    apply (rows_len _ _ _ _ _ _ Ebx). intros q Hq. destruct (bin_corner b q Hb Hq) as (Hq' & _).
    destruct (kern_value q 0 Hq') as [-> _]. rewrite Z2Nat.id; auto. nia.
  Qed.
  Lemma rows_per_baseline b bx : (forall fs bs x y, Forall (fun r => Z.of_nat (length r) = (p ^ 2)%Z) (gi_beam_pb gi fs bs x y)) ->
    c_interp cfg = false -> c_per_baseline cfg = true ->
    bin_box cfg gi l fbin_use vis model (members b) = Ok bx ->
    forallb (fun r => (Z.of_nat (length r) =? p ^ 2)%Z) (b_rows bx) = true.
  Proof.
    intros HF HI HP. unfold bin_box. cbv zeta. rewrite HI, HP.
    destruct (map_res _ _); cbn [bind]; [|discriminate]. rewrite andb_false_r. intros [= <-]. cbn [b_rows].
    apply forallb_forall. intros r Hr. apply Z.eqb_eq.
    exact (proj1 (Forall_forall _ _) (HF _ _ _ _) r Hr).
  Qed.

  Lemma grid_bin_ok st b : g_elements g = g_dimension g ->
    (forall b bx, In b bin_i -> bin_box cfg gi l fbin_use vis model (members b) = Ok bx ->
       forallb (fun r => (Z.of_nat (length r) =? p ^ 2)%Z) (b_rows bx) = true) ->
    (length bi <= gi_n_time gi * Nat.min (gi_n_baselines gi) (gi_group_cols gi)) ->
    (c_spectral cfg = true -> gi_model gi = None) ->
    let n := Z.to_nat (g_elements g) in let k := Z.to_nat (g_dimension g) in
    shape_ok n k st -> In b bin_i ->
    exists st', grid_bin cfg gi uniform l fbin_use vis model n_vis bin_n ri st b = Ok st' /\ shape_ok n k st'.
  Proof.
    clear Hmode Hbeam. intros Hsq Hrows Hgrp Hspec n k ([R1 K1] & [R2 K2] & [R3 K3] & [R4 K4] & [R5 K5] & [R6 K6] & [R7 K7] & [R8 K8]) Hb.
    destruct (bin_members b Hb) as (_ & Hne & _). fold (members b) in Hne.
    set (k0 := nth 0 (members b) 0).
    assert (H0 : In k0 (members b)) by (apply nth_In; destruct (members b); [congruence|simpl; lia]).
    destruct (bin_corner b k0 Hb H0) as (K0 & Kk & Ey & Ex). fold (members b) in Ey, Ex. fold k0 in Ey, Ex.
    pose proof (kept_in_plane _ _ _ _ _ _ Kk) as HP. unfold in_plane in HP. change (meas_k g fi bi k0) with (m k0) in HP. fold p in HP.
    assert (Hd : (0 < g_dimension g)%Z) by apply Hs.
    assert (By : (corner_y g (m k0) + p <= Z.of_nat n)%Z) by (unfold n; lia).
    assert (Bx : (corner_x g (m k0) + p <= Z.of_nat k)%Z) by (unfold k; lia).
    assert (HBX : exists bx, bin_box cfg gi l fbin_use vis model (members b) = Ok bx).
    { unfold bin_box. cbv zeta. pose proof (lf_deriv _ _ _ _ _ _ _ _ _ HL) as HD.
      assert (HI : c_interp cfg = true \/ c_interp cfg = false) by (destruct (c_interp cfg); auto).
      destruct HI as [HI|HI]; rewrite HI in HD |- *.
      - destruct (l_deriv l) as [[[[d00 d01] d10] d11]|]; [eauto|discriminate].
      - assert (HG : exists gid, map_res (group_at gi fbin_use) (members b) = Ok gid).
        { eexists. apply map_res_ok with (g := fun q => gi_group gi (nth ((q / Nat.min (gi_n_baselines gi) (gi_group_cols gi)) mod length fbin_use) fbin_use 0) (q mod Nat.min (gi_n_baselines gi) (gi_group_cols gi))).
          intros q Hq. destruct (bin_corner b q Hb Hq) as (Hq' & _). unfold group_at. unfold N in Hq'.
          rewrite Hfb at 1. rewrite map_length.
          destruct (Nat.ltb_spec q (length fi * (gi_n_time gi * Nat.min (gi_n_baselines gi) (gi_group_cols gi)))); [reflexivity|nia]. }
        destruct HG as [gid ->]. cbn [bind]. destruct (_ && _); eauto. }
    destruct HBX as [bx Ebx]. unfold grid_bin. cbv zeta. fold g p (members b). fold k0. rewrite Ebx. cbn [bind].
    rewrite (Hrows b bx Hb Ebx).
    cbn [negb]. rewrite Ey, Ex.
    repeat match goal with |- exists st', bind (when ?c ?f ?a) _ = _ /\ _ =>
      let E := fresh "E" in let r := fresh "r" in let R := fresh "R" in let K := fresh "K" in
      assert (E : exists a', when c f a = Ok a' /\ rows a' = n /\ cols a' = k);
      [apply when_ok; [assumption|assumption|intros Hc]; first [now apply add_box_total|
         (exfalso; apply andb_true_iff in Hc; destruct Hc as [Hc1 Hc2]; rewrite Hspec in Hc2 by auto; discriminate)]|];
      destruct E as (r & E & R & K); rewrite E; cbn [bind] end.
    match goal with |- exists st', bind (add_box ?o ?y ?x ?p ?f ?a) _ = _ /\ _ =>
      assert (E4 : exists a', add_box o y x p f a = Ok a' /\ rows a' = n /\ cols a' = k) by (now apply add_box_total) end.
    destruct E4 as (im & -> & RI & KI). cbn [bind].
    repeat match goal with |- exists st', bind (when ?c ?f ?a) _ = _ /\ _ =>
      let E := fresh "E" in let r := fresh "r" in let R := fresh "R" in let K := fresh "K" in
      assert (E : exists a', when c f a = Ok a' /\ rows a' = n /\ cols a' = k);
      [apply when_ok; [assumption|assumption|intros Hc]; now apply add_box_total|];
      destruct E as (r & E & R & K); rewrite E; cbn [bind] end.
    eexists; split; [reflexivity|]. unfold shape_ok. cbn [p_image p_weights p_variance p_model p_specA p_specB p_specD p_specM].
    repeat split; assumption.
  Qed.
End Planes.

Lemma Cnorm2_conj z : Cnorm2 (Cconj z) = Cnorm2 z.
Proof. unfold Cnorm2, Cconj. cbn [re im]. ring. Qed.

Lemma filter_seq_ext (p q : nat -> bool) n : (forall k, k < n -> p k = q k) -> filter p (seq 0 n) = filter q (seq 0 n).
Proof. intros H. apply filter_ext_in. intros k Hk%in_seq. apply H. lia. Qed.

(** Everything known about a successful run. *)
Theorem grid_main cfg gi uniform no_conjugate fi_use bi_use out :
  sensible (gi_loc gi) -> (g_elements (gi_loc gi) <= g_dimension (gi_loc gi))%Z ->
  (c_interp cfg = true \/ c_per_baseline cfg = false) -> beam_ok gi ->
  visibility_grid cfg gi uniform no_conjugate fi_use bi_use = Ok (Some out) ->
  let g := gi_loc gi in let fi := choose_fi_use g false fi_use in
  exists bi good l st,
    match bi_use with Some b => bi = b | None => default_bi_use g false = Ok bi end
    /\ (forall k, good k = true <-> griddable g false (c_mask_mirror cfg) (meas_k g fi bi k))
    /\ (exists k, k < length fi * length bi /\ good k = true)
    /\ (forall i j, i < length fi -> j < length bi -> (0 < at2 (l_xmin l) i j)%Z <-> good (i * length bi + j) = true)
    /\ set_nf_vis fi (length bi) l (gi_nf_vis gi) = Ok (o_nf_vis out)
    /\ o_n_vis out = count_if (length fi * length bi) good
    /\ out = grid_finish cfg gi (uniform || c_uniform cfg) no_conjugate (o_n_vis out) (o_nf_vis out) st
    /\ (forall P : planes -> arr2 C, In P [p_image; p_weights; p_model] -> rows (P st) = Z.to_nat (g_elements g) /\ cols (P st) = Z.to_nat (g_dimension g))
    /\ (forall P : planes -> arr2 Qc, In P [p_variance; p_uniform] -> rows (P st) = Z.to_nat (g_elements g) /\ cols (P st) = Z.to_nat (g_dimension g))
    /\ let fb := looked_up_bin gi fi in let it := c_interp cfg in
       forall y x,
       at2 (p_image st) y x = gridded_sum it gi fi bi fb good s_vis y x
       /\ (gi_model gi <> None -> at2 (p_model st) y x = gridded_sum it gi fi bi fb good s_model y x)
       /\ at2 (p_weights st) y x = (if c_weights cfg then gridded_sum it gi fi bi fb good (fun _ => C1) y x else C0)
       /\ at2 (p_variance st) y x = (if c_variance cfg then gridded_power it gi fi bi fb good y x else 0%Qc)
       /\ at2 (p_uniform st) y x = (if uniform || c_uniform cfg then gridded_count gi fi bi good y x else 0%Qc).
Proof.
  intros Hs Hle Hmode Hbeam. unfold visibility_grid. cbv zeta.
  set (g := gi_loc gi) in *. set (fi := choose_fi_use g false fi_use).
  destruct (take 0 (gi_fbin gi) fi) as [fbin_use|] eqn:Efb; cbn [bind]; [|discriminate].
  destruct (baseline_grid_locations g bi_use (Some fi) false (c_interp cfg) (c_mask_mirror cfg)) as [l|] eqn:El; cbn [bind]; [|discriminate].
  destruct (loc_main _ _ _ _ _ _ _ Hs El) as (bi & fmin & fmax & Hbi & HL).
  change (choose_fi_use g false (Some fi)) with fi in HL.
  set (bi' := match bi_use with Some b => b | None => _ end).
  assert (Ebi : bi' = bi) by (unfold bi'; destruct bi_use; [symmetry; apply Hbi|now destruct Hbi as [_ ->]]).
  rewrite Ebi. clear bi' Ebi.
  destruct (take2 (gi_vis gi) fi bi) as [vis0|] eqn:Ev; cbn [bind]; [|discriminate].
  match goal with |- bind ?x _ = _ -> _ => destruct x as [model0|] eqn:Em end; cbn [bind]; [|discriminate].
  destruct (take 0%Q (g_vv g) bi) as [vv|] eqn:Evv; cbn [bind]; [|discriminate].
  destruct (l_bins l) as [[[bin_n bin_i] ri]|] eqn:EB; [|discriminate].
  destruct (set_nf_vis fi (length bi) l (gi_nf_vis gi)) as [nf|] eqn:Enf; cbn [bind]; [|discriminate].
  match goal with |- bind (fold_res _ _ ?s) _ = _ -> _ => set (st0 := s) end.
  match goal with |- bind ?x _ = _ -> _ => destruct x as [st|] eqn:Est end; cbn [bind]; [|discriminate].
  intros [= <-].
  apply take_spec in Efb, Evv. destruct Efb as [_ Efb], Evv as [_ Evv]. apply take2_spec in Ev. destruct Ev as (_ & _ & Rv & Cv & Av).
  pose proof (loc_bins _ _ _ _ _ _ _ _ _ Hs HL) as HBF. rewrite EB in HBF. cbn [bins_facts] in HBF.
  destruct HBF as (Hex & Hkey & _ & _ & Hsum & _).
  set (N := length fi * length bi) in *.
  set (good := fun k => kept_b g fmin fmax false (c_mask_mirror cfg) (meas_k g fi bi k)) in *.
  exists bi, good, l, st.
  split; [destruct bi_use; apply Hbi|].
  split. { intros k. unfold good. apply kept_b_spec; [exact Hs|]. apply (lf_range _ _ _ _ _ _ _ _ _ HL). }
  split; [exact Hex|].
  split. { intros i j Hi Hj. destruct (lf_at _ _ _ _ _ _ _ _ _ HL _ _ Hi Hj) as (A & _). rewrite A.
    assert (Em' : meas_k g fi bi (i * length bi + j) = meas_at g fi bi i j).
    { unfold meas_k. rewrite Nat.div_add_l, Nat.div_small, Nat.add_0_r by lia.
      now rewrite Nat.add_comm, Nat.mod_add, Nat.mod_small by lia. }
    unfold good. rewrite Em'.
    destruct (kept_b g fmin fmax false (c_mask_mirror cfg) (meas_at g fi bi i j)) eqn:Ek; [|lia].
    apply kept_in_plane in Ek. unfold in_plane in Ek. lia. }
  split; [exact Enf|]. split; [exact Hsum|]. split; [reflexivity|].
  destruct (planes_closed cfg gi (uniform || c_uniform cfg) fi bi l fmin fmax Hs Hle HL Hmode Hbeam fbin_use
    (conj_cols vv vis0) (conj_cols vv model0) (sum_nat bin_n) bin_n bin_i ri EB st0 st Est) as (P1 & P2 & P3 & P4 & P5).
  set (closed' := closed cfg gi fi bi l fmin fmax fbin_use (sum_nat bin_n)) in *.
  assert (R0 : forall A (op : A -> A -> A) a a' d, added op a a' d -> rows a' = rows a /\ cols a' = cols a)
    by (intros A op a a' d (R & C & _); auto).
  assert (Hm0 : has_model gi = false -> p_model st = p_model st0).
  { intros Hm. eapply (loop_same cfg gi (uniform || c_uniform cfg) l fbin_use (conj_cols vv vis0) (conj_cols vv model0) (sum_nat bin_n) bin_n ri p_model); [|exact Est].
    intros b s s' Hb Eb.
    destruct (grid_bin_step cfg gi (uniform || c_uniform cfg) fi bi l fmin fmax Hs Hle HL Hmode Hbeam fbin_use
       (conj_cols vv vis0) (conj_cols vv model0) (sum_nat bin_n) bin_n bin_i ri EB s s' b Hb Eb) as (_ & H & _).
    now rewrite Hm in H. }
  split.
  { intros P [<-|[<-|[<-|[]]]].
    - apply R0 in P1. exact P1.
    - destruct (c_weights cfg); [apply (R0 _ _ _ _ _ P3)|rewrite P3; split; reflexivity].
    - destruct (has_model gi) eqn:Ehm; [specialize (P2 eq_refl); apply R0 in P2; exact P2|rewrite Hm0 by auto; split; reflexivity]. }
  split.
  { intros P [<-|[<-|[]]].
    - destruct (c_variance cfg); [apply R0 in P4; exact P4|rewrite P4; split; reflexivity].
    - destruct (uniform || c_uniform cfg); [apply R0 in P5; exact P5|rewrite P5; split; reflexivity]. }
  intros y x. set (fb := looked_up_bin gi fi). set (it := c_interp cfg).
  assert (SH : forall k, k < N -> dagv cfg gi fi bi l fbin_use k y x = share it gi (sample_at gi fi bi fb k) y x).
  { intros k Hk. unfold dagv, share. cbn [sample_at s_meas s_fbin].
    change (meas_at (gi_loc gi) fi bi (k / length bi) (k mod length bi)) with (meas_k g fi bi k).
    unfold cov. fold g. destruct (in_footprint g (meas_k g fi bi k) y x); auto. f_equal.
    unfold pix. fold g.
    apply (kern_value cfg gi fi bi l fmin fmax Hs HL Hmode Hbeam fbin_use Efb k). exact Hk. }
  assert (AB : forall k, k < N -> absv cfg gi fi bi l fbin_use k y x = Cnorm2 (share it gi (sample_at gi fi bi fb k) y x)).
  { intros k Hk. rewrite <- (SH k Hk). unfold absv, dagv. destruct (cov gi fi bi k y x); [now rewrite Cnorm2_conj|].
    unfold Cnorm2. cbn [re im C0]. ring. }
  assert (CL : forall v w, (forall k, k < N -> v k = w (sample_at gi fi bi fb k)) ->
     closed' v y x = gridded_sum it gi fi bi fb good w y x).
  { intros v w Hvw. unfold closed', closed, gridded_sum, total. fold N. rewrite Hsum. f_equal.
    apply Csum_ext. intros k Hk. apply filter_In in Hk. destruct Hk as [Hk%in_seq _].
    rewrite SH, Hvw by lia. reflexivity. }
  assert (VV : forall a k, k < N -> rows a = length fi -> cols a = length bi -> forall src : arr2 C,
     (forall i j, i < length fi -> j < length bi -> at2 a i j = py_get2 src (nth i fi 0%Z) (nth j bi 0%Z)) ->
     flat_at (conj_cols vv a) k = observed (s_meas (sample_at gi fi bi fb k)) (py_get2 src (nth (k / length bi) fi 0%Z) (nth (k mod length bi) bi 0%Z))).
  { intros a k Hk Ra Ca src Ha. destruct (flat_split _ _ _ Hk) as (I1 & I2 & _).
    unfold flat_at, conj_cols, observed. cbn [rows cols at2 sample_at s_meas]. rewrite Ca, Ha by auto.
    rewrite Evv. rewrite (nth_map_lt _ _ _ 0%Z) by auto. cbn [meas_at m_v]. unfold Qltb. fold g.
    destruct (Qlt_le_dec 0 (py_get 0%Q (g_vv g) (nth (k mod length bi) bi 0%Z))) as [Hlt|Hle'];
      [destruct (Qle_bool _ _) eqn:EQ|destruct (Qle_bool _ _) eqn:EQ]; cbn [negb]; auto.
    - apply Qle_bool_iff in EQ. exfalso. apply (Qlt_not_le _ _ Hlt EQ).
    - exfalso. apply not_true_iff_false in EQ. apply EQ. now apply Qle_bool_iff. }
  assert (ZC : forall z, (C0 + z = z)%C) by (intros; ring).
  assert (ZQ : forall z, (0 + z = z)%Qc) by (intros; ring).
  split; [|split; [|split; [|split]]].
  - destruct P1 as (_ & _ & ->). cbn [st0 p_image czeros at2]. rewrite ZC. apply CL. intros k Hk.
    rewrite (VV vis0 k Hk Rv Cv (gi_vis gi)) by exact Av. reflexivity.
  - intros Hmo. assert (Ehm : has_model gi = true) by (unfold has_model; destruct (gi_model gi); congruence).
    destruct (P2 Ehm) as (_ & _ & ->). cbn [st0 p_model czeros at2]. rewrite ZC. apply CL. intros k Hk.
    unfold sample_at. cbn [s_model]. destruct (gi_model gi) as [src|]; [|congruence].
    apply take2_spec in Em. destruct Em as (_ & _ & Rm & Cm & Am).
    rewrite (VV model0 k Hk Rm Cm src) by exact Am. reflexivity.
  - destruct (c_weights cfg); [|rewrite P3; reflexivity].
    destruct P3 as (_ & _ & ->). cbn [st0 p_weights czeros at2]. rewrite ZC. now apply CL.
  - destruct (c_variance cfg); [|rewrite P4; reflexivity].
    destruct P4 as (_ & _ & ->). cbn [st0 p_variance zeros at2]. rewrite ZQ. unfold gridded_power, total_q. fold N. rewrite Hsum. f_equal.
    apply Qcsum_ext. intros k Hk. apply filter_In in Hk. destruct Hk as [Hk%in_seq _]. apply AB. lia.
  - destruct (uniform || c_uniform cfg); [|rewrite P5; reflexivity].
    destruct P5 as (_ & _ & ->). cbn [st0 p_uniform zeros at2]. rewrite ZQ. reflexivity.
Qed.

(** ** Channel counts *)
Lemma set_nf_total fi nb l nf : (forall i, In i fi -> valid_index (length nf) i) ->
  exists r, set_nf_vis fi nb l nf = Ok r.
Proof.
  intros H. unfold set_nf_vis.
  assert (G : forall qs acc, (forall q, In q qs -> q < length fi) -> length acc = length nf ->
    exists r, fold_res (fun acc q => k <- norm_index (length acc) (nth q fi 0%Z) ;;
      Ok (upd acc k (length (filter (fun j => (0 <? at2 (l_xmin l) q j)%Z) (seq 0 nb))))) qs acc = Ok r).
  { induction qs as [|q qs IH]; intros acc Hq Hl; cbn [fold_res]; [eauto|].
    rewrite norm_index_ok by (rewrite Hl; apply H, nth_In, Hq; now left). cbn [bind].
    apply IH; [intros; apply Hq; now right|now rewrite upd_length]. }
  apply G; auto. intros q Hq%in_seq. lia.
Qed.

Lemma set_nf_spec fi nb l nf r : set_nf_vis fi nb l nf = Ok r ->
  NoDup (map (fun i => i mod Z.of_nat (length nf))%Z fi) ->
  length r = length nf
  /\ (forall q, q < length fi -> py_get 0 r (nth q fi 0%Z) = length (filter (fun j => (0 <? at2 (l_xmin l) q j)%Z) (seq 0 nb)))
  /\ (forall c, c < length nf -> (forall q, q < length fi -> (nth q fi 0 mod Z.of_nat (length nf))%Z <> Z.of_nat c) -> nth c r 0 = nth c nf 0).
Proof.
  intros E Hnd. unfold set_nf_vis in E.
  assert (G : forall m acc, m <= length fi ->
    fold_res (fun acc q => k <- norm_index (length acc) (nth q fi 0%Z) ;;
      Ok (upd acc k (length (filter (fun j => (0 <? at2 (l_xmin l) q j)%Z) (seq 0 nb))))) (seq 0 m) nf = Ok acc ->
    length acc = length nf
    /\ (forall q, q < m -> py_get 0 acc (nth q fi 0%Z) = length (filter (fun j => (0 <? at2 (l_xmin l) q j)%Z) (seq 0 nb)))
    /\ (forall c, c < length nf -> (forall q, q < m -> (nth q fi 0 mod Z.of_nat (length nf))%Z <> Z.of_nat c) -> nth c acc 0 = nth c nf 0)
    /\ (forall q, q < m -> valid_index (length nf) (nth q fi 0%Z))).
  { induction m as [|m IH]; intros acc Hm; [cbn [seq fold_res]; intros [= <-]; repeat split; auto; intros; lia|].
    rewrite seq_S, fold_res_app. cbn [Nat.add].
    match goal with |- bind ?x _ = _ -> _ => destruct x as [acc'|] eqn:E' end; cbn [bind fold_res]; [|discriminate].
    destruct (IH acc' ltac:(lia) eq_refl) as (L & V & U & W). rewrite L.
    destruct (norm_index (length nf) (nth m fi 0%Z)) as [k|] eqn:Ek; cbn [bind]; [|discriminate].
    apply norm_index_valid in Ek. destruct Ek as [Hv ->]. intros [= <-].
    set (k := Z.to_nat (nth m fi 0 mod Z.of_nat (length nf))%Z).
    assert (Hp : (0 < Z.of_nat (length nf))%Z) by (unfold valid_index in Hv; lia).
    assert (Hk : forall q, (0 <= nth q fi 0 mod Z.of_nat (length nf) < Z.of_nat (length nf))%Z) by (intros; apply Z.mod_pos_bound; lia).
    split; [now rewrite upd_length|]. split; [|split].
    - intros q Hq. unfold py_get. rewrite upd_length, L, nth_upd, L.
      destruct (Nat.eq_dec q m) as [->|Hne].
      + fold k. rewrite Nat.eqb_refl. specialize (Hk m). replace (k <? length nf) with true; [reflexivity|]. symmetry. apply Nat.ltb_lt. unfold k. lia.
      + destruct (Nat.eqb_spec k (Z.to_nat (nth q fi 0 mod Z.of_nat (length nf))%Z)) as [Eq|]; cbn [andb].
        * exfalso. apply Hne. assert (Eq' : (nth q fi 0 mod Z.of_nat (length nf) = nth m fi 0 mod Z.of_nat (length nf))%Z).
          { pose proof (Hk q). pose proof (Hk m). unfold k in Eq. lia. }
          apply (proj1 (NoDup_nth _ 0%Z) Hnd); rewrite ?map_length; try lia.
          rewrite !(nth_map_lt _ _ _ 0%Z) by lia. exact Eq'.
        * specialize (V q ltac:(lia)). unfold py_get in V. now rewrite L in V.
    - intros c Hc Hq. rewrite nth_upd, L. destruct (Nat.eqb_spec k c) as [Eq|]; cbn [andb].
      + exfalso. apply (Hq m); [lia|]. pose proof (Hk m). unfold k in Eq. lia.
      + apply U; auto.
    - intros q Hq. destruct (Nat.eq_dec q m) as [->|]; [auto|]. apply W. lia. }
  destruct (G (length fi) r (le_n _) E) as (L & V & U & _). auto.
Qed.

(** ** Success on square planes *)
Theorem grid_total cfg gi uniform no_conjugate fi_use bi_use bi :
  let g := gi_loc gi in let fi := choose_fi_use g false fi_use in
  sensible g -> g_elements g = g_dimension g ->
  beam_ok gi ->
  (c_interp cfg = false -> c_per_baseline cfg = true ->
     forall fs bs x y, Forall (fun r => Z.of_nat (length r) = (g_psf_dim g ^ 2)%Z) (gi_beam_pb gi fs bs x y)) ->
  match bi_use with Some b => bi = b | None => default_bi_use g false = Ok bi end ->
  g_freq g <> [] ->
  (forall i, In i fi -> valid_index (length (g_freq g)) i /\ valid_index (rows (g_weights g)) i
     /\ valid_index (length (gi_fbin gi)) i /\ valid_index (rows (gi_vis gi)) i /\ valid_index (length (gi_nf_vis gi)) i
     /\ forall m, gi_model gi = Some m -> valid_index (rows m) i) ->
  (forall i, In i bi -> valid_index (cols (g_weights g)) i /\ valid_index (length (g_uu g)) i
     /\ valid_index (length (g_vv g)) i /\ valid_index (cols (gi_vis gi)) i
     /\ forall m, gi_model gi = Some m -> valid_index (cols m) i) ->
  length bi <= gi_n_time gi * Nat.min (gi_n_baselines gi) (gi_group_cols gi) ->
  (c_spectral cfg = true -> gi_model gi = None) ->
  exists r, visibility_grid cfg gi uniform no_conjugate fi_use bi_use = Ok r.
Proof.
  intros g fi Hs Hsq Hbeam Hpb Hbi Hfr Hfi Hbs Hgrp Hspec. unfold visibility_grid. cbv zeta. fold g fi.
  rewrite take_ok by (intros i Hi; now apply Hfi). cbn [bind].
  assert (Hl : exists l, baseline_grid_locations g bi_use (Some fi) false (c_interp cfg) (c_mask_mirror cfg) = Ok l).
  { eapply loc_total; [exact Hbi|exact Hfr| |]; intros i Hi.
    - split; now apply Hfi.
    - repeat split; now apply Hbs. }
  destruct Hl as [l El]. rewrite El. cbn [bind].
  destruct (loc_main _ _ _ _ _ _ _ Hs El) as (bi0 & fmin & fmax & Hbi0 & HL).
  change (choose_fi_use g false (Some fi)) with fi in HL.
  assert (E0 : bi0 = bi) by (destruct bi_use; [destruct Hbi0; congruence|destruct Hbi0 as [Hbi0 _]; congruence]). subst bi0.
  set (bi' := match bi_use with Some b => b | None => _ end).
  assert (Ebi : bi' = bi) by (unfold bi'; destruct bi_use; [congruence|now destruct Hbi0 as [_ ->]]).
  rewrite Ebi. clear bi' Ebi.
  destruct (take2_ok (gi_vis gi) fi bi (fun i Hi => proj1 (proj2 (proj2 (proj2 (Hfi i Hi))))) (fun i Hi => proj1 (proj2 (proj2 (proj2 (Hbs i Hi)))))) as [vis0 ->]. cbn [bind].
  assert (Hm : exists m0, match gi_model gi with Some m => take2 m fi bi | None => Ok (czeros 0 0) end = Ok m0).
  { destruct (gi_model gi) as [mm|] eqn:Em; [|eauto].
    apply take2_ok; [intros c Hc; apply (Hfi c Hc); reflexivity|intros c Hc; apply (Hbs c Hc); reflexivity]. }
  destruct Hm as [m0 ->]. cbn [bind].
  rewrite take_ok by (intros i Hi; now apply Hbs). cbn [bind].
  destruct (l_bins l) as [[[bin_n bin_i] ri]|] eqn:EB; [|eauto].
  destruct (set_nf_total fi (length bi) l (gi_nf_vis gi) (fun i Hi => proj1 (proj2 (proj2 (proj2 (proj2 (Hfi i Hi))))))) as [nf ->]. cbn [bind].
  match goal with |- exists r, bind (fold_res ?f ?bs ?s) _ = _ => 
    assert (HF : exists st, fold_res f bs s = Ok st /\ shape_ok (Z.to_nat (g_elements g)) (Z.to_nat (g_dimension g)) st) end.
  { match goal with |- exists st, fold_res ?f ?bs ?s = Ok st /\ _ => set (F := f); set (s0 := s) end.
    assert (S0 : shape_ok (Z.to_nat (g_elements g)) (Z.to_nat (g_dimension g)) s0) by (unfold shape_ok; cbn; repeat split).
    assert (G : forall bs, (forall b, In b bs -> In b bin_i) -> forall s, shape_ok (Z.to_nat (g_elements g)) (Z.to_nat (g_dimension g)) s ->
       exists st, fold_res F bs s = Ok st /\ shape_ok (Z.to_nat (g_elements g)) (Z.to_nat (g_dimension g)) st).
    { assert (Hrows : forall b bx, In b bin_i ->
         bin_box cfg gi l (map (py_get 0 (gi_fbin gi)) fi) (conj_cols (map (py_get 0%Q (g_vv g)) bi) vis0)
           (conj_cols (map (py_get 0%Q (g_vv g)) bi) m0) (slice ri (nth b ri 0) (nth (S b) ri 0)) = Ok bx ->
         forallb (fun r => (Z.of_nat (length r) =? g_psf_dim (gi_loc gi) ^ 2)%Z) (b_rows bx) = true).
      { intros b bx Hb Ebx.
        assert (HM : (c_interp cfg = true \/ c_per_baseline cfg = false) \/ (c_interp cfg = false /\ c_per_baseline cfg = true))
          by (destruct (c_interp cfg), (c_per_baseline cfg); auto).
        destruct HM as [HM|[HM1 HM2]].
        - eapply rows_tabulated; eauto. fold g; lia.
        - eapply rows_per_baseline; eauto. }
      induction bs as [|b bs IH]; intros Hin s Hsh; cbn [fold_res]; [eauto|].
      destruct (grid_bin_ok cfg gi (uniform || c_uniform cfg) fi bi l fmin fmax Hs ltac:(fold g; lia) HL (map (py_get 0 (gi_fbin gi)) fi)
         (conj_cols (map (py_get 0%Q (g_vv g)) bi) vis0) (conj_cols (map (py_get 0%Q (g_vv g)) bi) m0) (sum_nat bin_n) eq_refl bin_n bin_i ri EB s b Hsq
         Hrows Hgrp Hspec Hsh) as (s' & E' & Hsh');
        [apply Hin; now left|].
      unfold F at 1. rewrite E'. cbn [bind]. apply IH; auto. intros; apply Hin; now right. }
    apply G; auto. }
  destruct HF as (st & -> & _). cbn [bind]. eauto.
Qed.

(** The frequency range of a successful run decides griddability. *)
Lemma loc_main_decide gi cfg fi_use bi_use uniform nc out : sensible (gi_loc gi) ->
  visibility_grid cfg gi uniform nc fi_use bi_use = Ok (Some out) ->
  exists dec : meas -> bool, forall m, dec m = true <-> griddable (gi_loc gi) false (c_mask_mirror cfg) m.
Proof.
  intros Hs. unfold visibility_grid. cbv zeta.
  match goal with |- bind ?x _ = _ -> _ => destruct x; cbn [bind]; [|discriminate] end.
  match goal with |- bind ?x _ = _ -> _ => destruct x as [lc|] eqn:El; cbn [bind]; [|discriminate] end.
  intros _. destruct (loc_main _ _ _ _ _ _ _ Hs El) as (bi & fmin & fmax & _ & HL).
  exists (kept_b (gi_loc gi) fmin fmax false (c_mask_mirror cfg)). intros m. apply kept_b_spec; auto.
  apply (lf_range _ _ _ _ _ _ _ _ _ HL).
Qed.
