From Coq Require Import Lqa ZifyBool ZifyNat.
From Verif Require Import Base Cplx NpArr PyIndex Histogram HistogramSpec HistogramProofs ArrayMatch GridLoc GridSpec.
Open Scope nat_scope.

(** ** Mirror *)
Lemma neg_mod_eq n i : i < n -> (n - 1 - (i + (n - 1)) mod n) = neg_mod n i.
Proof.
  intros H. unfold neg_mod. rewrite (Nat.mod_small i) by lia.
  destruct (Nat.eq_dec i 0) as [->|Hi].
  - rewrite Nat.add_0_l, (Nat.mod_small (n - 1)), Nat.sub_0_r, Nat.mod_same by lia. lia.
  - rewrite (Nat.mod_small (n - i)) by lia.
    replace (i + (n - 1)) with ((i - 1) + 1 * n) by lia.
    rewrite Nat.mod_add, Nat.mod_small by lia. lia.
Qed.

Lemma mirror_at {A} (a : arr2 A) i j : i < rows a -> j < cols a ->
  at2 (mirror_real a) i j = at2 a (neg_mod (rows a) i) (neg_mod (cols a) j).
Proof.
  intros Hi Hj. unfold mirror_real, np_roll2, np_flip2. cbn [at2 rows cols].
  now rewrite !neg_mod_eq.
Qed.

Lemma conj_mirror_at a i j : i < rows a -> j < cols a ->
  at2 (conjugate_mirror a) i j = Cconj (at2 a (neg_mod (rows a) i) (neg_mod (cols a) j)).
Proof.
  intros Hi Hj. unfold conjugate_mirror, amap. cbn [at2].
  fold (@mirror_real C a). now rewrite mirror_at.
Qed.

Lemma neg_mod_lt n i : 0 < n -> neg_mod n i < n.
Proof. intros. unfold neg_mod. apply Nat.mod_upper_bound. lia. Qed.

Lemma neg_mod_inv n i : i < n -> neg_mod n (neg_mod n i) = i.
Proof.
  intros H. unfold neg_mod. rewrite Nat.mod_mod, (Nat.mod_small i) by lia.
  destruct (Nat.eq_dec i 0) as [->|Hi].
  - rewrite Nat.sub_0_r, Nat.mod_same, Nat.sub_0_r, Nat.mod_same; lia.
  - rewrite !(Nat.mod_small (n - i)) by lia. replace (n - (n - i)) with i by lia. now apply Nat.mod_small.
Qed.

(** ** Histogram of an integer array with min = 0 *)
Lemma hist_min0 zs : (exists z, In z zs /\ (0 <= z)%Z) ->
  exists M bins ri, In M zs /\ (forall z, In z zs -> (z <= M)%Z) /\ (0 <= M)%Z
    /\ histogram (injs zs) 1 None (Some 0%Q) None
       = Ok (map (fun i => z_count zs (Z.of_nat i)) (seq 0 (Z.to_nat (M + 1))), bins, ri)
    /\ (forall i, i < Z.to_nat (M + 1) ->
          slice ri (nth i ri 0) (nth (S i) ri 0) = z_positions zs (Z.of_nat i))
    /\ nth 0 ri 0 = Z.to_nat (M + 1) + 1
    /\ (forall i, i < Z.to_nat (M + 1) -> nth (S i) ri 0 = nth i ri 0 + z_count zs (Z.of_nat i)).
Proof.
  intros (z & Hz & Hz0).
  assert (Hne : injs zs <> []) by (destruct zs; [destruct Hz|discriminate]).
  destruct (np_max_spec (injs zs) Hne) as (hi & Ehi & Inhi & Mhi).
  apply in_map_iff in Inhi. destruct Inhi as (M & <- & HM).
  assert (HMax : forall z, In z zs -> (z <= M)%Z).
  { intros y Hy. specialize (Mhi (inject_Z y) ltac:(apply in_map; auto)). now rewrite <- Zle_Qle in Mhi. }
  assert (H0 : (0 <= M)%Z) by (specialize (HMax z Hz); lia).
  destruct (histogram_Z zs 0 M H0) as (bins & ri & E & _ & H2 & H3 & H4).
  replace (M - 0 + 1)%Z with (M + 1)%Z in * by lia.
  exists M, bins, ri. repeat (split; [now auto|]). split.
  { rewrite (histogram_defaults (injs zs) 1 (Some 0%Q) None 0%Q (inject_Z M) None eq_refl Ehi).
    unfold injs. change 0%Q with (inject_Z 0). rewrite E. do 3 f_equal. }
  repeat split; auto.
Qed.

(** ** Index resolution *)
Lemma norm_index_ok n i : valid_index n i -> norm_index n i = Ok (Z.to_nat (i mod Z.of_nat n)).
Proof.
  intros [H1 H2]. unfold norm_index.
  destruct ((0 <=? i)%Z && (i <? Z.of_nat n)%Z) eqn:E.
  - rewrite Z.mod_small by lia. reflexivity.
  - replace ((i <? 0)%Z && (- Z.of_nat n <=? i)%Z) with true by lia.
    replace (i mod Z.of_nat n)%Z with (i + Z.of_nat n)%Z; auto.
    replace i with (i + Z.of_nat n + (-1) * Z.of_nat n)%Z at 2 by lia.
    rewrite Z.mod_add, Z.mod_small; lia.
Qed.

Lemma norm_index_valid n i k : norm_index n i = Ok k -> valid_index n i /\ k = Z.to_nat (i mod Z.of_nat n).
Proof.
  intros H. assert (V : valid_index n i).
  { unfold norm_index in H.
    destruct ((0 <=? i)%Z && (i <? Z.of_nat n)%Z) eqn:E; [unfold valid_index; lia|].
    destruct ((i <? 0)%Z && (- Z.of_nat n <=? i)%Z) eqn:E2; [unfold valid_index; lia|discriminate]. }
  split; auto. rewrite norm_index_ok in H by auto. congruence.
Qed.

Lemma take_spec {A} (d : A) l idx r : take d l idx = Ok r ->
  (forall i, In i idx -> valid_index (length l) i) /\ r = map (py_get d l) idx.
Proof.
  intros H%map_res_spec. induction H as [|i x idx r Hi HF [IH1 IH2]].
  { split; [intros ? []|reflexivity]. }
  destruct (norm_index (length l) i) as [k|] eqn:E; cbn [bind] in Hi; [|discriminate].
  apply norm_index_valid in E. destruct E as [E ->]. injection Hi as <-. split.
  - intros i' [<-|Hin]; auto.
  - cbn [map]. rewrite <- IH2. reflexivity.
Qed.

Lemma take_ok {A} (d : A) l idx : (forall i, In i idx -> valid_index (length l) i) ->
  take d l idx = Ok (map (py_get d l) idx).
Proof.
  intros H. apply map_res_ok. intros i Hi. rewrite norm_index_ok by auto. reflexivity.
Qed.

Lemma take2_spec {A} (a : arr2 A) fi bi r : take2 a fi bi = Ok r ->
  (forall i, In i fi -> valid_index (rows a) i) /\ (forall i, In i bi -> valid_index (cols a) i)
  /\ rows r = length fi /\ cols r = length bi
  /\ forall i j, i < length fi -> j < length bi ->
       at2 r i j = at2 a (Z.to_nat (nth i fi 0%Z mod Z.of_nat (rows a))) (Z.to_nat (nth j bi 0%Z mod Z.of_nat (cols a))).
Proof.
  unfold take2. destruct (map_res (norm_index (rows a)) fi) as [rr|] eqn:E1; cbn [bind]; [|discriminate].
  destruct (map_res (norm_index (cols a)) bi) as [cc|] eqn:E2; cbn [bind]; [|discriminate].
  intros [= <-]. cbn [rows cols at2]. split; [|split; [|split; [reflexivity|split; [reflexivity|]]]].
  - intros i Hi. destruct (In_nth _ _ 0%Z Hi) as (k & Hk & <-).
    eapply (map_res_nth _ _ _ k 0%Z 0) in E1; auto. now apply norm_index_valid in E1.
  - intros i Hi. destruct (In_nth _ _ 0%Z Hi) as (k & Hk & <-).
    eapply (map_res_nth _ _ _ k 0%Z 0) in E2; auto. now apply norm_index_valid in E2.
  - intros i j Hi Hj. eapply (map_res_nth _ _ _ i 0%Z 0) in E1; auto. eapply (map_res_nth _ _ _ j 0%Z 0) in E2; auto.
    apply norm_index_valid in E1. apply norm_index_valid in E2.
    destruct E1 as [_ ->], E2 as [_ ->]. reflexivity.
Qed.

Lemma take2_ok {A} (a : arr2 A) fi bi : (forall i, In i fi -> valid_index (rows a) i) ->
  (forall i, In i bi -> valid_index (cols a) i) -> exists r, take2 a fi bi = Ok r.
Proof.
  intros H1 H2. unfold take2.
  rewrite (map_res_ok _ (fun i => Z.to_nat (i mod Z.of_nat (rows a)))) by (intros; apply norm_index_ok; auto).
  cbn [bind].
  rewrite (map_res_ok _ (fun i => Z.to_nat (i mod Z.of_nat (cols a)))) by (intros; apply norm_index_ok; auto).
  cbn [bind]. eauto.
Qed.

(** ** Rational comparisons *)
Lemma Qltb_true a b : Qltb a b = true <-> (a < b)%Q.
Proof.
  unfold Qltb. rewrite negb_true_iff. split; intros H.
  - apply Qnot_le_lt. intros H1%Qle_bool_iff. congruence.
  - apply not_true_is_false. intros H1%Qle_bool_iff. lra.
Qed.
Lemma Qltb_false a b : Qltb a b = false <-> (b <= a)%Q.
Proof.
  rewrite <- not_true_iff_false, Qltb_true. split; intros H; [lra|]. lra.
Qed.
Lemma Qle_bool_false a b : Qle_bool a b = false <-> (b < a)%Q.
Proof.
  rewrite <- not_true_iff_false, Qle_bool_iff. split; intros H; lra.
Qed.

Lemma Qsq_nonneg (a : Q) : (0 <= a * a)%Q.
Proof. unfold Qle. simpl. nia. Qed.

Lemma Qsq_0 (a : Q) : (0 <= a)%Q -> (a * a <= 0)%Q -> (a == 0)%Q.
Proof.
  intros H0 H. destruct (Qlt_le_dec 0 a) as [Hp|]; [|lra].
  exfalso. assert (0 < a * a)%Q by (apply Qmult_lt_0_compat; auto). lra.
Qed.

(** The negated test [fmin*k*sqrt(s) < lo || -(fmax*k)*sqrt(s) < -hi] for kx = u/k, ky = v/k. *)
Lemma dist_test_spec (k u v lo hi fmin fmax : Q) : (0 < k -> 0 <= hi -> 0 <= fmin -> 0 <= fmax ->
  let s := (u / k) * (u / k) + (v / k) * (v / k) in
  scaled_sqrt_lt (fmin * k) s lo || scaled_sqrt_lt (- (fmax * k)) s (- hi) = false <->
  (lo <= 0 \/ lo * lo <= fmin * fmin * (u * u + v * v)) /\ fmax * fmax * (u * u + v * v) <= hi * hi)%Q.
Proof.
  intros Hk Hhi Hmin Hmax s.
  assert (Es : forall f, ((f * k) * (f * k) * s == f * f * (u * u + v * v))%Q).
  { intros f. unfold s. field. lra. }
  rewrite orb_false_iff.
  assert (A : scaled_sqrt_lt (fmin * k) s lo = false <-> (lo <= 0 \/ lo * lo <= fmin * fmin * (u * u + v * v))%Q).
  { unfold scaled_sqrt_lt.
    assert (P : (0 <= fmin * k)%Q) by (apply Qmult_le_0_compat; lra).
    rewrite (proj2 (Qle_bool_iff _ _) P), andb_false_iff, !Qltb_false, Es. tauto. }
  assert (B : scaled_sqrt_lt (- (fmax * k)) s (- hi) = false <-> (fmax * fmax * (u * u + v * v) <= hi * hi)%Q).
  { unfold scaled_sqrt_lt.
    assert (P : (0 <= fmax * k)%Q) by (apply Qmult_le_0_compat; lra).
    assert (E2 : (- (fmax * k) * - (fmax * k) * s == fmax * fmax * (u * u + v * v))%Q) by (rewrite <- Es; ring).
    assert (E3 : (- hi * - hi == hi * hi)%Q) by ring.
    destruct (Qle_bool 0 (- (fmax * k))) eqn:E.
    - apply Qle_bool_iff in E. assert (Z0 : (fmax * k == 0)%Q) by lra.
      rewrite andb_false_iff, !Qltb_false.
      assert (F0 : (fmax == 0)%Q).
      { apply Qmult_integral in Z0. destruct Z0 as [|Z0]; auto. lra. }
      split; intros _.
      + rewrite F0. pose proof (Qsq_nonneg hi). lra.
      + left. lra.
    - rewrite orb_false_iff, !Qltb_false, E2, E3. split; [tauto|]. intros H; split; auto. lra. }
  rewrite A, B. reflexivity.
Qed.

(** ** baseline_grid_locations, pointwise *)
Global Instance Qtrunc_comp : Proper (Qeq ==> eq) Qtrunc.
Proof.
  intros x y H. unfold Qtrunc.
  assert (E : Qle_bool 0 x = Qle_bool 0 y).
  { apply eq_true_iff_eq. rewrite !Qle_bool_iff, H. reflexivity. }
  rewrite E. destruct (Qle_bool 0 y); [now apply Qfloor_comp|now apply Qceiling_comp].
Qed.
Lemma frac_comp x y : (x == y)%Q -> (frac x == frac y)%Q.
Proof. intros H. unfold frac. rewrite (Qfloor_comp _ _ H). now apply Qplus_comp. Qed.
Lemma pix_offset_comp r x y : (x == y)%Q -> pix_offset r x = pix_offset r y.
Proof.
  intros H. unfold pix_offset. f_equal. apply Qfloor_comp. rewrite (frac_comp _ _ H). reflexivity.
Qed.
Lemma pix_deriv_comp r x y : (x == y)%Q -> (pix_deriv r x == pix_deriv r y)%Q.
Proof.
  intros H. unfold pix_deriv. pose proof (frac_comp _ _ H) as F.
  assert (G : (frac x * inject_Z r == frac y * inject_Z r)%Q) by now rewrite F.
  rewrite (Qfloor_comp _ _ G). now apply Qplus_comp.
Qed.
Lemma min_pixel_corner s p x y : (x == y)%Q -> min_pixel s p x = corner s p y.
Proof.
  intros H. unfold min_pixel, corner. apply Qtrunc_comp. rewrite (Qfloor_comp _ _ H). ring.
Qed.

Lemma fold_sign_spec g m : sensible g ->
  (forall x, ((if Qltb 0 (m_v m / g_kpix g) then - (x / g_kpix g) else x / g_kpix g) * m_freq m
            == fold_sign m * x * m_freq m / g_kpix g)%Q)
  /\ (Qltb 0 (m_v m / g_kpix g) = true <-> mirrored m).
Proof.
  intros (Hk & _). set (k := g_kpix g) in *.
  assert (E : Qltb 0 (m_v m / k) = true <-> mirrored m).
  { rewrite Qltb_true. unfold mirrored. split; intros H.
    - assert (m_v m == m_v m / k * k)%Q as -> by (field; lra). apply Qmult_lt_0_compat; auto.
    - apply Qlt_shift_div_l; auto. lra. }
  split; auto. intros x. unfold fold_sign.
  destruct (Qltb 0 (m_v m / k)) eqn:Eb.
  - destruct E as [E _]. specialize (E eq_refl). unfold mirrored in E.
    destruct (Qlt_le_dec 0 (m_v m)); [|lra]. field. lra.
  - destruct (Qlt_le_dec 0 (m_v m)) as [H|]; [|field; lra].
    destruct E as [_ E]. specialize (E H). discriminate.
Qed.

Lemma out_of_range_spec size p c : out_of_range size p c = false <-> in_plane size p c.
Proof. unfold out_of_range, in_plane. lia. Qed.

Definition kept_b (g : loc_input) (fmin fmax : Q) (fill mask : bool) (m : meas) : bool :=
  negb (out_of_range (g_elements g) (g_psf_dim g) (corner_x g m))
  && negb (out_of_range (g_dimension g) (g_psf_dim g) (corner_y g m))
  && (fill || negb (Qle_bool (m_w m) 0)
       && negb (let s := (m_u m / g_kpix g * (m_u m / g_kpix g) + m_v m / g_kpix g * (m_v m / g_kpix g))%Q in
          scaled_sqrt_lt (fmin * g_kpix g) s (g_min_baseline g)
          || scaled_sqrt_lt (- (fmax * g_kpix g)) s (- g_max_baseline g)))
  && negb (mask && Qltb 0 (m_v m / g_kpix g)).

Lemma length_ok_comp lo hi f1 f2 f1' f2' m : (f1 == f1' -> f2 == f2' ->
  length_ok lo hi f1 f2 m -> length_ok lo hi f1' f2' m)%Q.
Proof. intros E1 E2. unfold length_ok. now rewrite E1, E2. Qed.

Lemma kept_b_spec g fmin fmax fill mask m : sensible g ->
  (fill = false -> is_min fmin (g_freq g) /\ is_max fmax (g_freq g)) ->
  kept_b g fmin fmax fill mask m = true <-> griddable g fill mask m.
Proof.
  intros Hs HF. pose proof (proj2 (fold_sign_spec g m Hs)) as HM.
  destruct Hs as (Hk & Hmax & Hf & _).
  unfold kept_b, griddable.
  rewrite !andb_true_iff, !negb_true_iff, !out_of_range_spec.
  assert (A : (fill || negb (Qle_bool (m_w m) 0)
       && negb (let s := (m_u m / g_kpix g * (m_u m / g_kpix g) + m_v m / g_kpix g * (m_v m / g_kpix g))%Q in
          scaled_sqrt_lt (fmin * g_kpix g) s (g_min_baseline g)
          || scaled_sqrt_lt (- (fmax * g_kpix g)) s (- g_max_baseline g))) = true <->
     (fill = false -> (0 < m_w m)%Q /\
        forall fmin fmax, is_min fmin (g_freq g) -> is_max fmax (g_freq g) ->
          length_ok (g_min_baseline g) (g_max_baseline g) fmin fmax m)).
  { destruct fill; cbn [orb]; [split; auto; discriminate|].
    specialize (HF eq_refl). destruct HF as [[I1 M1] [I2 M2]].
    rewrite andb_true_iff, !negb_true_iff, Qle_bool_false. cbv zeta.
    rewrite dist_test_spec by auto.
    change ((0 < m_w m)%Q /\ length_ok (g_min_baseline g) (g_max_baseline g) fmin fmax m <->
     (false = false -> (0 < m_w m)%Q /\
        forall fmin fmax, is_min fmin (g_freq g) -> is_max fmax (g_freq g) ->
          length_ok (g_min_baseline g) (g_max_baseline g) fmin fmax m)).
    split.
    - intros [H1 H2] _. split; auto. intros f1 f2 [J1 N1] [J2 N2].
      eapply length_ok_comp; [| |exact H2]; apply Qle_antisym; auto.
    - intros H. destruct (H eq_refl) as [H1 H2]. split; auto. apply H2; split; auto. }
  rewrite A.
  assert (B : mask && Qltb 0 (m_v m / g_kpix g) = false <-> (mask = true -> ~ mirrored m)).
  { rewrite <- HM. destruct mask; cbn [andb]; [rewrite <- not_true_iff_false; tauto|].
    split; [discriminate|auto]. }
  rewrite B. tauto.
Qed.

Lemma griddable_dec g fill mask m fmin fmax : sensible g ->
  (fill = false -> is_min fmin (g_freq g) /\ is_max fmax (g_freq g)) ->
  griddable g fill mask m \/ ~ griddable g fill mask m.
Proof.
  intros Hs HF. destruct (kept_b g fmin fmax fill mask m) eqn:E.
  - left. now apply (kept_b_spec g fmin fmax).
  - right. intros H. apply (kept_b_spec g fmin fmax) in H; auto. congruence.
Qed.

Definition nf_of g fill fi_use := length (choose_fi_use g fill fi_use).

(** The bins of [baseline_grid_locations] for keys [xmin + ymin * dimension]. *)
Definition keys_of (xmin ymin : arr2 Z) (dim : Z) (nf nb : nat) : list Z :=
  map (fun q => at2 xmin (q / nb) (q mod nb) + at2 ymin (q / nb) (q mod nb) * dim)%Z (seq 0 (nf * nb)).

Lemma nth_combine {A B} (l : list A) (l' : list B) k d d' : length l = length l' ->
  nth k (combine l l') (d, d') = (nth k l d, nth k l' d').
Proof. intros H. apply combine_nth; auto. Qed.

Record loc_facts (g : loc_input) (bi fi : list Z) (fill interp mask : bool) (l : locs) (fmin fmax : Q) : Prop := {
  lf_fi_freq : forall i, In i fi -> valid_index (length (g_freq g)) i;
  lf_fi_w : forall i, In i fi -> valid_index (rows (g_weights g)) i;
  lf_bi_w : forall i, In i bi -> valid_index (cols (g_weights g)) i;
  lf_bi_u : forall i, In i bi -> valid_index (length (g_uu g)) i;
  lf_bi_v : forall i, In i bi -> valid_index (length (g_vv g)) i;
  lf_range : fill = false -> is_min fmin (g_freq g) /\ is_max fmax (g_freq g);
  lf_shape : forall a, In a [l_xmin l; l_ymin l; l_x_offset l; l_y_offset l] -> rows a = length fi /\ cols a = length bi;
  lf_at : forall i j, i < length fi -> j < length bi -> let m := meas_at g fi bi i j in
    at2 (l_xmin l) i j = (if kept_b g fmin fmax fill mask m then corner_x g m else -1)%Z
    /\ at2 (l_ymin l) i j = (if kept_b g fmin fmax fill mask m then corner_y g m else -1)%Z
    /\ at2 (l_x_offset l) i j = pix_offset (g_psf_resolution g) (pos_x (g_kpix g) m)
    /\ at2 (l_y_offset l) i j = pix_offset (g_psf_resolution g) (pos_y (g_kpix g) m);
  lf_deriv : match l_deriv l with
    | None => interp = false
    | Some (d00, d01, d10, d11) => interp = true /\
       forall i j, i < length fi -> j < length bi -> let m := meas_at g fi bi i j in
         let dx := pix_deriv (g_psf_resolution g) (pos_x (g_kpix g) m) in
         let dy := pix_deriv (g_psf_resolution g) (pos_y (g_kpix g) m) in
         (at2 d00 i j == (1 - dx) * (1 - dy) /\ at2 d01 i j == (1 - dx) * dy
          /\ at2 d10 i j == dx * (1 - dy) /\ at2 d11 i j == dx * dy)%Q
    end;
  lf_dshape : match l_deriv l with
    | None => True
    | Some (d00, d01, d10, d11) => cols d00 = length bi /\ cols d01 = length bi /\ cols d10 = length bi /\ cols d11 = length bi
    end;
  lf_bins : (if (length fi * length bi =? 0) || (Z.max (zmax (l_xmin l)) (zmax (l_ymin l)) <? 0)%Z then Ok None
     else '(bin_n, _, ri) <- histogram (injs (keys_of (l_xmin l) (l_ymin l) (g_dimension g) (length fi) (length bi))) 1 None (Some 0%Q) None ;;
       let bin_i := where_ (fun c => negb (c =? 0)) bin_n in
       Ok (Some (bin_n, bin_i, ri))) = Ok (l_bins l) }.

Lemma masked_value (a b c d e : bool) (x : Z) :
  (if a then -1 else if b then -1 else if c then -1 else if d then -1 else if e then -1 else x)%Z
  = (if negb e && negb d && negb b && negb c && negb a then x else -1)%Z.
Proof. now destruct a, b, c, d, e. Qed.

Lemma loc_main g bi_use fi_use fill interp mask l : sensible g ->
  baseline_grid_locations g bi_use fi_use fill interp mask = Ok l ->
  exists bi fmin fmax,
    match bi_use with Some b => bi = b /\ l_bi_use l = None
                    | None => default_bi_use g fill = Ok bi /\ l_bi_use l = Some bi end
    /\ loc_facts g bi (choose_fi_use g fill fi_use) fill interp mask l fmin fmax.
Proof.
  intros Hs. unfold baseline_grid_locations. cbv beta zeta.
  set (fi := choose_fi_use g fill fi_use).
  destruct (take 0%Q (g_freq g) fi) as [fa|] eqn:Efa; cbn [bind]; [|discriminate].
  destruct (match bi_use with Some l => Ok l | None => default_bi_use g fill end) as [bi|] eqn:Ebi; cbn [bind]; [|discriminate].
  destruct (take2 (g_weights g) fi bi) as [w|] eqn:Ew; cbn [bind]; [|discriminate].
  destruct (take 0%Q (g_uu g) bi) as [u|] eqn:Eu; cbn [bind]; [|discriminate].
  destruct (take 0%Q (g_vv g) bi) as [v|] eqn:Ev; cbn [bind]; [|discriminate].
  apply take_spec in Efa, Eu, Ev. apply take2_spec in Ew.
  destruct Efa as [Vf ->], Eu as [Vu ->], Ev as [Vv ->], Ew as (Vw1 & Vw2 & Rw & Cw & Aw).
  set (kx0 := map (fun x => (x / g_kpix g)%Q) (map (py_get 0%Q (g_uu g)) bi)).
  set (ky0 := map (fun x => (x / g_kpix g)%Q) (map (py_get 0%Q (g_vv g)) bi)).
  set (dist := if fill then Ok (map (fun _ => false) bi) else _).
  assert (HD : forall fd, dist = Ok fd -> exists fmin fmax,
     (fill = false -> is_min fmin (g_freq g) /\ is_max fmax (g_freq g))
     /\ forall i j, j < length bi -> let m := meas_at g fi bi i j in
        nth j fd false = negb fill &&
          (let s := (m_u m / g_kpix g * (m_u m / g_kpix g) + m_v m / g_kpix g * (m_v m / g_kpix g))%Q in
          scaled_sqrt_lt (fmin * g_kpix g) s (g_min_baseline g)
          || scaled_sqrt_lt (- (fmax * g_kpix g)) s (- g_max_baseline g))).
  { intros fd. unfold dist. destruct fill.
    - intros [= <-]. exists 0%Q, 0%Q. split; [discriminate|]. intros i j Hj.
      rewrite (nth_map_lt _ _ _ 0%Z) by auto. reflexivity.
    - destruct (np_max (g_freq g)) as [fmax|] eqn:EM; cbn [bind]; [|discriminate].
      destruct (np_min (g_freq g)) as [fmin|] eqn:Em; cbn [bind]; [|discriminate].
      intros [= <-]. exists fmin, fmax.
      assert (Hne : g_freq g <> []) by (intros E; rewrite E in EM; discriminate).
      destruct (np_max_spec _ Hne) as (M & EM' & HM1 & HM2).
      destruct (np_min_spec _ Hne) as (M' & Em' & Hm1 & Hm2).
      rewrite EM in EM'. rewrite Em in Em'. injection EM' as <-. injection Em' as <-.
      split; [intros _; split; split; auto|].
      intros i j Hj. cbn [negb andb].
      rewrite (nth_map_lt _ _ _ (0, 0)%Q) by (unfold kx0, ky0; rewrite combine_length, !map_length; lia).
      rewrite nth_combine by (unfold kx0, ky0; now rewrite !map_length). cbn [fst snd].
      unfold kx0, ky0. rewrite !map_map. rewrite !(nth_map_lt _ _ _ 0%Z) by auto. reflexivity. }
  destruct dist as [fd|] eqn:Efd; cbn [bind]; [|discriminate].
  destruct (HD fd eq_refl) as (fmin & fmax & HF & HDist). clear HD.
  set (cj := map (fun y => Qltb 0 y) ky0).
  match goal with |- context [Ok {| l_xmin := ?a; l_ymin := ?b; l_x_offset := ?c; l_y_offset := ?d; l_deriv := ?e |}] =>
    set (xm := a); set (ym := b); set (xo := c); set (yo := d); set (de := e) end.
  match goal with |- bind ?b _ = _ -> _ => destruct b as [bins|] eqn:Eb end; cbn [bind]; [|discriminate].
  intros [= <-]. exists bi, fmin, fmax. split.
  { destruct bi_use; cbn [l_bi_use]; split; congruence. }
  assert (Hcj : forall i j, j < length bi -> nth j cj false = Qltb 0 (m_v (meas_at g fi bi i j) / g_kpix g)).
  { intros i j Hj. unfold cj, ky0. rewrite !map_map. rewrite (nth_map_lt _ _ _ 0%Z) by auto. reflexivity. }
  assert (Hneg : forall i j (l : list Q), j < length bi -> length l = length bi ->
     nth j (map (fun p : bool * Q => if fst p then (- snd p)%Q else snd p) (combine cj l)) 0%Q =
     if Qltb 0 (m_v (meas_at g fi bi i j) / g_kpix g) then (- nth j l 0)%Q else nth j l 0%Q).
  { intros i j l Hj Hl.
    assert (length cj = length bi) by (unfold cj, ky0; now rewrite !map_length).
    rewrite (nth_map_lt _ _ _ (false, 0%Q)) by (rewrite combine_length; lia).
    rewrite nth_combine by lia. cbn [fst snd]. now rewrite (Hcj i). }
  assert (Hxc : forall i j, i < length fi -> j < length bi ->
     (nth i (map (py_get 0 (g_freq g)) fi) 0 *
       nth j (map (fun p : bool * Q => if fst p then (- snd p) else snd p) (combine cj kx0)) 0
      == pos_x (g_kpix g) (meas_at g fi bi i j))%Q).
  { intros i j Hi Hj. rewrite (Hneg i) by (auto; unfold kx0; now rewrite !map_length).
    rewrite (nth_map_lt _ _ _ 0%Z) by auto. unfold kx0. rewrite map_map.
    rewrite (nth_map_lt _ bi _ 0%Z) by auto.
    unfold pos_x. rewrite <- (proj1 (fold_sign_spec g (meas_at g fi bi i j) Hs)).
    rewrite Qmult_comm. reflexivity. }
  assert (Hyc : forall i j, i < length fi -> j < length bi ->
     (nth i (map (py_get 0 (g_freq g)) fi) 0 *
       nth j (map (fun p : bool * Q => if fst p then (- snd p) else snd p) (combine cj ky0)) 0
      == pos_y (g_kpix g) (meas_at g fi bi i j))%Q).
  { intros i j Hi Hj. rewrite (Hneg i) by (auto; unfold ky0; now rewrite !map_length).
    rewrite (nth_map_lt _ _ _ 0%Z) by auto. unfold ky0. rewrite map_map.
    rewrite (nth_map_lt _ bi _ 0%Z) by auto.
    unfold pos_y. rewrite <- (proj1 (fold_sign_spec g (meas_at g fi bi i j) Hs)).
    rewrite Qmult_comm. reflexivity. }
  assert (Hmask : forall i j, i < length fi -> j < length bi ->
    let m := meas_at g fi bi i j in
    (negb (out_of_range (g_elements g) (g_psf_dim g) (corner_x g m))
     && negb (out_of_range (g_dimension g) (g_psf_dim g) (corner_y g m))
     && negb (if fill then false else Qle_bool (at2 w i j) 0) && negb (nth j fd false)
     && negb (if mask then nth j cj false else false)) = kept_b g fmin fmax fill mask m).
  { intros i j Hi Hj m. unfold kept_b. rewrite (HDist i j Hj), (Hcj i j Hj), (Aw i j Hi Hj).
    change (at2 (g_weights g) _ _) with (m_w m). cbv zeta. fold m.
    destruct fill, mask; cbn [negb andb orb]; rewrite ?andb_true_r; try reflexivity;
      rewrite <- ?andb_assoc; reflexivity. }
  constructor; cbn [l_xmin l_ymin l_x_offset l_y_offset l_deriv l_bins]; [exact Vf|exact Vw1|exact Vw2|exact Vu|exact Vv|exact HF| | | | |exact Eb].
  - intros a [<-|[<-|[<-|[<-|[]]]]]; unfold xm, ym, xo, yo; cbn [rows cols mask_set amap]; auto.
  - intros i j Hi Hj. set (m := meas_at g fi bi i j). specialize (Hmask i j Hi Hj). specialize (Hxc i j Hi Hj). specialize (Hyc i j Hi Hj).
    cbv zeta in Hmask. fold m in Hmask, Hxc, Hyc.
    unfold xm, ym, xo, yo. cbn [mask_set at2 amap].
    rewrite !(min_pixel_corner _ _ _ _ Hxc), !(min_pixel_corner _ _ _ _ Hyc).
    fold (corner_x g m) (corner_y g m). rewrite !masked_value, Hmask.
    rewrite (pix_offset_comp _ _ _ Hxc), (pix_offset_comp _ _ _ Hyc). auto.
  - unfold de. destruct interp; [|reflexivity]. split; auto.
    intros i j Hi Hj. set (m := meas_at g fi bi i j).
    set (dx := pix_deriv (g_psf_resolution g) (pos_x (g_kpix g) m)).
    set (dy := pix_deriv (g_psf_resolution g) (pos_y (g_kpix g) m)). cbn [at2 amap].
    specialize (Hxc i j Hi Hj). specialize (Hyc i j Hi Hj).
    pose proof (pix_deriv_comp (g_psf_resolution g) _ _ Hxc) as Dx.
    pose proof (pix_deriv_comp (g_psf_resolution g) _ _ Hyc) as Dy.
    fold m in Dx, Dy. fold dx in Dx. fold dy in Dy. rewrite Dx, Dy. repeat split; reflexivity.
  - unfold de. destruct interp; [|exact I]. cbn [cols amap]. auto.
Qed.

(** ** The bins *)
Lemma sum_nat_map_ext {A} (f g : A -> nat) l : (forall x, In x l -> f x = g x) ->
  sum_nat (map f l) = sum_nat (map g l).
Proof. intros H. f_equal. now apply map_ext_in. Qed.
Lemma sum_nat_map_plus {A} (f g : A -> nat) l :
  sum_nat (map (fun x => f x + g x) l) = sum_nat (map f l) + sum_nat (map g l).
Proof. induction l as [|a l IH]; cbn [map sum_nat fold_right]; auto. fold (sum_nat (map (fun x => f x + g x) l)).
  rewrite IH. unfold sum_nat. lia. Qed.
Lemma sum_indicator n z : sum_nat (map (fun i => if (Z.of_nat i =? z)%Z then 1 else 0) (seq 0 n))
  = if (0 <=? z)%Z && (z <? Z.of_nat n)%Z then 1 else 0.
Proof.
  induction n as [|n IH].
  - destruct ((0 <=? z)%Z && (z <? Z.of_nat 0)%Z) eqn:E; [lia|reflexivity].
  - rewrite seq_S, map_app, sum_nat_app, IH. cbn [map sum_nat fold_right]. rewrite Nat.add_0_l.
    destruct ((0 <=? z)%Z && (z <? Z.of_nat n)%Z) eqn:E1, (Z.of_nat n =? z)%Z eqn:E2,
      ((0 <=? z)%Z && (z <? Z.of_nat (S n))%Z) eqn:E3; lia.
Qed.
Lemma z_count_cons z zs v : z_count (z :: zs) v = (if (v =? z)%Z then 1 else 0) + z_count zs v.
Proof. unfold z_count. cbn [filter]. destruct (v =? z)%Z; reflexivity. Qed.
Lemma sum_z_count zs n : sum_nat (map (fun i => z_count zs (Z.of_nat i)) (seq 0 n))
  = length (filter (fun z => (0 <=? z)%Z && (z <? Z.of_nat n)%Z) zs).
Proof.
  induction zs as [|z zs IH].
  - cbn [filter length]. induction (seq 0 n); auto.
  - rewrite (sum_nat_map_ext _ (fun i => (if (Z.of_nat i =? z)%Z then 1 else 0) + z_count zs (Z.of_nat i)))
      by (intros; apply z_count_cons).
    rewrite sum_nat_map_plus, sum_indicator, IH. cbn [filter].
    destruct ((0 <=? z)%Z && (z <? Z.of_nat n)%Z); reflexivity.
Qed.

Lemma fold_max_ge l d z : In z l -> (z <= fold_right Z.max d l)%Z.
Proof. induction l as [|a l IH]; intros []; cbn [fold_right]; [subst; lia|]. specialize (IH H). lia. Qed.
Lemma fold_max_lt l d : (d < 0)%Z -> (forall z, In z l -> (z < 0)%Z) -> (fold_right Z.max d l < 0)%Z.
Proof.
  intros Hd. induction l as [|a l IH]; intros H; cbn [fold_right]; auto.
  pose proof (H a ltac:(now left)). specialize (IH ltac:(intros; apply H; now right)). lia.
Qed.

Lemma filter_map_length {A B} (p : B -> bool) (f : A -> B) l :
  length (filter p (map f l)) = length (filter (fun x => p (f x)) l).
Proof. induction l as [|a l IH]; simpl; auto. destruct (p (f a)); simpl; auto. Qed.

(** flat position k of the selection *)
Definition meas_k (g : loc_input) (fi bi : list Z) (k : nat) : meas :=
  meas_at g fi bi (k / length bi) (k mod length bi).
Definition key (g : loc_input) (m : meas) : Z := (corner_x g m + corner_y g m * g_dimension g)%Z.

Definition bins_facts (n : nat) (keep : nat -> bool) (ky : nat -> Z) (bins : option (list nat * list nat * list nat)) : Prop :=
  match bins with
  | None => forall k, k < n -> keep k = false
  | Some (bin_n, bin_i, ri) =>
      (exists k, k < n /\ keep k = true)
      /\ (forall k, k < n -> keep k = true -> (0 < ky k < Z.of_nat (length bin_n))%Z)
      /\ (forall b, b < length bin_n ->
            slice ri (nth b ri 0) (nth (S b) ri 0)
              = filter (fun k => keep k && (ky k =? Z.of_nat b)%Z) (seq 0 n)
            /\ nth b bin_n 0 = length (filter (fun k => keep k && (ky k =? Z.of_nat b)%Z) (seq 0 n))
            /\ nth (S b) ri 0 = nth b ri 0 + nth b bin_n 0)
      /\ bin_i = filter (fun b => negb (nth b bin_n 0 =? 0)) (seq 0 (length bin_n))
      /\ sum_nat bin_n = count_if n keep
      /\ (forall b, b < length bin_n -> nth b ri 0 < length ri \/ nth b bin_n 0 = 0)
      /\ nth 0 ri 0 = S (length bin_n)
  end.

Lemma loc_bins g bi fi fill interp mask l fmin fmax : sensible g ->
  loc_facts g bi fi fill interp mask l fmin fmax ->
  bins_facts (length fi * length bi) (fun k => kept_b g fmin fmax fill mask (meas_k g fi bi k))
     (fun k => key g (meas_k g fi bi k)) (l_bins l).
Proof.
  intros Hs HL. set (keep := fun k => kept_b g fmin fmax fill mask (meas_k g fi bi k)).
  set (ky := fun k => key g (meas_k g fi bi k)).
  set (n := length fi * length bi).
  pose proof (lf_at _ _ _ _ _ _ _ _ _ HL) as HA.
  pose proof (lf_bins _ _ _ _ _ _ _ _ _ HL) as HB.
  pose proof (lf_shape _ _ _ _ _ _ _ _ _ HL) as HS.
  assert (Hk : forall k, k < n -> at2 (l_xmin l) (k / length bi) (k mod length bi) = (if keep k then corner_x g (meas_k g fi bi k) else -1)%Z
     /\ at2 (l_ymin l) (k / length bi) (k mod length bi) = (if keep k then corner_y g (meas_k g fi bi k) else -1)%Z).
  { intros k Hk. destruct (flat_split _ _ _ Hk) as (H1 & H2 & _).
    destruct (HA _ _ H1 H2) as (A & B & _). auto. }
  assert (Hpos : forall k, keep k = true -> (0 < corner_x g (meas_k g fi bi k) /\ 0 < corner_y g (meas_k g fi bi k))%Z).
  { intros k E. unfold keep, kept_b in E. rewrite !andb_true_iff, !negb_true_iff, !out_of_range_spec in E.
    unfold in_plane in E. lia. }
  assert (Hdim : (0 < g_dimension g)%Z) by apply Hs.
  set (zs := keys_of (l_xmin l) (l_ymin l) (g_dimension g) (length fi) (length bi)) in *.
  assert (Lzs : length zs = n) by (unfold zs, keys_of; now rewrite map_length, seq_length).
  assert (Hz : forall k, k < n -> nth k zs 0%Z = if keep k then ky k else (-1 - g_dimension g)%Z).
  { intros k Hkn. unfold zs, keys_of. rewrite nth_map_seq by auto.
    destruct (Hk k Hkn) as [-> ->]. destruct (keep k); [reflexivity|lia]. }
  assert (Hky : forall k, keep k = true -> (0 < ky k)%Z).
  { intros k E. specialize (Hpos k E). unfold ky, key. nia. }
  destruct (HS (l_xmin l)) as [Rx Cx]; [simpl; auto|].
  destruct (HS (l_ymin l)) as [Ry Cy]; [simpl; auto|].
  assert (Hmaxneg : n <> 0 -> (Z.max (zmax (l_xmin l)) (zmax (l_ymin l)) < 0)%Z <-> forall k, k < n -> keep k = false).
  { intros Hn. split.
    - intros Hm k Hkn. destruct (keep k) eqn:E; auto. exfalso.
      assert (In (at2 (l_xmin l) (k / length bi) (k mod length bi)) (flatten (l_xmin l))).
      { unfold flatten. apply in_map_iff. exists k. rewrite Rx, Cx. split; auto. apply in_seq. unfold n in *. lia. }
      apply (fold_max_ge _ (flat_at (l_xmin l) 0)) in H. fold (zmax (l_xmin l)) in H.
      rewrite (proj1 (Hk k Hkn)), E in H. specialize (Hpos k E). lia.
    - intros H. assert (A : forall a, (a = l_xmin l \/ a = l_ymin l) -> (zmax a < 0)%Z).
      { intros a Ha. assert (Ea : forall k, k < n -> at2 a (k / length bi) (k mod length bi) = (-1)%Z).
        { intros k Hkn. destruct (Hk k Hkn) as [A B]. rewrite (H k Hkn) in *. destruct Ha; subst; auto. }
        assert (cols a = length bi /\ rows a = length fi) as [Ca Ra] by (destruct Ha; subst; auto).
        unfold zmax. apply fold_max_lt.
        - unfold flat_at. rewrite Ca, Ea by lia. lia.
        - intros z. unfold flatten. rewrite Ca, Ra. intros Hin%in_map_iff. destruct Hin as (k & <- & Hkn%in_seq).
          rewrite Ea; [lia|]. unfold n. lia. }
      pose proof (A _ (or_introl eq_refl)). pose proof (A _ (or_intror eq_refl)). lia. }
  destruct (Nat.eqb_spec n 0) as [Hn|Hn].
  { fold n in HB. rewrite (proj2 (Nat.eqb_eq _ _) Hn) in HB. cbn [orb] in HB. injection HB as HB. rewrite <- HB.
    intros k Hkn. lia. }
  fold n in HB. rewrite (proj2 (Nat.eqb_neq _ _) Hn) in HB. cbn [orb] in HB.
  destruct (Z.ltb_spec (Z.max (zmax (l_xmin l)) (zmax (l_ymin l))) 0) as [Hm|Hm].
  { injection HB as HB. rewrite <- HB. cbn [bins_facts]. now apply Hmaxneg. }
  assert (Hex : exists k, k < n /\ keep k = true).
  { destruct (existsb keep (seq 0 n)) eqn:E.
    - apply existsb_exists in E. destruct E as (k & Hin%in_seq & E). exists k. split; auto. lia.
    - exfalso. apply (Z.lt_irrefl 0). apply Z.le_lt_trans with (Z.max (zmax (l_xmin l)) (zmax (l_ymin l))); auto.
      apply Hmaxneg; auto. intros k Hkn. destruct (keep k) eqn:Ek; auto. exfalso.
      assert (existsb keep (seq 0 n) = true) by (apply existsb_exists; exists k; split; auto; apply in_seq; lia).
      congruence. }
  destruct (hist_min0 zs) as (M & bs & ri & HM1 & HM2 & HM0 & E & R1 & R2 & R3).
  { destruct Hex as (k & Hkn & Ek). exists (nth k zs 0%Z). split; [apply nth_In; lia|].
    rewrite Hz, Ek by auto. specialize (Hky k Ek). lia. }
  rewrite E in HB. cbn [bind] in HB. injection HB as HB. rewrite <- HB. clear HB E.
  cbn [bins_facts]. rewrite !map_length, seq_length.
  assert (HP : forall b : nat, z_positions zs (Z.of_nat b) = filter (fun k => keep k && (ky k =? Z.of_nat b)%Z) (seq 0 n)).
  { intros b. unfold z_positions. rewrite Lzs. apply filter_ext_in. intros k Hin%in_seq.
    rewrite Hz by lia. destruct (keep k); cbn [andb]; auto. lia. }
  split; [exact Hex|]. split.
  { intros k Hkn Ek. split; [now apply Hky|].
    specialize (HM2 (nth k zs 0%Z) ltac:(apply nth_In; lia)). rewrite Hz, Ek in HM2 by auto. lia. }
  split; [|split; [|split; [|split]]].
  - intros b Hb. rewrite nth_map_seq by auto. rewrite R1 by auto. rewrite z_count_positions, HP.
    split; auto. split; auto. rewrite R3 by auto. now rewrite z_count_positions, HP.
  - rewrite (where_spec _ _ 0). rewrite map_length, seq_length. reflexivity.
  - rewrite sum_z_count. unfold count_if. rewrite <- (filter_nth_seq _ zs 0%Z), Lzs.
    f_equal. apply filter_ext_in. intros k Hin%in_seq. rewrite Hz by lia.
    destruct (keep k) eqn:Ek; [|lia]. specialize (Hky k Ek).
    specialize (HM2 (nth k zs 0%Z) ltac:(apply nth_In; lia)). rewrite Hz, Ek in HM2 by lia. lia.
  - intros b Hb. destruct (Nat.eq_dec (nth b (map (fun i => z_count zs (Z.of_nat i)) (seq 0 (Z.to_nat (M + 1)))) 0) 0) as [|Hne]; auto.
    left. rewrite nth_map_seq in Hne by auto. rewrite z_count_positions in Hne.
    specialize (R1 b Hb). destruct (z_positions zs (Z.of_nat b)) eqn:Ep; [simpl in Hne; lia|].
    destruct (Nat.lt_ge_cases (nth b ri 0) (length ri)) as [|Hge]; auto. exfalso.
    unfold slice in R1. rewrite skipn_all2 in R1 by auto. rewrite firstn_nil in R1. discriminate.
  - rewrite R2. lia.
Qed.
