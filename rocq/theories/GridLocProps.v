(** Properties C11 (mirror), C12, C13 (grid locations), C17 (kernel interpolation), C18 (counts). *)
From Coq Require Import Lqa ZifyBool ZifyNat.
From Verif Require Import Base Cplx NpArr PyIndex Histogram ArrayMatch ArrayMatchProofs ArrayMatchProps GridLoc GridSpec GridLocProofs
  GridCountProofs RebinProofs.
From Coq Require Import QArith.
Open Scope nat_scope.

(** *** C11 *)
Definition reflect (n i : nat) : nat := Z.to_nat ((- Z.of_nat i) mod Z.of_nat n).
Lemma reflect_neg_mod n i : i < n -> reflect n i = neg_mod n i.
Proof.
  intros H. unfold reflect, neg_mod. rewrite (Nat.mod_small i) by lia.
  destruct (Nat.eq_dec i 0) as [->|Hi].
  - rewrite Nat.sub_0_r, Nat.mod_same by lia. simpl Z.of_nat. rewrite Z.mod_0_l by lia. reflexivity.
  - rewrite (Nat.mod_small (n - i)) by lia.
    replace (- Z.of_nat i)%Z with (Z.of_nat (n - i) + (-1) * Z.of_nat n)%Z by lia.
    rewrite Z.mod_add, Z.mod_small by lia. lia.
Qed.

Theorem C11_mirror : forall (img : arr2 C),
  rows (conjugate_mirror img) = rows img /\ cols (conjugate_mirror img) = cols img
  /\ forall u v, u < rows img -> v < cols img ->
       at2 (conjugate_mirror img) u v = Cconj (at2 img (reflect (rows img) u) (reflect (cols img) v)).
Proof.
  intros img. repeat split. intros u v Hu Hv. rewrite conj_mirror_at, !reflect_neg_mod by auto. reflexivity.
Qed.
Print Assumptions C11_mirror.

Theorem C11_mirror_involutive : forall img, arr_eq (conjugate_mirror (conjugate_mirror img)) img.
Proof.
  intros img. split; [reflexivity|]. split; [reflexivity|]. intros i j Hi Hj. cbn [rows cols conjugate_mirror amap np_roll2 np_flip2] in Hi, Hj.
  rewrite conj_mirror_at by auto. cbn [rows cols conjugate_mirror amap np_roll2 np_flip2].
  change (at2 (amap Cconj (np_roll2 (np_flip2 img)))) with (at2 (conjugate_mirror img)).
  rewrite conj_mirror_at by (apply neg_mod_lt; lia).
  rewrite !neg_mod_inv, Cconj_involutive by auto. reflexivity.
Qed.
Print Assumptions C11_mirror_involutive.

Definition plane_sum (a b : arr2 C) : arr2 C := Arr2 (rows a) (cols a) (fun i j => (at2 a i j + at2 b i j)%C).
Definition plane_scale (x : Qc) (a : arr2 C) : arr2 C := amap (Cscale x) a.

Theorem C11_mirror_additive : forall a b, rows a = rows b -> cols a = cols b ->
  arr_eq (conjugate_mirror (plane_sum a b)) (plane_sum (conjugate_mirror a) (conjugate_mirror b)).
Proof.
  intros a b Hr Hc. split; [reflexivity|]. split; [reflexivity|]. intros i j Hi Hj.
  cbn [rows cols conjugate_mirror amap np_roll2 np_flip2 plane_sum] in Hi, Hj.
  rewrite conj_mirror_at by auto. unfold plane_sum. cbn [at2 rows cols].
  rewrite !conj_mirror_at by congruence. rewrite <- Hr, <- Hc, Cconj_add. reflexivity.
Qed.
Print Assumptions C11_mirror_additive.

(** What visibility_grid returns, (img + mirror)/2, is Hermitian. *)
Theorem C11_average_hermitian : forall img,
  let h := plane_scale (Q2Qc (1 # 2)) (plane_sum img (conjugate_mirror img)) in
  (forall u v, u < rows img -> v < cols img ->
     at2 h (reflect (rows img) u) (reflect (cols img) v) = Cconj (at2 h u v))
  /\ arr_eq (conjugate_mirror h) h.
Proof.
  intros img h.
  assert (H : forall u v, u < rows img -> v < cols img ->
     at2 h (neg_mod (rows img) u) (neg_mod (cols img) v) = Cconj (at2 h u v)).
  { intros u v Hu Hv. unfold h, plane_scale, plane_sum, amap. cbn [at2 rows cols].
    change (at2 (Arr2 _ _ (fun i j => Cconj (at2 (np_roll2 (np_flip2 img)) i j)))) with (at2 (conjugate_mirror img)).
    rewrite !conj_mirror_at by (auto; apply neg_mod_lt; lia).
    rewrite !neg_mod_inv by auto. rewrite Cconj_scale, Cconj_add, Cconj_involutive.
    f_equal. ring. }
  split.
  - intros u v Hu Hv. rewrite !reflect_neg_mod by auto. now apply H.
  - split; [reflexivity|]. split; [reflexivity|]. intros i j Hi Hj.
    cbn [rows cols h conjugate_mirror amap np_roll2 np_flip2 plane_sum plane_scale] in Hi, Hj.
    rewrite conj_mirror_at by auto. cbn [rows cols h plane_scale plane_sum amap].
    change (Cconj (at2 h (neg_mod (rows img) i) (neg_mod (cols img) j)) = at2 h i j).
    rewrite H, Cconj_involutive by auto. reflexivity.
Qed.
Print Assumptions C11_average_hermitian.

Example C11_case :
  let z x y := mkC (Q2Qc (inject_Z x)) (Q2Qc (inject_Z y)) in
  let img := of_lists C0 [[z 1 1; z 2 0; z 3 5]; [z 4 0; z 5 7; z 6 0]]%Z in
  at2 (conjugate_mirror img) 1 1 = z 6%Z 0%Z /\ at2 (conjugate_mirror img) 1 2 = z 5%Z (-7)%Z
  /\ at2 (conjugate_mirror img) 0 0 = z 1%Z (-1)%Z.
Proof. cbv zeta. repeat split; apply C_ext; apply Qc_is_canon; vm_compute; reflexivity. Qed.

(** *** C13 *)
(** The channels and baselines that are used when the caller does not choose. *)
Theorem C13_default_selection : forall g,
  (forall x, In x (choose_fi_use g false None) <->
     exists k, x = Z.of_nat k /\ k < length (g_freq_use g) /\ nth k (g_freq_use g) false = true)
  /\ (forall fi x, In x (choose_fi_use g true fi) <-> exists k, x = Z.of_nat k /\ k < g_n_freq g)
  /\ (forall fi, choose_fi_use g false (Some fi) = fi)
  /\ (exists bi, default_bi_use g false = Ok bi /\
        forall x, In x bi <-> exists k, x = Z.of_nat k /\ k < cols (g_weights g)
                    /\ exists i, i < rows (g_weights g) /\ (0 < at2 (g_weights g) i k)%Q)
  /\ (length (g_tile_a g) = length (g_tile_b g) -> g_tile_a g <> [] ->
      let real t := (1 <= t <= Z.of_nat (g_n_tile g))%Z in
      let wants k := k < length (g_tile_a g) /\ (real (nth k (g_tile_a g) 0%Z) \/ real (nth k (g_tile_b g) 0%Z)) in
      (exists k, wants k) ->
      exists bi, default_bi_use g true = Ok bi /\
        forall x, In x bi <-> exists k, x = Z.of_nat k /\ wants k).
Proof.
  intros g. split; [|split; [|split; [reflexivity|split]]].
  - intros x. unfold choose_fi_use, nonzero_b. rewrite in_map_iff. split.
    + intros (k & <- & Hk). apply (In_where _ _ false) in Hk. exists k. tauto.
    + intros (k & -> & Hk & E). exists k. split; auto. apply (In_where _ _ false). auto.
  - intros fi x. unfold choose_fi_use. rewrite in_map_iff. split.
    + intros (k & <- & Hk%in_seq). exists k. split; auto. lia.
    + intros (k & -> & Hk). exists k. split; auto. apply in_seq. lia.
  - unfold default_bi_use. eexists; split; [reflexivity|]. intros x. unfold nonzero_b. rewrite in_map_iff.
    assert (W : forall k, negb (Qeq_bool (column_weight (g_weights g) k) 0) = true <->
       exists i, i < rows (g_weights g) /\ (0 < at2 (g_weights g) i k)%Q).
    { intros k. unfold column_weight.
      assert (Hnn : forall l, (0 <= fold_right (fun i s => Qmax2 (at2 (g_weights g) i k) 0 + s) 0 l)%Q).
      { intros l. induction l as [|a l IH]; cbn [fold_right]; [lra|].
        unfold Qmax2 at 1. destruct (Qle_bool (at2 (g_weights g) a k) 0) eqn:E; [lra|].
        apply Qle_bool_false in E. lra. }
      assert (G : forall l, ~ (fold_right (fun i s => Qmax2 (at2 (g_weights g) i k) 0 + s) 0 l == 0)%Q <->
         exists i, In i l /\ (0 < at2 (g_weights g) i k)%Q).
      { intros l. induction l as [|a l IH]; cbn [fold_right].
        - split; [intros H; exfalso; apply H; reflexivity|intros (i & [] & _)].
        - pose proof (Hnn l) as Hl. unfold Qmax2 at 1.
          destruct (Qle_bool (at2 (g_weights g) a k) 0) eqn:E.
          + apply Qle_bool_iff in E. rewrite Qplus_0_l, IH. split.
            * intros (i & Hi & Hp). exists i. simpl; auto.
            * intros (i & [<-|Hi] & Hp); [lra|]. eauto.
          + apply Qle_bool_false in E. split; [intros _; exists a; simpl; auto|]. intros _ HH. lra. }
      rewrite negb_true_iff, <- not_true_iff_false, Qeq_bool_iff, G. split.
      - intros (i & Hi%in_seq & Hp). exists i. split; auto; lia.
      - intros (i & Hi & Hp). exists i. split; auto. apply in_seq; lia. }
    split.
    + intros (k & <- & Hk). apply (In_where _ _ false) in Hk. destruct Hk as [Hk E].
      rewrite map_length, seq_length in Hk. rewrite nth_map_seq in E by auto. exists k. rewrite <- W. auto.
    + intros (k & -> & Hk & E). exists k. split; auto. apply (In_where _ _ false).
      rewrite map_length, seq_length, nth_map_seq by auto. rewrite W. auto.
  - intros HL Hne real wants Hex. unfold default_bi_use.
    set (vm := map (fun k => (Z.of_nat k + 1)%Z) (seq 0 (g_n_tile g))).
    assert (Hvm : forall t, In t vm <-> real t).
    { intros t. unfold vm, real. rewrite in_map_iff. split.
      - intros (k & <- & Hk%in_seq). lia.
      - intros Ht. exists (Z.to_nat (t - 1)). split; [lia|]. apply in_seq. lia. }
    assert (Hnd : NoDup vm).
    { unfold vm. apply FinFun.Injective_map_NoDup; [|apply seq_NoDup]. intros a b. lia. }
    rewrite array_match_exact by auto. cbn [bind].
    assert (HI : forall k, In k (filter (selected (g_tile_a g) (g_tile_b g) vm) (seq 0 (length (g_tile_a g)))) <-> wants k).
    { intros k. rewrite filter_In, in_seq.
      rewrite selected_wanted by auto. unfold wanted, wants.
      rewrite <- !Hvm. intuition lia. }
    destruct (filter (selected (g_tile_a g) (g_tile_b g) vm) (seq 0 (length (g_tile_a g)))) as [|a l] eqn:E.
    { exfalso. destruct Hex as [k Hk]. apply HI in Hk. destruct Hk. }
    eexists; split; [reflexivity|]. intros x. rewrite in_map_iff. split.
    + intros (k & <- & Hk). exists k. rewrite <- HI. auto.
    + intros (k & -> & Hk). exists k. rewrite HI. auto.
Qed.
Print Assumptions C13_default_selection.

Definition bin_slice (ri : list nat) (b : nat) : list nat := slice ri (nth b ri 0) (nth (S b) ri 0).
(** The measurement behind flat index k of the (channel, baseline) selection. *)
Definition measurement (g : loc_input) (fi bi : list Z) (k : nat) : meas :=
  meas_at g fi bi (k / length bi) (k mod length bi).

(** Every griddable measurement is in exactly one bin, no other measurement is in any. *)
Theorem C13_bins_partition : forall g bi_use fi_use fill interp mask l,
  sensible g ->
  baseline_grid_locations g bi_use fi_use fill interp mask = Ok l ->
  exists bi,
    (match bi_use with Some b => bi = b /\ l_bi_use l = None
                     | None => default_bi_use g fill = Ok bi /\ l_bi_use l = Some bi end)
    /\ let fi := choose_fi_use g fill fi_use in
       let n := length fi * length bi in
       let good k := griddable g fill mask (measurement g fi bi k) in
       match l_bins l with
       | None => forall k, k < n -> ~ good k
       | Some (bin_n, bin_i, ri) =>
           (exists k, k < n /\ good k)
           /\ (forall b k, b < length bin_n -> In k (bin_slice ri b) -> k < n /\ good k)
           /\ (forall k, k < n -> good k ->
                 exists b, (b < length bin_n /\ In k (bin_slice ri b))
                   /\ forall b', b' < length bin_n -> In k (bin_slice ri b') -> b' = b)
           /\ (forall b, b < length bin_n -> NoDup (bin_slice ri b) /\ nth b bin_n 0 = length (bin_slice ri b))
           /\ NoDup bin_i
           /\ (forall b, In b bin_i <-> b < length bin_n /\ bin_slice ri b <> [])
       end.
Proof.
  intros g bi_use fi_use fill interp mask l Hs E.
  destruct (loc_main _ _ _ _ _ _ _ Hs E) as (bi & fmin & fmax & Hbi & HL).
  exists bi. split; [exact Hbi|]. cbv zeta.
  pose proof (loc_bins _ _ _ _ _ _ _ _ _ Hs HL) as HB.
  assert (HG : forall k, kept_b g fmin fmax fill mask (meas_k g (choose_fi_use g fill fi_use) bi k) = true <->
     griddable g fill mask (measurement g (choose_fi_use g fill fi_use) bi k)).
  { intros k. apply kept_b_spec; auto. apply (lf_range _ _ _ _ _ _ _ _ _ HL). }
  destruct (l_bins l) as [[[bin_n bin_i] ri]|] eqn:EB; cbn [bins_facts] in HB.
  2:{ intros k Hk Hg. apply HG in Hg. rewrite HB in Hg by auto. discriminate. }
  destruct HB as ((k0 & Hk0 & E0) & Hkey & Hbin & Hbi' & _ & _ & _).
  split; [exists k0; rewrite <- HG; auto|]. split; [|split; [|split; [|split]]].
  - intros b k Hb. unfold bin_slice. destruct (Hbin b Hb) as (-> & _). rewrite filter_In, in_seq, andb_true_iff.
    intros ((_ & Hk) & HK & _). split; [lia|]. now apply HG.
  - intros k Hk Hg. apply HG in Hg. pose proof (Hkey k Hk Hg) as Hr.
    exists (Z.to_nat (key g (meas_k g (choose_fi_use g fill fi_use) bi k))). split.
    + split; [lia|]. unfold bin_slice. destruct (Hbin (Z.to_nat (key g (meas_k g (choose_fi_use g fill fi_use) bi k))) ltac:(lia)) as (-> & _).
      apply filter_In. split; [apply in_seq; lia|]. rewrite Hg. cbn [andb]. lia.
    + intros b' Hb'. unfold bin_slice. destruct (Hbin b' Hb') as (-> & _). rewrite filter_In, andb_true_iff.
      intros (_ & _ & HE). lia.
  - intros b Hb. unfold bin_slice. destruct (Hbin b Hb) as (-> & -> & _). split; auto. apply NoDup_filter, seq_NoDup.
  - rewrite Hbi'. apply NoDup_filter, seq_NoDup.
  - intros b. rewrite Hbi', filter_In, in_seq. split.
    + intros [Hb Hn]. split; [lia|]. unfold bin_slice. destruct (Hbin b ltac:(lia)) as (-> & -> & _).
      intros H0. destruct (Hbin b ltac:(lia)) as (_ & Hl & _). rewrite H0 in Hl. rewrite Hl in Hn. discriminate.
    + intros [Hb Hn]. split; [lia|]. unfold bin_slice in Hn. destruct (Hbin b Hb) as (H1 & H2 & _).
      rewrite H1 in Hn. rewrite H2.
      destruct (filter (fun k => kept_b g fmin fmax fill mask (meas_k g (choose_fi_use g fill fi_use) bi k)
        && (key g (meas_k g (choose_fi_use g fill fi_use) bi k) =? Z.of_nat b)%Z) (seq 0 (length (choose_fi_use g fill fi_use) * length bi)));
        [exfalso; apply Hn; reflexivity|reflexivity].
Qed.
Print Assumptions C13_bins_partition.

(** The call succeeds for every valid selection. *)
Theorem C13_total : forall g bi_use fi_use fill interp mask bi,
  match bi_use with Some b => bi = b | None => default_bi_use g fill = Ok bi end ->
  let fi := choose_fi_use g fill fi_use in
  g_freq g <> [] ->
  (forall i, In i fi -> valid_index (length (g_freq g)) i /\ valid_index (rows (g_weights g)) i) ->
  (forall i, In i bi -> valid_index (cols (g_weights g)) i /\ valid_index (length (g_uu g)) i
                        /\ valid_index (length (g_vv g)) i) ->
  exists l, baseline_grid_locations g bi_use fi_use fill interp mask = Ok l.
Proof. exact loc_total. Qed.
Print Assumptions C13_total.

(** *** C12 *)
(** In a square plane the footprint of every binned measurement is inside the plane, and
    the bin number is xmin + dimension * ymin, with xmin, ymin recovered by mod and div. *)
Theorem C12_footprint_inside_partial : forall g bi_use fi_use fill interp mask l bin_n bin_i ri b k,
  sensible g -> g_elements g = g_dimension g ->
  baseline_grid_locations g bi_use fi_use fill interp mask = Ok l ->
  l_bins l = Some (bin_n, bin_i, ri) ->
  b < length bin_n -> In k (bin_slice ri b) ->
  let x := flat_at (l_xmin l) k in let y := flat_at (l_ymin l) k in
  (0 <= x /\ x + g_psf_dim g <= g_dimension g /\ 0 <= y /\ y + g_psf_dim g <= g_elements g)%Z
  /\ (Z.of_nat b mod g_dimension g = x /\ Z.of_nat b / g_dimension g = y)%Z.
Proof.
  intros g bi_use fi_use fill interp mask l bin_n bin_i ri b k Hs Hsq E EB Hb Hin x y.
  destruct (loc_main _ _ _ _ _ _ _ Hs E) as (bi & fmin & fmax & Hbi & HL).
  pose proof (loc_bins _ _ _ _ _ _ _ _ _ Hs HL) as HB. rewrite EB in HB. cbn [bins_facts] in HB.
  destruct HB as (_ & Hkey & Hbin & _). unfold bin_slice in Hin. destruct (Hbin b Hb) as (Hsl & _).
  rewrite Hsl in Hin. apply filter_In in Hin. destruct Hin as [Hk Hin]. apply in_seq in Hk.
  apply andb_true_iff in Hin. destruct Hin as [HK Hky].
  destruct (flat_split _ _ _ (proj2 Hk)) as (H1 & H2 & _).
  destruct (lf_at _ _ _ _ _ _ _ _ _ HL _ _ H1 H2) as (A & B & _).
  destruct (lf_shape _ _ _ _ _ _ _ _ _ HL (l_xmin l)) as [_ Cx]; [simpl; auto|].
  destruct (lf_shape _ _ _ _ _ _ _ _ _ HL (l_ymin l)) as [_ Cy]; [simpl; auto|].
  unfold x, y, flat_at. rewrite Cx, Cy. unfold meas_k in *. rewrite HK in A, B. rewrite A, B.
  apply kept_in_plane in HK. unfold in_plane in HK.
  destruct Hs as (_ & _ & _ & Hd & _ & Hp).
  split; [lia|]. apply Z.eqb_eq in Hky. rewrite <- Hky. unfold key.
  destruct (key_decode (g_dimension g) (corner_x g (meas_at g (choose_fi_use g fill fi_use) bi (k / length bi) (k mod length bi)))
    (corner_y g (meas_at g (choose_fi_use g fill fi_use) bi (k / length bi) (k mod length bi)))) as [P Q]; [lia|]. auto.
Qed.
Print Assumptions C12_footprint_inside_partial.

(** A small square observation used by the examples: 3 baselines, 2 channels, a 16 x 16 plane. *)
Definition demo : loc_input :=
  {| g_n_tile := 3; g_n_freq := 2; g_dimension := 16; g_elements := 16; g_kpix := 1;
     g_min_baseline := 1; g_max_baseline := 8; g_freq := [1; 3 # 2]%Q; g_freq_use := [true; true];
     g_tile_a := [1; 1; 2]%Z; g_tile_b := [2; 3; 3]%Z; g_psf_dim := 4; g_psf_resolution := 10;
     g_uu := [2; 5 # 2; 9]%Q; g_vv := [1; -(1); 0]%Q;
     g_weights := Arr2 2 3 (fun i j => if (i =? 1) && (j =? 1) then -(1) else 1)%Q |}.

Example C13_case : sensible demo /\
  match baseline_grid_locations demo None None false true false with
  | Ok l => to_lists (l_xmin l) = [[5; 9; -1]; [4; -1; -1]]%Z /\ to_lists (l_ymin l) = [[6; 6; -1]; [5; -1; -1]]%Z
            /\ match l_bins l with Some (bin_n, bin_i, ri) => bin_i = [84; 101; 105] /\ bin_slice ri 101 = [0]
                                 | None => False end
  | Err _ => False end.
Proof.
  split.
  - unfold sensible, demo; cbn. repeat split; try lia; try (unfold Qlt, Qle; simpl; lia).
    intros f [<-|[<-|[]]]; unfold Qle; simpl; lia.
  - vm_compute. auto.
Qed.

Definition with_plane (g : loc_input) (dim elem : Z) : loc_input :=
  {| g_n_tile := g_n_tile g; g_n_freq := g_n_freq g; g_dimension := dim; g_elements := elem; g_kpix := g_kpix g;
     g_min_baseline := g_min_baseline g; g_max_baseline := g_max_baseline g; g_freq := g_freq g; g_freq_use := g_freq_use g;
     g_tile_a := g_tile_a g; g_tile_b := g_tile_b g; g_psf_dim := g_psf_dim g; g_psf_resolution := g_psf_resolution g;
     g_uu := g_uu g; g_vv := g_vv g; g_weights := g_weights g |}.

Lemma witness g b k (P : locs -> bool) (G : Prop) :
  match baseline_grid_locations g None None false false false with
  | Ok l => match l_bins l with
            | Some (bin_n, _, ri) => (b <? length bin_n) && memb k (bin_slice ri b) && P l
            | None => false end
  | Err _ => false end = true ->
  (forall l bin_n bin_i ri, baseline_grid_locations g None None false false false = Ok l ->
     l_bins l = Some (bin_n, bin_i, ri) -> b < length bin_n -> In k (bin_slice ri b) -> P l = true -> G) -> G.
Proof.
  destruct (baseline_grid_locations g None None false false false) as [l|]; [|discriminate].
  destruct (l_bins l) as [[[bin_n bin_i] ri]|] eqn:EB; [|discriminate].
  rewrite !andb_true_iff. intros ((H1 & H2) & H3) K. apply memb_In in H2.
  apply (K l bin_n bin_i ri); auto. now apply Nat.ltb_lt.
Qed.

(** C12 fails for planes that are not square: x is checked against [elements] and y against
    [dimension], but the plane has [elements] rows (y) and [dimension] columns (x). *)
Theorem C12_non_square_refuted :
  (exists g l bin_n bin_i ri b k,
     sensible g /\ (g_elements g < g_dimension g)%Z
     /\ baseline_grid_locations g None None false false false = Ok l
     /\ l_bins l = Some (bin_n, bin_i, ri) /\ b < length bin_n /\ In k (bin_slice ri b)
     /\ (g_elements g < flat_at (l_ymin l) k + g_psf_dim g)%Z)
  /\ (exists g l bin_n bin_i ri b k,
     sensible g /\ (g_dimension g < g_elements g)%Z
     /\ baseline_grid_locations g None None false false false = Ok l
     /\ l_bins l = Some (bin_n, bin_i, ri) /\ b < length bin_n /\ In k (bin_slice ri b)
     /\ (g_dimension g < flat_at (l_xmin l) k + g_psf_dim g)%Z
     /\ (Z.of_nat b mod g_dimension g <> flat_at (l_xmin l) k)%Z).
Proof.
  assert (S : forall d e, (0 < d)%Z -> sensible (with_plane demo d e)).
  { intros d e Hd. unfold sensible, with_plane, demo; cbn. repeat split; try lia; try (unfold Qlt, Qle; simpl; lia).
    intros f [<-|[<-|[]]]; unfold Qle; simpl; lia. }
  split.
  - apply (witness (with_plane demo 40 16) 725 0
      (fun l => (16 <? flat_at (l_ymin l) 0 + 4)%Z)); [vm_compute; reflexivity|].
    intros l bin_n bin_i ri E EB Hb Hin HP.
    exists (with_plane demo 40 16), l, bin_n, bin_i, ri, 725, 0.
    split; [apply S; lia|]. split; [reflexivity|]. repeat (split; [assumption|]).
    change (16 < flat_at (l_ymin l) 0 + 4)%Z. lia.
  - apply (witness (with_plane demo 16 40) 113 0
      (fun l => (16 <? flat_at (l_xmin l) 0 + 4)%Z && negb (113 mod 16 =? flat_at (l_xmin l) 0)%Z)); [vm_compute; reflexivity|].
    intros l bin_n bin_i ri E EB Hb Hin HP. apply andb_true_iff in HP.
    exists (with_plane demo 16 40), l, bin_n, bin_i, ri, 113, 0.
    split; [apply S; lia|]. split; [reflexivity|]. repeat (split; [assumption|]).
    change ((16 < flat_at (l_xmin l) 0 + 4)%Z /\ (113 mod 16 <> flat_at (l_xmin l) 0)%Z). lia.
Qed.
Print Assumptions C12_non_square_refuted.

(** *** C18 *)
Definition covers_pixel (g : loc_input) (m : meas) (y x : nat) : Prop :=
  (corner_y g m <= Z.of_nat y < corner_y g m + g_psf_dim g)%Z
  /\ (corner_x g m <= Z.of_nat x < corner_x g m + g_psf_dim g)%Z.

(** For planes with at least as many columns as rows: pixel (y, x) holds the number of
    griddable measurements whose footprint covers it. *)
Theorem C18_count_partial : forall g fi_use bi_use mask fill plane,
  sensible g -> (g_elements g <= g_dimension g)%Z ->
  visibility_count g fi_use bi_use mask true fill = Ok plane ->
  exists bi, (match bi_use with Some b => bi = b | None => default_bi_use g fill = Ok bi end)
  /\ let fi := choose_fi_use g fill fi_use in let n := length fi * length bi in
     rows plane = Z.to_nat (g_elements g) /\ cols plane = Z.to_nat (g_dimension g)
     /\ (forall y x, exists good : nat -> bool,
           (forall k, k < n -> good k = true <->
              griddable g fill mask (measurement g fi bi k) /\ covers_pixel g (measurement g fi bi k) y x)
           /\ at2 plane y x = qc_nat (count_if n good))
     /\ (g_elements g = g_dimension g ->
           exists good : nat -> bool,
           (forall k, k < n -> good k = true <-> griddable g fill mask (measurement g fi bi k))
           /\ Qcsum_n (rows plane) (fun y => Qcsum_n (cols plane) (fun x => at2 plane y x))
              = qc_nat (Z.to_nat (g_psf_dim g) * Z.to_nat (g_psf_dim g) * count_if n good)).
Proof.
  intros g fi_use bi_use mask fill plane Hs Hle. unfold visibility_count.
  destruct (baseline_grid_locations g bi_use fi_use fill false mask) as [l|] eqn:E; cbn [bind]; [|discriminate].
  intros [= <-]. destruct (loc_main _ _ _ _ _ _ _ Hs E) as (bi & fmin & fmax & Hbi & HL).
  exists bi. split; [destruct bi_use; apply Hbi|]. cbv zeta.
  set (fi := choose_fi_use g fill fi_use) in *. set (n := length fi * length bi).
  assert (HG : forall k, kept_b g fmin fmax fill mask (meas_k g fi bi k) = true <->
     griddable g fill mask (measurement g fi bi k)).
  { intros k. apply kept_b_spec; auto. apply (lf_range _ _ _ _ _ _ _ _ _ HL). }
  pose proof (fun i j => count_plane g bi fi fill false mask l fmin fmax
    (Z.to_nat (g_elements g)) (Z.to_nat (g_dimension g)) i j Hs Hle HL) as HC. cbv zeta in HC. fold n in HC.
  set (plane := count_loop l (g_psf_dim g) (zeros (Z.to_nat (g_elements g)) (Z.to_nat (g_dimension g)))) in *.
  destruct (HC 0 0) as (R & Cc & _). split; [exact R|]. split; [exact Cc|]. split.
  - intros y x. eexists. split; [|apply (HC y x)]. intros k Hk. cbv beta. rewrite andb_true_iff, HG.
    unfold covers, covers_pixel. fold (measurement g fi bi k). change (meas_k g fi bi k) with (measurement g fi bi k).
    rewrite !andb_true_iff. intuition lia.
  - intros Hsq. exists (fun k => kept_b g fmin fmax fill mask (meas_k g fi bi k)). split; [intros; apply HG|].
    rewrite R, Cc. destruct Hs as (_ & _ & _ & Hd & _ & Hp).
    transitivity (qc_nat (sum_nat (map (fun y => sum_nat (map (fun x => count_if n (fun k =>
       kept_b g fmin fmax fill mask (meas_k g fi bi k) &&
       covers (corner_y g (meas_k g fi bi k)) (corner_x g (meas_k g fi bi k)) (Z.of_nat (Z.to_nat (g_psf_dim g))) y x))
         (seq 0 (Z.to_nat (g_dimension g))))) (seq 0 (Z.to_nat (g_elements g)))))).
    + rewrite qc_nat_sum, map_map. unfold Qcsum_n. f_equal. apply map_ext. intros y.
      rewrite qc_nat_sum, map_map. f_equal. apply map_ext. intros x.
      rewrite Z2Nat.id by lia. apply (HC y x).
    + f_equal. apply count_total. intros k Hk Ek. apply kept_in_plane in Ek. unfold in_plane in Ek. lia.
Qed.
Print Assumptions C18_count_partial.

Definition qc_same (a b : Qc) : bool := if Qc_eq_dec a b then true else false.
(** Planes that are not square lose footprints that stick out (C12): the total is wrong,
    both with more columns and with more rows. *)
Theorem C18_non_square_refuted : forall wide : bool, exists g plane good,
  sensible g /\ (if wide then (g_elements g < g_dimension g)%Z else (g_dimension g < g_elements g)%Z)
  /\ visibility_count g (Some [0; 1]%Z) (Some [0; 1; 2]%Z) false true false = Ok plane
  /\ (forall k, k < 6 -> good k = true <-> griddable g false false (measurement g [0; 1]%Z [0; 1; 2]%Z k))
  /\ Qcsum_n (rows plane) (fun y => Qcsum_n (cols plane) (fun x => at2 plane y x))
     <> qc_nat (Z.to_nat (g_psf_dim g) * Z.to_nat (g_psf_dim g) * count_if 6 good).
Proof.
  assert (S : forall d e, (0 < d)%Z -> sensible (with_plane demo d e)).
  { intros d e Hd. unfold sensible, with_plane, demo; cbn. repeat split; try lia; try (unfold Qlt, Qle; simpl; lia).
    intros f [<-|[<-|[]]]; unfold Qle; simpl; lia. }
  assert (R : is_min 1 (g_freq demo) /\ is_max (3 # 2) (g_freq demo)).
  { split; (split; [cbn; auto|]); intros y [<-|[<-|[]]]; unfold Qle; simpl; lia. }
  assert (G : forall d e, (0 < d)%Z ->
    match visibility_count (with_plane demo d e) (Some [0; 1]%Z) (Some [0; 1; 2]%Z) false true false with
    | Ok plane => negb (qc_same (Qcsum_n (rows plane) (fun y => Qcsum_n (cols plane) (fun x => at2 plane y x)))
        (qc_nat (16 * count_if 6 (fun k => kept_b (with_plane demo d e) 1 (3 # 2) false false
           (meas_k (with_plane demo d e) [0; 1]%Z [0; 1; 2]%Z k)))))
    | Err _ => false end = true ->
    exists plane good, visibility_count (with_plane demo d e) (Some [0; 1]%Z) (Some [0; 1; 2]%Z) false true false = Ok plane
      /\ (forall k, k < 6 -> good k = true <-> griddable (with_plane demo d e) false false (measurement (with_plane demo d e) [0; 1]%Z [0; 1; 2]%Z k))
      /\ Qcsum_n (rows plane) (fun y => Qcsum_n (cols plane) (fun x => at2 plane y x)) <> qc_nat (16 * count_if 6 good)).
  { intros d e Hd. destruct (visibility_count _ _ _ _ _ _) as [plane|]; [|discriminate]. intros H.
    exists plane. eexists. split; [reflexivity|]. split; [|intros EQ; unfold qc_same in H; destruct (Qc_eq_dec _ _) as [|N] in H; [discriminate|exact (N EQ)]].
    intros k Hk. cbv beta. apply kept_b_spec; [now apply S|]. intros _. exact R. }
  intros [|].
  - destruct (G 40%Z 16%Z ltac:(lia) ltac:(vm_compute; reflexivity)) as (plane & good & E & Hg & Hn).
    exists (with_plane demo 40 16), plane, good. split; [apply S; lia|]. split; [reflexivity|].
    split; [exact E|]. split; [exact Hg|]. exact Hn.
  - destruct (G 16%Z 40%Z ltac:(lia) ltac:(vm_compute; reflexivity)) as (plane & good & E & Hg & Hn).
    exists (with_plane demo 16 40), plane, good. split; [apply S; lia|]. split; [reflexivity|].
    split; [exact E|]. split; [exact Hg|]. exact Hn.
Qed.
Print Assumptions C18_non_square_refuted.

(** With mirroring: the average of the plane and its reflection. *)
Theorem C18_mirrored : forall g fi_use bi_use mask fill plane,
  visibility_count g fi_use bi_use mask true fill = Ok plane ->
  exists out, visibility_count g fi_use bi_use mask false fill = Ok out
    /\ rows out = rows plane /\ cols out = cols plane
    /\ forall y x, y < rows plane -> x < cols plane ->
         at2 out y x = ((at2 plane y x + at2 plane (reflect (rows plane) y) (reflect (cols plane) x)) / qc_nat 2)%Qc.
Proof.
  intros g fi_use bi_use mask fill plane. unfold visibility_count.
  destruct (baseline_grid_locations g bi_use fi_use fill false mask) as [l|]; cbn [bind]; [|discriminate].
  intros [= <-]. eexists. split; [reflexivity|]. cbn [rows cols]. split; [reflexivity|]. split; [reflexivity|].
  intros y x Hy Hx. cbn [at2]. rewrite mirror_at, !reflect_neg_mod by auto. reflexivity.
Qed.
Print Assumptions C18_mirrored.

Example C18_case :
  match visibility_count demo None None false true false with
  | Ok p => at2 p 6 5 = qc_nat 2 /\ at2 p 5 4 = qc_nat 1 /\ at2 p 9 9 = qc_nat 1
  | Err _ => False end.
Proof. vm_compute. repeat split; apply Qc_is_canon; reflexivity. Qed.

(** *** C17 *)
Definition vec (f : nat -> C) (n : nat) : list C := map f (seq 0 n).
Definition table_ok (kernel : nat -> nat -> list C) (n : nat) : Prop := forall y x, length (kernel y x) = n.

Lemma vadd_nth a b k n : length a = n -> length b = n -> k < n ->
  length (vadd a b) = n /\ nth k (vadd a b) C0 = (nth k a C0 + nth k b C0)%C.
Proof.
  intros Ha Hb Hk. unfold vadd. rewrite map_length, combine_length, Ha, Hb, Nat.min_id. split; auto.
  rewrite (nth_map_lt _ _ _ (C0, C0)) by (rewrite combine_length; lia).
  rewrite nth_combine by congruence. reflexivity.
Qed.
Lemma vscale_nth w a k n : length a = n -> k < n ->
  length (vscale w a) = n /\ nth k (vscale w a) C0 = Cscale w (nth k a C0).
Proof.
  intros Ha Hk. unfold vscale. rewrite map_length. split; auto. now rewrite (nth_map_lt _ _ _ C0) by lia.
Qed.

(** Linear interpolation in x on the two rows, then in y. *)
Definition lerpC (t : Qc) (a b : C) : C := (Cscale (1 - t) a + Cscale t b)%C.

Theorem C17_bilinear : forall kernel n x y (dx dy : Qc) k, table_ok kernel n -> k < n ->
  let out := interpolate_kernel kernel x y ((1 - dx) * (1 - dy))%Qc (dx * (1 - dy))%Qc ((1 - dx) * dy)%Qc (dx * dy)%Qc in
  length out = n /\
  nth k out C0 = lerpC dy (lerpC dx (nth k (kernel y x) C0) (nth k (kernel y (x + 1)) C0))
                          (lerpC dx (nth k (kernel (y + 1) x) C0) (nth k (kernel (y + 1) (x + 1)) C0)).
Proof.
  intros kernel n x y dx dy k HT Hk out. unfold out, interpolate_kernel.
  assert (S : forall w a b, length (vscale w (kernel a b)) = n /\ nth k (vscale w (kernel a b)) C0 = Cscale w (nth k (kernel a b) C0)).
  { intros. apply vscale_nth; auto. }
  destruct (S ((1 - dx) * (1 - dy))%Qc y x) as [L1 E1].
  destruct (S (dx * (1 - dy))%Qc y (x + 1)) as [L2 E2].
  destruct (S ((1 - dx) * dy)%Qc (y + 1) x) as [L3 E3].
  destruct (S (dx * dy)%Qc (y + 1) (x + 1)) as [L4 E4].
  destruct (vadd_nth _ _ k n L1 L2 Hk) as [La Ea].
  destruct (vadd_nth _ _ k n La L3 Hk) as [Lb Eb].
  destruct (vadd_nth _ _ k n Lb L4 Hk) as [Lc Ec].
  split; [exact Lc|]. rewrite Ec, Eb, Ea, E1, E2, E3, E4. unfold lerpC.
  apply C_ext; cbn [re im Cadd Cscale]; ring.
Qed.
Print Assumptions C17_bilinear.

(** Constants, the grid points themselves, and every kernel that depends bilinearly on the
    position are reproduced exactly. *)
Theorem C17_exact_cases : forall kernel n x y (dx dy : Qc), table_ok kernel n ->
  let out := interpolate_kernel kernel x y ((1 - dx) * (1 - dy))%Qc (dx * (1 - dy))%Qc ((1 - dx) * dy)%Qc (dx * dy)%Qc in
  (dx = 0%Qc -> dy = 0%Qc -> out = kernel y x)
  /\ ((forall y' x', kernel y' x' = kernel y x) -> out = kernel y x)
  /\ (forall a b c d : nat -> C,
        (forall y' x' k, k < n -> nth k (kernel y' x') C0 =
           (a k + Cscale (qc_nat x') (b k) + Cscale (qc_nat y') (c k) + Cscale (qc_nat x' * qc_nat y')%Qc (d k))%C) ->
        forall k, k < n -> nth k out C0 =
           (a k + Cscale (qc_nat x + dx)%Qc (b k) + Cscale (qc_nat y + dy)%Qc (c k)
            + Cscale ((qc_nat x + dx) * (qc_nat y + dy))%Qc (d k))%C)
  /\ ((1 - dx) * (1 - dy) + dx * (1 - dy) + (1 - dx) * dy + dx * dy = 1)%Qc.
Proof.
  intros kernel n x y dx dy HT out.
  assert (HL : n <> 0 -> length out = n).
  { intros Hn. apply (C17_bilinear kernel n x y dx dy 0); auto; lia. }
  assert (HL0 : length out = n).
  { destruct (Nat.eq_dec n 0) as [->|]; auto. unfold out, interpolate_kernel, vadd, vscale.
    rewrite map_length, combine_length, !map_length, HT. lia. }
  split; [|split; [|split]].
  - intros -> ->. apply (list_ext C0); [rewrite HT; auto|]. rewrite HL0. intros k Hk.
    unfold out. rewrite (proj2 (C17_bilinear kernel n x y 0 0 k HT Hk)). unfold lerpC.
    apply C_ext; cbn [re im Cadd Cscale]; ring.
  - intros HC. apply (list_ext C0); [rewrite HT; auto|]. rewrite HL0. intros k Hk.
    unfold out. rewrite (proj2 (C17_bilinear kernel n x y dx dy k HT Hk)). rewrite (HC y (x + 1)), (HC (y + 1) x), (HC (y + 1) (x + 1)). unfold lerpC.
    apply C_ext; cbn [re im Cadd Cscale]; ring.
  - intros a b c d HB k Hk. unfold out. rewrite (proj2 (C17_bilinear kernel n x y dx dy k HT Hk)).
    rewrite !HB by auto. rewrite !qc_nat_plus. change (qc_nat 1) with 1%Qc. unfold lerpC.
    apply C_ext; cbn [re im Cadd Cscale]; ring.
  - ring.
Qed.
Print Assumptions C17_exact_cases.

(** The weights returned by baseline_grid_locations are those of the position of the
    measurement relative to the sub-pixel corner (x_offset, y_offset). *)
Theorem C17_weights : forall g bi_use fi_use fill mask l,
  sensible g -> baseline_grid_locations g bi_use fi_use fill true mask = Ok l ->
  exists bi, (match bi_use with Some b => bi = b | None => default_bi_use g fill = Ok bi end)
  /\ exists d00 d01 d10 d11, l_deriv l = Some (d00, d01, d10, d11)
  /\ let fi := choose_fi_use g fill fi_use in
     forall i j, i < length fi -> j < length bi ->
       let m := meas_at g fi bi i j in
       let res := inject_Z (g_psf_resolution g) in
       exists dx dy : Q, (0 <= dx < 1 /\ 0 <= dy < 1
         /\ pos_x (g_kpix g) m == inject_Z (Qfloor (pos_x (g_kpix g) m)) + (inject_Z (at2 (l_x_offset l) i j) + dx) / res
         /\ pos_y (g_kpix g) m == inject_Z (Qfloor (pos_y (g_kpix g) m)) + (inject_Z (at2 (l_y_offset l) i j) + dy) / res
         /\ at2 d00 i j == (1 - dx) * (1 - dy) /\ at2 d10 i j == dx * (1 - dy)
         /\ at2 d01 i j == (1 - dx) * dy /\ at2 d11 i j == dx * dy
         /\ at2 d00 i j + at2 d10 i j + at2 d01 i j + at2 d11 i j == 1)%Q
         /\ (0 <= at2 (l_x_offset l) i j < g_psf_resolution g)%Z /\ (0 <= at2 (l_y_offset l) i j < g_psf_resolution g)%Z.
Proof.
  intros g bi_use fi_use fill mask l Hs E.
  destruct (loc_main _ _ _ _ _ _ _ Hs E) as (bi & fmin & fmax & Hbi & HL).
  exists bi. split; [destruct bi_use; apply Hbi|].
  pose proof (lf_deriv _ _ _ _ _ _ _ _ _ HL) as HD.
  destruct (l_deriv l) as [[[[d00 d01] d10] d11]|] eqn:Ed; [|discriminate].
  destruct HD as [_ HD]. exists d00, d01, d10, d11. split; [reflexivity|]. cbv zeta.
  intros i j Hi Hj. set (m := meas_at g (choose_fi_use g fill fi_use) bi i j).
  destruct (lf_at _ _ _ _ _ _ _ _ _ HL i j Hi Hj) as (_ & _ & -> & ->). fold m.
  specialize (HD i j Hi Hj). cbv zeta in HD. fold m in HD.
  exists (pix_deriv (g_psf_resolution g) (pos_x (g_kpix g) m)), (pix_deriv (g_psf_resolution g) (pos_y (g_kpix g) m)).
  destruct Hs as (_ & _ & _ & _ & Hr & _).
  assert (Hr' : (0 < inject_Z (g_psf_resolution g))%Q) by (change 0%Q with (inject_Z 0); rewrite <- Zlt_Qlt; auto).
  assert (OFF : forall c : Q, (0 <= pix_offset (g_psf_resolution g) c < g_psf_resolution g)%Z
     /\ (0 <= pix_deriv (g_psf_resolution g) c < 1
     /\ c == inject_Z (Qfloor c) + (inject_Z (pix_offset (g_psf_resolution g) c) + pix_deriv (g_psf_resolution g) c) / inject_Z (g_psf_resolution g))%Q).
  { intros c. set (r := g_psf_resolution g) in *.
    assert (F : (0 <= frac c < 1)%Q).
    { unfold frac. pose proof (Qfloor_le c). pose proof (Qlt_floor c) as H1. rewrite inject_Z_plus in H1.
      change (inject_Z 1) with 1%Q in H1. lra. }
    set (q := (frac c * inject_Z r)%Q).
    assert (Q0 : (0 <= q)%Q) by (apply Qmult_le_0_compat; lra).
    assert (Q1 : (q < inject_Z r)%Q).
    { unfold q. apply Qlt_le_trans with (1 * inject_Z r)%Q; [apply Qmult_lt_r; lra|lra]. }
    assert (B : (0 <= Qfloor q < r)%Z).
    { split.
      - change 0%Z with (Qfloor (inject_Z 0)). apply Qfloor_resp_le. exact Q0.
      - rewrite Zlt_Qlt. eapply Qle_lt_trans; [apply Qfloor_le|exact Q1]. }
    assert (EO : pix_offset r c = Qfloor q) by (unfold pix_offset; fold q; apply Z.mod_small; auto).
    rewrite EO. split; [exact B|]. unfold pix_deriv. fold q.
    pose proof (Qfloor_le q). pose proof (Qlt_floor q) as H1. rewrite inject_Z_plus in H1. change (inject_Z 1) with 1%Q in H1.
    split; [lra|].
    setoid_replace (inject_Z (Qfloor q) + (q - inject_Z (Qfloor q)))%Q with q by ring.
    unfold q, frac. field. lra. }
  destruct (OFF (pos_x (g_kpix g) m)) as (O1 & O2 & O3). destruct (OFF (pos_y (g_kpix g) m)) as (P1 & P2 & P3).
  destruct HD as (D1 & D2 & D3 & D4).
  repeat (split; [tauto || assumption|]).
  - split; [|split; assumption]. repeat (split; [tauto || assumption|]). rewrite D1, D2, D3, D4. ring.
Qed.
Print Assumptions C17_weights.
