(** The contribution of one bin of visibility_grid: grouping visibilities with the same
    beam kernel is the same as treating them one by one. *)
From Coq Require Import Permutation Sorted ZifyBool ZifyNat.
From Verif Require Import Base SortLib Cplx NpArr PyIndex SumLib Histogram ArrayMatch Utils1 Utils1Spec Utils1Proofs
  WeightInvert GridLoc VisGrid.
Open Scope nat_scope.

(** ** argsort *)
Lemma argsort_perm l : Permutation (argsort l) (seq 0 (length l)).
Proof. apply Permutation_sym, isort_perm. Qed.
Lemma argsort_length l : length (argsort l) = length l.
Proof. unfold argsort. now rewrite isort_length, seq_length. Qed.
Lemma nths_seq {A} (d : A) l : nths d l (seq 0 (length l)) = l.
Proof. unfold nths. apply (list_ext d); rewrite map_length, seq_length; auto. intros k Hk. now rewrite (nth_map_seq (fun i => nth i l d)). Qed.
Lemma nths_argsort_perm {A} (d : A) (l : list A) keys : length l = length keys ->
  Permutation (nths d l (argsort keys)) l.
Proof.
  intros H. rewrite <- (nths_seq d l) at 2. unfold nths. apply Permutation_map. rewrite H. apply argsort_perm.
Qed.
Lemma argsort_sorts l : nths 0%Z l (argsort l) = np_sort l.
Proof.
  apply sorted_perm_eq.
  - intros i j Hij Hj. unfold nths in *. rewrite map_length in Hj.
    rewrite (nth_map_lt _ _ i 0), (nth_map_lt _ _ j 0) by lia. apply Z.leb_le.
    apply sorted_nth with (leb := fun i j => (nth i l 0 <=? nth j l 0)%Z); auto; try (intros; lia).
    apply isort_sorted; intros; lia.
  - apply np_sort_sorted.
  - eapply perm_trans; [now apply nths_argsort_perm|apply isort_perm].
Qed.

(** ** Runs *)
Lemma skipn_add {A} a b (l : list A) : skipn a (skipn b l) = skipn (b + a) l.
Proof. revert l. induction b as [|b IH]; intros l; [reflexivity|]. destruct l; cbn [skipn Nat.add]; [apply skipn_nil|apply IH]. Qed.
Lemma slice_app {A} (l : list A) lo mid hi : lo <= mid -> mid <= hi ->
  slice l lo mid ++ slice l mid hi = slice l lo hi.
Proof.
  intros H1 H2. unfold slice. replace (hi - lo) with ((mid - lo) + (hi - mid)) by lia.
  replace (skipn mid l) with (skipn (mid - lo) (skipn lo l)) by (rewrite skipn_add; f_equal; lia).
  generalize (skipn lo l). intros l'. generalize (mid - lo) (hi - mid). clear. intros a b.
  revert l'. induction a as [|a IH]; intros l'; auto. destruct l' as [|x l']; cbn [firstn skipn app Nat.add]; [now rewrite !firstn_nil|].
  now rewrite IH.
Qed.
Lemma slice_map {A B} (f : A -> B) l lo hi : slice (map f l) lo hi = map f (slice l lo hi).
Proof. unfold slice. now rewrite skipn_map, firstn_map. Qed.
Lemma slice_full {A} (l : list A) : slice l 0 (length l) = l.
Proof. unfold slice. rewrite Nat.sub_0_r. cbn [skipn]. apply firstn_all. Qed.
Lemma In_slice {A} (l : list A) lo hi x d : In x (slice l lo hi) ->
  exists q, lo <= q < hi /\ q < length l /\ x = nth q l d.
Proof.
  intros H. destruct (In_nth _ _ d H) as (k & Hk & E).
  assert (k < hi - lo) by (unfold slice in Hk; rewrite firstn_length in Hk; lia).
  assert (k < length l - lo) by (unfold slice in Hk; rewrite firstn_length, skipn_length in Hk; lia).
  exists (lo + k). rewrite nth_slice in E by auto. repeat split; auto; lia.
Qed.

Definition increasing (us : list nat) : Prop := forall i j, i < j -> j < length us -> nth i us 0 < nth j us 0.
Lemma increasing_tl u us : increasing (u :: us) -> increasing us.
Proof. intros H i j Hij Hj. apply (H (S i) (S j)); simpl; lia. Qed.

Lemma runs_concat {A} (l : list A) : forall us s, us <> [] -> s <= hd 0 us -> increasing us ->
  concat (map (fun p => slice l (fst p) (snd p + 1)) (combine (s :: map S (removelast us)) us))
  = slice l s (last us 0 + 1).
Proof.
  induction us as [|u us IH]; intros s Hne Hs Hinc; [congruence|].
  destruct us as [|u' us].
  - cbn. now rewrite app_nil_r.
  - change (slice l s (u + 1) ++ concat (map (fun p => slice l (fst p) (snd p + 1))
        (combine (S u :: map S (removelast (u' :: us))) (u' :: us))) = slice l s (last (u' :: us) 0 + 1)).
    rewrite IH; [|congruence| |now apply increasing_tl in Hinc].
    + replace (u + 1) with (S u) by lia. apply slice_app.
      * cbn [hd] in Hs. lia.
      * assert (u < last (u' :: us) 0); [|lia].
        assert (E : last (u' :: us) 0 = nth (length us) (u' :: us) 0).
        { clear. revert u'. induction us as [|b us IH]; intros u'; auto. cbn [last length nth] in *. apply IH. }
        rewrite E. apply (Hinc 0 (S (length us))); simpl; lia.
    + cbn [hd]. specialize (Hinc 0 1 ltac:(lia) ltac:(simpl; lia)). cbn [nth] in Hinc. lia.
Qed.

Lemma run_starts_length us : us <> [] -> length (run_starts us) = length us.
Proof.
  intros H. unfold run_starts. cbn [length]. rewrite map_length.
  destruct (exists_last H) as (l' & a & ->). rewrite removelast_last, app_length. simpl. lia.
Qed.
Lemma nth_run_starts us r : r < length us -> nth r (run_starts us) 0 = if r =? 0 then 0 else S (nth (r - 1) us 0).
Proof.
  intros Hr. unfold run_starts. destruct r as [|r]; auto. cbn [nth Nat.eqb]. rewrite Nat.sub_succ, Nat.sub_0_r.
  assert (H : us <> []) by (destruct us; simpl in Hr; [lia|congruence]).
  destruct (exists_last H) as (l' & a & ->). rewrite removelast_last. rewrite app_length in Hr. simpl in Hr.
  rewrite (nth_map_lt _ _ _ 0) by lia. now rewrite app_nth1 by lia.
Qed.
Lemma last_nth us : last us 0 = nth (length us - 1) us 0.
Proof.
  destruct us as [|u us]; auto. cbn [length]. rewrite Nat.sub_succ, Nat.sub_0_r. revert u.
  induction us as [|b us IH]; intros u; auto. cbn [last length nth] in *. apply IH.
Qed.

Definition run_pairs (us : list nat) : list (nat * nat) := combine (run_starts us) us.
Lemma run_pairs_nth us r : r < length us -> nth r (run_pairs us) (0, 0) = (nth r (run_starts us) 0, nth r us 0).
Proof. intros H. apply combine_nth. apply run_starts_length. destruct us; simpl in *; [lia|congruence]. Qed.
Lemma run_pairs_length us : us <> [] -> length (run_pairs us) = length us.
Proof. intros H. unfold run_pairs. rewrite combine_length, run_starts_length by auto. lia. Qed.

Lemma fold_upd_nth {A} (f : nat -> A) d rs : forall vb j, j < length vb ->
  nth j (fold_left (fun vb r => upd vb r (f r)) rs vb) d = if existsb (Nat.eqb j) rs then f j else nth j vb d.
Proof.
  induction rs as [|r rs IH]; intros vb j Hj; cbn [fold_left existsb]; auto.
  rewrite IH by now rewrite upd_length.
  destruct (existsb (Nat.eqb j) rs); [now rewrite orb_true_r|]. rewrite orb_false_r, nth_upd.
  destruct (Nat.eqb_spec r j), (Nat.eqb_spec j r); subst; try congruence; cbn [andb]; auto.
  now rewrite (proj2 (Nat.ltb_lt _ _) Hj).
Qed.
Lemma fold_upd_length {A} (f : nat -> A) rs : forall vb, length (fold_left (fun vb r => upd vb r (f r)) rs vb) = length vb.
Proof. induction rs as [|r rs IH]; intros vb; cbn [fold_left]; auto. now rewrite IH, upd_length. Qed.

(** The sums over repeated entries are the sums over every run. *)
Lemma group_sums_runs us v1 : us <> [] -> increasing us -> (forall r, r < length us -> nth r us 0 < length v1) ->
  let wt := map (fun p => fst p - snd p + 1) (combine us (run_starts us)) in
  group_sums (run_starts us) us wt v1 = map (fun p => Csum (slice v1 (fst p) (snd p + 1))) (run_pairs us).
Proof.
  intros Hne Hinc Hb wt. pose proof (run_starts_length us Hne) as HL.
  assert (Hle : forall r, r < length us -> nth r (run_starts us) 0 <= nth r us 0).
  { intros r Hr. rewrite nth_run_starts by auto. destruct (Nat.eqb_spec r 0); [lia|].
    specialize (Hinc (r - 1) r ltac:(lia) Hr). lia. }
  assert (Hwl : length wt = length us) by (unfold wt; rewrite map_length, combine_length; lia).
  assert (Hwt : forall r, r < length us -> nth r wt 0 = nth r us 0 - nth r (run_starts us) 0 + 1).
  { intros r Hr. unfold wt. rewrite (nth_map_lt _ _ r (0, 0)) by (rewrite combine_length; lia).
    rewrite combine_nth by auto. reflexivity. }
  unfold group_sums.
  set (rep := if length (run_starts us) =? 1 then [0] else where_ (fun w => 1 <? w) wt).
  apply (list_ext C0); rewrite fold_upd_length.
  - unfold nths. now rewrite !map_length, run_pairs_length.
  - intros r Hr. unfold nths in Hr. rewrite map_length in Hr.
    rewrite (fold_upd_nth (fun r => Csum (slice v1 (nth r (run_starts us) 0) (nth r us 0 + 1))))
      by (unfold nths; now rewrite map_length).
    rewrite (nth_map_lt _ _ r (0, 0)) by (rewrite run_pairs_length; auto).
    rewrite run_pairs_nth by auto. cbn [fst snd].
    destruct (existsb (Nat.eqb r) rep) eqn:E; auto.
    assert (Hone : nth r us 0 = nth r (run_starts us) 0).
    { unfold rep in E. rewrite HL in E. destruct (Nat.eqb_spec (length us) 1) as [H1|H1].
      - assert (r = 0) by lia. subst r. cbn in E. discriminate.
      - assert (~ In r (where_ (fun w => 1 <? w) wt)).
        { intros Hin. rewrite <- not_true_iff_false in E. apply E. apply existsb_exists. exists r. split; auto. apply Nat.eqb_refl. }
        specialize (Hle r Hr). specialize (Hwt r Hr).
        destruct (Nat.eq_dec (nth r us 0) (nth r (run_starts us) 0)); auto. exfalso. apply H.
        apply (In_where _ _ 0). split; [lia|]. apply Nat.ltb_lt. lia. }
    rewrite <- Hone. unfold nths. rewrite (nth_map_lt _ _ r 0) by auto.
    specialize (Hb r Hr). unfold slice. replace (nth r us 0 + 1 - nth r us 0) with 1 by lia.
    pose proof (nth_skipn v1 (nth r us 0) 0 C0) as Hn. rewrite Nat.add_0_r in Hn.
    pose proof (skipn_length (nth r us 0) v1) as Hsl.
    destruct (skipn (nth r us 0) v1) as [|z t]; [simpl in Hsl; lia|]. cbn [firstn Csum fold_right]. cbn [nth] in Hn. rewrite <- Hn. ring.
Qed.

(** ** A bin as a list of groups *)
Definition fbin_of (fbin_use : list nat) (k : nat) : nat := nth (k mod length fbin_use) fbin_use 0.
(** the kernel the code uses for visibility k *)
Definition kernel_k (cfg : grid_cfg) (gi : grid_input) (l : locs) (fbin_use : list nat) (k : nat) : list C :=
  let xo := Z.to_nat (flat_at (l_x_offset l) k) in
  let yo := Z.to_nat (flat_at (l_y_offset l) k) in
  if c_interp cfg then
    match l_deriv l with
    | Some (d00, d01, d10, d11) =>
        interpolate_kernel (gi_beam gi (fbin_of fbin_use k)) xo yo
          (Q2Qc (flat_at d00 k)) (Q2Qc (flat_at d10 k)) (Q2Qc (flat_at d01 k)) (Q2Qc (flat_at d11 k))
    | None => []
    end
  else gi_beam gi (fbin_of fbin_use k) yo xo.

Definition grouped (kern : nat -> list C) (nf : nat) (vis model : nat -> C) (inds : list nat) (bx : box) : Prop :=
  exists G : list (list nat),
    Permutation (concat G) inds
    /\ (forall grp, In grp G -> grp <> [] /\ forall k k', In k grp -> In k' grp -> kern k = kern k')
    /\ b_rows bx = map (fun grp => kern (last grp 0)) G
    /\ b_vis bx = map (fun grp => Csum (map vis grp)) G
    /\ b_model bx = map (fun grp => Csum (map model grp)) G
    /\ b_wt bx = map (@length nat) G
    /\ b_freq bx = map (fun grp => last grp 0 mod nf) G.

Lemma Csum_1 z : Csum [z] = z.
Proof. cbn [Csum fold_right]. ring. Qed.

Lemma singles_grouped kern nf vis model inds bx :
  b_rows bx = map kern inds -> b_vis bx = map vis inds -> b_model bx = map model inds ->
  b_wt bx = repeat 1 (length inds) -> b_freq bx = map (fun k => k mod nf) inds ->
  grouped kern nf vis model inds bx.
Proof.
  intros H1 H2 H3 H4 H5. exists (map (fun k => [k]) inds). split; [|split; [|split; [|split; [|split; [|split]]]]].
  - apply Permutation_refl'. clear. induction inds; cbn; congruence.
  - intros grp Hin. apply in_map_iff in Hin. destruct Hin as (k & <- & _). split; [congruence|].
    intros ? ? [<-|[]] [<-|[]]. reflexivity.
  - rewrite H1, map_map. reflexivity.
  - rewrite H2, map_map. apply map_ext. intros k. cbn [map]. now rewrite Csum_1.
  - rewrite H3, map_map. apply map_ext. intros k. cbn [map]. now rewrite Csum_1.
  - rewrite H4, map_map. cbn [length]. clear. induction inds; cbn; congruence.
  - rewrite H5, map_map. reflexivity.
Qed.

Lemma pair_decode (res x y f x' y' f' : Z) : (0 <= x < res -> 0 <= x' < res -> 0 <= y < res -> 0 <= y' < res ->
  x + y * res + f * res ^ 2 = x' + y' * res + f' * res ^ 2 -> x = x' /\ y = y' /\ f = f')%Z.
Proof.
  intros H1 H2 H3 H4 E.
  replace (x + y * res + f * res ^ 2)%Z with (x + (y + f * res) * res)%Z in E by ring.
  replace (x' + y' * res + f' * res ^ 2)%Z with (x' + (y' + f' * res) * res)%Z in E by ring.
  assert (A : forall a b, (0 <= a < res)%Z -> ((a + b * res) mod res = a /\ (a + b * res) / res = b)%Z).
  { intros a b H. split.
    - rewrite Z.mod_add by lia. now apply Z.mod_small.
    - rewrite Z.div_add by lia. rewrite Z.div_small by lia. lia. }
  destruct (A x (y + f * res)%Z H1) as [A1 A2]. destruct (A x' (y' + f' * res)%Z H2) as [B1 B2].
  rewrite E in A1, A2.
  assert (Ey : (y + f * res = y' + f' * res)%Z) by congruence.
  destruct (A y f H3) as [C1' C2']. destruct (A y' f' H4) as [D1 D2]. rewrite Ey in C1', C2'.
  split; [congruence|]. split; congruence.
Qed.

Lemma fold_max_ge d l x : In x l -> (x <= fold_right Z.max d l)%Z.
Proof. induction l as [|a l IH]; intros []; cbn [fold_right]; [lia|]. specialize (IH H). lia. Qed.

Section Bin.
  Context (cfg : grid_cfg) (gi : grid_input) (l : locs) (fbin_use : list nat) (vis model : arr2 C) (inds : list nat).
  Let res := g_psf_resolution (gi_loc gi).
  Hypothesis mode : c_interp cfg = true \/ c_per_baseline cfg = false.
  Hypothesis off_x : forall k, In k inds -> (0 <= flat_at (l_x_offset l) k < res)%Z.
  Hypothesis off_y : forall k, In k inds -> (0 <= flat_at (l_y_offset l) k < res)%Z.
  Hypothesis group_pos : forall f b, (0 <= gi_group gi f b)%Z.

  Theorem bin_box_grouped bx : bin_box cfg gi l fbin_use vis model inds = Ok bx ->
    grouped (kernel_k cfg gi l fbin_use) (length fbin_use) (flat_at vis) (flat_at model) inds bx.
  Proof.
    unfold bin_box. cbv zeta. change (g_psf_resolution (gi_loc gi)) with res.
    set (x_off := map (flat_at (l_x_offset l)) inds). set (y_off := map (flat_at (l_y_offset l)) inds).
    set (freq_i := map (fun k => k mod length fbin_use) inds). set (fbin := nths 0 fbin_use freq_i).
    assert (Lx : length x_off = length inds) by apply map_length.
    assert (Ly : length y_off = length inds) by apply map_length.
    assert (Lf : length freq_i = length inds) by apply map_length.
    assert (Lb : length fbin = length inds) by (unfold fbin, nths; now rewrite map_length).
    assert (Nx : forall q, q < length inds -> nth q x_off 0%Z = flat_at (l_x_offset l) (nth q inds 0)).
    { intros q Hq. unfold x_off. now rewrite (nth_map_lt _ _ q 0). }
    assert (Ny : forall q, q < length inds -> nth q y_off 0%Z = flat_at (l_y_offset l) (nth q inds 0)).
    { intros q Hq. unfold y_off. now rewrite (nth_map_lt _ _ q 0). }
    assert (Nf : forall q, q < length inds -> nth q freq_i 0 = nth q inds 0 mod length fbin_use).
    { intros q Hq. unfold freq_i. now rewrite (nth_map_lt _ _ q 0). }
    assert (Nb : forall q, q < length inds -> nth q fbin 0 = fbin_of fbin_use (nth q inds 0)).
    { intros q Hq. unfold fbin, nths. rewrite (nth_map_lt _ _ q 0) by lia. rewrite Nf by auto. reflexivity. }
    assert (Tab : forall (f : nat -> list C), (forall q, q < length inds -> f q = kernel_k cfg gi l fbin_use (nth q inds 0)) ->
       map f (seq 0 (length inds)) = map (kernel_k cfg gi l fbin_use) inds).
    { intros f Hf. apply (list_ext []); rewrite !map_length, seq_length; auto. intros q Hq.
      rewrite nth_map_seq by auto. rewrite (nth_map_lt _ _ q 0) by auto. now apply Hf. }
    destruct (c_interp cfg) eqn:Ei.
    { destruct (l_deriv l) as [[[[d00 d01] d10] d11]|] eqn:Ed; [|discriminate]. intros [= <-].
      apply singles_grouped; cbn [b_rows b_vis b_model b_wt b_freq]; auto.
      apply Tab. intros q Hq. unfold kernel_k. rewrite Ei, Ed, Nx, Ny, Nb by auto. reflexivity. }
    destruct mode as [|Hpb]; [congruence|]. rewrite Hpb.
    destruct (map_res (group_at gi fbin_use) inds) as [gid|] eqn:Eg; cbn [bind]; [|discriminate].
    pose proof (map_res_length _ _ _ Eg) as Lg.
    set (keys := table_keys res x_off y_off fbin gid).
    assert (Lk : length keys = length inds) by (unfold keys, table_keys; now rewrite map_length, seq_length).
    set (us := idl_argunique (np_sort keys)). set (si := argsort keys).
    cbn [negb]. rewrite andb_true_r.
    destruct (11 * length us <? 10 * length inds) eqn:Ec.
    2:{ intros [= <-]. apply singles_grouped; cbn [b_rows b_vis b_model b_wt b_freq]; auto.
        rewrite Lb. apply Tab. intros q Hq. unfold kernel_k. rewrite Ei, Nx, Ny, Nb by auto. reflexivity. }
    intros [= <-].
    assert (Hne : inds <> []) by (intros E; rewrite E in Ec; cbn in Ec; lia).
    assert (Lsi : length si = length inds) by (unfold si; now rewrite argsort_length).
    assert (Hsorted : sortedZ (np_sort keys)) by apply np_sort_sorted.
    assert (Lns : length (np_sort keys) = length inds) by (unfold np_sort; now rewrite isort_length).
    destruct (argunique_runs (np_sort keys) Hsorted) as (R1 & R2 & R3). fold us in R1, R2, R3.
    destruct R1 as [Une Ulast]; [intros E; rewrite E in Lns; simpl in Lns; destruct inds; simpl in Lns; congruence|].
    rewrite Lns in Ulast.
    assert (Ub : forall r, r < length us -> nth r us 0 < length inds).
    { intros r Hr. destruct (Nat.eq_dec r (length us - 1)) as [->|].
      - rewrite Ulast. destruct inds; simpl; [congruence|lia].
      - specialize (R2 r (length us - 1) ltac:(lia) ltac:(lia)). lia. }
    assert (Sib : forall q, q < length inds -> nth q si 0 < length inds).
    { intros q Hq. assert (In (nth q si 0) si) by (apply nth_In; lia).
      apply (Permutation_in _ (argsort_perm keys)) in H. apply in_seq in H. lia. }
    set (inds' := nths 0 inds si).
    assert (Li' : length inds' = length inds) by (unfold inds', nths; rewrite map_length; auto).
    assert (Ni' : forall q, q < length inds -> nth q inds' 0 = nth (nth q si 0) inds 0).
    { intros q Hq. unfold inds', nths. now rewrite (nth_map_lt _ _ q 0) by lia. }
    assert (Pinds : Permutation inds' inds) by (apply nths_argsort_perm; auto).
    assert (Hgrp : forall q q', q < length inds -> q' < length inds ->
       nth q (np_sort keys) 0%Z = nth q' (np_sort keys) 0%Z ->
       kernel_k cfg gi l fbin_use (nth q inds' 0) = kernel_k cfg gi l fbin_use (nth q' inds' 0)).
    { intros q q' Hq Hq' E. rewrite !Ni' by auto.
      rewrite <- argsort_sorts in E. fold si in E. unfold nths in E.
      rewrite (nth_map_lt _ si q 0), (nth_map_lt _ si q' 0) in E by lia.
      pose proof (Sib q Hq) as Ha. pose proof (Sib q' Hq') as Hb.
      set (a := nth q si 0) in *. set (b := nth q' si 0) in *.
      unfold keys, table_keys in E. rewrite Lx, !nth_map_seq in E by auto.
      set (gm := (fold_right Z.max (hd 0 gid) gid + 1)%Z) in E.
      assert (Hg : forall c, c < length inds -> (0 <= nth c gid 0 < gm)%Z).
      { intros c Hc. split.
        - pose proof (map_res_nth _ _ _ c 0 0%Z Eg Hc) as Hn. unfold group_at in Hn.
          match type of Hn with (if ?c then _ else _) = _ => destruct c end; [|discriminate]. injection Hn as <-. apply group_pos.
        - assert (In (nth c gid 0%Z) gid) by (apply nth_In; lia). pose proof (fold_max_ge (hd 0%Z gid) gid _ H). unfold gm. lia. }
      destruct (Hg a Ha) as [Ga1 Ga2]. destruct (Hg b Hb) as [Gb1 Gb2].
      rewrite !Nx, !Ny, !Nb in E by auto.
      assert (Ia : In (nth a inds 0) inds) by (apply nth_In; auto).
      assert (Ib : In (nth b inds 0) inds) by (apply nth_In; auto).
      set (ka := nth a inds 0) in *. set (kb := nth b inds 0) in *.
      assert (E2 : (flat_at (l_x_offset l) ka + flat_at (l_y_offset l) ka * res + Z.of_nat (fbin_of fbin_use ka) * res ^ 2
                  = flat_at (l_x_offset l) kb + flat_at (l_y_offset l) kb * res + Z.of_nat (fbin_of fbin_use kb) * res ^ 2)%Z).
      { match type of E with (?P * gm + _ = ?Q * gm + _)%Z => assert (P = Q) end; [|assumption].
        match type of E with (?P * gm + ?u = ?Q * gm + ?v)%Z =>
          assert (((u + P * gm) / gm = P)%Z) as <- by (rewrite Z.div_add, Z.div_small by lia; lia);
          assert (((v + Q * gm) / gm = Q)%Z) as <- by (rewrite Z.div_add, Z.div_small by lia; lia) end.
        f_equal. lia. }
      apply pair_decode in E2; auto. destruct E2 as (X1 & X2 & X3).
      unfold kernel_k. rewrite Ei, X1, X2. apply Nat2Z.inj in X3. now rewrite X3. }
    exists (map (fun p => slice inds' (fst p) (snd p + 1)) (run_pairs us)).
    assert (Hcat : concat (map (fun p => slice inds' (fst p) (snd p + 1)) (run_pairs us)) = inds').
    { unfold run_pairs, run_starts. rewrite runs_concat; auto; [|lia].
      rewrite last_nth, Ulast. rewrite <- Li'. replace (length inds' - 1 + 1) with (length inds'); [apply slice_full|].
      destruct inds; simpl in *; [congruence|lia]. }
    assert (HP : forall r, r < length us -> nth r (run_starts us) 0 <= nth r us 0).
    { intros r Hr. rewrite nth_run_starts by auto. destruct (Nat.eqb_spec r 0); [lia|].
      specialize (R2 (r - 1) r ltac:(lia) Hr). lia. }
    assert (Hlast : forall r, r < length us -> last (slice inds' (nth r (run_starts us) 0) (nth r us 0 + 1)) 0 = nth (nth r us 0) inds' 0).
    { intros r Hr. pose proof (HP r Hr). pose proof (Ub r Hr).
      rewrite last_nth, slice_length by lia. rewrite nth_slice by lia. f_equal. lia. }
    assert (Ext : forall {B} (d : B) (L : list B) (f : list nat -> B), length L = length us ->
       (forall r, r < length us -> nth r L d = f (slice inds' (nth r (run_starts us) 0) (nth r us 0 + 1))) ->
       L = map f (map (fun p => slice inds' (fst p) (snd p + 1)) (run_pairs us))).
    { intros B d L f HL Hn. apply (list_ext d); [now rewrite !map_length, run_pairs_length|]. rewrite HL. intros r Hr.
      rewrite map_map, (nth_map_lt _ _ r (0, 0)) by (rewrite run_pairs_length; auto).
      rewrite run_pairs_nth by auto. now apply Hn. }
    cbn [b_rows b_vis b_model b_wt b_freq].
    assert (Lnu : forall {B} (d : B) L, length (nths d L (nths 0 si us)) = length us) by (intros; unfold nths; now rewrite !map_length).
    assert (Nnu : forall {B} (d : B) L r, r < length us -> nth r (nths d L (nths 0 si us)) d = nth (nth (nth r us 0) si 0) L d).
    { intros B d L r Hr. unfold nths. rewrite (nth_map_lt _ _ r 0) by (now rewrite map_length).
      now rewrite (nth_map_lt _ _ r 0). }
    split; [|split; [|split; [|split; [|split; [|split]]]]].
    - rewrite Hcat. exact Pinds.
    - intros grp Hin. apply in_map_iff in Hin. destruct Hin as (p & <- & Hp).
      destruct (In_nth _ _ (0, 0) Hp) as (r & Hr & Er). rewrite run_pairs_length in Hr by auto.
      rewrite run_pairs_nth in Er by auto. subst p. cbn [fst snd]. split.
      + pose proof (HP r Hr) as P1. pose proof (Ub r Hr) as P2. intros E0. apply (f_equal (@length nat)) in E0.
        rewrite slice_length in E0 by lia. cbn [length] in E0. lia.
      + intros k k' Hk Hk'. apply (In_slice _ _ _ _ 0) in Hk, Hk'.
        destruct Hk as (q & Hq1 & Hq2 & ->). destruct Hk' as (q' & Hq1' & Hq2' & ->).
        apply Hgrp; try lia.
        rewrite (R3 r q), (R3 r q'); auto; try lia; rewrite <- nth_run_starts by auto; lia.
    - rewrite Lnu. apply (Ext _ []); [now rewrite map_length, seq_length|]. intros r Hr.
      rewrite nth_map_seq by auto. rewrite Hlast by auto. rewrite !Nnu by auto.
      rewrite Ni' by auto. pose proof (Ub r Hr) as Hu. pose proof (Sib _ Hu) as Hs.
      rewrite Nx, Ny, Nb by auto. unfold kernel_k. rewrite Ei. reflexivity.
    - rewrite group_sums_runs; auto.
      + rewrite map_map. apply map_ext. intros p. now rewrite slice_map.
      + intros r Hr. rewrite map_length, Li'. auto.
    - rewrite group_sums_runs; auto.
      + rewrite map_map. apply map_ext. intros p. now rewrite slice_map.
      + intros r Hr. rewrite map_length, Li'. auto.
    - apply (Ext _ 0).
      + rewrite map_length, combine_length, run_starts_length by auto. lia.
      + intros r Hr. rewrite (nth_map_lt _ _ r (0, 0)) by (rewrite combine_length, run_starts_length by auto; lia).
        rewrite combine_nth by (symmetry; apply run_starts_length; auto). cbn [fst snd].
        pose proof (HP r Hr). pose proof (Ub r Hr). rewrite slice_length by lia. lia.
    - apply (Ext _ 0); [apply Lnu|]. intros r Hr. rewrite Nnu by auto.
      pose proof (Ub r Hr) as Hu. pose proof (Sib _ Hu) as Hs. rewrite Nf by auto.
      rewrite Hlast by auto. now rewrite Ni'.
  Qed.
End Bin.

(** ** Sums over groups *)
Lemma Csum_map_perm {A} (f : A -> C) l1 l2 : Permutation l1 l2 -> Csum (map f l1) = Csum (map f l2).
Proof. intros H. apply (msum_perm Cadd C0); try (intros; ring). now apply Permutation_map. Qed.
Lemma Qcsum_map_perm {A} (f : A -> Qc) l1 l2 : Permutation l1 l2 -> Qcsum (map f l1) = Qcsum (map f l2).
Proof. intros H. apply (msum_perm Qcplus 0%Qc); try (intros; ring). now apply Permutation_map. Qed.
Lemma Csum_concat (G : list (list nat)) (f : nat -> C) : Csum (map f (concat G)) = Csum (map (fun g => Csum (map f g)) G).
Proof. induction G as [|g G IH]; [reflexivity|]. cbn [concat map Csum fold_right]. rewrite map_app, Csum_app, IH. reflexivity. Qed.
Lemma Qcsum_concat (G : list (list nat)) (f : nat -> Qc) : Qcsum (map f (concat G)) = Qcsum (map (fun g => Qcsum (map f g)) G).
Proof. induction G as [|g G IH]; [reflexivity|]. cbn [concat map Qcsum fold_right]. rewrite map_app, Qcsum_app, IH. reflexivity. Qed.
Lemma Csum_mul_l {A} c (f : A -> C) l : Csum (map (fun x => c * f x)%C l) = (c * Csum (map f l))%C.
Proof. induction l as [|a l IH]; cbn [map Csum fold_right]; [ring|]. fold (Csum (map (fun x => (c * f x)%C) l)) (Csum (map f l)). rewrite IH. ring. Qed.
Lemma Csum_scale {A} c (f : A -> C) l : Csum (map (fun x => Cscale c (f x)) l) = Cscale c (Csum (map f l)).
Proof. induction l as [|a l IH]; cbn [map Csum fold_right]; [apply C_ext; cbn; ring|].
  fold (Csum (map (fun x => Cscale c (f x)) l)) (Csum (map f l)). rewrite IH. apply C_ext; cbn [re im Cadd Cscale]; ring. Qed.
Lemma Csum_ext {A} (f g : A -> C) l : (forall x, In x l -> f x = g x) -> Csum (map f l) = Csum (map g l).
Proof. intros H. f_equal. now apply map_ext_in. Qed.
Lemma Qcsum_ext {A} (f g : A -> Qc) l : (forall x, In x l -> f x = g x) -> Qcsum (map f l) = Qcsum (map g l).
Proof. intros H. f_equal. now apply map_ext_in. Qed.
Lemma Qcsum_mul_l {A} c (f : A -> Qc) l : Qcsum (map (fun x => c * f x)%Qc l) = (c * Qcsum (map f l))%Qc.
Proof. induction l as [|a l IH]; cbn [map Qcsum fold_right]; [ring|]. fold (Qcsum (map (fun x => (c * f x)%Qc) l)) (Qcsum (map f l)). rewrite IH. ring. Qed.

Lemma In_last {A} (g : list A) d : g <> [] -> In (last g d) g.
Proof. intros H. destruct (exists_last H) as (l' & a & ->). rewrite last_last. apply in_or_app. simpl; auto. Qed.

Lemma Csum_const_len (z : C) (g : list nat) : Csum (map (fun _ => z) g) = Cscale (qc_nat (length g)) z.
Proof.
  induction g as [|a g IH]; [change (qc_nat (length (@nil nat))) with 0%Qc; apply C_ext; cbn [map Csum fold_right re im Cscale C0]; ring|].
  cbn [map Csum fold_right length]. fold (Csum (map (fun _ : nat => z) g)). rewrite IH.
  replace (qc_nat (S (length g))) with (1 + qc_nat (length g))%Qc.
  - apply C_ext; cbn [re im Cadd Cscale]; ring.
  - unfold qc_nat. apply Qc_is_canon. cbn [this Q2Qc Qcplus]. rewrite !Qred_correct.
    rewrite Nat2Z.inj_succ, <- Z.add_1_l, inject_Z_plus. reflexivity.
Qed.
Lemma Qcsum_const_len (z : Qc) (g : list nat) : Qcsum (map (fun _ => z) g) = (qc_nat (length g) * z)%Qc.
Proof.
  induction g as [|a g IH]; [cbn [map Qcsum fold_right length]; change (qc_nat 0) with 0%Qc; ring|].
  cbn [map Qcsum fold_right length]. fold (Qcsum (map (fun _ : nat => z) g)). rewrite IH.
  replace (qc_nat (S (length g))) with (1 + qc_nat (length g))%Qc; [ring|].
  unfold qc_nat. apply Qc_is_canon. cbn [this Q2Qc Qcplus]. rewrite !Qred_correct.
  rewrite Nat2Z.inj_succ, <- Z.add_1_l, inject_Z_plus. reflexivity.
Qed.

Lemma dag_dot_map {A} (rw : A -> list C) (v : A -> C) (G : list A) q :
  dag_dot (map rw G) (map v G) q = Csum (map (fun g => Cconj (nth q (rw g) C0) * v g)%C G).
Proof.
  unfold dag_dot. f_equal. induction G as [|a G IH]; cbn [map combine]; auto. cbn [fst snd]. now rewrite IH.
Qed.
Lemma abs2_dot_map {A} (rw : A -> list C) (v : A -> Qc) (G : list A) q :
  abs2_dot (map rw G) (map v G) q = Qcsum (map (fun g => Cnorm2 (nth q (rw g) C0) * v g)%Qc G).
Proof.
  unfold abs2_dot. f_equal. induction G as [|a G IH]; cbn [map combine]; auto. cbn [fst snd]. now rewrite IH.
Qed.

Section Sums.
  Context (kern : nat -> list C) (nf : nat) (vis model : nat -> C) (inds : list nat) (bx : box).
  Hypothesis HG : grouped kern nf vis model inds bx.

  Lemma rows_len (p : Z) : forallb (fun r => (Z.of_nat (length r) =? p)%Z) (b_rows bx) = true <->
    (forall k, In k inds -> Z.of_nat (length (kern k)) = p).
  Proof.
    destruct HG as (G & HP & HC & HR & _). rewrite HR, forallb_forall. split.
    - intros H k Hk. apply (Permutation_in _ (Permutation_sym HP)) in Hk. apply in_concat in Hk.
      destruct Hk as (g & Hg & Hkg). destruct (HC g Hg) as [Hne Hc].
      rewrite (Hc k (last g 0)) by (auto using In_last). apply Z.eqb_eq. apply H. apply in_map_iff. eauto.
    - intros H r Hr. apply in_map_iff in Hr. destruct Hr as (g & <- & Hg). apply Z.eqb_eq. apply H.
      apply (Permutation_in _ HP). apply in_concat. exists g. split; auto. apply In_last. apply (HC g Hg).
  Qed.

  Lemma sum_vals (vals : nat -> C) (bv : list C) c q :
    (forall G, b_rows bx = map (fun grp => kern (last grp 0)) G -> True) ->
    (exists G, Permutation (concat G) inds
      /\ (forall grp, In grp G -> grp <> [] /\ forall k k', In k grp -> In k' grp -> kern k = kern k')
      /\ b_rows bx = map (fun grp => kern (last grp 0)) G /\ bv = map (fun grp => Csum (map vals grp)) G) ->
    dag_dot (b_rows bx) (map (Cscale c) bv) q
    = Cscale c (Csum (map (fun k => Cconj (nth q (kern k) C0) * vals k)%C inds)).
  Proof.
    intros _ (G & HP & HC & -> & ->). rewrite map_map, dag_dot_map.
    rewrite <- (Csum_map_perm _ _ _ HP), Csum_concat, <- Csum_scale.
    apply Csum_ext. intros g Hg. destruct (HC g Hg) as [Hne Hc].
    rewrite (Csum_ext (fun k => Cconj (nth q (kern k) C0) * vals k)%C (fun k => Cconj (nth q (kern (last g 0)) C0) * vals k)%C g).
    - rewrite Csum_mul_l. apply C_ext; cbn [re im Cmul Cscale]; ring.
    - intros k Hk. rewrite (Hc k (last g 0)); auto using In_last.
  Qed.

  Lemma sum_vis c q : dag_dot (b_rows bx) (map (Cscale c) (b_vis bx)) q
    = Cscale c (Csum (map (fun k => Cconj (nth q (kern k) C0) * vis k)%C inds)).
  Proof. apply sum_vals; auto. destruct HG as (G & ? & ? & ? & ? & _). eauto 10. Qed.
  Lemma sum_model c q : dag_dot (b_rows bx) (map (Cscale c) (b_model bx)) q
    = Cscale c (Csum (map (fun k => Cconj (nth q (kern k) C0) * model k)%C inds)).
  Proof. apply sum_vals; auto. destruct HG as (G & ? & ? & ? & ? & ? & _). eauto 10. Qed.
  Lemma sum_weights c q : dag_dot (b_rows bx) (map RtoC (map (fun x => (x * c)%Qc) (map qc_nat (b_wt bx)))) q
    = Cscale c (Csum (map (fun k => Cconj (nth q (kern k) C0)) inds)).
  Proof.
    destruct HG as (G & HP & HC & HR & _ & _ & HW & _). rewrite HR, HW, !map_map, dag_dot_map.
    rewrite <- (Csum_map_perm _ _ _ HP), Csum_concat, <- Csum_scale.
    apply Csum_ext. intros g Hg. destruct (HC g Hg) as [Hne Hc].
    rewrite (Csum_ext (fun k => Cconj (nth q (kern k) C0)) (fun k => Cconj (nth q (kern (last g 0)) C0)) g).
    - rewrite Csum_const_len. cbv beta. generalize (qc_nat (length g)) (Cconj (nth q (kern (last g 0)) C0)). intros w z. apply C_ext; unfold RtoC; cbn [re im Cmul Cscale]; ring.
    - intros k Hk. rewrite (Hc k (last g 0)); auto using In_last.
  Qed.
  Lemma sum_variance c q : abs2_dot (b_rows bx) (map (fun x => (x * c)%Qc) (map qc_nat (b_wt bx))) q
    = (c * Qcsum (map (fun k => Cnorm2 (nth q (kern k) C0)) inds))%Qc.
  Proof.
    destruct HG as (G & HP & HC & HR & _ & _ & HW & _). rewrite HR, HW, !map_map, abs2_dot_map.
    rewrite <- (Qcsum_map_perm _ _ _ HP), Qcsum_concat, <- Qcsum_mul_l.
    apply Qcsum_ext. intros g Hg. destruct (HC g Hg) as [Hne Hc].
    rewrite (Qcsum_ext (fun k => Cnorm2 (nth q (kern k) C0)) (fun k => Cnorm2 (nth q (kern (last g 0)) C0)) g).
    - rewrite Qcsum_const_len. ring.
    - intros k Hk. rewrite (Hc k (last g 0)); auto using In_last.
  Qed.
End Sums.
