(** Properties C19 (filter_uv_uniform) and C20 (degridding in pieces). *)
From Coq Require Import ZifyBool ZifyNat.
From Verif Require Import Base SortLib Cplx NpArr PyIndex WeightInvert WeightInvertProofs VisGridBoxProofs Histogram HistogramSpec HistogramProofs HistogramFinal
  Filter FilterProofs.
Open Scope Qc_scope.

(** *** C19 *)
(** [on] decides which pixels carry weight: non-zero weights when given, else counts of at
    least 1. The filter g is c / count where count >= 1 and 0 elsewhere, and its values over
    the weighted pixels add up to their number (mean 1). *)
Definition uniform_filter_of (n : nat) (image : list C) (density : nat -> Qc) (covered : nat -> Prop) (on : nat -> bool)
  (r : result (list (option C) * list xf)) : Prop :=
  exists g c, 0 < c
  /\ r = Ok (map (fun k => Some (Cscale (g k) (nth k image C0))) (seq 0 n), map (fun k => Fin (g k)) (seq 0 n))
  /\ (forall k, (k < n)%nat -> (covered k -> g k = c / density k) /\ (~ covered k -> g k = 0))
  /\ Qcsum (map g (filter on (seq 0 n))) = Q2Qc (inject_Z (Z.of_nat (length (filter on (seq 0 n))))).

Theorem C19_filter_partial : forall image count weights (on : nat -> bool),
  let n := length image in
  (forall w, weights = Some w -> length w = n) -> length count = n -> n <> 1%nat ->
  (forall k, (k < n)%nat -> on k = true <->
     match weights with Some w => nth k w 0 <> 0 | None => 1 <= nth k count 0 end) ->
  (exists k, (k < n)%nat /\ on k = true /\ 1 <= nth k count 0) ->
  uniform_filter_of n image (fun k => nth k count 0) (fun k => 1 <= nth k count 0) on
    (filter_uv_uniform image (Some count) false weights).
Proof.
  intros image count weights on n Hw Hc Hn Hon (k0 & Hk0 & Ok0 & Ck0).
  destruct (filter_main image count weights on Hw Hc Hn Hon) as (c & Hcp & E & S).
  { exists k0. split; [exact Hk0|]. split; [now apply Hon|exact Ck0]. }
  exists (fun k => c * inverted (Some 1) (nth k count 0)), c. split; [exact Hcp|]. split; [exact E|]. split; [|exact S].
  intros k Hk. rewrite inverted_one. split.
  - intros H. rewrite (proj2 (Qcleb_true 1 _) H). unfold Qcdiv. ring.
  - intros H. destruct (Qcleb 1 (nth k count 0)) eqn:Eq; [now apply Qcleb_true in Eq|]. ring.
Qed.
Print Assumptions C19_filter_partial.

Example C19_case : forall on, (forall k, (k < 3)%nat -> on k = true <-> 1 <= nth k [Q2Qc 2; 0; Q2Qc 4] 0) ->
  uniform_filter_of 3 [C1; C1; C1] (fun k => nth k [Q2Qc 2; 0; Q2Qc 4] 0) (fun k => 1 <= nth k [Q2Qc 2; 0; Q2Qc 4] 0) on
    (filter_uv_uniform [C1; C1; C1] (Some [Q2Qc 2; 0; Q2Qc 4]) false None).
Proof.
  intros on Hon. apply (C19_filter_partial [C1; C1; C1] [Q2Qc 2; 0; Q2Qc 4] None on); [discriminate|reflexivity|discriminate|exact Hon|].
  exists 0%nat. split; [simpl; lia|]. split; [apply Hon; [lia|]|]; unfold Qcle; simpl; unfold Qle; simpl; lia.
Qed.

(** With no weighted pixel the filter is NaN everywhere instead of zero. *)
Theorem C19_empty_refuted : exists image count,
  length count = length image /\ (forall k, (k < length image)%nat -> nth k count 0 = 0)
  /\ filter_uv_uniform image (Some count) false None = Ok ([None; None], [NaN; NaN]).
Proof.
  exists [C1; C1], [0; 0]. split; [reflexivity|]. split; [|vm_compute; reflexivity].
  intros [|[|k]] Hk; try reflexivity. simpl in Hk. lia.
Qed.
Print Assumptions C19_empty_refuted.

(** Counts derived from weights: proportional to them. *)
Lemma qabs_nonneg x : 0 <= x -> qabs x = x.
Proof. intros H. unfold qabs. destruct (Qclt_le_dec x 0) as [L|L]; auto. now apply Qclt_not_le in L. Qed.
Lemma fold_qmin_spec l x : let m := fold_left qmin l x in (m = x \/ In m l) /\ m <= x /\ (forall y, In y l -> m <= y).
Proof.
  revert x. induction l as [|a l IH]; intros x; cbn [fold_left]; [split; [auto|split; [apply Qcle_refl|intros ? []]]|].
  cbv zeta. destruct (IH (qmin x a)) as (H1 & H2 & H3).
  assert (Q : qmin x a <= x /\ qmin x a <= a /\ (qmin x a = x \/ qmin x a = a)).
  { unfold qmin. destruct (Qclt_le_dec a x) as [L|L].
    - split; [now apply Qclt_le_weak|]. split; [apply Qcle_refl|auto].
    - split; [apply Qcle_refl|auto]. }
  destruct Q as (Q1 & Q2 & Q3). split; [|split].
  - destruct H1 as [->|H1]; [|right; simpl; auto]. destruct Q3 as [->| ->]; simpl; auto.
  - eapply Qcle_trans; eauto.
  - intros y [<-|Hy]; [eapply Qcle_trans; eauto|auto].
Qed.
Lemma fold_qmax_ge l x y : In y (x :: l) -> y <= fold_left qmax l x.
Proof.
  revert x y. induction l as [|a l IH]; intros x y; cbn [fold_left]; [intros [->|[]]; apply Qcle_refl|].
  intros H. assert (Q : x <= qmax x a /\ a <= qmax x a).
  { unfold qmax. destruct (Qclt_le_dec x a) as [L|L]; (split; [|]); try apply Qcle_refl; auto. now apply Qclt_le_weak. }
  destruct H as [->|[->|H]].
  - eapply Qcle_trans; [apply Q|]. apply IH. simpl; auto.
  - eapply Qcle_trans; [apply Q|]. apply IH. simpl; auto.
  - apply IH. simpl; auto.
Qed.

Theorem C19_weights_partial : forall image w (on : nat -> bool),
  let n := length image in
  length w = n -> n <> 1%nat -> (forall x, In x w -> 0 <= x) -> (exists x, In x w /\ x <> 0) ->
  (forall k, (k < n)%nat -> on k = true <-> nth k w 0 <> 0) ->
  uniform_filter_of n image (fun k => nth k w 0) (fun k => nth k w 0 <> 0) on
    (filter_uv_uniform image None false (Some w)).
Proof.
  intros image w on n Hl Hn Hpos (x0 & Hx0 & Nx0) Hon.
  assert (P0 : 0 < x0). { specialize (Hpos _ Hx0). apply Qcle_lt_or_eq in Hpos. destruct Hpos as [H|H]; auto. now subst. }
  set (pos := List.filter (fun x => negb (Qcleb x 0)) w).
  assert (Ipos : forall x, In x pos <-> In x w /\ 0 < x).
  { intros x. unfold pos. rewrite filter_In, negb_true_iff. split; intros [H1 H2]; split; auto.
    - apply Qcnot_le_lt. intros L. apply Qcleb_true in L. congruence.
    - destruct (Qcleb x 0) eqn:E; auto. apply Qcleb_true in E. now apply Qclt_not_le in H2. }
  destruct (map qabs pos) as [|a rest] eqn:Ep.
  { apply map_eq_nil in Ep. assert (In x0 pos) by (now apply Ipos). rewrite Ep in H. easy. }
  set (lo := fold_left qmin rest a).
  destruct (fold_qmin_spec rest a) as (M1 & M2 & M3). fold lo in M1, M2, M3.
  assert (Ilo : In lo (map qabs pos)) by (rewrite Ep; destruct M1 as [->|]; simpl; auto).
  assert (Hlo : 0 < lo).
  { apply in_map_iff in Ilo. destruct Ilo as (x & <- & Hx). apply Ipos in Hx. rewrite qabs_nonneg; [tauto|]. now apply Qclt_le_weak. }
  assert (Hmin : forall x, In x w -> 0 < x -> lo <= x).
  { intros x H1 H2. assert (Hq : In (qabs x) (a :: rest)) by (rewrite <- Ep; apply in_map, Ipos; auto).
    rewrite qabs_nonneg in Hq by (now apply Qclt_le_weak). destruct Hq as [<-|Hq]; auto. }
  set (cnt := map (fun x => qabs x / lo) w).
  assert (E : filter_uv_uniform image None false (Some w) = filter_uv_uniform image (Some cnt) false (Some w)).
  { unfold filter_uv_uniform, filter_count. fold n. rewrite (proj2 (Nat.eqb_eq _ _) Hl). destruct w as [|y t] eqn:Ew; [easy|].
    cbn [np_max bind]. destruct (Qceqb (fold_left qmax t y) 0) eqn:Q.
    - apply Qceqb_true in Q. pose proof (fold_qmax_ge t y x0 Hx0) as G. rewrite Q in G. now apply Qcle_not_lt in G.
    - fold pos. rewrite Ep. cbn [np_min bind]. reflexivity. }
  assert (Ncnt : forall k, (k < n)%nat -> nth k cnt 0 = nth k w 0 / lo).
  { intros k Hk. unfold cnt. rewrite (nth_map_lt _ _ _ 0) by lia. rewrite qabs_nonneg; auto. apply Hpos, nth_In. lia. }
  assert (Cov : forall k, (k < n)%nat -> 1 <= nth k cnt 0 <-> nth k w 0 <> 0).
  { intros k Hk. rewrite Ncnt by auto. split.
    - intros H E0. rewrite E0 in H. unfold Qcdiv in H. rewrite Qcmult_0_l in H. now apply H.
    - intros H. assert (Hin : In (nth k w 0) w) by (apply nth_In; lia).
      pose proof (Hpos _ Hin) as P. apply Qcle_lt_or_eq in P. destruct P as [P|P]; [|now symmetry in P].
      replace 1 with (lo * / lo) by (apply Qcmult_inv_r; now apply Qc_pos_neq).
      unfold Qcdiv. apply Qcmult_le_compat_r; [now apply Hmin|]. apply Qclt_le_weak. now apply Qcinv_pos. }
  destruct (In_nth _ _ 0 Hx0) as (k0 & Hk0 & Ek0).
  destruct (C19_filter_partial image cnt (Some w) on) as (g & c & Hc & Er & Hg & Hs).
  - intros w' [= <-]. exact Hl.
  - unfold cnt. now rewrite map_length.
  - exact Hn.
  - exact Hon.
  - exists k0. assert (Hk : (k0 < length image)%nat) by (unfold n in *; lia). split; [exact Hk|].
    split; [apply Hon; congruence|apply Cov; congruence].
  - rewrite <- E in Er. exists g, (c * lo). split; [now apply Qcmult_pos|]. split; [exact Er|]. split; [|exact Hs].
    intros k Hk. destruct (Hg k Hk) as [G1 G2]. fold n in Hk. split.
    + intros H. rewrite G1 by (now apply Cov). rewrite Ncnt by auto. field. split; auto. now apply Qc_pos_neq.
    + intros H. apply G2. rewrite Cov by auto. exact H.
Qed.
Print Assumptions C19_weights_partial.

(** Asking filter_uv_uniform to count the visibilities itself always fails. *)
Theorem C19_obs_refuted : forall image weights, filter_uv_uniform image None true weights = Err KeyError.
Proof. reflexivity. Qed.
Print Assumptions C19_obs_refuted.

(** *** C20 *)
Open Scope nat_scope.
(** The bins visibility_degrid walks through are the histogram bins: visiting the used ones
    in order, the last one read to the end of the reverse indices. *)
Theorem C20_bins : forall (data : list Q) (b lo hi : Q) hist bins ri,
  (0 < b)%Q -> (lo <= hi)%Q ->
  histogram data b None (Some lo) (Some hi) = Ok (hist, bins, ri) ->
  let bin_i := filter (fun c => negb (nth c hist 0 =? 0)) (seq 0 (length hist)) in
  forall i, i < length bin_i ->
    degrid_inds ri bin_i (length bin_i) i = bin_positions lo hi b data (nth i bin_i 0).
Proof.
  intros data b lo hi hist bins ri Hb Hl E bin_i i Hi.
  destruct (reverse_indices data b lo hi Hb Hl) as (h2 & b2 & r2 & E2 & _ & _ & Hend & Hs & _).
  rewrite E in E2. injection E2 as <- <- <-.
  destruct (histogram_counts data b lo hi Hb Hl) as (h3 & b3 & r3 & E3 & Hlen & _).
  rewrite E in E3. injection E3 as <- <- <-. rewrite <- Hlen in Hend, Hs.
  unfold bin_i. rewrite degrid_inds_slice; auto.
  - apply Hs. fold bin_i. assert (H1 : In (nth i bin_i 0) bin_i) by (apply nth_In; auto). unfold bin_i in H1 at 2. apply filter_In in H1.
    destruct H1 as [H1 _]. apply in_seq in H1. lia.
  - intros c Hc. now apply Hs.
Qed.
Print Assumptions C20_bins.

(** The pieces, in order, make up the whole bin: every visibility is in exactly one place. *)
Theorem C20_pieces_cover : forall A (inds : list A) psf_dim3 memory_threshold,
  (0 < psf_dim3)%Z -> (0 < memory_threshold)%Z ->
  concat (map fst (pieces inds psf_dim3 memory_threshold)) = inds.
Proof. intros. now apply pieces_cover. Qed.
Print Assumptions C20_pieces_cover.

(** A bin that needs no splitting, or whose number of pieces fits, is processed completely. *)
Theorem C20_process_partial : forall A B (f : list A -> B) (inds : list A) psf_dim3 memory_threshold,
  (0 < psf_dim3)%Z -> (0 < memory_threshold)%Z -> inds <> [] ->
  let it := mem_iter (Z.of_nat (length inds)) psf_dim3 memory_threshold in
  ((it - 1) * ceil_div (Z.of_nat (length inds)) it < Z.of_nat (length inds))%Z ->
  process f (pieces inds psf_dim3 memory_threshold) = Ok (map (fun p => f (fst p)) (pieces inds psf_dim3 memory_threshold)).
Proof.
  intros A B f inds p t Hp Ht Hne it Hit. unfold process.
  assert (G : forall q, In q (pieces inds p t) -> fst q <> []).
  { intros q. unfold pieces. fold it. destruct (Z.ltb_spec 1 it) as [H|H].
    - intros Hq. apply in_map_iff in Hq. destruct Hq as (k & <- & Hk). apply in_seq in Hk. unfold piece. cbn [fst].
      intros E. apply (f_equal (@length A)) in E.
      pose proof (ceil_div_spec (Z.of_nat (length inds)) it ltac:(lia)) as Hc.
      set (c := ceil_div (Z.of_nat (length inds)) it) in *.
      assert (Hc0 : (0 < c)%Z) by nia.
      assert (Hkk : Z.to_nat c * k < length inds) by nia.
      destruct (Nat.ltb_spec (length inds) (Z.to_nat c * (k + 1))) as [L|L]; rewrite slice_length in E by lia; simpl in E; lia.
    - destruct (Z.eqb_spec it 1); [intros [<-|[]]; exact Hne|intros []]. }
  revert G. generalize (pieces inds p t) as l. induction l as [|q l IH]; intros G; [reflexivity|].
  cbn [map_res map]. destruct (fst q) as [|a r] eqn:Eq; [now elim (G q (or_introl eq_refl))|]. cbn [bind].
  rewrite IH; [reflexivity|]. intros q' Hq'. apply G. simpl; auto.
Qed.
Print Assumptions C20_process_partial.
Example C20_case : (let inds := seq 0 10 in
  concat (map fst (pieces inds 2916 100000)) = inds /\ map (fun p => length (fst p)) (pieces inds 2916 100000) = [4; 4; 2])%nat.
Proof. split; vm_compute; reflexivity. Qed.

(** Otherwise the last pieces are empty and degridding fails: 1849 visibilities in one bin,
    a 54 x 54 kernel and the smallest memory limit the code accepts. *)
Theorem C20_process_refuted : exists (inds : list nat) psf_dim3 memory_threshold,
  psf_dim3 = (54 * 54)%Z /\ (1000000 <= memory_threshold)%Z /\ length inds = Z.to_nat 1849
  /\ process (fun l => l) (pieces inds psf_dim3 memory_threshold) = Err IndexError.
Proof.
  exists (seq 0 (Z.to_nat 1849)), 2916%Z, 1000000%Z. split; [reflexivity|]. split; [lia|]. split; [now rewrite seq_length|].
  vm_compute. reflexivity.
Qed.
Print Assumptions C20_process_refuted.
