From Verif Require Import Base Histogram HistogramSpec HistogramProofs RegionGrow RegionGrowSpec.
From Coq Require Import Lqa.
Open Scope nat_scope.
Ltac Zify.zify_post_hook ::= idtac.

Definition zs (l : list nat) : list Z := map Z.of_nat l.
Lemma floats_zs l : floats l = map inject_Z (zs l).
Proof. unfold floats, zs. now rewrite map_map. Qed.

(** positions holding the value [v] *)
Definition positions (l : list nat) (v : nat) : list nat := filter (fun k => nth k l 0 =? v) (seq 0 (length l)).
Lemma z_positions_nat l v : z_positions (zs l) (Z.of_nat v) = positions l v.
Proof.
  unfold z_positions, positions, zs. rewrite map_length. apply filter_ext. intros k.
  change 0%Z with (Z.of_nat 0). rewrite map_nth. lia.
Qed.
Lemma In_positions l v k : In k (positions l v) <-> k < length l /\ nth k l 0 = v.
Proof. unfold positions. rewrite filter_In, in_seq, Nat.eqb_eq. lia. Qed.
Lemma z_count_nat l v : z_count (zs l) (Z.of_nat v) = length (positions l v).
Proof. now rewrite z_count_positions, z_positions_nat. Qed.

Lemma np_max_nat l : l <> [] -> exists m, np_max (floats l) = Ok (inject_Z (Z.of_nat m)) /\ In m l /\ forall d, In d l -> d <= m.
Proof.
  intros H. destruct (np_max_spec (floats l)) as (q & E & Hin & Hmax).
  { unfold floats. intros E. now destruct l. }
  unfold floats in Hin. apply in_map_iff in Hin. destruct Hin as (m & <- & Hm).
  exists m. repeat split; auto. intros d Hd.
  assert (inject_Z (Z.of_nat d) <= inject_Z (Z.of_nat m))%Q by (apply Hmax; unfold floats; apply (in_map (fun n => inject_Z (Z.of_nat n))); auto).
  rewrite <- Zle_Qle in H0. lia.
Qed.

(** histogram of labels from [a] upwards *)
Lemma histogram_nat l a : l <> [] -> exists c bins ri,
  a <= c /\ (forall d, In d l -> d <= c)
  /\ histogram (floats l) 1 None (Some (inject_Z (Z.of_nat a))) None
     = Ok (map (fun i => length (positions l (a + i))) (seq 0 (c - a + 1)), bins, ri)
  /\ (forall i, i < c - a + 1 -> slice ri (nth i ri 0) (nth (S i) ri 0) = positions l (a + i))
  /\ (forall i, i < c - a + 1 -> nth (S i) ri 0 <= length ri).
Proof.
  intros H. destruct (np_max_nat l H) as (m & E & Hm & Hmax).
  rewrite (histogram_defaults (floats l) 1 (Some (inject_Z (Z.of_nat a))) None (inject_Z (Z.of_nat a)) (inject_Z (Z.of_nat m)) None eq_refl E).
  set (c := Nat.max a m).
  assert (E2 : histogram (floats l) 1 None (Some (inject_Z (Z.of_nat a))) (Some (inject_Z (Z.of_nat m)))
    = histogram (floats l) 1 None (Some (inject_Z (Z.of_nat a))) (Some (inject_Z (Z.of_nat c)))).
  { unfold c. destruct (Nat.lt_ge_cases m a) as [L|L].
    - rewrite Nat.max_l by lia. apply histogram_inverted. rewrite <- Zlt_Qlt. lia.
    - rewrite Nat.max_r by lia. reflexivity. }
  rewrite E2. rewrite floats_zs.
  assert (Hac : (Z.of_nat a <= Z.of_nat c)%Z) by (unfold c; lia).
  destruct (histogram_Z (zs l) (Z.of_nat a) (Z.of_nat c) Hac) as (bins & ri & E3 & _ & R & R0 & R1).
  assert (N : Z.to_nat (Z.of_nat c - Z.of_nat a + 1) = c - a + 1) by lia.
  rewrite N in *.
  assert (Hqa : (inject_Z (Z.of_nat a) <= inject_Z (Z.of_nat c))%Q) by (rewrite <- Zle_Qle; lia).
  destruct (histogram_main (map inject_Z (zs l)) 1 (inject_Z (Z.of_nat a)) (inject_Z (Z.of_nat c)) ltac:(lra) Hqa)
    as (hist & ri' & E4 & M).
  rewrite E3 in E4. inversion E4. subst ri'. clear E4.
  exists c, bins, ri. split; [lia|]. split; [intros d Hd; specialize (Hmax d Hd); lia|]. split; [|split].
  - rewrite E3. do 3 f_equal. apply map_ext. intros i.
    replace (Z.of_nat a + Z.of_nat i)%Z with (Z.of_nat (a + i)) by lia. apply z_count_nat.
  - intros i Hi. rewrite R by auto. replace (Z.of_nat a + Z.of_nat i)%Z with (Z.of_nat (a + i)) by lia. apply z_positions_nat.
  - intros i Hi. destruct M as (Hh & L & Q0 & Q1 & Q2 & _). rewrite nbins_Z, N in * by lia.
    assert (G : forall d j, j + d = c - a + 1 -> nth j ri 0 <= nth (c - a + 1) ri 0).
    { induction d as [|d IH]; intros j Hj; [replace j with (c - a + 1) by lia; lia|].
      specialize (IH (S j) ltac:(lia)). rewrite R1 in IH by lia. lia. }
    rewrite <- Q2. apply (G (c - a + 1 - S i)). lia.
Qed.

Lemma take_ok l idx : (forall k, In k idx -> k < length l) -> take l idx = Ok (map (fun k => nth k l 0) idx).
Proof.
  intros H. unfold take. replace (forallb _ idx) with true; auto. symmetry. apply forallb_forall.
  intros k Hk. specialize (H k Hk). lia.
Qed.

Lemma NoDup_positions l v : NoDup (positions l v).
Proof. apply NoDup_filter, seq_NoDup. Qed.

Lemma seed_labels_spec la roi : roi <> [] -> (forall k, In k roi -> k < length la) ->
  exists ls ls', seed_labels la roi = Ok (length ls, ls') /\ (ls <> [] -> ls' = ls) /\ NoDup ls
    /\ forall v, In v ls <-> v <> 0 /\ exists s, In s roi /\ nth s la 0 = v.
Proof.
  intros Hne Hr. unfold seed_labels. rewrite take_ok by auto. cbn [bind].
  set (vals := map (fun k => nth k la 0) roi).
  assert (Hvals : forall v, In v vals <-> exists s, In s roi /\ nth s la 0 = v).
  { intros v. unfold vals. rewrite in_map_iff. firstorder. }
  assert (Lv : vals <> []) by (unfold vals; intros E; apply map_eq_nil in E; auto).
  assert (G : exists labels, (if 1 <? length roi then
               h <- histogram (floats vals) 1 None (Some 0%Q) None ;;
               let '(hist, _, _) := h in Ok (where_ (fun n => negb (n =? 0)) hist) else Ok vals) = Ok labels
     /\ labels <> [] /\ NoDup labels /\ (forall v, In v labels <-> In v vals) /\ (forall v, In v (tl labels) -> v <> 0)).
  { destruct (Nat.ltb_spec 1 (length roi)) as [H1|H1].
    - destruct (histogram_nat vals 0 Lv) as (c & bins & ri & _ & Hc & E & _ & _).
      change (Some 0%Q) with (Some (inject_Z (Z.of_nat 0))). rewrite E. cbn [bind].
      rewrite (where_spec _ _ 0), map_length, seq_length.
      eexists. split; [reflexivity|].
      set (f := fun k => negb (nth k (map (fun i => length (positions vals (0 + i))) (seq 0 (c - 0 + 1))) 0 =? 0)).
      assert (Hin : forall v, In v (filter f (seq 0 (c - 0 + 1))) <-> In v vals).
      { intros v. rewrite filter_In, in_seq. unfold f. split.
        - intros [Hv Hf]. rewrite nth_map_seq in Hf by lia.
          destruct (positions vals (0 + v)) as [|k t] eqn:Ep; [discriminate|].
          assert (Hk : In k (positions vals (0 + v))) by (rewrite Ep; now left).
          apply In_positions in Hk. destruct Hk as [Hk Ek]. cbn [Nat.add] in Ek. rewrite <- Ek. now apply nth_In.
        - intros Hv. pose proof (Hc v Hv). split; [lia|]. rewrite nth_map_seq by lia.
          destruct (In_nth vals v 0 Hv) as (k & Hk & Ek).
          assert (Hk2 : In k (positions vals (0 + v))) by (apply In_positions; auto).
          destruct (positions vals (0 + v)); [contradiction|reflexivity]. }
      split; [|split; [apply NoDup_filter, seq_NoDup|split; [exact Hin|]]].
      + intros E0. destruct vals as [|v t] eqn:Ev; [auto|]. assert (In v (v :: t)) by now left.
        rewrite <- Hin, E0 in H. contradiction.
      + intros v Hv. rewrite Nat.sub_0_r in *. rewrite Nat.add_1_r in *. cbn [seq filter] in Hv.
        assert (In v (filter f (seq 1 c))).
        { destruct (f 0); cbn [tl] in Hv; auto. destruct (filter f (seq 1 c)); [contradiction|now right]. }
        apply filter_In in H. destruct H as [H _]. apply in_seq in H. lia.
    - exists vals. destruct roi as [|r [|r2 t]]; [congruence| |cbn in H1; lia].
      split; [reflexivity|]. split; [auto|]. split; [|split; [reflexivity|]].
      + repeat constructor. auto.
      + intros v []. }
  destruct G as (labels & -> & Hl & Hnd & Hin & Htl). cbn [bind].
  destruct labels as [|x t]; [congruence|]. cbn [length tl] in *.
  assert (Hx : ~ In x t /\ NoDup t) by (inversion Hnd; auto).
  destruct (Nat.eqb_spec x 0) as [->|Hx0].
  - replace (S (length t) - 1) with (length t) by lia. exists t, (if 0 <? length t then t else 0 :: t).
    split; [reflexivity|]. split; [|split; [tauto|]].
    + intros Ht. destruct t; [congruence|reflexivity].
    + intros v. rewrite <- Hvals, <- Hin. cbn [In]. split.
      * intros Hv. split; [auto|now right].
      * intros [H1 [H2|H2]]; [congruence|auto].
  - exists (x :: t), (x :: t). split; [reflexivity|]. split; [auto|]. split; [auto|].
    intros v. rewrite <- Hvals, <- Hin. split; [|tauto]. intros Hv. split; auto.
    destruct Hv as [<-|Hv]; auto.
Qed.

Lemma flat_map_ext_in {A B} (f g : A -> list B) l : (forall a, In a l -> f a = g a) -> flat_map f l = flat_map g l.
Proof.
  induction l as [|a l IH]; intros H; cbn [flat_map]; auto. rewrite H by now left. f_equal. apply IH. intros; apply H; now right.
Qed.
Lemma flat_map_map {A B D} (f : A -> B) (g : B -> list D) l : flat_map g (map f l) = flat_map (fun a => g (f a)) l.
Proof. induction l; cbn; congruence. Qed.
Lemma flat_map_len {A B} (f : A -> list B) l : length (flat_map f l) = sum_nat (map (fun a => length (f a)) l).
Proof. induction l as [|a l IH]; cbn [flat_map map]; auto. rewrite app_length, IH. reflexivity. Qed.

Lemma collect_spec la ls ls' : la <> [] -> (ls <> [] -> ls' = ls) -> (forall v, In v ls -> v <> 0 /\ In v la) ->
  collect la (length ls) ls' = Ok (match ls with [] => None | _ => Some (flat_map (positions la) ls) end).
Proof.
  intros Hla Hls Hin. unfold collect.
  destruct (histogram_nat la 1 Hla) as (c & bins & ri & Hc1 & Hc & E & R & R2).
  change 1%Q with (inject_Z (Z.of_nat 1)) at 2. rewrite E. cbn [bind].
  destruct ls as [|x t].
  { cbn [length Nat.eqb negb]. cbn [bind Nat.ltb Nat.leb]. reflexivity. }
  rewrite Hls by discriminate. clear Hls.
  assert (Hb : forall v, In v (x :: t) -> pred v < c - 1 + 1 /\ 1 + pred v = v).
  { intros v Hv. destruct (Hin v Hv) as [H1 H2]. specialize (Hc v H2). lia. }
  replace (length (x :: t) =? 0) with false by reflexivity. cbn [negb].
  rewrite take_ok.
  2:{ intros k Hk. rewrite map_length, seq_length. apply in_map_iff in Hk. destruct Hk as (v & <- & Hv). now apply Hb. }
  cbn [bind].
  assert (Ec : sum_nat (map (fun k => nth k (map (fun i => length (positions la (1 + i))) (seq 0 (c - 1 + 1))) 0) (map pred (x :: t)))
    = length (flat_map (positions la) (x :: t))).
  { rewrite flat_map_len, map_map. f_equal. apply map_ext_in. intros v Hv. destruct (Hb v Hv) as [H1 H2].
    rewrite nth_map_seq by auto. now rewrite H2. }
  rewrite Ec.
  assert (Hp : 0 < length (flat_map (positions la) (x :: t))).
  { destruct (Hin x (or_introl eq_refl)) as [_ Hx]. destruct (In_nth la x 0 Hx) as (k & Hk & Ek).
    assert (In k (positions la x)) by (apply In_positions; auto). cbn [flat_map]. rewrite app_length.
    destruct (positions la x); [contradiction|]. cbn. lia. }
  rewrite (proj2 (Nat.ltb_lt _ _) Hp).
  assert (Hsl : forall v, In v (x :: t) -> slice ri (nth (pred v) ri 0) (nth (pred v + 1) ri 0) = positions la v).
  { intros v Hv. destruct (Hb v Hv) as [H1 H2]. rewrite Nat.add_1_r, R by auto. now rewrite H2. }
  destruct (Nat.eqb_spec (length (x :: t)) 1) as [H1|H1].
  - destruct t; [|cbn in H1; lia]. cbn [map nth flat_map]. rewrite app_nil_r. now rewrite Hsl by now left.
  - rewrite flat_map_map.
    assert (Ef : flat_map (fun a => if nth (pred a + 1) ri 0 <=? length ri
        then slice ri (nth (pred a) ri 0) (nth (pred a + 1) ri 0) else []) (x :: t) = flat_map (positions la) (x :: t)).
    { apply flat_map_ext_in. intros v Hv. destruct (Hb v Hv) as [H3 H4].
      rewrite (proj2 (Nat.leb_le _ _)); [now apply Hsl|]. rewrite Nat.add_1_r. auto. }
    rewrite Ef, Nat.sub_diag, app_nil_r. reflexivity.
Qed.

Lemma NoDup_app_in {A} (l l' : list A) : NoDup l -> NoDup l' -> (forall x, In x l -> ~ In x l') -> NoDup (l ++ l').
Proof.
  induction l as [|a l IH]; intros H1 H2 H; cbn; auto. inversion H1; subst. constructor.
  - rewrite in_app_iff. intros [E|E]; [auto|]. apply (H a); auto. now left.
  - apply IH; auto. intros x Hx. apply H. now right.
Qed.

Lemma NoDup_flat_positions la ls : NoDup ls -> NoDup (flat_map (positions la) ls).
Proof.
  induction ls as [|x t IH]; intros H; cbn [flat_map]; [constructor|]. inversion H; subst.
  apply NoDup_app_in; auto using NoDup_positions.
  intros k Hk Hk2. apply In_positions in Hk. apply in_flat_map in Hk2. destruct Hk2 as (v & Hv & Hk2).
  apply In_positions in Hk2. destruct Hk as [_ <-], Hk2 as [_ E]. rewrite E in H2. auto.
Qed.

Lemma nan_reduce_ok f image roi : (forall s, In s roi -> exists v, nth s image None = Some v) ->
  nan_reduce f (map (fun k => nth k image None) roi)
  = (q <- f (map (fun s => match nth s image None with Some q => q | None => 0%Q end) roi) ;; Ok (Some q)).
Proof.
  intros H. unfold nan_reduce. replace (existsb _ _) with false; [now rewrite map_map|].
  symmetry. apply not_true_is_false. intros E. apply existsb_exists in E. destruct E as (x & Hx & E).
  apply in_map_iff in Hx. destruct Hx as (s & <- & Hs). destruct (H s Hs) as (v & Ev). rewrite Ev in E. discriminate.
Qed.

Lemma low_case image roi low lo : roi <> [] -> low_is image roi low lo ->
  exists q, (match low with None => nan_reduce np_min (map (fun k => nth k image None) roi) | Some q => Ok (Some q) end) = Ok (Some q)
    /\ (q == lo)%Q.
Proof.
  intros Hne H. destruct low as [q|]; cbn in H; [subst; eexists; split; [reflexivity|reflexivity]|].
  destruct H as [(s & Hs & Es) H].
  rewrite nan_reduce_ok by (intros s' Hs'; destruct (H s' Hs') as (v & Ev & _); eauto).
  set (g := fun s => match nth s image None with Some q => q | None => 0%Q end).
  destruct (np_min_spec (map g roi)) as (m & -> & Hm & Hmin); [intros E; apply map_eq_nil in E; auto|].
  cbn [bind]. exists m. split; [reflexivity|]. apply in_map_iff in Hm. destruct Hm as (s' & <- & Hs').
  destruct (H s' Hs') as (v & Ev & Hv). specialize (Hmin (g s) (in_map g _ _ Hs)). unfold g in *. rewrite Es, Ev in *. lra.
Qed.
Lemma high_case image roi high hi : roi <> [] -> high_is image roi high hi ->
  exists q, (match high with None => nan_reduce np_max (map (fun k => nth k image None) roi) | Some q => Ok (Some q) end) = Ok (Some q)
    /\ (q == hi)%Q.
Proof.
  intros Hne H. destruct high as [q|]; cbn in H; [subst; eexists; split; [reflexivity|reflexivity]|].
  destruct H as [(s & Hs & Es) H].
  rewrite nan_reduce_ok by (intros s' Hs'; destruct (H s' Hs') as (v & Ev & _); eauto).
  set (g := fun s => match nth s image None with Some q => q | None => 0%Q end).
  destruct (np_max_spec (map g roi)) as (m & -> & Hm & Hmax); [intros E; apply map_eq_nil in E; auto|].
  cbn [bind]. exists m. split; [reflexivity|]. apply in_map_iff in Hm. destruct Hm as (s' & <- & Hs').
  destruct (H s' Hs') as (v & Ev & Hv). specialize (Hmax (g s) (in_map g _ _ Hs)). unfold g in *. rewrite Es, Ev in *. lra.
Qed.

Lemma threshold_on image l h lo hi p : (l == lo)%Q -> (h == hi)%Q ->
  (nth p (threshold image (Some l) (Some h)) false = true <-> within_thresholds image lo hi p).
Proof.
  intros El Eh. unfold threshold, within_thresholds.
  destruct (Nat.lt_ge_cases p (length image)) as [Hp|Hp].
  - rewrite (nth_map_lt _ image p None false Hp). destruct (nth p image None) as [v|].
    + cbn [in_threshold]. rewrite andb_true_iff, !Qle_bool_iff, El, Eh. split.
      * intros [H1 H2]. exists v. auto.
      * intros (v' & _ & E & H1 & H2). inversion E. subst. auto.
    + split; [discriminate|]. intros (v & _ & E & _). discriminate.
  - rewrite nth_overflow by (rewrite map_length; lia). split; [discriminate|]. intros (v & H & _). lia.
Qed.

Lemma clear_edges_nth rows cols labels k : k < length labels ->
  nth k (clear_edges rows cols labels) 0 = if on_edge rows cols k then 0 else nth k labels 0.
Proof. intros H. unfold clear_edges. now rewrite nth_map_seq. Qed.
Lemma clear_edges_length rows cols labels : length (clear_edges rows cols labels) = length labels.
Proof. unfold clear_edges. now rewrite map_length, seq_length. Qed.

Lemma edge_interior rows cols k : 0 < cols -> k < rows * cols -> (on_edge rows cols k = false <-> interior rows cols k).
Proof.
  intros Hc Hk. unfold on_edge, interior.
  assert (k / cols < rows) by (apply Nat.div_lt_upper_bound; nia).
  assert (k mod cols < cols) by (apply Nat.mod_upper_bound; lia).
  rewrite !orb_false_iff, !Nat.eqb_neq. generalize dependent (k / cols). generalize dependent (k mod cols). clear Hk. intros; split; intros; repeat split; lia.
Qed.

Lemma connected_on cols on p q : connected cols on p q -> on p /\ on q.
Proof. induction 1; tauto. Qed.
Lemma connected_ext cols on on' p q : (forall k, on k <-> on' k) -> connected cols on p q -> connected cols on' p q.
Proof. intros H. induction 1; [apply conn_here; now apply H|]. econstructor; eauto. now apply H. Qed.

(** The pixels to be returned. *)
Definition grown rows cols image roi lo hi p : Prop :=
  p < length image /\ interior rows cols p
  /\ exists s, In s roi /\ interior rows cols s /\ connected cols (within_thresholds image lo hi) s p.

Lemma region_grow_spec label rows cols image roi low high lo hi :
  (forall mask, length mask = rows * cols -> labels_components rows cols mask (label rows cols mask)) ->
  0 < rows -> 0 < cols -> length image = rows * cols ->
  roi <> [] -> (forall s, In s roi -> s < length image) ->
  low_is image roi low lo -> high_is image roi high hi ->
  exists res, region_grow label rows cols image roi low high = Ok (res, map Some (fill_nan image))
    /\ match res with
       | Some l => l <> [] /\ NoDup l /\ forall p, In p l <-> grown rows cols image roi lo hi p
       | None => forall p, ~ grown rows cols image roi lo hi p
       end.
Proof.
  intros HL Hr Hc Hlen Hne Hroi Hlo Hhi. unfold region_grow.
  replace (forallb _ roi) with true by (symmetry; apply forallb_forall; intros s Hs; specialize (Hroi s Hs); lia).
  cbn [negb].
  destruct (low_case image roi low lo Hne Hlo) as (l & -> & El). cbn [bind].
  destruct (high_case image roi high hi Hne Hhi) as (h & -> & Eh). cbn [bind].
  rewrite (proj2 (Nat.eqb_neq rows 0)), (proj2 (Nat.eqb_neq cols 0)) by lia. cbn [orb].
  set (mask := threshold image (Some l) (Some h)).
  assert (Lm : length mask = rows * cols) by (unfold mask, threshold; rewrite map_length; auto).
  destruct (HL mask Lm) as (L1 & L2 & L3).
  set (lab := label rows cols mask) in *. set (la := clear_edges rows cols lab).
  assert (Lla : length la = length image) by (unfold la; rewrite clear_edges_length; lia).
  assert (On : forall p, nth p mask false = true <-> within_thresholds image lo hi p) by (intros p; now apply threshold_on).
  assert (Hla : forall p, p < length image -> nth p la 0 <> 0 <-> interior rows cols p /\ within_thresholds image lo hi p).
  { intros p Hp. unfold la. rewrite clear_edges_nth by lia. rewrite <- On.
    assert (EI := edge_interior rows cols p Hc ltac:(lia)).
    destruct (on_edge rows cols p); [split; [lia|intros [H _]; apply EI in H; discriminate]|].
    specialize (L2 p ltac:(lia)). destruct (nth p mask false).
    - split; [intros _; split; [now apply EI|reflexivity]|]. intros _ E. apply L2 in E. discriminate.
    - split; [intros H; exfalso; apply H; now apply L2|intros [_ H]; discriminate]. }
  assert (Hval : forall p, p < length image -> interior rows cols p -> nth p la 0 = nth p lab 0).
  { intros p Hp Hi. unfold la. rewrite clear_edges_nth by lia.
    apply (edge_interior rows cols p Hc ltac:(lia)) in Hi. now rewrite Hi. }
  assert (Hg : forall p, grown rows cols image roi lo hi p <->
     p < length image /\ nth p la 0 <> 0 /\ exists s, In s roi /\ nth s la 0 = nth p la 0).
  { intros p. unfold grown. split.
    - intros (Hp & Hi & s & Hs & Hsi & Hcon). split; [auto|].
      destruct (connected_on _ _ _ _ Hcon) as [O1 O2]. split; [now apply Hla|].
      exists s. split; [auto|]. rewrite !Hval by auto. apply L3; try (apply On; auto); try (rewrite Lm, <- Hlen; auto).
      eapply connected_ext; [|exact Hcon]. intros k. rewrite On. split; [|tauto]. intros H. split; [|auto].
      destruct H as (v & H & _). lia.
    - intros (Hp & Hn & s & Hs & E). split; [auto|]. assert (Hsl : s < length image) by auto.
      destruct (proj1 (Hla p Hp) Hn) as [Hi Hw]. split; [auto|]. exists s. split; [auto|].
      rewrite <- E in Hn. destruct (proj1 (Hla s Hsl) Hn) as [Hsi Hsw]. split; [auto|].
      rewrite !Hval in E by auto. apply L3 in E; try (apply On; auto); try (rewrite Lm, <- Hlen; auto).
      eapply connected_ext; [|exact E]. intros k. cbn beta. rewrite On. split; [tauto|]. intros H. split; [|auto].
      destruct H as (v & H & _). lia. }
  destruct (seed_labels_spec la roi Hne) as (ls & ls' & -> & Hls & Hnd & Hin); [intros s Hs; rewrite Lla; auto|].
  cbn [bind].
  assert (Hlane : la <> []) by (intros E; rewrite E in Lla; cbn in Lla; nia).
  rewrite (collect_spec la ls ls' Hlane Hls).
  2:{ intros v Hv. apply Hin in Hv. destruct Hv as (H1 & s & Hs & <-). split; [auto|]. apply nth_In. rewrite Lla. auto. }
  cbn [bind]. eexists. split; [reflexivity|].
  assert (Hfin : forall p, In p (flat_map (positions la) ls) <-> grown rows cols image roi lo hi p).
  { intros p. rewrite Hg, in_flat_map. split.
    - intros (v & Hv & Hp). apply In_positions in Hp. destruct Hp as [Hp E]. apply Hin in Hv. destruct Hv as (Hv & s & Hs & Es).
      subst v. split; [lia|]. split; [congruence|]. exists s. split; congruence.
    - intros (Hp & Hn & s & Hs & Es). exists (nth p la 0). split; [apply Hin; eauto|]. apply In_positions. split; [lia|auto]. }
  destruct ls as [|x t] eqn:Els.
  - intros p Hp. apply Hfin in Hp. contradiction.
  - split; [|split; [now apply NoDup_flat_positions|exact Hfin]].
    intros E. destruct (proj1 (Hin x) (or_introl eq_refl)) as (Hx & s & Hs & Es).
    assert (In s (flat_map (positions la) (x :: t))).
    { apply Hfin. apply Hg. split; [auto|]. split; [congruence|]. exists s. auto. }
    rewrite E in H. contradiction.
Qed.

(** ** A labelling that meets the contract, for every mask: merge the labels across each pair of adjacent foreground
    pixels. *)
Definition adjacent_b (cols p q : nat) : bool :=
  ((p / cols =? q / cols) && ((p mod cols =? S (q mod cols)) || (q mod cols =? S (p mod cols))))
  || ((p mod cols =? q mod cols) && ((p / cols =? S (q / cols)) || (q / cols =? S (p / cols)))).
Definition edges (cols : nat) (mask : list bool) : list (nat * nat) :=
  filter (fun e => nth (fst e) mask false && nth (snd e) mask false && adjacent_b cols (fst e) (snd e))
    (list_prod (seq 0 (length mask)) (seq 0 (length mask))).
Definition merge (labels : list nat) (e : nat * nat) : list nat :=
  map (fun x => if x =? nth (fst e) labels 0 then nth (snd e) labels 0 else x) labels.
Definition label_ref (rows cols : nat) (mask : list bool) : list nat :=
  fold_left merge (edges cols mask) (map (fun p => if nth p mask false then S p else 0) (seq 0 (length mask))).

Lemma adjacent_b_spec cols p q : adjacent_b cols p q = true <-> adjacent cols p q.
Proof.
  unfold adjacent_b, adjacent. rewrite !orb_true_iff, !andb_true_iff, !orb_true_iff, !Nat.eqb_eq. tauto.
Qed.
Lemma adjacent_sym cols p q : adjacent cols p q -> adjacent cols q p.
Proof. unfold adjacent. intros [[E [H|H]]|[E [H|H]]]; [left|left|right|right]; split; auto. Qed.

Inductive linked (E : list (nat * nat)) : nat -> nat -> Prop :=
| lk_refl p : linked E p p
| lk_edge p q : In (p, q) E -> linked E p q
| lk_sym p q : linked E p q -> linked E q p
| lk_trans p q r : linked E p q -> linked E q r -> linked E p r.
Lemma linked_incl E E' p q : (forall e, In e E -> In e E') -> linked E p q -> linked E' p q.
Proof.
  intros H. induction 1; [apply lk_refl|apply lk_edge; auto|now apply lk_sym|eapply lk_trans; eauto].
Qed.

Lemma merge_nth labels e p : p < length labels ->
  nth p (merge labels e) 0 = if nth p labels 0 =? nth (fst e) labels 0 then nth (snd e) labels 0 else nth p labels 0.
Proof. intros H. unfold merge. rewrite (nth_map_lt _ labels p 0 0 H). reflexivity. Qed.

Definition good (mask : list bool) (E : list (nat * nat)) (L : list nat) : Prop :=
  length L = length mask
  /\ (forall p, p < length mask -> (nth p L 0 = 0 <-> nth p mask false = false))
  /\ (forall p q, p < length mask -> q < length mask -> nth p mask false = true -> nth q mask false = true ->
        (nth p L 0 = nth q L 0 <-> linked E p q)).

Lemma merge_good mask E L a b : good mask E L ->
  a < length mask -> b < length mask -> nth a mask false = true -> nth b mask false = true ->
  (forall p q, linked (E ++ [(a, b)]) p q -> p = q \/ (p < length mask /\ q < length mask /\ nth p mask false = true /\ nth q mask false = true)) ->
  good mask (E ++ [(a, b)]) (merge L (a, b)).
Proof.
  intros (G1 & G2 & G3) Ha Hb Oa Ob Hdom.
  assert (Na : nth a L 0 <> 0) by (intros E0; apply G2 in E0; congruence).
  assert (Nb : nth b L 0 <> 0) by (intros E0; apply G2 in E0; congruence).
  assert (M : forall p, p < length mask -> nth p (merge L (a, b)) 0
      = if nth p L 0 =? nth a L 0 then nth b L 0 else nth p L 0) by (intros p Hp; rewrite merge_nth by lia; reflexivity).
  split; [unfold merge; now rewrite map_length|]. split.
  - intros p Hp. rewrite M by auto. rewrite <- G2 by auto. destruct (Nat.eqb_spec (nth p L 0) (nth a L 0)); [|tauto].
    split; intros; exfalso; [auto|congruence].
  - intros p q Hp Hq Op Oq. rewrite !M by auto. split.
    + assert (I : forall x y, linked E x y -> linked (E ++ [(a, b)]) x y).
      { intros x y. apply linked_incl. intros e He. apply in_or_app. now left. }
      assert (Lab : linked (E ++ [(a, b)]) a b) by (apply lk_edge, in_or_app; right; now left).
      destruct (Nat.eqb_spec (nth p L 0) (nth a L 0)) as [E1|E1], (Nat.eqb_spec (nth q L 0) (nth a L 0)) as [E2|E2]; intros H.
      * apply I. apply G3; congruence.
      * apply lk_trans with a; [apply I, G3; auto|]. apply lk_trans with b; [auto|]. apply I, G3; auto.
      * apply lk_trans with b; [apply I, G3; auto|]. apply lk_trans with a; [now apply lk_sym|]. apply I, G3; auto.
      * apply I, G3; auto.
    + intros H. set (g := fun x => if nth x L 0 =? nth a L 0 then nth b L 0 else nth x L 0).
      change (g p = g q). clear Hp Hq Op Oq. induction H as [p|p q H|p q H IH|p q r H1 IH1 H2 IH2]; [reflexivity| |congruence|congruence].
      destruct (Hdom p q (lk_edge _ _ _ H)) as [->|(Hp & Hq & Op & Oq)]; [reflexivity|].
      apply in_app_or in H. destruct H as [H|[H|[]]].
      * assert (nth p L 0 = nth q L 0) by (apply G3; auto; now apply lk_edge). unfold g. now rewrite H0.
      * inversion H. subst. unfold g. rewrite Nat.eqb_refl. destruct (nth q L 0 =? nth p L 0); reflexivity.
Qed.

Lemma linked_dom (mask : list bool) E p q :
  (forall e, In e E -> fst e < length mask /\ snd e < length mask /\ nth (fst e) mask false = true /\ nth (snd e) mask false = true) ->
  linked E p q -> p = q \/ (p < length mask /\ q < length mask /\ nth p mask false = true /\ nth q mask false = true).
Proof.
  intros H. induction 1 as [p|p q H0|p q H0 IH|p q r H1 IH1 H2 IH2]; [now left| | |].
  - right. specialize (H _ H0). cbn in H. tauto.
  - destruct IH as [->|]; tauto.
  - destruct IH1 as [->|]; auto. destruct IH2 as [->|]; [right|right]; tauto.
Qed.

Lemma label_ref_good mask E E0 L : good mask E0 L ->
  (forall e, In e (E0 ++ E) -> fst e < length mask /\ snd e < length mask /\ nth (fst e) mask false = true /\ nth (snd e) mask false = true) ->
  good mask (E0 ++ E) (fold_left merge E L).
Proof.
  revert E0 L. induction E as [|[a b] E IH]; intros E0 L HG H; cbn [fold_left]; [now rewrite app_nil_r|].
  replace (E0 ++ (a, b) :: E) with ((E0 ++ [(a, b)]) ++ E) in * by (now rewrite <- app_assoc).
  apply IH; auto. assert (Hab := H (a, b) ltac:(apply in_or_app; left; apply in_or_app; right; now left)). cbn in Hab.
  apply merge_good; try tauto. intros p q. apply linked_dom. intros e He. apply H. apply in_or_app. now left.
Qed.

Lemma connected_trans cols on x y z : connected cols on x y -> connected cols on y z -> connected cols on x z.
Proof. intros Hxy Hyz. revert Hxy. induction Hyz as [p Hp|p q r Hpq IH A Hr]; intros Hxy; [exact Hxy|]. exact (conn_step _ _ _ _ _ (IH Hxy) A Hr). Qed.
Lemma connected_sym cols on x y : connected cols on x y -> connected cols on y x.
Proof.
  induction 1 as [x Hx|x y z Hxy IH A Hz]; [now apply conn_here|].
  apply connected_trans with y; [|exact IH]. destruct (connected_on _ _ _ _ Hxy).
  eapply conn_step; [apply conn_here; exact Hz|now apply adjacent_sym|auto].
Qed.

Lemma label_ref_ok rows cols mask : labels_components rows cols mask (label_ref rows cols mask).
Proof.
  unfold label_ref.
  assert (HE : forall e, In e (edges cols mask) <-> fst e < length mask /\ snd e < length mask
     /\ nth (fst e) mask false = true /\ nth (snd e) mask false = true /\ adjacent cols (fst e) (snd e)).
  { intros [p q]. unfold edges. rewrite filter_In, in_prod_iff, !in_seq, !andb_true_iff, adjacent_b_spec. cbn [fst snd].
    split; intros; repeat split; try tauto; lia. }
  assert (G0 : good mask [] (map (fun p => if nth p mask false then S p else 0) (seq 0 (length mask)))).
  { split; [now rewrite map_length, seq_length|]. split.
    - intros p Hp. rewrite nth_map_seq by auto. destruct (nth p mask false); split; congruence.
    - intros p q Hp Hq Op Oq. rewrite !nth_map_seq by auto. rewrite Op, Oq. split.
      + intros [= ->]. apply lk_refl.
      + intros H. enough (p = q) by congruence. clear -H. induction H; cbn in *; try tauto; congruence. }
  assert (G := label_ref_good mask (edges cols mask) [] _ G0).
  cbn [app] in G. destruct G as (G1 & G2 & G3).
  { intros e He. apply HE in He. tauto. }
  split; [exact G1|]. split; [exact G2|]. intros p q Hp Hq Op Oq. rewrite G3 by auto. split.
  - intros H.
    set (on := fun k => k < length mask /\ nth k mask false = true).
    revert Hp Hq Op Oq. induction H as [p|p q H|p q H IH|p q r H1 IH1 H2 IH2]; intros Hp Hq Op Oq.
    + now apply conn_here.
    + apply HE in H. cbn in H. eapply conn_step; [apply conn_here; split; tauto|tauto|split; tauto].
    + apply connected_sym. auto.
    + assert (D1 : p = q \/ (p < length mask /\ q < length mask /\ nth p mask false = true /\ nth q mask false = true)).
      { apply (linked_dom mask (edges cols mask)); auto. intros e He. apply HE in He. tauto. }
      destruct D1 as [->|D1]; [auto|]. specialize (IH1 Hp ltac:(tauto) Op ltac:(tauto)). specialize (IH2 ltac:(tauto) Hq ltac:(tauto) Oq).
      eapply connected_trans; eauto.
  - intros H. clear Hp Hq Op Oq. induction H as [p H|p q r H IH A Hr]; [apply lk_refl|].
    destruct (connected_on _ _ _ _ H) as [_ O]. eapply lk_trans; [exact IH|]. apply lk_edge, HE. cbn. tauto.
Qed.

(** ** The caller's image, and seeds that are NaN *)
Lemma region_grow_after label rows cols image roi low high res after :
  region_grow label rows cols image roi low high = Ok (res, after) -> after = map Some (fill_nan image).
Proof.
  unfold region_grow. destruct (negb _); [discriminate|].
  destruct (match low with Some q => _ | None => _ end) as [lo|]; [cbn [bind]|discriminate].
  destruct (match high with Some q => _ | None => _ end) as [hi|]; [cbn [bind]|discriminate].
  destruct (_ || _); [discriminate|]. cbv zeta. destruct (seed_labels _ _) as [[n ls]|]; [cbn [bind]|discriminate].
  destruct (collect _ _ _) as [g|]; [cbn [bind]|discriminate]. now intros [= _ <-].
Qed.
Lemma unchanged_no_nan label rows cols image roi low high res after :
  (forall p, p < length image -> nth p image None <> None) ->
  region_grow label rows cols image roi low high = Ok (res, after) -> after = image.
Proof.
  intros H E. apply region_grow_after in E. subst. unfold fill_nan. rewrite map_map. rewrite <- (map_id image) at 2.
  apply map_ext_in. intros x Hx. destruct (In_nth image x None Hx) as (k & Hk & <-). specialize (H k Hk).
  destruct (nth k image None); congruence.
Qed.
Lemma changed_nan label rows cols image roi low high res after p :
  p < length image -> nth p image None = None ->
  region_grow label rows cols image roi low high = Ok (res, after) -> nth p after None = Some 0%Q.
Proof.
  intros H E E2. apply region_grow_after in E2. subst. unfold fill_nan. rewrite map_map.
  rewrite (nth_map_lt _ image p None None H), E. reflexivity.
Qed.

Lemma nan_reduce_none f image roi s : In s roi -> nth s image None = None ->
  nan_reduce f (map (fun k => nth k image None) roi) = Ok None.
Proof.
  intros Hs E. unfold nan_reduce. replace (existsb _ _) with true; auto. symmetry. apply existsb_exists.
  exists None. split; auto. apply in_map_iff. exists s. auto.
Qed.

Lemma threshold_nan image low high p : low = None \/ high = None -> nth p (threshold image low high) false = false.
Proof.
  intros H. unfold threshold. destruct (Nat.lt_ge_cases p (length image)) as [Hp|Hp];
    [|apply nth_overflow; rewrite map_length; lia].
  rewrite (nth_map_lt _ image p None false Hp). destruct (nth p image None); auto. destruct H as [->| ->]; [|destruct low]; reflexivity.
Qed.

Lemma nan_seed label rows cols image roi low high s :
  (forall mask, length mask = rows * cols -> labels_components rows cols mask (label rows cols mask)) ->
  0 < rows -> 0 < cols -> length image = rows * cols ->
  (forall s, In s roi -> s < length image) -> In s roi -> nth s image None = None ->
  low = None \/ high = None ->
  exists after, region_grow label rows cols image roi low high = Ok (None, after).
Proof.
  intros HL Hr Hc Hlen Hroi Hs Es Hlh. exists (map Some (fill_nan image)).
  assert (Hne : roi <> []) by (intros E; rewrite E in Hs; contradiction).
  unfold region_grow.
  replace (forallb _ roi) with true by (symmetry; apply forallb_forall; intros k Hk; specialize (Hroi k Hk); lia).
  cbn [negb].
  assert (HN : exists lo hi,
    (match low with None => nan_reduce np_min (map (fun k => nth k image None) roi) | Some q => Ok (Some q) end) = Ok lo
    /\ (match high with None => nan_reduce np_max (map (fun k => nth k image None) roi) | Some q => Ok (Some q) end) = Ok hi
    /\ (lo = None \/ hi = None)).
  { destruct low as [l|], high as [h|]; rewrite ?(nan_reduce_none _ image roi s Hs Es).
    - destruct Hlh; discriminate.
    - exists (Some l), None. auto.
    - exists None, (Some h). auto.
    - exists None, None. auto. }
  destruct HN as (lo & hi & -> & -> & Hn). cbn [bind].
  rewrite (proj2 (Nat.eqb_neq rows 0)), (proj2 (Nat.eqb_neq cols 0)) by lia. cbn [orb].
  set (mask := threshold image lo hi).
  assert (Lm : length mask = rows * cols) by (unfold mask, threshold; rewrite map_length; auto).
  destruct (HL mask Lm) as (L1 & L2 & _).
  set (la := clear_edges rows cols (label rows cols mask)).
  assert (Lla : length la = length image) by (unfold la; rewrite clear_edges_length; lia).
  assert (Z : forall k, k < length la -> nth k la 0 = 0).
  { intros k Hk. unfold la. rewrite clear_edges_nth by lia. destruct (on_edge rows cols k); auto.
    apply L2; [lia|]. unfold mask. now apply threshold_nan. }
  destruct (seed_labels_spec la roi Hne) as (ls & ls' & -> & Hls & _ & Hin); [intros k Hk; rewrite Lla; auto|].
  cbn [bind].
  assert (Hlane : la <> []) by (intros E; rewrite E in Lla; cbn in Lla; nia).
  assert (Hnil : ls = []).
  { destruct ls as [|v t]; auto. destruct (proj1 (Hin v) (or_introl eq_refl)) as (Hv & k & Hk & Ek).
    rewrite Z in Ek by (rewrite Lla; auto). congruence. }
  rewrite (collect_spec la ls ls' Hlane Hls); [|rewrite Hnil; intros v []].
  rewrite Hnil. reflexivity.
Qed.
