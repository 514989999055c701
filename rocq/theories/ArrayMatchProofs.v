(** Proofs about array_match. *)
From Coq Require Import Lqa ZifyBool ZifyNat.
From Verif Require Import Base Histogram HistogramSpec HistogramProofs ArrayMatch.
Open Scope nat_scope.

Lemma Qle_bool_Z a b : Qle_bool (inject_Z a) (inject_Z b) = (a <=? b)%Z.
Proof. unfold Qle_bool, inject_Z. simpl. now rewrite !Z.mul_1_r. Qed.

Lemma Qmin2_Z a b : Qmin2 (inject_Z a) (inject_Z b) = inject_Z (Z.min a b).
Proof. unfold Qmin2. rewrite Qle_bool_Z. destruct (Z.leb_spec a b); f_equal; lia. Qed.
Lemma Qmax2_Z a b : Qmax2 (inject_Z a) (inject_Z b) = inject_Z (Z.max a b).
Proof. unfold Qmax2. rewrite Qle_bool_Z. destruct (Z.leb_spec a b); f_equal; lia. Qed.

Definition zmin (l : list Z) : Z := match l with [] => 0%Z | a :: t => fold_left Z.min t a end.
Definition zmax (l : list Z) : Z := match l with [] => 0%Z | a :: t => fold_left Z.max t a end.

Lemma np_min_Z l : l <> [] -> np_min (injs l) = Ok (inject_Z (zmin l)).
Proof.
  destruct l as [|a t]; [congruence|]. intros _. simpl. f_equal. revert a.
  induction t as [|x t IH]; intros a; simpl; auto. rewrite Qmin2_Z. apply IH.
Qed.
Lemma np_max_Z l : l <> [] -> np_max (injs l) = Ok (inject_Z (zmax l)).
Proof.
  destruct l as [|a t]; [congruence|]. intros _. simpl. f_equal. revert a.
  induction t as [|x t IH]; intros a; simpl; auto. rewrite Qmax2_Z. apply IH.
Qed.

Lemma zmin_spec l : l <> [] -> In (zmin l) l /\ forall x, In x l -> (zmin l <= x)%Z.
Proof.
  destruct l as [|a t]; [congruence|]. intros _. simpl.
  assert (G : forall a, (fold_left Z.min t a <= a)%Z
             /\ (forall x, In x t -> (fold_left Z.min t a <= x)%Z)
             /\ (fold_left Z.min t a = a \/ In (fold_left Z.min t a) t)).
  { induction t as [|y t IH]; intros b; simpl; [split; [lia|split; [tauto|auto]]|].
    destruct (IH (Z.min b y)) as (H1 & H2 & H3). split; [lia|]. split.
    - intros x [->|Hx]; [lia|auto].
    - destruct H3 as [H3|H3]; [|auto]. rewrite H3. destruct (Z.min_dec b y) as [E|E]; rewrite E; auto. }
  destruct (G a) as (H1 & H2 & H3). split.
  - destruct H3 as [->|]; auto.
  - intros x [->|Hx]; auto.
Qed.
Lemma zmax_spec l : l <> [] -> In (zmax l) l /\ forall x, In x l -> (x <= zmax l)%Z.
Proof.
  destruct l as [|a t]; [congruence|]. intros _. simpl.
  assert (G : forall a, (a <= fold_left Z.max t a)%Z
             /\ (forall x, In x t -> (x <= fold_left Z.max t a)%Z)
             /\ (fold_left Z.max t a = a \/ In (fold_left Z.max t a) t)).
  { induction t as [|y t IH]; intros b; simpl; [split; [lia|split; [tauto|auto]]|].
    destruct (IH (Z.max b y)) as (H1 & H2 & H3). split; [lia|]. split.
    - intros x [->|Hx]; [lia|auto].
    - destruct H3 as [H3|H3]; [|auto]. rewrite H3. destruct (Z.max_dec b y) as [E|E]; rewrite E; auto. }
  destruct (G a) as (H1 & H2 & H3). split.
  - destruct H3 as [->|]; auto.
  - intros x [->|Hx]; auto.
Qed.

Lemma edge_Z a i : edge (inject_Z a) 1 i = inject_Z (a + Z.of_nat i).
Proof.
  unfold edge. rewrite inject_Z_plus. f_equal. unfold Qmult, inject_Z. simpl.
  now rewrite Z.mul_1_r.
Qed.

Lemma combine_map {A B C} (f : A -> B) (g : A -> C) l :
  combine (map f l) (map g l) = map (fun x => (f x, g x)) l.
Proof. induction l; simpl; congruence. Qed.

Lemma where_map_seq {A} (p : A -> bool) (f : nat -> A) n :
  where_ p (map f (seq 0 n)) = filter (fun k => p (f k)) (seq 0 n).
Proof.
  rewrite (where_spec p _ (f 0)). rewrite map_length, seq_length.
  apply filter_ext_in. intros k Hk%in_seq. now rewrite nth_map_seq by lia.
Qed.

Lemma z_count_in l v : 0 < z_count l v <-> In v l.
Proof.
  unfold z_count. induction l as [|a l IH]; simpl; [lia|].
  destruct (Z.eqb_spec v a) as [->|H]; simpl; [split; [auto|lia]|].
  rewrite IH. split; [auto|]. intros [->|]; congruence.
Qed.

Lemma z_count_0 l v : z_count l v = 0 <-> ~ In v l.
Proof. rewrite <- z_count_in. lia. Qed.

Lemma z_count_app l1 l2 v : z_count (l1 ++ l2) v = z_count l1 v + z_count l2 v.
Proof. unfold z_count. now rewrite filter_app, app_length. Qed.

Lemma z_count_NoDup l v : NoDup l -> z_count l v = if existsb (Z.eqb v) l then 1 else 0.
Proof.
  unfold z_count. induction l as [|a l IH]; intros Hn; simpl; auto.
  inversion Hn as [|? ? Hni Hnd]; subst. specialize (IH Hnd).
  destruct (Z.eqb_spec v a) as [->|]; simpl; auto.
  replace (existsb (Z.eqb a) l) with false in IH; [lia|].
  symmetry. apply not_true_is_false. intros (x & Hx & E)%existsb_exists.
  apply Z.eqb_eq in E. subst. auto.
Qed.

Lemma z_positions_lt zs v k : In k (z_positions zs v) -> k < length zs.
Proof. unfold z_positions. rewrite filter_In, in_seq. lia. Qed.

Lemma In_z_positions zs v k : In k (z_positions zs v) <-> k < length zs /\ nth k zs 0%Z = v.
Proof. unfold z_positions. rewrite filter_In, in_seq, Z.eqb_eq. intuition lia. Qed.

Definition memb (k : nat) (l : list nat) : bool := existsb (Nat.eqb k) l.
Lemma memb_In k l : memb k l = true <-> In k l.
Proof.
  unfold memb. rewrite existsb_exists. split.
  - intros (x & Hx & ->%Nat.eqb_eq); auto.
  - intros H. exists k. split; auto. apply Nat.eqb_refl.
Qed.

Lemma mark_ok ps : forall ind, (forall k, In k ps -> k < length ind) ->
  fold_res (fun acc k => if k <? length acc then Ok (upd acc k 1) else Err IndexError) ps ind
  = Ok (map (fun k => if memb k ps then 1 else nth k ind 0) (seq 0 (length ind))).
Proof.
  induction ps as [|p ps IH]; intros ind H; simpl.
  - f_equal. symmetry. apply map_nth_seq.
  - rewrite (proj2 (Nat.ltb_lt p (length ind))) by (apply H; now left). simpl.
    rewrite IH by (intros k Hk; rewrite upd_length; apply H; now right).
    rewrite upd_length. f_equal. apply map_ext_in. intros k Hk%in_seq.
    rewrite nth_upd, (Nat.eqb_sym p k).
    rewrite (proj2 (Nat.ltb_lt k (length ind))) by lia. rewrite andb_true_r.
    unfold memb. simpl. destruct (k =? p); simpl; auto.
    now destruct (existsb (Nat.eqb k) ps).
Qed.

Lemma length_pos {A} (l : list A) : l <> [] -> 0 < length l.
Proof. destruct l; simpl; [congruence|lia]. Qed.

Lemma list_cases {A} (l : list A) : l = [] \/ exists i t, l = i :: t.
Proof. destruct l as [|i t]; eauto. Qed.

Section AM.
  Variables (a1 a2 vm : list Z).
  Hypothesis Hlen : length a1 = length a2.
  Hypothesis Hne : a1 <> [].

  Let mn := Z.min (zmin a1) (zmin a2).
  Let mx := Z.max (zmax a1) (zmax a2).
  Let N := Z.to_nat (mx - mn + 1).

  Lemma a2_ne : a2 <> [].
  Proof. destruct a1, a2; simpl in *; congruence. Qed.

  Lemma mn_le x : In x a1 \/ In x a2 -> (mn <= x <= mx)%Z.
  Proof.
    pose proof (zmin_spec a1 Hne) as [_ H1]. pose proof (zmin_spec a2 a2_ne) as [_ H2].
    pose proof (zmax_spec a1 Hne) as [_ H3]. pose proof (zmax_spec a2 a2_ne) as [_ H4].
    unfold mn, mx. intros [H|H]; [specialize (H1 x H); specialize (H3 x H)|
                                  specialize (H2 x H); specialize (H4 x H)]; lia.
  Qed.

  Lemma mn_in : In mn a1 \/ In mn a2.
  Proof.
    unfold mn. destruct (Z.min_dec (zmin a1) (zmin a2)) as [E|E]; rewrite E.
    - left. now apply zmin_spec.
    - right. apply zmin_spec, a2_ne.
  Qed.
  Lemma mx_in : In mx a1 \/ In mx a2.
  Proof.
    unfold mx. destruct (Z.max_dec (zmax a1) (zmax a2)) as [E|E]; rewrite E.
    - left. now apply zmax_spec.
    - right. apply zmax_spec, a2_ne.
  Qed.

  Lemma mn_mx : (mn <= mx)%Z.
  Proof. pose proof (mn_le mn mn_in). lia. Qed.

  Let present i := 0 <? z_count a1 (mn + Z.of_nat i) + z_count a2 (mn + Z.of_nat i).
  Let bins := filter present (seq 0 N).

  Lemma present_in i : present i = true <-> In (mn + Z.of_nat i)%Z a1 \/ In (mn + Z.of_nat i)%Z a2.
  Proof. unfold present. rewrite Nat.ltb_lt, <- !z_count_in. lia. Qed.

  Let d3 := map (fun k => (mn + Z.of_nat k)%Z) bins.

  Lemma d3_in v : In v d3 <-> In v a1 \/ In v a2.
  Proof.
    unfold d3. rewrite in_map_iff. split.
    - intros (k & <- & Hk). unfold bins in Hk. apply filter_In in Hk. now apply present_in.
    - intros H. exists (Z.to_nat (v - mn)). pose proof (mn_le v H).
      replace (mn + Z.of_nat (Z.to_nat (v - mn)))%Z with v by lia. split; auto.
      unfold bins. apply filter_In. split; [apply in_seq; unfold N; lia|].
      apply present_in. replace (mn + Z.of_nat (Z.to_nat (v - mn)))%Z with v by lia. auto.
  Qed.

  Lemma d3_ne : d3 <> [].
  Proof. intros E. pose proof (proj2 (d3_in mn) mn_in) as H. rewrite E in H. exact H. Qed.

  Lemma d3_min : zmin d3 = mn.
  Proof.
    destruct (zmin_spec d3 d3_ne) as [H1 H2].
    pose proof (H2 mn (proj2 (d3_in mn) mn_in)). pose proof (mn_le _ (proj1 (d3_in _) H1)). lia.
  Qed.
  Lemma d3_max : zmax d3 = mx.
  Proof.
    destruct (zmax_spec d3 d3_ne) as [H1 H2].
    pose proof (H2 mx (proj2 (d3_in mx) mx_in)). pose proof (mn_le _ (proj1 (d3_in _) H1)). lia.
  Qed.

  Lemma NoDup_d3 : NoDup d3.
  Proof.
    unfold d3. apply FinFun.Injective_map_NoDup.
    - intros x y. lia.
    - unfold bins. apply NoDup_filter, seq_NoDup.
  Qed.

  Lemma d3_count i : z_count d3 (mn + Z.of_nat i) = if present i then 1 else 0.
  Proof.
    rewrite z_count_NoDup by apply NoDup_d3.
    destruct (existsb (Z.eqb (mn + Z.of_nat i)) d3) eqn:E.
    - apply existsb_exists in E. destruct E as (x & Hx & E%Z.eqb_eq). subst x.
      apply d3_in, present_in in Hx. now rewrite Hx.
    - destruct (present i) eqn:P; auto. apply present_in, d3_in in P.
      exfalso. assert (existsb (Z.eqb (mn + Z.of_nat i)) d3 = true); [|congruence].
      apply existsb_exists. eexists; split; eauto. apply Z.eqb_refl.
  Qed.

  (** A bin is selected when its value is present and occurs an odd number of
      times in value_match. *)
  Definition chosen i := present i && Nat.odd (z_count vm (mn + Z.of_nat i)).

  Lemma land_chosen i :
    negb (Nat.land (if present i then 1 else 0) (z_count vm (mn + Z.of_nat i)) =? 0) = chosen i.
  Proof.
    unfold chosen. destruct (present i); simpl andb.
    - rewrite Nat.land_comm. change 1 with (Nat.ones 1). rewrite Nat.land_ones.
      change (2 ^ 1) with 2. rewrite <- Nat.bit0_mod, Nat.bit0_odd.
      now destruct (Nat.odd _).
    - reflexivity.
  Qed.

  Let vals := filter chosen (seq 0 N).
  Definition selected k :=
    Nat.odd (z_count vm (nth k a1 0%Z)) || Nat.odd (z_count vm (nth k a2 0%Z)).

  Definition touched (P : list nat) k :=
    existsb (fun i => (nth k a1 0 =? mn + Z.of_nat i)%Z || (nth k a2 0 =? mn + Z.of_nat i)%Z) P.

  Lemma existsb_app_ {A} (f : A -> bool) l1 l2 : existsb f (l1 ++ l2) = existsb f l1 || existsb f l2.
  Proof. induction l1; simpl; auto. rewrite IHl1. now rewrite orb_assoc. Qed.

  Lemma mark_loop hist1 ri1 hist2 ri2 :
    (forall i, i < N -> nth i hist1 0 = z_count a1 (mn + Z.of_nat i)) ->
    (forall i, i < N -> nth i hist2 0 = z_count a2 (mn + Z.of_nat i)) ->
    (forall i, i < N -> slice ri1 (nth i ri1 0) (nth (S i) ri1 0) = z_positions a1 (mn + Z.of_nat i)) ->
    (forall i, i < N -> slice ri2 (nth i ri2 0) (nth (S i) ri2 0) = z_positions a2 (mn + Z.of_nat i)) ->
    forall P, (forall i, In i P -> i < N) ->
    forall Q0,
    fold_res (mark_value hist1 ri1 hist2 (Some ri2)) P
       (map (fun k => if touched Q0 k then 1 else 0) (seq 0 (length a1)))
    = Ok (map (fun k => if touched (Q0 ++ P) k then 1 else 0) (seq 0 (length a1))).
  Proof.
    intros H1 H2 S1 S2. induction P as [|i P IH]; intros HP Q0.
    - simpl. now rewrite app_nil_r.
    - simpl. assert (Hi : i < N) by (apply HP; now left).
      assert (G : mark_value hist1 ri1 hist2 (Some ri2)
                    (map (fun k => if touched Q0 k then 1 else 0) (seq 0 (length a1))) i
                  = Ok (map (fun k => if touched (Q0 ++ [i]) k then 1 else 0) (seq 0 (length a1)))).
      { unfold mark_value, mark. rewrite S1, S2, H1, H2 by auto.
        assert (M : forall a Q', length a = length a1 ->
           (if 0 <? z_count a (mn + Z.of_nat i)
            then fold_res (fun acc k => if k <? length acc then Ok (upd acc k 1) else Err IndexError)
                   (z_positions a (mn + Z.of_nat i))
                   (map Q' (seq 0 (length a1)))
            else Ok (map Q' (seq 0 (length a1))))
           = Ok (map (fun k => if (nth k a 0 =? mn + Z.of_nat i)%Z then 1 else Q' k) (seq 0 (length a1)))).
        { intros a Q' Ha. destruct (Nat.ltb_spec 0 (z_count a (mn + Z.of_nat i))) as [Hc|Hc].
          - rewrite mark_ok.
            2:{ intros k Hk%z_positions_lt. rewrite map_length, seq_length. lia. }
            rewrite map_length, seq_length. f_equal. apply map_ext_in. intros k Hk%in_seq.
            rewrite nth_map_seq by lia.
            destruct (Z.eqb_spec (nth k a 0%Z) (mn + Z.of_nat i)) as [E|E].
            + replace (memb k _) with true; auto. symmetry. apply memb_In, In_z_positions.
              split; [lia|auto].
            + replace (memb k _) with false; auto. symmetry. apply not_true_is_false.
              intros [_ Hx]%memb_In%In_z_positions. auto.
          - f_equal. apply map_ext_in. intros k Hk%in_seq.
            destruct (Z.eqb_spec (nth k a 0%Z) (mn + Z.of_nat i)) as [E|E]; auto.
            exfalso. assert (z_count a (mn + Z.of_nat i) = 0) as Hz by lia.
            apply z_count_0 in Hz. apply Hz. rewrite <- E. apply nth_In. lia. }
        rewrite (M a1) by auto. cbn [bind]. rewrite (M a2) by auto. f_equal.
        apply map_ext. intros k. unfold touched. rewrite existsb_app_. simpl.
        rewrite orb_false_r.
        destruct (nth k a1 0 =? mn + Z.of_nat i)%Z, (nth k a2 0 =? mn + Z.of_nat i)%Z;
          simpl; rewrite ?orb_true_r, ?orb_false_r; auto. }
      rewrite G. cbn [bind]. rewrite IH by (intros j Hj; apply HP; now right).
      now rewrite <- app_assoc.
  Qed.

  Lemma touched_vals k : k < length a1 -> touched vals k = selected k.
  Proof.
    intros Hk. unfold touched, selected.
    assert (K1 : In (nth k a1 0%Z) a1) by (apply nth_In; lia).
    assert (K2 : In (nth k a2 0%Z) a2) by (apply nth_In; lia).
    pose proof (mn_le _ (or_introl K1)) as B1. pose proof (mn_le _ (or_intror K2)) as B2.
    apply eq_true_iff_eq. rewrite existsb_exists, orb_true_iff. split.
    - intros (i & Hi & He). unfold vals in Hi. apply filter_In in Hi. destruct Hi as [_ Hc].
      unfold chosen in Hc. apply andb_true_iff in Hc. destruct Hc as [_ Ho].
      apply orb_true_iff in He. destruct He as [E|E]; apply Z.eqb_eq in E; rewrite <- E in Ho; auto.
    - intros Ho.
      assert (G : forall v, (mn <= v <= mx)%Z -> (In v a1 \/ In v a2) -> Nat.odd (z_count vm v) = true ->
                 In (Z.to_nat (v - mn)) vals /\ (v =? mn + Z.of_nat (Z.to_nat (v - mn)))%Z = true).
      { intros v Hv Hin Hod. split; [|lia]. unfold vals. apply filter_In. split.
        - apply in_seq. unfold N. lia.
        - unfold chosen. apply andb_true_iff. split; [apply present_in|];
          replace (mn + Z.of_nat (Z.to_nat (v - mn)))%Z with v by lia; auto. }
      destruct Ho as [Ho|Ho].
      + destruct (G _ B1 (or_introl K1) Ho) as [I E]. eexists; split; eauto. now rewrite E.
      + destruct (G _ B2 (or_intror K2) Ho) as [I E]. eexists; split; eauto. rewrite E. apply orb_true_r.
  Qed.

  Lemma vals_nil : vals = [] <-> filter selected (seq 0 (length a1)) = [].
  Proof.
    split; intros H.
    - apply filter_none. intros k Hk%in_seq. rewrite <- touched_vals by lia.
      unfold touched. now rewrite H.
    - enough (forall i, ~ In i vals) as G.
      { destruct (list_cases vals) as [Ev|(i & l & Ev)]; auto.
        exfalso. apply (G i). rewrite Ev. now left. }
      intros i Hi.
      unfold vals in Hi. apply filter_In in Hi. destruct Hi as [Hi Hc].
      unfold chosen in Hc. apply andb_true_iff in Hc. destruct Hc as [Hp Ho].
      apply present_in in Hp.
      assert (exists k, k < length a1 /\ selected k = true) as (k & Hk & Hs).
      { destruct Hp as [Hp|Hp].
        - destruct (In_nth _ _ 0%Z Hp) as (k & Hk & Ek). exists k. split; auto.
          unfold selected. now rewrite Ek, Ho.
        - destruct (In_nth _ _ 0%Z Hp) as (k & Hk & Ek). exists k. split; [lia|].
          unfold selected. rewrite Ek, Ho. apply orb_true_r. }
      assert (In k (filter selected (seq 0 (length a1)))) as Hf.
      { apply filter_In. split; auto. apply in_seq. lia. }
      rewrite H in Hf. exact Hf.
  Qed.

  Lemma histogram_mn zs : exists b r,
    histogram (injs zs) 1 None (Some (inject_Z mn)) (Some (inject_Z mx))
    = Ok (map (fun i => z_count zs (mn + Z.of_nat i)) (seq 0 N), b, r)
    /\ b = map (edge (inject_Z mn) 1) (seq 0 N)
    /\ (forall i, i < N ->
          slice r (nth i r 0) (nth (S i) r 0) = z_positions zs (mn + Z.of_nat i)).
  Proof.
    destruct (histogram_Z zs mn mx mn_mx) as (b & r & E & B & S & _).
    exists b, r. auto.
  Qed.

  Theorem array_match_exact :
    array_match a1 (Some vm) (Some a2)
    = Ok (match filter selected (seq 0 (length a1)) with
          | [] => MinusOne
          | l => Indices l
          end).
  Proof.
    unfold array_match.
    assert (Hs : supplied (Some a2) = Some a2).
    { unfold supplied. rewrite (proj2 (Nat.ltb_lt 0 (length a2))); auto.
      apply length_pos, a2_ne. }
    rewrite Hs.
    rewrite !np_min_Z, !np_max_Z by (auto using a2_ne). cbn [bind].
    rewrite Qmin2_Z, Qmax2_Z. fold mn mx.
    destruct (histogram_mn a2) as (b2 & r2 & E2 & _ & S2).
    destruct (histogram_mn a1) as (b1 & r1 & E1 & _ & S1).
    rewrite E2. cbn [bind]. rewrite E1. cbn [bind].
    rewrite combine_map, map_map, where_map_seq. cbn [fst snd].
    fold present. fold bins.
    assert (Ed : map (fun k => (inject_Z (Z.of_nat k) + inject_Z mn)%Q) bins = injs d3).
    { unfold d3, injs. rewrite map_map. apply map_ext. intros k.
      rewrite <- inject_Z_plus. f_equal. lia. }
    rewrite Ed.
    rewrite (histogram_defaults (injs d3) 1 None None (inject_Z mn) (inject_Z mx) None).
    2:{ rewrite np_min_Z by apply d3_ne. now rewrite d3_min. }
    2:{ rewrite np_max_Z by apply d3_ne. now rewrite d3_max. }
    destruct (histogram_mn d3) as (b3 & r3 & E3 & B3 & _).
    rewrite E3. cbn [bind].
    assert (HN : N = S (Z.to_nat (mx - mn))) by (unfold N; pose proof mn_mx; lia).
    assert (Hhd : hd 0%Q b3 = inject_Z mn).
    { rewrite B3, HN. cbn [seq map hd]. rewrite edge_Z. f_equal. lia. }
    assert (Hla : last b3 0%Q = inject_Z mx).
    { rewrite B3, HN. rewrite last_map_seq, edge_Z. f_equal. pose proof mn_mx. lia. }
    rewrite Hhd, Hla.
    destruct (histogram_mn vm) as (b4 & r4 & E4 & _).
    rewrite E4. cbn [bind].
    rewrite combine_map, map_map, where_map_seq. cbn [fst snd].
    rewrite (filter_ext (fun k => negb (Nat.land (z_count d3 (mn + Z.of_nat k)) (z_count vm (mn + Z.of_nat k)) =? 0)) chosen).
    2:{ intros k. rewrite d3_count. apply land_chosen. }
    fold vals.
    rewrite (map_ext _ (fun k => k)).
    2:{ intros k. rewrite Qtrunc_nonneg.
        - rewrite (Qfloor_comp _ (inject_Z (Z.of_nat k))) by ring. rewrite Qfloor_Z. lia.
        - setoid_replace (inject_Z (Z.of_nat k) + inject_Z mn - inject_Z mn)%Q with (inject_Z (Z.of_nat k)) by ring.
          change 0%Q with (inject_Z 0). rewrite <- Zle_Qle. lia. }
    rewrite map_id.
    destruct (list_cases vals) as [Ev|(i & l & Ev)].
    - rewrite (proj1 vals_nil Ev), Ev. reflexivity.
    - rewrite Ev at 1.
      replace (repeat 0 (length a1)) with (map (fun k => if touched [] k then 1 else 0) (seq 0 (length a1))).
      2:{ apply (list_ext 0); rewrite map_length, seq_length, ?repeat_length; auto.
          intros k Hk. rewrite nth_map_seq, nth_repeat_lt by auto. reflexivity. }
      rewrite mark_loop; auto.
      + cbn [bind app]. rewrite where_map_seq.
        assert (Ef : filter (fun k => negb ((if touched vals k then 1 else 0) =? 0)) (seq 0 (length a1))
                     = filter selected (seq 0 (length a1))).
        { apply filter_ext_in. intros k Hk%in_seq. rewrite touched_vals by lia. now destruct (selected k). }
        rewrite Ef. destruct (filter selected (seq 0 (length a1))) eqn:Es; auto.
        exfalso. apply vals_nil in Es. congruence.
      + intros j Hj. now rewrite nth_map_seq.
      + intros j Hj. now rewrite nth_map_seq.
      + intros j Hj. unfold vals in Hj. apply filter_In in Hj. destruct Hj as [Hj%in_seq _]. lia.
  Qed.
End AM.
