(** Proofs about the histogram model. *)
From Coq Require Import Lqa Permutation.
From Coq Require Import ZifyBool ZifyNat.
From Verif Require Import Base Histogram HistogramSpec.
Open Scope nat_scope.

Lemma combine_seq_map {A} (l : list A) d n :
  combine (seq n (length l)) l = map (fun j => (j, nth (j - n) l d)) (seq n (length l)).
Proof.
  revert n; induction l as [|a t IH]; intros n; simpl; auto.
  rewrite Nat.sub_diag. f_equal. rewrite IH. apply map_ext_in.
  intros k Hk%in_seq. replace (k - n) with (S (k - S n)) by lia. reflexivity.
Qed.

Lemma map_nth_seq {A} (l : list A) d : map (fun j => nth j l d) (seq 0 (length l)) = l.
Proof.
  apply (list_ext d); rewrite map_length, seq_length; auto.
  intros k Hk. now rewrite nth_map_seq.
Qed.

Lemma running_length s h : length (running s h) = S (length h).
Proof. revert s; induction h; intros s; simpl; auto. Qed.

Lemma nth_running s h i d : i <= length h ->
  nth i (running s h) d = s + sum_nat (firstn i h).
Proof.
  revert s i; induction h as [|a t IH]; intros s i Hi; simpl in *.
  - assert (i = 0) by lia; subst; simpl; lia.
  - destruct i; simpl; [lia|]. rewrite IH by lia. lia.
Qed.

Lemma sum_incr (f g : nat -> nat) bi m s :
  (forall i, f i = g i + (if bi =? i then 1 else 0)) ->
  sum_nat (map f (seq s m)) = sum_nat (map g (seq s m))
                              + (if (s <=? bi) && (bi <? s + m) then 1 else 0).
Proof.
  intros H. revert s; induction m as [|m IHm]; intros s.
  - simpl. destruct ((s <=? bi) && (bi <? s + 0)) eqn:E; lia.
  - simpl. rewrite IHm, H.
    destruct (Nat.eqb_spec bi s) as [E1|E1];
    destruct (Nat.leb_spec (S s) bi); destruct (Nat.leb_spec s bi);
    destruct (Nat.ltb_spec bi (S s + m)); destruct (Nat.ltb_spec bi (s + S m));
    cbn [andb]; lia.
Qed.

(** Loops over an abstract classification of the data into [nb] bins. *)
Section Loops.
  Variables (bins : list Q) (lo hi : Q) (data : list Q).
  Notation nb := (length bins).
  Notation out := (outside lo hi).
  Definition bidx d := Z.to_nat (bin_index bins d).
  Definition inb i d := negb (out d) && (bidx d =? i).
  Definition dat j := nth j data 0%Q.
  Definition pos k i := filter (fun j => inb i (dat j)) (seq 0 k).
  Hypothesis Hidx : forall d, In d data -> out d = false ->
    (0 <= bin_index bins d < Z.of_nat nb)%Z.

  Lemma dat_in j : j < length data -> In (dat j) data.
  Proof. intros; now apply nth_In. Qed.

  Lemma pos_S k i : pos (S k) i = pos k i ++ (if inb i (dat k) then [k] else []).
  Proof. unfold pos. rewrite seq_S, filter_app. simpl. now destruct (inb i (dat k)). Qed.

  Lemma hist_loop k : k <= length data ->
    fold_res (hist_step bins lo hi) (map dat (seq 0 k)) (repeat 0 nb)
    = Ok (map (fun i => length (pos k i)) (seq 0 nb)).
  Proof.
    induction k as [|k IH]; intros Hk.
    - simpl. f_equal. apply (list_ext 0); rewrite repeat_length.
      + now rewrite map_length, seq_length.
      + intros i Hi. rewrite nth_repeat_lt by auto. now rewrite nth_map_seq.
    - rewrite seq_S, map_app, fold_res_app, IH by lia. simpl.
      unfold hist_step. rewrite map_length, seq_length.
      destruct (out (dat k)) eqn:Eo; simpl.
      + f_equal. apply map_ext. intros i. rewrite pos_S.
        unfold inb. rewrite Eo. simpl. now rewrite app_nil_r.
      + pose proof (Hidx (dat k) (dat_in k ltac:(lia)) Eo) as Hb.
        rewrite (proj2 (Z.leb_le _ _)) by lia.
        rewrite (proj2 (Z.ltb_lt _ _)) by lia. simpl. f_equal.
        apply (list_ext 0); rewrite upd_length, !map_length, seq_length; auto.
        intros i Hi. rewrite nth_upd, map_length, seq_length, !nth_map_seq by lia.
        rewrite (proj2 (Nat.ltb_lt i nb)) by lia. rewrite andb_true_r.
        rewrite pos_S, app_length. unfold inb. rewrite Eo. simpl.
        unfold bidx. destruct (Nat.eqb_spec (Z.to_nat (bin_index bins (dat k))) i) as [E|E];
          simpl; [rewrite E|]; lia.
  Qed.

  Lemma get_hist_loop : bins <> [] ->
    get_hist data bins lo hi = Ok (map (fun i => length (pos (length data) i)) (seq 0 nb)).
  Proof.
    intros Hne. unfold get_hist. destruct bins as [|b0 bt] eqn:Eb; [congruence|].
    rewrite <- Eb in *. rewrite <- (hist_loop (length data)) by lia.
    unfold dat. now rewrite map_nth_seq.
  Qed.

  Definition cnt := map (fun i => length (pos (length data) i)) (seq 0 nb).
  Definition st i := nb + 1 + sum_nat (firstn i cnt).

  Lemma cnt_length : length cnt = nb.
  Proof. unfold cnt. now rewrite map_length, seq_length. Qed.

  Lemma firstn_S_nth {A} (l : list A) n d : n < length l ->
    firstn (S n) l = firstn n l ++ [nth n l d].
  Proof.
    revert l; induction n as [|n IH]; intros [|a l] H; simpl in *; try lia; auto.
    f_equal. apply IH; lia.
  Qed.

  Lemma st_S i : i < nb -> st (S i) = st i + length (pos (length data) i).
  Proof.
    intros Hi. unfold st. rewrite (firstn_S_nth cnt i 0) by (rewrite cnt_length; lia).
    rewrite sum_nat_app. simpl. unfold cnt at 2. rewrite nth_map_seq by lia. lia.
  Qed.

  Lemma st_mono i j : i <= j -> j <= nb -> st i <= st j.
  Proof.
    intros H. induction H as [|j H IH]; intros Hj; [lia|].
    rewrite st_S by lia. lia.
  Qed.

  Lemma pos_le k i : k <= length data -> length (pos k i) <= length (pos (length data) i).
  Proof.
    intros Hk. unfold pos. replace (length data) with (k + (length data - k)) by lia.
    rewrite seq_app, filter_app, app_length. lia.
  Qed.

  Lemma pos_lt k i : k < length data -> inb i (dat k) = true ->
    length (pos k i) < length (pos (length data) i).
  Proof.
    intros Hk Hb. pose proof (pos_le (S k) i ltac:(lia)) as H.
    rewrite pos_S, Hb, app_length in H. simpl in H. lia.
  Qed.

  (** Total number of in-range elements, counted through the bins. *)
  Lemma sum_pos k : k <= length data ->
    sum_nat (map (fun i => length (pos k i)) (seq 0 nb))
    = length (filter (fun j => negb (out (dat j))) (seq 0 k)).
  Proof.
    induction k as [|k IH]; intros Hk.
    - simpl. induction (seq 0 nb); simpl; auto.
    - rewrite seq_S, filter_app, app_length. simpl.
      specialize (IH ltac:(lia)). rewrite <- IH.
      destruct (out (dat k)) eqn:Eo; simpl.
      + rewrite Nat.add_0_r. f_equal. apply map_ext. intros i.
        rewrite pos_S. unfold inb. rewrite Eo. simpl. now rewrite app_nil_r.
      + pose proof (Hidx (dat k) (dat_in k ltac:(lia)) Eo) as Hb.
        set (bi := bidx (dat k)).
        assert (Hbi : bi < nb) by (unfold bi, bidx; lia).
        rewrite (sum_incr (fun i => length (pos (S k) i)) (fun i => length (pos k i)) bi).
        2:{ intros i. rewrite pos_S, app_length. unfold inb. rewrite Eo. fold bi. simpl.
            destruct (Nat.eqb bi i); reflexivity. }
        rewrite (proj2 (Nat.leb_le 0 bi)) by lia. rewrite (proj2 (Nat.ltb_lt bi (0 + nb))) by lia.
        simpl. lia.
  Qed.

  Definition ri0 := running (nb + 1) cnt ++ repeat 0 (length data).

  Lemma ri0_length : length ri0 = nb + 1 + length data.
  Proof. unfold ri0. rewrite app_length, running_length, repeat_length, cnt_length. lia. Qed.

  Lemma filter_length_seq (p : nat -> bool) k : length (filter p (seq 0 k)) <= k.
  Proof. etransitivity; [apply filter_length_le|]. now rewrite seq_length. Qed.

  Lemma st_nb : st nb = nb + 1 + length (filter (fun j => negb (out (dat j))) (seq 0 (length data))).
  Proof.
    unfold st. rewrite firstn_all2 by (rewrite cnt_length; lia).
    unfold cnt. rewrite sum_pos by lia. reflexivity.
  Qed.

  Definition nout k := length (filter (fun j => out (dat j)) (seq 0 k)).
  Lemma nout_S k : nout (S k) = nout k + (if out (dat k) then 1 else 0).
  Proof.
    unfold nout. rewrite seq_S, filter_app, app_length. simpl.
    now destruct (out (dat k)).
  Qed.

  Definition ri_inv k (s : ri_state) : Prop :=
    length (ri_arr s) = nb + 1 + length data
    /\ length (ri_tracker s) = nb + 1
    /\ (forall i, i < nb -> nth i (ri_tracker s) 0 = st i + length (pos k i))
    /\ (forall i, i <= nb -> nth i (ri_arr s) 0 = st i)
    /\ (forall i p, i < nb -> p < length (pos k i) ->
          nth (st i + p) (ri_arr s) 0 = nth p (pos k i) 0)
    /\ ri_counter s = nout k.

  Lemma ri_loop k : k <= length data ->
    exists s, fold_res (ri_step bins lo hi) (map (fun j => (j, dat j)) (seq 0 k))
                {| ri_arr := ri0; ri_tracker := running (nb + 1) cnt; ri_counter := 0 |}
              = Ok s /\ ri_inv k s.
  Proof.
    induction k as [|k IH]; intros Hk.
    - eexists; split; [reflexivity|]. unfold ri_inv; simpl.
      split; [apply ri0_length|]. split; [rewrite running_length, cnt_length; lia|].
      split.
      { intros i Hi. rewrite nth_running by (rewrite cnt_length; lia). unfold st. lia. }
      split.
      { intros i Hi. unfold ri0. rewrite app_nth1 by (rewrite running_length, cnt_length; lia).
        rewrite nth_running by (rewrite cnt_length; lia). unfold st. lia. }
      split; auto. intros i p Hi Hp. lia.
    - destruct (IH ltac:(lia)) as (s & Hs & L1 & L2 & L3 & L4 & L5 & L6).
      rewrite seq_S, map_app, fold_res_app, Hs. simpl.
      destruct (out (dat k)) eqn:Eo.
      + eexists; split; [reflexivity|]. unfold ri_inv; simpl.
        assert (P : forall i, pos (S k) i = pos k i).
        { intros i. rewrite pos_S. unfold inb. rewrite Eo. simpl. apply app_nil_r. }
        split; [exact L1|]. split; [exact L2|]. split; [intros i Hi; rewrite P; auto|].
        split; [exact L4|]. split; [intros i p Hi; rewrite P; auto|].
        rewrite nout_S, Eo. lia.
      + pose proof (Hidx (dat k) (dat_in k ltac:(lia)) Eo) as Hb.
        set (bi := Z.to_nat (bin_index bins (dat k))) in *.
        assert (Hbi : bi < nb) by (unfold bi; lia).
        rewrite (proj2 (Z.leb_le _ _)) by lia.
        rewrite (proj2 (Z.ltb_lt _ _)) by lia. simpl.
        assert (Hin : inb bi (dat k) = true).
        { unfold inb, bidx. fold bi. rewrite Eo, Nat.eqb_refl. reflexivity. }
        assert (Hnot : forall i, i <> bi -> inb i (dat k) = false).
        { intros i Hi. unfold inb, bidx. fold bi. rewrite Eo. simpl.
          apply Nat.eqb_neq. auto. }
        pose proof (pos_lt k bi ltac:(lia) Hin) as Hlt.
        pose proof (st_S bi Hbi) as HS.
        pose proof (st_mono (S bi) nb ltac:(lia) ltac:(lia)) as Hm.
        rewrite st_nb in Hm.
        pose proof (filter_length_seq (fun j => negb (out (dat j))) (length data)) as Hf.
        rewrite (L3 bi Hbi).
        rewrite (proj2 (Nat.ltb_lt _ _)) by lia.
        eexists; split; [reflexivity|]. unfold ri_inv; simpl.
        rewrite !upd_length.
        split; [exact L1|]. split; [exact L2|].
        split.
        { intros i Hi. rewrite nth_upd. rewrite pos_S.
          destruct (Nat.eqb_spec bi i) as [<-|E].
          - rewrite (proj2 (Nat.ltb_lt bi _)) by lia. simpl.
            rewrite Hin, app_length. simpl. lia.
          - simpl. rewrite (L3 i Hi), (Hnot i) by auto. now rewrite app_nil_r. }
        split.
        { intros i Hi. rewrite upd_other; auto.
          enough (nb < st bi) by lia. unfold st. lia. }
        split.
        { intros i p Hi Hp. rewrite pos_S in *.
          destruct (Nat.eq_dec i bi) as [->|E].
          - rewrite Hin in *. rewrite app_length in Hp. simpl in Hp.
            destruct (Nat.eq_dec p (length (pos k bi))) as [->|Ep].
            + rewrite upd_same by lia. rewrite app_nth2 by lia.
              rewrite Nat.sub_diag. reflexivity.
            + rewrite upd_other by lia. rewrite app_nth1 by lia. apply L5; lia.
          - rewrite (Hnot i) in * by auto. rewrite app_nil_r in *.
            rewrite upd_other; [apply L5; auto|].
            pose proof (pos_le k i ltac:(lia)) as Hpl.
            pose proof (st_S i Hi) as HSi.
            destruct (Nat.lt_total i bi) as [Hlt2|[Heq|Hgt]]; [|lia|].
            + pose proof (st_mono (S i) bi ltac:(lia) ltac:(lia)). lia.
            + pose proof (st_mono (S bi) i ltac:(lia) ltac:(lia)). lia. }
        rewrite nout_S, Eo. lia.
  Qed.

  Lemma filter_split (p : nat -> bool) l :
    length (filter p l) + length (filter (fun j => negb (p j)) l) = length l.
  Proof. induction l as [|a l IH]; simpl; auto. destruct (p a); simpl; lia. Qed.

  Lemma get_ri_loop : bins <> [] ->
    exists ri, get_ri data bins cnt lo hi = Ok ri
      /\ length ri = nb + 1 + length (filter (fun j => negb (out (dat j))) (seq 0 (length data)))
      /\ (forall i, i <= nb -> nth i ri 0 = st i)
      /\ (forall i, i < nb -> slice ri (st i) (st (S i)) = pos (length data) i).
  Proof.
    intros Hne. unfold get_ri. destruct bins as [|b0 bt] eqn:Eb; [congruence|].
    rewrite <- Eb in *.
    rewrite (combine_seq_map data 0%Q 0).
    rewrite (map_ext _ (fun j => (j, dat j))) by (intros; unfold dat; now rewrite Nat.sub_0_r).
    destruct (ri_loop (length data) ltac:(lia)) as (s & Hs & L1 & L2 & L3 & L4 & L5 & L6).
    fold ri0. rewrite Hs. simpl.
    pose proof (filter_split (fun j => out (dat j)) (seq 0 (length data))) as Hf. fold (nout (length data)) in Hf.
    rewrite seq_length in Hf. pose proof st_nb as Hn.
    set (nin := length (filter (fun j => negb (out (dat j))) (seq 0 (length data)))) in *.
    eexists; split; [reflexivity|].
    assert (HL : length (ri_arr s) - ri_counter s = nb + 1 + nin) by lia.
    rewrite HL.
    split; [rewrite firstn_length; lia|].
    split.
    { intros i Hi. rewrite nth_firstn by lia. auto. }
    intros i Hi. pose proof (st_S i Hi) as HS.
    pose proof (st_mono (S i) nb ltac:(lia) ltac:(lia)) as Hm.
    apply (list_ext 0).
    - rewrite slice_length; rewrite ?firstn_length; lia.
    - intros p Hp. rewrite slice_length in Hp by (rewrite ?firstn_length; lia).
      rewrite nth_slice by lia. rewrite nth_firstn by lia. apply L5; lia.
  Qed.
End Loops.

(** ** From the loops to the specification *)
Open Scope Q_scope.

Lemma outside_within lo hi d : outside lo hi d = negb (within_b lo hi d).
Proof. unfold outside, within_b. now rewrite negb_andb. Qed.

Lemma Qle_bool_false a b : Qle_bool a b = false <-> b < a.
Proof.
  split; intros H.
  - apply Qnot_le_lt. intros H1%Qle_bool_iff. congruence.
  - apply not_true_is_false. intros H1%Qle_bool_iff. eapply Qlt_not_le; eauto.
Qed.

Lemma Qeq_bool_false a b : ~ a == b -> Qeq_bool a b = false.
Proof. intros H. apply not_true_is_false. intros H1%Qeq_bool_iff. auto. Qed.

(** Number of bins. *)
Definition nbins (lo hi b : Q) : nat := S (Z.to_nat (Qfloor ((hi - lo) / b))).
Definition edge (lo b : Q) (i : nat) : Q := lo + inject_Z (Z.of_nat i) * b.

Lemma floor_bounds lo hi b : 0 < b -> lo <= hi ->
  let m := Qfloor ((hi - lo) / b) in
  (0 <= m)%Z /\ lo + inject_Z m * b <= hi /\ hi < lo + inject_Z (m + 1) * b.
Proof.
  intros Hb H m.
  assert (Hq : (hi - lo) / b * b == hi - lo) by (field; lra).
  assert (H0 : 0 <= (hi - lo) / b) by (apply Qle_shift_div_l; lra).
  split; [|split].
  - unfold m. rewrite <- (Qfloor_Z 0). apply Qfloor_resp_le. exact H0.
  - pose proof (Qfloor_le ((hi - lo) / b)) as H1. fold m in H1.
    assert (inject_Z m * b <= (hi - lo) / b * b) by (apply Qmult_le_compat_r; lra). lra.
  - pose proof (Qlt_floor ((hi - lo) / b)) as H1. fold m in H1.
    assert ((hi - lo) / b * b < inject_Z (m + 1) * b) by (apply Qmult_lt_compat_r; lra). lra.
Qed.

Lemma last_map_seq {A} (f : nat -> A) n d : last (map f (seq 0 (S n))) d = f n.
Proof. rewrite seq_S, map_app. simpl. now rewrite last_last. Qed.

Lemma removelast_map_seq {A} (f : nat -> A) n : removelast (map f (seq 0 (S n))) = map f (seq 0 n).
Proof. rewrite seq_S, map_app. simpl. now rewrite removelast_last. Qed.

Lemma get_bins_spec lo hi b : 0 < b -> lo <= hi ->
  get_bins lo hi b = Ok (map (edge lo b) (seq 0 (Z.to_nat (Qceiling ((hi - lo) / b + 1))))).
Proof.
  intros Hb H. unfold get_bins, arange. rewrite Qeq_bool_false by lra.
  f_equal. f_equal. f_equal. f_equal. apply Qceiling_comp. field. lra.
Qed.

Lemma Qceiling_unique q z : inject_Z (z - 1) < q -> q <= inject_Z z -> Qceiling q = z.
Proof.
  intros H1 H2. unfold Qceiling. rewrite (Qfloor_unique (-q) (-z)); [lia| |].
  - rewrite inject_Z_opp. lra.
  - replace (-z + 1)%Z with (-(z-1))%Z by lia. rewrite inject_Z_opp. lra.
Qed.

Lemma bins_used lo hi b : 0 < b -> lo <= hi ->
  exists L, (0 < L)%nat /\
    get_bins lo hi b = Ok (map (edge lo b) (seq 0 L)) /\
    (if negb (Qle_bool (last (map (edge lo b) (seq 0 L)) 0) hi)
     then removelast (map (edge lo b) (seq 0 L)) else map (edge lo b) (seq 0 L))
    = map (edge lo b) (seq 0 (nbins lo hi b)).
Proof.
  intros Hb H. destruct (floor_bounds lo hi b Hb H) as (Hm & H1 & H2).
  rewrite (get_bins_spec lo hi b Hb H).
  unfold nbins. set (m := Qfloor ((hi - lo) / b)) in *.
  assert (Hq : (hi - lo) / b * b == hi - lo) by (field; lra).
  assert (Hu : (hi - lo) / b < inject_Z (m + 1)).
  { apply Qlt_shift_div_r; lra. }
  assert (Hl : inject_Z m <= (hi - lo) / b) by (apply Qfloor_le).
  rewrite inject_Z_plus in Hu. change (inject_Z 1) with 1 in Hu.
  destruct (Qlt_le_dec (inject_Z m) ((hi - lo) / b)) as [Hlt|Hle].
  - exists (Z.to_nat (m + 2)). split; [lia|].
    rewrite (Qceiling_unique _ (m + 2)).
    2:{ replace (m + 2 - 1)%Z with (m + 1)%Z by lia. rewrite inject_Z_plus.
        change (inject_Z 1) with 1. lra. }
    2:{ rewrite inject_Z_plus. change (inject_Z 2) with 2. lra. }
    split; [reflexivity|].
    replace (Z.to_nat (m + 2)) with (S (S (Z.to_nat m))) by lia.
    rewrite last_map_seq, removelast_map_seq.
    unfold edge at 1. replace (Z.of_nat (S (Z.to_nat m))) with (m + 1)%Z by lia.
    rewrite (proj2 (Qle_bool_false _ _)) by exact H2. reflexivity.
  - exists (Z.to_nat (m + 1)). split; [lia|].
    rewrite (Qceiling_unique _ (m + 1)).
    2:{ replace (m + 1 - 1)%Z with m by lia. lra. }
    2:{ rewrite inject_Z_plus. change (inject_Z 1) with 1. lra. }
    split; [reflexivity|].
    replace (Z.to_nat (m + 1)) with (S (Z.to_nat m)) by lia.
    rewrite last_map_seq.
    unfold edge at 1. replace (Z.of_nat (Z.to_nat m)) with m by lia.
    rewrite (proj2 (Qle_bool_iff _ _)) by exact H1. reflexivity.
Qed.

Lemma bin_index_spec lo hi b d : 0 < b -> within lo hi d ->
  bin_index (map (edge lo b) (seq 0 (nbins lo hi b))) d = Qfloor ((d - lo) / b)
  /\ (0 <= Qfloor ((d - lo) / b) < Z.of_nat (nbins lo hi b))%Z.
Proof.
  intros Hb [Hd1 Hd2].
  destruct (floor_bounds lo hi b Hb) as (Hm & H1 & H2); [lra|].
  destruct (floor_bounds lo d b Hb Hd1) as (Hm' & H1' & H2').
  set (m := Qfloor ((hi - lo) / b)) in *. set (e := Qfloor ((d - lo) / b)) in *.
  assert (Hme : (e <= m)%Z).
  { unfold e, m. apply Qfloor_resp_le.
    assert ((hi - lo)/b - (d - lo)/b == (hi - d) / b) as E by (field; lra).
    assert (0 <= (hi - d) / b) by (apply Qle_shift_div_l; lra). lra. }
  split; [|unfold nbins; fold m; lia].
  unfold bin_index. rewrite map_length, seq_length.
  unfold nbins. fold m.
  rewrite last_map_seq. cbn [seq map hd].
  unfold edge at 1 2 3. change (Z.of_nat 0) with 0%Z.
  replace (Z.of_nat (S (Z.to_nat m)) - 1)%Z with m by lia.
  unfold edge. replace (Z.of_nat (Z.to_nat m)) with m by lia.
  change (inject_Z 0) with 0.
  assert (Hx : 0 <= (d - lo) / b) by (apply Qle_shift_div_l; lra).
  destruct (Z.eq_dec m 0) as [E0|E0].
  - rewrite (proj2 (Qeq_bool_iff _ _)) by (rewrite E0; change (inject_Z 0) with 0; lra).
    rewrite Qtrunc_nonneg.
    + assert (He : e = 0%Z) by lia. rewrite He.
      rewrite (Qfloor_comp _ 0); [reflexivity|].
      rewrite E0. change (inject_Z 0) with 0. field.
    + rewrite E0. change (inject_Z 0) with 0. setoid_replace (0 * (d - (lo + 0 * b)) / 1) with 0 by field. lra.
  - assert (Hmp : 0 < inject_Z m) by (change 0 with (inject_Z 0); rewrite <- Zlt_Qlt; lia).
    assert (Hmb : 0 < inject_Z m * b) by (apply Qmult_lt_0_compat; lra).
    rewrite Qeq_bool_false by (intros E; lra).
    assert (EQ : inject_Z m * (d - (lo + 0 * b)) / (lo + inject_Z m * b - (lo + 0 * b)) == (d - lo) / b).
    { field. split; lra. }
    rewrite Qtrunc_nonneg by (rewrite EQ; exact Hx).
    unfold e. apply Qfloor_comp. exact EQ.
Qed.

Lemma in_bin_floor lo b i d : 0 < b -> lo <= d ->
  in_bin_b lo b i d = (Z.to_nat (Qfloor ((d - lo) / b)) =? i)%nat.
Proof.
  intros Hb Hd. destruct (floor_bounds lo d b Hb Hd) as (Hm & H1 & H2).
  set (e := Qfloor ((d - lo) / b)) in *.
  destruct (Nat.eqb_spec (Z.to_nat e) i) as [E|E].
  - apply in_bin_b_spec. unfold in_bin. replace (Z.of_nat i) with e by lia. auto.
  - apply not_true_is_false. intros [Ha Hc]%in_bin_b_spec. apply E.
    unfold e. rewrite (Qfloor_unique _ (Z.of_nat i)); [lia| |].
    + apply Qle_shift_div_l; lra.
    + apply Qlt_shift_div_r; lra.
Qed.

Lemma pos_bin_positions lo hi b data i : 0 < b ->
  pos (map (edge lo b) (seq 0 (nbins lo hi b))) lo hi data (length data) i
  = bin_positions lo hi b data i.
Proof.
  intros Hb. unfold pos, bin_positions. apply filter_ext. intros k.
  unfold inb, dat, bidx. rewrite outside_within, negb_involutive.
  destruct (within_b lo hi (nth k data 0)) eqn:E; cbn [andb]; auto.
  apply within_b_spec in E.
  rewrite (proj1 (bin_index_spec lo hi b _ Hb E)).
  symmetry. apply in_bin_floor; auto. apply E.
Qed.

Lemma bin_count_positions lo hi b data i :
  bin_count lo hi b data i = length (bin_positions lo hi b data i).
Proof.
  unfold bin_count, bin_positions.
  rewrite <- (map_nth_seq data 0) at 1.
  generalize (seq 0 (length data)). intros l. induction l as [|a l IH]; simpl; auto.
  destruct (_ && _); simpl; auto.
Qed.

Lemma filter_nth_seq {A} (p : A -> bool) (data : list A) d :
  length (filter (fun j => p (nth j data d)) (seq 0 (length data))) = length (filter p data).
Proof.
  rewrite <- (map_nth_seq data d) at 2.
  generalize (seq 0 (length data)). intros l. induction l as [|a l IH]; simpl; auto.
  destruct (p (nth a data d)); simpl; auto.
Qed.

Theorem histogram_main data b lo hi : 0 < b -> lo <= hi ->
  exists hist ri,
    histogram data b None (Some lo) (Some hi)
      = Ok (hist, map (edge lo b) (seq 0 (nbins lo hi b)), ri)
    /\ hist = map (bin_count lo hi b data) (seq 0 (nbins lo hi b))
    /\ length ri = (nbins lo hi b + 1 + length (filter (within_b lo hi) data))%nat
    /\ nth 0 ri 0%nat = (nbins lo hi b + 1)%nat
    /\ (forall i, (i < nbins lo hi b)%nat ->
          nth (S i) ri 0%nat = (nth i ri 0%nat + bin_count lo hi b data i)%nat)
    /\ nth (nbins lo hi b) ri 0%nat = length ri
    /\ (forall i, (i < nbins lo hi b)%nat ->
          slice ri (nth i ri 0%nat) (nth (S i) ri 0%nat) = bin_positions lo hi b data i)
    /\ sum_nat hist = length (filter (within_b lo hi) data).
Proof.
  intros Hb H. destruct (bins_used lo hi b Hb H) as (L & HL & HB & HU).
  set (bs := map (edge lo b) (seq 0 (nbins lo hi b))) in *.
  assert (Hne : bs <> []) by (unfold bs, nbins; simpl; discriminate).
  assert (Hlen : length bs = nbins lo hi b) by (unfold bs; now rewrite map_length, seq_length).
  assert (Hidx : forall d, In d data -> outside lo hi d = false ->
            (0 <= bin_index bs d < Z.of_nat (length bs))%Z).
  { intros d _ Ho. rewrite outside_within in Ho. apply negb_false_iff, within_b_spec in Ho.
    destruct (bin_index_spec lo hi b d Hb Ho) as [E1 E2].
    fold bs in E1. rewrite Hlen, E1. exact E2. }
  pose proof (get_hist_loop bs lo hi data Hidx Hne) as GH.
  destruct (get_ri_loop bs lo hi data Hidx Hne) as (ri & GR & R1 & R2 & R3).
  assert (Hcnt : cnt bs lo hi data = map (bin_count lo hi b data) (seq 0 (nbins lo hi b))).
  { unfold cnt. rewrite Hlen. apply map_ext. intros i.
    unfold bs. rewrite pos_bin_positions by auto. now rewrite bin_count_positions. }
  assert (Hin : length (filter (fun j => negb (outside lo hi (dat data j))) (seq 0 (length data)))
                = length (filter (within_b lo hi) data)).
  { rewrite <- (filter_nth_seq (within_b lo hi) data 0). f_equal. apply filter_ext.
    intros j. rewrite outside_within, negb_involutive. reflexivity. }
  assert (Hst : forall i, (i < nbins lo hi b)%nat ->
            st bs lo hi data (S i) = (st bs lo hi data i + bin_count lo hi b data i)%nat).
  { intros i Hi. rewrite st_S by lia. f_equal.
    unfold bs. rewrite pos_bin_positions by auto. now rewrite bin_count_positions. }
  exists (cnt bs lo hi data), ri.
  split.
  { unfold histogram. cbn [bind].
    rewrite (proj2 (Qle_bool_iff lo hi) H). cbn [negb].
    rewrite HB. cbn [bind]. rewrite orb_false_r.
    destruct (map (edge lo b) (seq 0 L)) as [|q l] eqn:EL.
    { destruct L; [lia|discriminate]. }
    rewrite HU. fold (cnt bs lo hi data) in GH. rewrite GH. cbn [bind].
    rewrite GR. reflexivity. }
  split; [exact Hcnt|].
  split; [now rewrite R1, Hlen, Hin|].
  split; [rewrite R2 by lia; unfold st; cbn [firstn sum_nat fold_right]; lia|].
  split; [intros i Hi; rewrite !R2 by lia; auto|].
  split.
  { rewrite R2 by lia. rewrite <- Hlen. rewrite st_nb by exact Hidx. now rewrite R1. }
  split.
  { intros i Hi. rewrite !R2 by lia. rewrite R3 by lia. apply pos_bin_positions; auto. }
  unfold cnt. rewrite sum_pos by (auto; lia). exact Hin.
Qed.

(** ** Each value within the limits falls in exactly one bin *)
Lemma unique_bin lo hi b d : 0 < b -> within lo hi d ->
  exists i, ((i < nbins lo hi b)%nat /\ in_bin lo b i d)
            /\ forall j, in_bin lo b j d -> j = i.
Proof.
  intros Hb Hw. exists (Z.to_nat (Qfloor ((d - lo) / b))).
  destruct (bin_index_spec lo hi b d Hb Hw) as [_ Hr].
  split; [split|].
  - lia.
  - apply in_bin_b_spec. rewrite in_bin_floor; [apply Nat.eqb_refl|auto|apply Hw].
  - intros j Hj%in_bin_b_spec. rewrite in_bin_floor in Hj; [|auto|apply Hw].
    apply Nat.eqb_eq in Hj. auto.
Qed.

(** ** Default limits *)
Lemma fold_min_spec l a :
  (fold_left Qmin2 l a <= a) /\ (forall d, In d l -> fold_left Qmin2 l a <= d)
  /\ (fold_left Qmin2 l a = a \/ In (fold_left Qmin2 l a) l).
Proof.
  revert a; induction l as [|x l IH]; intros a; simpl.
  - split; [apply Qle_refl|]. split; [tauto|now left].
  - destruct (IH (Qmin2 a x)) as (H1 & H2 & H3).
    assert (Hm : Qmin2 a x <= a /\ Qmin2 a x <= x /\ (Qmin2 a x = a \/ Qmin2 a x = x)).
    { unfold Qmin2. destruct (Qle_bool a x) eqn:E.
      - apply Qle_bool_iff in E. repeat split; auto; lra.
      - apply Qle_bool_false in E. repeat split; auto; lra. }
    destruct Hm as (M1 & M2 & M3).
    split; [lra|]. split.
    + intros d [->|Hd]; [lra|auto].
    + destruct H3 as [H3|H3]; [|auto]. rewrite H3. destruct M3 as [-> | ->]; auto.
Qed.

Lemma fold_max_spec l a :
  (a <= fold_left Qmax2 l a) /\ (forall d, In d l -> d <= fold_left Qmax2 l a)
  /\ (fold_left Qmax2 l a = a \/ In (fold_left Qmax2 l a) l).
Proof.
  revert a; induction l as [|x l IH]; intros a; simpl.
  - split; [apply Qle_refl|]. split; [tauto|now left].
  - destruct (IH (Qmax2 a x)) as (H1 & H2 & H3).
    assert (Hm : a <= Qmax2 a x /\ x <= Qmax2 a x /\ (Qmax2 a x = a \/ Qmax2 a x = x)).
    { unfold Qmax2. destruct (Qle_bool a x) eqn:E.
      - apply Qle_bool_iff in E. repeat split; auto; lra.
      - apply Qle_bool_false in E. repeat split; auto; lra. }
    destruct Hm as (M1 & M2 & M3).
    split; [lra|]. split.
    + intros d [->|Hd]; [lra|auto].
    + destruct H3 as [H3|H3]; [|auto]. rewrite H3. destruct M3 as [-> | ->]; auto.
Qed.

Lemma np_min_spec l : l <> [] -> exists m, np_min l = Ok m /\ In m l /\ forall d, In d l -> m <= d.
Proof.
  destruct l as [|a l]; [congruence|]. intros _. exists (fold_left Qmin2 l a).
  destruct (fold_min_spec l a) as (H1 & H2 & H3). split; [reflexivity|]. split.
  - destruct H3 as [->|]; [now left|now right].
  - intros d [->|Hd]; auto.
Qed.

Lemma np_max_spec l : l <> [] -> exists m, np_max l = Ok m /\ In m l /\ forall d, In d l -> d <= m.
Proof.
  destruct l as [|a l]; [congruence|]. intros _. exists (fold_left Qmax2 l a).
  destruct (fold_max_spec l a) as (H1 & H2 & H3). split; [reflexivity|]. split.
  - destruct H3 as [->|]; [now left|now right].
  - intros d [->|Hd]; auto.
Qed.

Lemma histogram_defaults data b omin omax lo hi nb :
  match omin with Some x => lo = x | None => np_min data = Ok lo end ->
  match omax with Some x => hi = x | None => np_max data = Ok hi end ->
  histogram data b nb omin omax = histogram data b nb (Some lo) (Some hi).
Proof.
  intros H1 H2. unfold histogram. destruct omin as [x|], omax as [y|]; subst; cbn [bind]; auto;
  rewrite ?H1, ?H2; reflexivity.
Qed.

Lemma histogram_empty_defaults b nb : histogram [] b nb None None = Err ValueError.
Proof. reflexivity. Qed.

(** Inverted limits: the upper limit is raised to the lower one. *)
Lemma histogram_inverted data b lo hi : hi < lo ->
  histogram data b None (Some lo) (Some hi) = histogram data b None (Some lo) (Some lo).
Proof.
  intros H. unfold histogram. cbn [bind].
  rewrite (proj2 (Qle_bool_false lo hi) H).
  rewrite (proj2 (Qle_bool_iff lo lo) (Qle_refl lo)). reflexivity.
Qed.

(** ** num_bins *)
Lemma fold_res_err {A S} (f : S -> A -> result S) e l1 x l2 :
  (forall s, f s x = Err e) ->
  (forall s y, f s y = Err e \/ exists s', f s y = Ok s') ->
  forall s, fold_res f (l1 ++ x :: l2) s = Err e.
Proof.
  intros Hx Hy s. rewrite fold_res_app.
  assert (G : forall l s, fold_res f l s = Err e \/ exists s', fold_res f l s = Ok s').
  { induction l as [|y l IH]; intros s0; simpl; eauto.
    destruct (Hy s0 y) as [->|[s' ->]]; simpl; auto. }
  destruct (G l1 s) as [->|[s' ->]]; simpl; auto. now rewrite Hx.
Qed.

Lemma fold_res_inv {A S} (P : S -> Prop) (f : S -> A -> result S) e l1 x l2 :
  (forall s, P s -> f s x = Err e) ->
  (forall s y, P s -> f s y = Err e \/ exists s', f s y = Ok s' /\ P s') ->
  forall s, P s -> fold_res f (l1 ++ x :: l2) s = Err e.
Proof.
  intros Hx Hy s Hs. rewrite fold_res_app.
  assert (G : forall l s, P s -> fold_res f l s = Err e \/ exists s', fold_res f l s = Ok s' /\ P s').
  { induction l as [|y l IH]; intros s0 H0; simpl; eauto.
    destruct (Hy s0 y H0) as [->|(s' & -> & Hp)]; simpl; auto. }
  destruct (G l1 s Hs) as [->|(s' & -> & Hp)]; simpl; auto. now rewrite Hx.
Qed.

Lemma num_bins_bins lo hi k : lo < hi -> (1 <= k)%Z ->
  let b := (hi - lo) / inject_Z k in
  0 < b /\ get_bins lo hi b = Ok (map (edge lo b) (seq 0 (S (Z.to_nat k)))).
Proof.
  intros H Hk b.
  assert (Hkq : 0 < inject_Z k) by (change 0 with (inject_Z 0); rewrite <- Zlt_Qlt; lia).
  assert (Hb : 0 < b) by (apply Qlt_shift_div_l; lra).
  split; auto.
  rewrite get_bins_spec by lra.
  rewrite (Qceiling_comp _ (inject_Z (k + 1))).
  2:{ rewrite inject_Z_plus. change (inject_Z 1) with 1. unfold b. field. split; lra. }
  rewrite Qceiling_Z. do 3 f_equal. lia.
Qed.

Lemma num_bins_index lo hi k d : lo < hi -> (1 <= k)%Z -> lo <= d ->
  let b := (hi - lo) / inject_Z k in
  bin_index (map (edge lo b) (seq 0 (Z.to_nat k))) d
  = if (k =? 1)%Z then 0%Z else Qfloor ((d - lo) / b).
Proof.
  intros H Hk Hd b.
  assert (Hkq : 0 < inject_Z k) by (change 0 with (inject_Z 0); rewrite <- Zlt_Qlt; lia).
  assert (Hb : 0 < b) by (apply Qlt_shift_div_l; lra).
  unfold bin_index. rewrite map_length, seq_length.
  assert (HS : Z.to_nat k = S (Z.to_nat (k - 1))) by lia.
  rewrite HS. rewrite last_map_seq. cbn [seq map hd].
  unfold edge. change (Z.of_nat 0) with 0%Z. change (inject_Z 0) with 0.
  replace (Z.of_nat (S (Z.to_nat (k - 1))) - 1)%Z with (k - 1)%Z by lia.
  replace (Z.of_nat (Z.to_nat (k - 1))) with (k - 1)%Z by lia.
  destruct (Z.eqb_spec k 1) as [->|Hk1].
  - change (1 - 1)%Z with 0%Z. change (inject_Z 0) with 0.
    rewrite (proj2 (Qeq_bool_iff _ _)) by lra.
    rewrite Qtrunc_nonneg by (setoid_replace (0 * (d - (lo + 0 * b)) / 1) with 0 by field; lra).
    rewrite (Qfloor_comp _ 0); [reflexivity|field].
  - assert (Hk2 : 0 < inject_Z (k - 1)) by (change 0 with (inject_Z 0); rewrite <- Zlt_Qlt; lia).
    assert (0 < inject_Z (k - 1) * b) by (apply Qmult_lt_0_compat; lra).
    rewrite Qeq_bool_false by (intros E; lra).
    assert (EQ : inject_Z (k - 1) * (d - (lo + 0 * b)) / (lo + inject_Z (k - 1) * b - (lo + 0 * b)) == (d - lo) / b).
    { field. split; lra. }
    rewrite Qtrunc_nonneg; [now apply Qfloor_comp|]. rewrite EQ. apply Qle_shift_div_l; lra.
Qed.

Lemma hist_step_cases bins lo hi n s y : length s = n ->
  hist_step bins lo hi s y = Err OutOfBounds
  \/ exists s', hist_step bins lo hi s y = Ok s' /\ length s' = n.
Proof.
  intros Hs. unfold hist_step. destruct (outside lo hi y); eauto.
  destruct (_ && _); eauto. right. eexists; split; eauto. now rewrite upd_length.
Qed.

Lemma histogram_num_bins_max data lo hi k d : lo < hi -> (2 <= k)%Z -> d == hi -> In d data ->
  forall bs, histogram data bs (Some k) (Some lo) (Some hi) = Err OutOfBounds.
Proof.
  intros H Hk Hd Hin bs. unfold histogram. cbn [bind].
  rewrite (proj2 (Z.eqb_neq k 0)) by lia. cbn [bind].
  rewrite (proj2 (Qle_bool_iff lo hi)) by lra. cbn [negb].
  destruct (num_bins_bins lo hi k H ltac:(lia)) as [Hb HB].
  set (b := (hi - lo) / inject_Z k) in *.
  rewrite HB. cbn [bind]. rewrite orb_true_r. rewrite removelast_map_seq.
  cbn [seq map].
  assert (Hget : get_hist data (map (edge lo b) (seq 0 (Z.to_nat k))) lo hi = Err OutOfBounds).
  { unfold get_hist. destruct (map (edge lo b) (seq 0 (Z.to_nat k))) as [|q l] eqn:E.
    { replace (Z.to_nat k) with (S (Z.to_nat (k-1))) in E by lia. discriminate. }
    rewrite <- E. destruct (in_split d data Hin) as (l1 & l2 & ->).
    apply (fold_res_inv (fun s => length s = Z.to_nat k)).
    - intros s Hs. unfold hist_step.
      replace (outside lo hi d) with false.
      2:{ rewrite outside_within. symmetry. apply negb_false_iff, within_b_spec. split; lra. }
      unfold b. rewrite num_bins_index by (try lia; lra). fold b.
      rewrite (proj2 (Z.eqb_neq k 1)) by lia.
      rewrite (Qfloor_comp _ (inject_Z k)), Qfloor_Z, Hs.
      2:{ rewrite Hd. unfold b. field. split; [|lra].
          assert (0 < inject_Z k) by (change 0 with (inject_Z 0); rewrite <- Zlt_Qlt; lia). lra. }
      destruct ((0 <=? k)%Z && _) eqn:Eb; auto.
      apply andb_true_iff in Eb. lia.
    - intros s y Hs. now apply hist_step_cases.
    - now rewrite repeat_length, map_length, seq_length. }
  now rewrite Hget.
Qed.

(** With every in-range value strictly below the maximum (or a single bin), the
    k bins are correct. *)
Theorem histogram_num_bins_ok data lo hi k : lo < hi -> (1 <= k)%Z ->
  (forall d, In d data -> ~ d == hi) \/ k = 1%Z ->
  let b := (hi - lo) / inject_Z k in
  forall bs, exists hist ri,
    histogram data bs (Some k) (Some lo) (Some hi)
    = Ok (hist, map (edge lo b) (seq 0 (Z.to_nat k)), ri)
    /\ length hist = Z.to_nat k
    /\ (forall i, (i < Z.to_nat k)%nat ->
          nth i hist 0%nat = if (k =? 1)%Z then length (filter (within_b lo hi) data)
                             else bin_count lo hi b data i)
    /\ sum_nat hist = length (filter (within_b lo hi) data).
Proof.
  intros H Hk Hmax b bs.
  assert (Hkq : 0 < inject_Z k) by (change 0 with (inject_Z 0); rewrite <- Zlt_Qlt; lia).
  destruct (num_bins_bins lo hi k H ltac:(lia)) as [Hb HB]. fold b in Hb, HB.
  set (bn := map (edge lo b) (seq 0 (Z.to_nat k))).
  assert (Hne : bn <> []).
  { unfold bn. replace (Z.to_nat k) with (S (Z.to_nat (k-1))) by lia. discriminate. }
  assert (Hlen : length bn = Z.to_nat k) by (unfold bn; now rewrite map_length, seq_length).
  assert (Hfl : forall d, In d data -> within_b lo hi d = true -> (2 <= k)%Z ->
            (0 <= Qfloor ((d - lo) / b) < k)%Z).
  { intros d Hd Hw Hk2. apply within_b_spec in Hw. destruct Hw as [W1 W2].
    destruct Hmax as [Hmax|]; [|lia].
    assert (Hlt : d < hi) by (apply Qle_lteq in W2; destruct W2; auto; exfalso; eapply Hmax; eauto).
    split.
    - rewrite <- (Qfloor_Z 0). apply Qfloor_resp_le. change (inject_Z 0) with 0.
      apply Qle_shift_div_l; lra.
    - rewrite Zlt_Qlt. eapply Qle_lt_trans; [apply Qfloor_le|].
      apply Qlt_shift_div_r; auto. unfold b.
      assert (E : inject_Z k * ((hi - lo) / inject_Z k) == hi - lo) by (field; lra). lra. }
  assert (Hidx : forall d, In d data -> outside lo hi d = false ->
            (0 <= bin_index bn d < Z.of_nat (length bn))%Z).
  { intros d Hd Ho. rewrite outside_within in Ho. apply negb_false_iff in Ho.
    assert (W := proj1 (within_b_spec _ _ _) Ho). destruct W as [W1 W2].
    unfold bn, b. rewrite num_bins_index by (try lia; lra). fold b. fold bn. rewrite Hlen.
    destruct (Z.eqb_spec k 1); [lia|]. destruct (Hfl d Hd Ho ltac:(lia)) as [F1 F2]. split; [exact F1|].
    eapply Z.lt_le_trans; [exact F2|lia]. }
  pose proof (get_hist_loop bn lo hi data Hidx Hne) as GH.
  destruct (get_ri_loop bn lo hi data Hidx Hne) as (ri & GR & R1 & R2 & R3).
  exists (cnt bn lo hi data), ri. split.
  { unfold histogram. cbn [bind].
    rewrite (proj2 (Z.eqb_neq k 0)) by lia. cbn [bind].
    rewrite (proj2 (Qle_bool_iff lo hi)) by lra. cbn [negb].
    fold b. rewrite HB. cbn [bind]. rewrite orb_true_r, removelast_map_seq.
    fold bn. cbn [seq map]. fold (cnt bn lo hi data) in GH. rewrite GH. cbn [bind].
    rewrite GR. reflexivity. }
  split; [rewrite cnt_length; auto|].
  assert (Hin : length (filter (fun j => negb (outside lo hi (dat data j))) (seq 0 (length data)))
                = length (filter (within_b lo hi) data)).
  { rewrite <- (filter_nth_seq (within_b lo hi) data 0). f_equal. apply filter_ext.
    intros j. rewrite outside_within, negb_involutive. reflexivity. }
  split.
  - intros i Hi. unfold cnt. rewrite nth_map_seq by lia.
    destruct (Z.eqb_spec k 1) as [->|Hk1].
    + rewrite <- Hin. unfold pos. f_equal. apply filter_ext_in. intros j Hj%in_seq.
      unfold inb, bidx. rewrite outside_within, negb_involutive.
      destruct (within_b lo hi (dat data j)) eqn:E; auto.
      apply within_b_spec in E. destruct E as [E1 E2]. cbn [andb].
      unfold bn, b. rewrite num_bins_index by (try lia; lra).
      simpl in Hi. assert (i = 0)%nat by lia. subst. reflexivity.
    + rewrite bin_count_positions. f_equal. unfold pos, bin_positions.
      apply filter_ext_in. intros j Hj%in_seq.
      unfold inb, bidx, dat. rewrite outside_within, negb_involutive.
      destruct (within_b lo hi (nth j data 0)) eqn:E; auto.
      apply within_b_spec in E. destruct E as [E1 E2]. cbn [andb].
      unfold bn, b. rewrite num_bins_index by (try lia; lra). fold b.
      destruct (Z.eqb_spec k 1); [lia|]. symmetry. apply in_bin_floor; auto.
  - unfold cnt. rewrite sum_pos by (auto; lia). exact Hin.
Qed.

(** num_bins with equal limits is rejected (zero bin width). *)
Lemma histogram_num_bins_equal data lo k bs : (k <> 0)%Z ->
  histogram data bs (Some k) (Some lo) (Some lo) = Err ValueError.
Proof.
  intros Hk. unfold histogram. cbn [bind]. rewrite (proj2 (Z.eqb_neq k 0)) by lia. cbn [bind].
  rewrite (proj2 (Qle_bool_iff lo lo)) by lra. cbn [negb].
  unfold get_bins, arange. rewrite (proj2 (Qeq_bool_iff _ _)); [reflexivity|].
  field. intros E. apply Hk. change 0 with (inject_Z 0) in E. now apply inject_Z_injective.
Qed.

(** ** Integer data with unit bins: one bin per integer value *)
Definition z_positions (zs : list Z) (v : Z) : list nat :=
  filter (fun k => (nth k zs 0 =? v)%Z) (seq 0 (length zs)).
Definition z_count (zs : list Z) (v : Z) : nat := length (filter (Z.eqb v) zs).

Lemma nbins_Z a c : (a <= c)%Z -> nbins (inject_Z a) (inject_Z c) 1 = Z.to_nat (c - a + 1).
Proof.
  intros H. unfold nbins. rewrite (Qfloor_comp _ (inject_Z (c - a))), Qfloor_Z; [lia|].
  unfold Z.sub. rewrite inject_Z_plus, inject_Z_opp. field.
Qed.

Lemma in_bin_Z a i z : in_bin_b (inject_Z a) 1 i (inject_Z z) = (z =? a + Z.of_nat i)%Z.
Proof.
  destruct (Z.eqb_spec z (a + Z.of_nat i)) as [->|H].
  - apply in_bin_b_spec. split.
    + rewrite inject_Z_plus. lra.
    + rewrite !inject_Z_plus. change (inject_Z 1) with 1. lra.
  - apply not_true_is_false. intros [H1 H2]%in_bin_b_spec. apply H.
    rewrite inject_Z_plus in H2. change (inject_Z 1) with 1 in H2.
    assert (A : inject_Z (a + Z.of_nat i) <= inject_Z z) by (rewrite inject_Z_plus; lra).
    assert (B : inject_Z z < inject_Z (a + Z.of_nat i + 1)).
    { rewrite !inject_Z_plus. change (inject_Z 1) with 1. lra. }
    rewrite <- Zle_Qle in A. rewrite <- Zlt_Qlt in B. lia.
Qed.

Lemma within_Z a c z : within_b (inject_Z a) (inject_Z c) (inject_Z z) = ((a <=? z) && (z <=? c))%Z.
Proof.
  apply eq_true_iff_eq. rewrite within_b_spec. unfold within.
  rewrite <- !Zle_Qle. lia.
Qed.

Lemma bin_positions_Z zs a c i : (a <= c)%Z -> (i < Z.to_nat (c - a + 1))%nat ->
  bin_positions (inject_Z a) (inject_Z c) 1 (map inject_Z zs) i = z_positions zs (a + Z.of_nat i).
Proof.
  intros H Hi. unfold bin_positions, z_positions. rewrite map_length.
  apply filter_ext_in. intros k Hk%in_seq.
  rewrite nth_indep with (d' := inject_Z 0) by (rewrite map_length; lia).
  rewrite map_nth, within_Z, in_bin_Z. lia.
Qed.

Lemma z_count_positions zs v : z_count zs v = length (z_positions zs v).
Proof.
  unfold z_count, z_positions. rewrite <- (filter_nth_seq (Z.eqb v) zs 0%Z).
  f_equal. apply filter_ext. intros. apply Z.eqb_sym.
Qed.

Theorem histogram_Z zs a c : (a <= c)%Z ->
  exists bins ri,
    histogram (map inject_Z zs) 1 None (Some (inject_Z a)) (Some (inject_Z c))
    = Ok (map (fun i => z_count zs (a + Z.of_nat i)) (seq 0 (Z.to_nat (c - a + 1))), bins, ri)
    /\ bins = map (edge (inject_Z a) 1) (seq 0 (Z.to_nat (c - a + 1)))
    /\ (forall i, (i < Z.to_nat (c - a + 1))%nat ->
          slice ri (nth i ri 0%nat) (nth (S i) ri 0%nat) = z_positions zs (a + Z.of_nat i))
    /\ nth 0 ri 0%nat = (Z.to_nat (c - a + 1) + 1)%nat
    /\ (forall i, (i < Z.to_nat (c - a + 1))%nat ->
          nth (S i) ri 0%nat = (nth i ri 0%nat + z_count zs (a + Z.of_nat i))%nat).
Proof.
  intros H. assert (Hq : inject_Z a <= inject_Z c) by (rewrite <- Zle_Qle; auto).
  destruct (histogram_main (map inject_Z zs) 1 (inject_Z a) (inject_Z c) ltac:(lra) Hq)
    as (hist & ri & E & Hh & L & R0 & R1 & R2 & R3 & R4).
  rewrite nbins_Z in * by auto.
  eexists _, ri. split; [rewrite E, Hh|].
  2:{ split; [reflexivity|]. split; [|split; [exact R0|]].
      - intros i Hi. rewrite R3 by auto. now apply bin_positions_Z.
      - intros i Hi. rewrite R1 by auto. f_equal.
        rewrite bin_count_positions, bin_positions_Z, <- z_count_positions by auto. reflexivity. }
  do 3 f_equal. apply map_ext_in. intros i Hi%in_seq.
  rewrite bin_count_positions, bin_positions_Z, <- z_count_positions by (auto; lia). reflexivity.
Qed.
