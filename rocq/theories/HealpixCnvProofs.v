From Verif Require Import Base Histogram HistogramSpec HistogramProofs HealpixCnv HealpixCnvSpec.
From Coq Require Import Lqa.
Open Scope nat_scope.
Ltac Zify.zify_post_hook ::= idtac.

Definition qsum (l : list Q) : Q := fold_right Qplus 0%Q l.
Lemma qsum_cons a l : qsum (a :: l) = (a + qsum l)%Q. Proof. reflexivity. Qed.
Lemma qsum_ext {A} (f g : A -> Q) l : (forall a, In a l -> (f a == g a)%Q) -> (qsum (map f l) == qsum (map g l))%Q.
Proof.
  induction l as [|a l IH]; intros H; cbn [map]; [reflexivity|]. rewrite !qsum_cons.
  assert (Ha := H a (or_introl eq_refl)). assert (Hl := IH (fun b Hb => H b (or_intror Hb))). rewrite Ha, Hl. reflexivity.
Qed.
Lemma qsum_plus {A} (f g : A -> Q) l : (qsum (map (fun a => f a + g a) l) == qsum (map f l) + qsum (map g l))%Q.
Proof. induction l as [|a l IH]; cbn [map]; [cbn; ring|]. rewrite !qsum_cons, IH. ring. Qed.
Lemma qsum_scale {A} c (f : A -> Q) l : (qsum (map (fun a => c * f a) l) == c * qsum (map f l))%Q.
Proof. induction l as [|a l IH]; cbn [map]; [cbn; ring|]. rewrite !qsum_cons, IH. ring. Qed.
Lemma qsum_zero {A} (f : A -> Q) l : (forall a, In a l -> (f a == 0)%Q) -> (qsum (map f l) == 0)%Q.
Proof.
  induction l as [|a l IH]; intros H; cbn [map]; [reflexivity|]. rewrite qsum_cons.
  assert (Ha := H a (or_introl eq_refl)). assert (Hl := IH (fun b Hb => H b (or_intror Hb))). rewrite Ha, Hl. ring.
Qed.
Lemma qsum_filter {A} (p : A -> bool) (f : A -> Q) l : (forall a, In a l -> p a = false -> (f a == 0)%Q) ->
  (qsum (map f (filter p l)) == qsum (map f l))%Q.
Proof.
  induction l as [|a l IH]; intros H; cbn [filter map]; [reflexivity|]. rewrite qsum_cons.
  assert (IH' := IH (fun b Hb => H b (or_intror Hb))).
  destruct (p a) eqn:E; cbn [map]; rewrite ?qsum_cons, IH'; [reflexivity|].
  rewrite (H a (or_introl eq_refl) E). ring.
Qed.
Lemma qsum_one c x s n : (qsum (map (fun i => if (c =? Z.of_nat i)%Z then x else 0%Q) (seq s n))
   == if ((Z.of_nat s <=? c) && (c <? Z.of_nat (s + n)))%Z then x else 0)%Q.
Proof.
  revert s; induction n as [|n IH]; intros s; cbn [seq map].
  - destruct (_ && _)%bool eqn:E; [|reflexivity]. apply andb_true_iff in E. lia.
  - rewrite qsum_cons, IH.
    destruct (Z.eqb_spec c (Z.of_nat s)); destruct ((Z.of_nat (S s) <=? c) && (c <? Z.of_nat (S s + n)))%Z eqn:E1;
    destruct ((Z.of_nat s <=? c) && (c <? Z.of_nat (s + S n)))%Z eqn:E2; try ring; exfalso;
    rewrite ?andb_true_iff, ?andb_false_iff, ?Z.leb_le, ?Z.ltb_lt, ?Z.leb_gt, ?Z.ltb_ge in *; lia.
Qed.

(** ** Applying *)
Fixpoint lastassoc (k : nat) (l : list (nat * Q)) : option Q :=
  match l with
  | [] => None
  | (i, v) :: l => match lastassoc k l with Some w => Some w | None => if i =? k then Some v else None end
  end.
Lemma lastassoc_app k l1 l2 : lastassoc k (l1 ++ l2) = match lastassoc k l2 with Some w => Some w | None => lastassoc k l1 end.
Proof.
  induction l1 as [|[i v] l1 IH]; cbn [app lastassoc]; [now destruct (lastassoc k l2)|]. rewrite IH.
  destruct (lastassoc k l2); reflexivity.
Qed.
Lemma lastassoc_map k (w : nat -> Q) l : lastassoc k (map (fun i => (i, w i)) l) = if existsb (Nat.eqb k) l then Some (w k) else None.
Proof.
  induction l as [|i l IH]; cbn [map lastassoc existsb]; auto. rewrite IH, (Nat.eqb_sym k i).
  destruct (existsb (Nat.eqb k) l); [now rewrite orb_true_r|]. rewrite orb_false_r.
  destruct (Nat.eqb_spec i k); [now subst|reflexivity].
Qed.
Lemma lastassoc_scale k l v : lastassoc k (combine (map fst l) (map (fun s => s * v)%Q (map snd l)))
  = match lastassoc k l with Some s => Some (s * v)%Q | None => None end.
Proof.
  induction l as [|[i s] l IH]; cbn [map combine lastassoc fst snd]; auto. rewrite IH.
  destruct (lastassoc k l); auto. destruct (i =? k); auto.
Qed.

Lemma fancy_len m0 l m : length (fold_left (fun acc iv => upd acc (fst iv) (nth (fst iv) m0 0 + snd iv)%Q) l m) = length m.
Proof. revert m; induction l as [|a l IH]; intros m; cbn [fold_left]; auto. now rewrite IH, upd_length. Qed.
Lemma fancy_nth m0 l m k : k < length m ->
  nth k (fold_left (fun acc iv => upd acc (fst iv) (nth (fst iv) m0 0 + snd iv)%Q) l m) 0%Q
  = match lastassoc k l with Some v => (nth k m0 0 + v)%Q | None => nth k m 0%Q end.
Proof.
  revert m; induction l as [|[i v] l IH]; intros m Hk; cbn [fold_left lastassoc fst snd]; auto.
  rewrite IH by (rewrite upd_length; auto). destruct (lastassoc k l); auto.
  rewrite nth_upd. destruct (Nat.eqb_spec i k) as [->|]; cbn [andb]; auto.
  rewrite (proj2 (Nat.ltb_lt _ _) Hk). reflexivity.
Qed.

Definition contrib (image : list Q) (e : entry) (k : nat) : Q :=
  match lastassoc k (combine (e_ija e) (e_sa e)) with Some s => (s * nth (Z.to_nat (e_use e)) image 0)%Q | None => 0%Q end.
Definition entry_ok (n_pix n_img : nat) (e : entry) : Prop :=
  (0 <= e_use e < Z.of_nat n_img)%Z /\ forall k, In k (e_ija e) -> k < n_pix.

Lemma lastassoc_combine_scale k idx sa v : lastassoc k (combine idx (map (fun s => s * v)%Q sa))
  = match lastassoc k (combine idx sa) with Some s => Some (s * v)%Q | None => None end.
Proof.
  revert sa; induction idx as [|i idx IH]; intros [|s sa]; cbn [map combine lastassoc]; auto. rewrite IH.
  destruct (lastassoc k (combine idx sa)); auto. destruct (i =? k); auto.
Qed.

Lemma apply_fold image cnv m0 : Forall (entry_ok (length m0) (length image)) cnv ->
  exists m, fold_res (apply_entry image) cnv m0 = Ok m /\ length m = length m0
    /\ forall k, k < length m0 -> (nth k m 0 == nth k m0 0 + qsum (map (fun e => contrib image e k) cnv))%Q.
Proof.
  revert m0; induction cnv as [|e cnv IH]; intros m0 H; cbn [fold_res map].
  - exists m0. split; [auto|]. split; [auto|]. intros k _. cbn. ring.
  - inversion H as [|? ? He Ht]; subst. destruct He as [H1 H2]. unfold apply_entry at 1.
    rewrite (proj2 (Z.leb_le _ _)), (proj2 (Z.ltb_lt _ _)) by lia. cbn [andb].
    replace (forallb _ (e_ija e)) with true.
    2:{ symmetry. apply forallb_forall. intros k Hk. specialize (H2 k Hk). lia. }
    cbn [bind]. set (m1 := fancy_add m0 (e_ija e) _).
    assert (L1 : length m1 = length m0) by (unfold m1, fancy_add; apply fancy_len).
    rewrite <- L1 in Ht. destruct (IH m1 Ht) as (m & E & L & N). exists m. split; [auto|]. split; [congruence|].
    intros k Hk. rewrite N by lia. rewrite qsum_cons. unfold m1, fancy_add. rewrite fancy_nth by auto.
    unfold contrib at 2. rewrite lastassoc_combine_scale. destruct (lastassoc k (combine (e_ija e) (e_sa e))); ring.
Qed.
Lemma apply_ok n image cnv : Forall (entry_ok n (length image)) cnv ->
  exists m, healpix_cnv_apply n image cnv = Ok m /\ length m = n
    /\ forall k, k < n -> (nth k m 0 == qsum (map (fun e => contrib image e k) cnv))%Q.
Proof.
  intros H. unfold healpix_cnv_apply. rewrite <- (repeat_length 0%Q n) in H.
  destruct (apply_fold image cnv _ H) as (m & E & L & N). rewrite repeat_length in *. exists m. split; [auto|]. split; [auto|].
  intros k Hk. rewrite N, nth_repeat_lt by auto. ring.
Qed.
(** Success means the entries were in range. *)
Lemma apply_entries_ok image cnv m0 m : fold_res (apply_entry image) cnv m0 = Ok m -> Forall (entry_ok (length m0) (length image)) cnv.
Proof.
  revert m0; induction cnv as [|e cnv IH]; intros m0; cbn [fold_res]; [constructor|].
  unfold apply_entry at 1. destruct (_ && _)%bool eqn:E1; [|discriminate]. destruct (forallb _ _) eqn:E2; [cbn [bind]|discriminate].
  intros H. constructor.
  - apply andb_true_iff in E1. rewrite Z.leb_le, Z.ltb_lt in E1. split; [lia|].
    intros k Hk. rewrite forallb_forall in E2. specialize (E2 k Hk). now apply Nat.ltb_lt in E2.
  - apply IH in H. unfold fancy_add in H. now rewrite fancy_len in H.
Qed.

Lemma apply_linear n f g a b cnv mf mg : length f = length g ->
  healpix_cnv_apply n f cnv = Ok mf -> healpix_cnv_apply n g cnv = Ok mg ->
  exists m, healpix_cnv_apply n (map (fun p => a * fst p + b * snd p)%Q (combine f g)) cnv = Ok m /\ length m = n
    /\ forall k, k < n -> (nth k m 0 == a * nth k mf 0 + b * nth k mg 0)%Q.
Proof.
  intros Hl Ef Eg.
  assert (Hf := apply_entries_ok _ _ _ _ Ef). rewrite repeat_length in Hf.
  destruct (apply_ok n f cnv Hf) as (mf' & Ef' & _ & Nf). rewrite Ef in Ef'. inversion Ef'; subst mf'.
  destruct (apply_ok n g cnv ltac:(now rewrite <- Hl)) as (mg' & Eg' & _ & Ng). rewrite Eg in Eg'. inversion Eg'; subst mg'.
  set (h := map (fun p => a * fst p + b * snd p)%Q (combine f g)).
  assert (Lh : length h = length f) by (unfold h; rewrite map_length, combine_length; lia).
  destruct (apply_ok n h cnv ltac:(now rewrite Lh)) as (m & E & L & N). exists m. split; [auto|]. split; [auto|].
  intros k Hk. rewrite N, Nf, Ng by auto. rewrite <- !qsum_scale, <- qsum_plus. apply qsum_ext. intros e He.
  rewrite Forall_forall in Hf. destruct (Hf e He) as [Hu _]. unfold contrib. destruct (lastassoc _ _); [|ring].
  unfold h. rewrite (nth_map_lt _ (combine f g) _ (0%Q, 0%Q)) by (rewrite combine_length; lia).
  rewrite combine_nth by auto. cbn [fst snd]. ring.
Qed.

(** ** Generating *)
Definition cpos (cx cy : Q -> Z) (dim : Z) (xv yv : list Q) (k : nat) : Z := (cx (nth k xv 0%Q) + dim * cy (nth k yv 0%Q))%Z.
Lemma corners_nth cx cy dim xv yv k : length xv = length yv -> k < length xv -> nth k (corners cx cy dim xv yv) 0%Z = cpos cx cy dim xv yv k.
Proof.
  intros E H. unfold corners. rewrite (nth_map_lt _ (combine xv yv) k (0%Q, 0%Q)) by (rewrite combine_length; lia).
  now rewrite combine_nth by auto.
Qed.
Lemma corners_length cx cy dim xv yv : length xv = length yv -> length (corners cx cy dim xv yv) = length xv.
Proof. intros E. unfold corners. rewrite map_length, combine_length. lia. Qed.

Lemma z_positions_has zs v k : existsb (Nat.eqb k) (z_positions zs v) = (k <? length zs) && (nth k zs 0 =? v)%Z.
Proof.
  apply eq_true_iff_eq. rewrite existsb_exists, andb_true_iff, Nat.ltb_lt, Z.eqb_eq. unfold z_positions. split.
  - intros (j & Hj & E). apply Nat.eqb_eq in E. subst j. apply filter_In in Hj. rewrite in_seq, Z.eqb_eq in Hj. lia.
  - intros [H1 H2]. exists k. split; [|apply Nat.eqb_refl]. apply filter_In. rewrite in_seq, Z.eqb_eq. lia.
Qed.

Lemma lastassoc_part zs a c h bins ri ind w k : (a <= c)%Z -> ind < Z.to_nat (c - a + 1) ->
  histogram (map inject_Z zs) 1 None (Some (inject_Z a)) (Some (inject_Z c)) = Ok (h, bins, ri) ->
  lastassoc k (part h ri ind w) = if (k <? length zs) && (nth k zs 0 =? a + Z.of_nat ind)%Z then Some (w k) else None.
Proof.
  intros Hac Hi E. destruct (histogram_Z zs a c Hac) as (bins' & ri' & E' & _ & R & _ & _).
  rewrite E in E'. inversion E'. subst h bins' ri'. clear E'. unfold part. rewrite nth_map_seq by auto.
  rewrite Nat.add_1_r, R by auto. rewrite <- z_positions_has, <- lastassoc_map, z_count_positions.
  destruct (z_positions zs (a + Z.of_nat ind)); reflexivity.
Qed.
Lemma part_in zs a c h bins ri ind w k : (a <= c)%Z -> ind < Z.to_nat (c - a + 1) ->
  histogram (map inject_Z zs) 1 None (Some (inject_Z a)) (Some (inject_Z c)) = Ok (h, bins, ri) ->
  In k (map fst (part h ri ind w)) -> k < length zs.
Proof.
  intros Hac Hi E. destruct (histogram_Z zs a c Hac) as (bins' & ri' & E' & _ & R & _ & _).
  rewrite E in E'. inversion E'. subst h bins' ri'. clear E'. unfold part. rewrite nth_map_seq by auto.
  rewrite Nat.add_1_r, R by auto. destruct (0 <? _); [|intros []]. rewrite map_map. cbn. rewrite map_id.
  unfold z_positions. rewrite filter_In, in_seq. lia.
Qed.

Lemma combine_fst_snd {A B} (l : list (A * B)) : combine (map fst l) (map snd l) = l.
Proof. induction l as [|[a b] l IH]; cbn; congruence. Qed.

Lemma min_Z_spec l : l <> [] -> exists m, min_Z l = Ok m /\ In m l /\ forall d, In d l -> (m <= d)%Z.
Proof.
  destruct l as [|a l]; [congruence|]. intros _. exists (fold_left Z.min l a). split; [reflexivity|].
  revert a; induction l as [|b l IH]; intros a; cbn [fold_left].
  - split; [now left|]. intros d [<-|[]]. lia.
  - destruct (IH (Z.min a b)) as [H1 H2]. split.
    + destruct H1 as [H1|H1]; [|right; now right]. rewrite <- H1. destruct (Z.min_spec a b) as [[_ ->]|[_ ->]]; [now left|right; now left].
    + intros d [<-|[<-|Hd]]; [|now apply Z.le_trans with (Z.min a b); [apply H2; now left|lia]|apply H2; now right].
      apply Z.le_trans with (Z.min a b); [apply H2; now left|lia].
Qed.
Lemma max_Z_spec l : l <> [] -> exists m, max_Z l = Ok m /\ In m l /\ forall d, In d l -> (d <= m)%Z.
Proof.
  destruct l as [|a l]; [congruence|]. intros _. exists (fold_left Z.max l a). split; [reflexivity|].
  revert a; induction l as [|b l IH]; intros a; cbn [fold_left].
  - split; [now left|]. intros d [<-|[]]. lia.
  - destruct (IH (Z.max a b)) as [H1 H2]. split.
    + destruct H1 as [H1|H1]; [|right; now right]. rewrite <- H1. destruct (Z.max_spec a b) as [[_ ->]|[_ ->]]; [right; now left|now left].
    + intros d [<-|[<-|Hd]]; [|now apply Z.le_trans with (Z.max a b); [lia|apply H2; now left]|apply H2; now right].
      apply Z.le_trans with (Z.max a b); [lia|apply H2; now left].
Qed.

(** What the bin of image pixel [v] contributes to HEALPix pixel [k]: the last corner that falls on it wins. *)
Definition share (dim : Z) (xv yv : list Q) (image : list Q) (k : nat) (v : Z) : Q :=
  let img := nth (Z.to_nat v) image 0%Q in
  if (cpos Qceiling Qceiling dim xv yv k =? v)%Z then (weight co_ co_ xv yv k * img)%Q
  else if (cpos Qceiling Qfloor dim xv yv k =? v)%Z then (weight co_ id_ xv yv k * img)%Q
  else if (cpos Qfloor Qceiling dim xv yv k =? v)%Z then (weight id_ co_ xv yv k * img)%Q
  else if (cpos Qfloor Qfloor dim xv yv k =? v)%Z then (weight id_ id_ xv yv k * img)%Q
  else 0%Q.

Lemma generate_apply dim elements xv yv image :
  length xv = length yv -> xv <> [] -> length image = Z.to_nat (dim * elements) -> (0 <= dim * elements)%Z ->
  exists lo hi, (exists k, k < length xv /\ lo = cpos Qfloor Qfloor dim xv yv k)
   /\ (forall k, k < length xv -> (lo <= cpos Qfloor Qfloor dim xv yv k)%Z)
   /\ (forall k, k < length xv -> (cpos Qceiling Qceiling dim xv yv k <= hi)%Z)
   /\ (exists k, k < length xv /\ hi = cpos Qceiling Qceiling dim xv yv k)
   /\ ((Z.max lo 0 <= Z.min hi (dim * elements - 1))%Z ->
   exists cnv m, generate dim elements xv yv = Ok cnv /\ healpix_cnv_apply (length xv) image cnv = Ok m /\ length m = length xv
   /\ forall k, k < length xv ->
        (nth k m 0 == qsum (map (fun i => share dim xv yv image k (Z.max lo 0 + Z.of_nat i))
                           (seq 0 (Z.to_nat (Z.min hi (dim * elements - 1) - Z.max lo 0 + 1)))))%Q).
Proof.
  intros Hl Hne Himg Hde.
  assert (Ln : forall cx cy, corners cx cy dim xv yv <> []).
  { intros cx cy E. apply (f_equal (@length Z)) in E. rewrite corners_length in E by auto. destruct xv; [congruence|discriminate]. }
  destruct (min_Z_spec _ (Ln Qfloor Qfloor)) as (lo & El & Hlo & Hlo2).
  destruct (max_Z_spec _ (Ln Qceiling Qceiling)) as (hi & Eh & Hhi & Hhi2).
  assert (Hin : forall cx cy v, In v (corners cx cy dim xv yv) <-> exists k, k < length xv /\ v = cpos cx cy dim xv yv k).
  { intros cx cy v. split.
    - intros H. destruct (In_nth _ v 0%Z H) as (k & Hk & E). rewrite corners_length in Hk by auto. exists k. split; auto.
      rewrite <- E. now rewrite corners_nth.
    - intros (k & Hk & ->). rewrite <- corners_nth by auto. apply nth_In. now rewrite corners_length. }
  exists lo, hi. split; [now apply Hin|]. split; [intros k Hk; apply Hlo2, Hin; eauto|].
  split; [intros k Hk; apply Hhi2, Hin; eauto|]. split; [now apply Hin|]. intros Hb.
  set (a := Z.max lo 0) in *. set (c := Z.min hi (dim * elements - 1)) in *.
  unfold generate. rewrite (proj2 (Nat.eqb_eq _ _) Hl). cbn [negb]. rewrite El. cbn [bind]. rewrite Eh. cbn [bind].
  fold a c. cbv zeta.
  destruct (histogram_Z (corners Qfloor Qfloor dim xv yv) a c Hb) as (b00 & ri00 & E00 & _).
  destruct (histogram_Z (corners Qfloor Qceiling dim xv yv) a c Hb) as (b01 & ri01 & E01 & _).
  destruct (histogram_Z (corners Qceiling Qfloor dim xv yv) a c Hb) as (b10 & ri10 & E10 & _).
  destruct (histogram_Z (corners Qceiling Qceiling dim xv yv) a c Hb) as (b11 & ri11 & E11 & _).
  rewrite E00. cbn [bind]. rewrite E01. cbn [bind]. rewrite E10. cbn [bind]. rewrite E11. cbn [bind].
  set (N := Z.to_nat (c - a + 1)) in *.
  set (h00 := map (fun i => z_count (corners Qfloor Qfloor dim xv yv) (a + Z.of_nat i)) (seq 0 N)) in *.
  set (h01 := map (fun i => z_count (corners Qfloor Qceiling dim xv yv) (a + Z.of_nat i)) (seq 0 N)) in *.
  set (h10 := map (fun i => z_count (corners Qceiling Qfloor dim xv yv) (a + Z.of_nat i)) (seq 0 N)) in *.
  set (h11 := map (fun i => z_count (corners Qceiling Qceiling dim xv yv) (a + Z.of_nat i)) (seq 0 N)) in *.
  set (htot := map (fun i => nth i h00 0 + nth i h01 0 + nth i h10 0 + nth i h11 0) (seq 0 (length h00))).
  match goal with |- context [map ?f (where_ _ htot)] => set (mk := f) end.
  assert (Lh : length h00 = N) by (unfold h00; now rewrite map_length, seq_length).
  assert (Lht : length htot = N) by (unfold htot; now rewrite map_length, seq_length).
  assert (Hw : forall ind, In ind (where_ (fun n => negb (n =? 0)) htot) -> ind < N).
  { intros ind H. apply (In_where _ _ 0) in H. lia. }
  assert (Hok : Forall (entry_ok (length xv) (length image)) (map mk (where_ (fun n => negb (n =? 0)) htot))).
  { apply Forall_forall. intros e He. apply in_map_iff in He. destruct He as (ind & <- & Hi). apply Hw in Hi. unfold mk, entry_ok.
    cbn [e_use e_ija]. split; [unfold a, c, N in *; lia|]. intros k Hk. rewrite !map_app, !in_app_iff in Hk.
    destruct Hk as [Hk|[Hk|[Hk|Hk]]]; (eapply part_in in Hk; [|exact Hb|exact Hi|eassumption]); now rewrite corners_length in Hk. }
  destruct (apply_ok (length xv) image _ Hok) as (m & Em & Lm & Nm).
  eexists _, m. split; [reflexivity|]. split; [exact Em|]. split; [exact Lm|]. intros k Hk. rewrite Nm by auto. rewrite map_map.
  assert (Hc : forall ind, ind < N -> contrib image (mk ind) k = share dim xv yv image k (a + Z.of_nat ind)).
  { intros ind Hi. unfold contrib, mk. cbn [e_ija e_sa e_use]. rewrite combine_fst_snd, !lastassoc_app.
    rewrite (lastassoc_part _ a c _ _ _ ind _ k Hb Hi E00), (lastassoc_part _ a c _ _ _ ind _ k Hb Hi E01),
      (lastassoc_part _ a c _ _ _ ind _ k Hb Hi E10), (lastassoc_part _ a c _ _ _ ind _ k Hb Hi E11).
    rewrite !corners_length, !corners_nth by auto. rewrite (proj2 (Nat.ltb_lt _ _) Hk). cbn [andb].
    unfold share. rewrite (Z.add_comm (Z.of_nat ind)).
    destruct (_ =? _)%Z; [reflexivity|]. destruct (_ =? _)%Z; [reflexivity|]. destruct (_ =? _)%Z; [reflexivity|].
    destruct (_ =? _)%Z; reflexivity. }
  rewrite (where_spec _ _ 0), Lht.
  rewrite qsum_filter.
  - apply qsum_ext. intros ind Hi. apply in_seq in Hi. rewrite Hc by lia. reflexivity.
  - intros ind Hi Hz. apply in_seq in Hi. rewrite Hc by lia.
    unfold htot in Hz. rewrite nth_map_seq in Hz by lia. apply negb_false_iff, Nat.eqb_eq in Hz.
    unfold h00, h01, h10, h11 in Hz. rewrite !nth_map_seq in Hz by lia.
    assert (Z0 : forall cx cy, z_count (corners cx cy dim xv yv) (a + Z.of_nat ind) = 0 -> cpos cx cy dim xv yv k <> (a + Z.of_nat ind)%Z).
    { intros cx cy H0 E0. rewrite z_count_positions in H0. apply length_zero_iff_nil in H0.
      assert (X : existsb (Nat.eqb k) (z_positions (corners cx cy dim xv yv) (a + Z.of_nat ind)) = true).
      { rewrite z_positions_has, corners_length, corners_nth, E0 by auto. rewrite (proj2 (Nat.ltb_lt _ _) Hk), Z.eqb_refl. reflexivity. }
      rewrite H0 in X. discriminate. }
    unfold share. rewrite !(proj2 (Z.eqb_neq _ _)); [reflexivity| | | |]; apply Z0; lia.
Qed.

(** ** One HEALPix pixel *)
Lemma ceiling_cases x : (is_integer x /\ Qceiling x = Qfloor x) \/ (~ is_integer x /\ Qceiling x = (Qfloor x + 1)%Z).
Proof.
  unfold is_integer. assert (H1 := Qfloor_le x). assert (H2 := Qlt_floor x). destruct (Qeq_dec x (inject_Z (Qfloor x))) as [E|E].
  - left. split; [auto|]. apply Qceiling_unique; [|lra]. unfold Z.sub. rewrite inject_Z_plus. change (inject_Z (- (1))) with (- (1))%Q. lra.
  - right. split; [auto|]. apply Qceiling_unique; [|lra]. replace (Qfloor x + 1 - 1)%Z with (Qfloor x) by lia.
    destruct (Qlt_le_dec (inject_Z (Qfloor x)) x); [auto|]. exfalso. apply E. lra.
Qed.

Definition inside (dim elements : Z) (x y : Q) : Prop :=
  (0 <= x /\ x <= inject_Z (dim - 1) /\ 0 <= y /\ y <= inject_Z (elements - 1))%Q.

Lemma floor_range x n : (0 <= x)%Q -> (x <= inject_Z (n - 1))%Q ->
  (0 <= Qfloor x)%Z /\ (Qceiling x <= n - 1)%Z /\ (Qfloor x <= Qceiling x)%Z.
Proof.
  intros H1 H2. split; [change 0%Z with (Qfloor (inject_Z 0)); apply Qfloor_resp_le; exact H1|].
  split; [rewrite <- (Qceiling_Z (n - 1)); apply Qceiling_resp_le; exact H2|].
  destruct (ceiling_cases x) as [[_ E]|[_ E]]; lia.
Qed.

Lemma inside_corners dim elements xv yv k : inside dim elements (nth k xv 0%Q) (nth k yv 0%Q) ->
  (0 <= cpos Qfloor Qfloor dim xv yv k)%Z /\ (cpos Qceiling Qceiling dim xv yv k <= dim * elements - 1)%Z /\ (1 <= dim)%Z /\ (1 <= elements)%Z
  /\ (cpos Qfloor Qfloor dim xv yv k <= cpos Qceiling Qceiling dim xv yv k)%Z.
Proof.
  intros (H1 & H2 & H3 & H4). destruct (floor_range _ _ H1 H2) as (X1 & X2 & X3). destruct (floor_range _ _ H3 H4) as (Y1 & Y2 & Y3).
  unfold cpos. assert (1 <= dim)%Z by lia. split; [nia|]. split; [nia|]. split; [lia|]. split; [lia|]. nia.
Qed.

Lemma share_sum dim xv yv image k a N (f : Z -> Q) :
  (forall v, (share dim xv yv image k v == f v)%Q) ->
  (qsum (map (fun i => share dim xv yv image k (a + Z.of_nat i)) (seq 0 N)) == qsum (map (fun i => f (a + Z.of_nat i)%Z) (seq 0 N)))%Q.
Proof. intros H. apply qsum_ext. intros i _. apply H. Qed.

Lemma share_gridline dim xv yv image k v : is_integer (nth k xv 0%Q) \/ is_integer (nth k yv 0%Q) ->
  (share dim xv yv image k v == 0)%Q.
Proof.
  intros H. unfold share, weight, co_, id_, frac, cpos.
  destruct (ceiling_cases (nth k xv 0%Q)) as [[Ix ->]|[Ix ->]], (ceiling_cases (nth k yv 0%Q)) as [[Iy ->]|[Iy ->]];
    unfold is_integer in *; try tauto;
    repeat (match goal with |- context [(?a =? ?b)%Z] => destruct (Z.eqb_spec a b) end); try reflexivity; try (exfalso; lia).
  all: try (rewrite <- Ix; ring). all: rewrite <- Iy; ring.
Qed.

Lemma share_interior dim xv yv image k v : (2 <= dim)%Z -> ~ is_integer (nth k xv 0%Q) -> ~ is_integer (nth k yv 0%Q) ->
  (share dim xv yv image k v ==
    (if (cpos Qfloor Qfloor dim xv yv k =? v)%Z then weight id_ id_ xv yv k * nth (Z.to_nat (cpos Qfloor Qfloor dim xv yv k)) image 0 else 0)
    + (if (cpos Qfloor Qceiling dim xv yv k =? v)%Z then weight id_ co_ xv yv k * nth (Z.to_nat (cpos Qfloor Qceiling dim xv yv k)) image 0 else 0)
    + (if (cpos Qceiling Qfloor dim xv yv k =? v)%Z then weight co_ id_ xv yv k * nth (Z.to_nat (cpos Qceiling Qfloor dim xv yv k)) image 0 else 0)
    + (if (cpos Qceiling Qceiling dim xv yv k =? v)%Z then weight co_ co_ xv yv k * nth (Z.to_nat (cpos Qceiling Qceiling dim xv yv k)) image 0 else 0))%Q.
Proof.
  intros Hd Hx Hy. unfold share.
  assert (D : forall a b, cpos a b dim xv yv k = cpos a b dim xv yv k) by reflexivity.
  destruct (ceiling_cases (nth k xv 0%Q)) as [[Ix _]|[_ Ex]]; [tauto|].
  destruct (ceiling_cases (nth k yv 0%Q)) as [[Iy _]|[_ Ey]]; [tauto|].
  assert (P01 : (cpos Qfloor Qceiling dim xv yv k = cpos Qfloor Qfloor dim xv yv k + dim)%Z) by (unfold cpos; rewrite Ey; lia).
  assert (P10 : (cpos Qceiling Qfloor dim xv yv k = cpos Qfloor Qfloor dim xv yv k + 1)%Z) by (unfold cpos; rewrite Ex; lia).
  assert (P11 : (cpos Qceiling Qceiling dim xv yv k = cpos Qfloor Qfloor dim xv yv k + dim + 1)%Z) by (unfold cpos; rewrite Ex, Ey; lia).
  destruct (Z.eqb_spec (cpos Qceiling Qceiling dim xv yv k) v) as [E1|E1];
  destruct (Z.eqb_spec (cpos Qceiling Qfloor dim xv yv k) v) as [E2|E2];
  destruct (Z.eqb_spec (cpos Qfloor Qceiling dim xv yv k) v) as [E3|E3];
  destruct (Z.eqb_spec (cpos Qfloor Qfloor dim xv yv k) v) as [E4|E4]; try (exfalso; lia);
  rewrite ?E1, ?E2, ?E3, ?E4; ring.
Qed.

Lemma qsum_corner c x a b : (a <= b)%Z -> (a <= c <= b)%Z ->
  (qsum (map (fun i => if (c =? a + Z.of_nat i)%Z then x else 0%Q) (seq 0 (Z.to_nat (b - a + 1)))) == x)%Q.
Proof.
  intros H Hc. rewrite <- (qsum_ext (fun i => if (c - a =? Z.of_nat i)%Z then x else 0%Q)).
  - rewrite qsum_one. rewrite (proj2 (Z.leb_le _ _)), (proj2 (Z.ltb_lt _ _)) by lia. reflexivity.
  - intros i _. destruct (Z.eqb_spec (c - a) (Z.of_nat i)), (Z.eqb_spec c (a + Z.of_nat i)); try reflexivity; exfalso; lia.
Qed.

Lemma inside_dim dim elements x y : inside dim elements x y -> ~ is_integer x -> (2 <= dim)%Z.
Proof.
  intros (H1 & H2 & _) Hx. destruct (floor_range _ _ H1 H2) as (X1 & X2 & X3).
  destruct (ceiling_cases x) as [[I _]|[_ E]]; [tauto|lia].
Qed.

Theorem cnv_pixels dim elements xv yv image k0 :
  length xv = length yv -> Z.of_nat (length image) = (dim * elements)%Z ->
  k0 < length xv -> inside dim elements (nth k0 xv 0%Q) (nth k0 yv 0%Q) ->
  exists cnv m, generate dim elements xv yv = Ok cnv /\ healpix_cnv_apply (length xv) image cnv = Ok m /\ length m = length xv
    /\ forall k, k < length xv -> inside dim elements (nth k xv 0%Q) (nth k yv 0%Q) ->
         (~ is_integer (nth k xv 0%Q) /\ ~ is_integer (nth k yv 0%Q) -> (nth k m 0 == bilinear dim image (nth k xv 0) (nth k yv 0))%Q)
         /\ (is_integer (nth k xv 0%Q) \/ is_integer (nth k yv 0%Q) -> (nth k m 0 == 0)%Q).
Proof.
  intros Hl Himg Hk0 Hin0.
  destruct (generate_apply dim elements xv yv image Hl) as (lo & hi & _ & Hlo & Hhi & _ & G); [now intros ->|lia|lia|].
  destruct (inside_corners _ _ _ _ _ Hin0) as (I1 & I2 & _ & _ & I3).
  assert (B1 := Hlo k0 Hk0). assert (B2 := Hhi k0 Hk0).
  destruct G as (cnv & m & Eg & Ea & Lm & N); [lia|]. exists cnv, m. split; [auto|]. split; [auto|]. split; [auto|].
  intros k Hk Hin. split.
  - intros [Hx Hy]. rewrite N by auto.
    assert (Hd := inside_dim _ _ _ _ Hin Hx).
    destruct (inside_corners _ _ _ _ _ Hin) as (J1 & J2 & _ & _ & J3). assert (C1 := Hlo k Hk). assert (C2 := Hhi k Hk).
    rewrite (share_sum _ _ _ _ _ _ _ _ (fun v => share_interior dim xv yv image k v Hd Hx Hy)).
    rewrite !qsum_plus.
    destruct (ceiling_cases (nth k xv 0%Q)) as [[Ix _]|[_ Ex]]; [tauto|].
    destruct (ceiling_cases (nth k yv 0%Q)) as [[Iy _]|[_ Ey]]; [tauto|].
    assert (P01 : (cpos Qfloor Qceiling dim xv yv k = cpos Qfloor Qfloor dim xv yv k + dim)%Z) by (unfold cpos; rewrite Ey; lia).
    assert (P10 : (cpos Qceiling Qfloor dim xv yv k = cpos Qfloor Qfloor dim xv yv k + 1)%Z) by (unfold cpos; rewrite Ex; lia).
    assert (P11 : (cpos Qceiling Qceiling dim xv yv k = cpos Qfloor Qfloor dim xv yv k + dim + 1)%Z) by (unfold cpos; rewrite Ex, Ey; lia).
    rewrite !qsum_corner by lia.
    unfold bilinear, pixel, weight, id_, co_, frac, cpos. rewrite Ex, Ey. ring.
  - intros H. rewrite N by auto. apply qsum_zero. intros i _. now apply share_gridline.
Qed.

Lemma bilinear_weights x : let dx := (x - inject_Z (Qfloor x))%Q in (0 <= dx /\ dx < 1)%Q.
Proof. cbn. assert (H1 := Qfloor_le x). assert (H2 := Qlt_floor x). rewrite inject_Z_plus in H2. change (inject_Z 1) with 1%Q in H2. lra. Qed.

Lemma bilinear_constant dim elements image c x y : Z.of_nat (length image) = (dim * elements)%Z ->
  inside dim elements x y -> ~ is_integer x -> ~ is_integer y ->
  (forall p, In p image -> (p == c)%Q) -> (bilinear dim image x y == c)%Q.
Proof.
  intros Himg (H1 & H2 & H3 & H4) Hx Hy Hc. unfold bilinear, pixel.
  destruct (floor_range _ _ H1 H2) as (X1 & X2 & X3). destruct (floor_range _ _ H3 H4) as (Y1 & Y2 & Y3).
  destruct (ceiling_cases x) as [[I _]|[_ Ex]]; [tauto|]. destruct (ceiling_cases y) as [[I _]|[_ Ey]]; [tauto|].
  rewrite !(fun i H => Hc (nth i image 0%Q) (nth_In image 0%Q H)) by nia. ring.
Qed.
