(** Proofs about the model of flagging.py. *)
From Coq Require Import Qabs ZifyBool ZifyNat Lqa.
From Verif Require Import Base SortLib Histogram ArrayMatch NpArr PyIndex GridLoc GridLocProofs VisWeights VisWeightsSpec Flagging FlaggingSpec.
Open Scope nat_scope.
Ltac Zify.zify_post_hook ::= idtac.

Lemma existsb_seq (p : nat -> bool) a n :
  existsb p (seq a n) = true <-> exists k, a <= k < a + n /\ p k = true.
Proof.
  rewrite existsb_exists. split; intros (k & H1 & H2); exists k; rewrite in_seq in *; auto.
Qed.
Lemma forallb_seq (p : nat -> bool) n :
  forallb p (seq 0 n) = true <-> forall k, k < n -> p k = true.
Proof.
  rewrite forallb_forall. split; intros H k Hk; apply H; rewrite in_seq in *; lia.
Qed.
Lemma map_res_total {A B} (f : A -> result B) (g : A -> B) l :
  (forall a, In a l -> f a = Ok (g a)) -> map_res f l = Ok (map g l).
Proof.
  induction l as [|a l IH]; intros H; auto. cbn [map_res map].
  rewrite (H a) by now left. cbn [bind]. rewrite IH by (intros; apply H; now right). reflexivity.
Qed.

(** ** Channel edges *)
Lemma ceiling_unique e q : (inject_Z e - 1 < q <= inject_Z e)%Q -> Qceiling q = e.
Proof.
  intros [H1 H2]. pose proof (Qle_ceiling q) as C1. pose proof (Qceiling_lt q) as C2.
  assert (A1 : (inject_Z (Qceiling q - 1) < inject_Z e)%Q) by (eapply Qlt_le_trans; eauto).
  rewrite <- Zlt_Qlt in A1.
  assert (A2 : (inject_Z (e - 1) < inject_Z (Qceiling q))%Q).
  { unfold Z.sub. rewrite inject_Z_plus. change (inject_Z (-1)) with (-1)%Q.
    eapply Qlt_le_trans; [|exact C1]. exact H1. }
  rewrite <- Zlt_Qlt in A2. lia.
Qed.
Lemma ceiling_bounds q : (inject_Z (Qceiling q) - 1 < q <= inject_Z (Qceiling q))%Q.
Proof.
  split; [|apply Qle_ceiling]. pose proof (Qceiling_lt q) as C2. unfold Z.sub in C2.
  rewrite inject_Z_plus in C2. exact C2.
Qed.

Lemma avg_bounds n : 24 <= n <= 768 -> 1 <= 768 / n <= 32.
Proof.
  intros H. split.
  - apply Nat.div_le_lower_bound; lia.
  - apply Nat.div_le_upper_bound; lia.
Qed.
Lemma edge_cut_spec n f : 24 <= n <= 768 ->
  exists b, edge_cut n f = Ok b /\ (b = true <-> edge_channel n f).
Proof.
  intros H. pose proof (avg_bounds n H) as HA.
  unfold edge_cut, edge_channel. replace (n =? 0) with false by lia.
  replace (768 / Z.of_nat n)%Z with (Z.of_nat (768 / n)) by (rewrite Nat2Z.inj_div; reflexivity).
  set (avg := 768 / n) in *. replace (Z.of_nat avg =? 0)%Z with false by lia. cbv zeta.
  replace (32 / Z.of_nat avg)%Z with (Z.of_nat (32 / avg)) by (rewrite Nat2Z.inj_div; reflexivity).
  assert (HW : 1 <= 32 / avg) by (apply Nat.div_le_lower_bound; lia).
  set (w := 32 / avg) in *. replace (Z.of_nat w =? 0)%Z with false by lia.
  rewrite <- Nat2Z.inj_mod. set (e := Qceiling (2 / inject_Z (Z.of_nat avg))).
  eexists. split; [reflexivity|].
  rewrite Z.ltb_lt. pose proof (Nat.mod_upper_bound f w ltac:(lia)) as HM. split.
  - intros Hc. exists (f / w), (f mod w), e. split.
    { rewrite Nat.mul_comm. apply Nat.div_mod; lia. }
    split; auto. split; [apply ceiling_bounds|]. lia.
  - intros (k & i & ed & Hf & Hi & He & Hc).
    apply ceiling_unique in He. fold e in He. subst ed.
    assert (f mod w = i). { symmetry. apply (Nat.mod_unique f w k i); lia. } lia.
Qed.

(** ** Frequencies *)
Lemma freq_cut_spec o c f : freq_cut o c f = true <-> out_of_band o c f.
Proof.
  unfold freq_cut, out_of_band. cbv zeta. rewrite orb_true_iff. split.
  - intros [H|H].
    + left. destruct (f_freq_start c) as [s|]; [|discriminate H]. exists s. split; auto. now apply Qltb_true.
    + right. destruct (f_freq_end c) as [s|]; [|discriminate H]. exists s. split; auto. now apply Qltb_true.
  - intros [(s & -> & H)|(s & -> & H)]; [left|right]; now apply Qltb_true.
Qed.

Lemma zero_freqs_ok n cut w : d_freq w = n ->
  zero_freqs n cut w = Ok (Arr3 (d_pol w) (d_freq w) (d_bl w)
    (fun p f b => if (f <? n) && cut f then 0%Q else at3 w p f b)).
Proof.
  intros H. unfold zero_freqs. destruct (existsb _ _) eqn:E; auto.
  apply existsb_seq in E as (k & Hk & E). lia.
Qed.

(** ** Tiles *)
Lemma tile_marks_ok n tiles bi : forall u,
  length u = n ->
  (forall b, In b bi -> b < length tiles /\ (1 <= nth b tiles 0 <= Z.of_nat n)%Z) ->
  exists u', tile_marks n tiles bi u = Ok u' /\ length u' = n
    /\ forall t, t < n ->
        ((exists b, In b bi /\ nth b tiles 0%Z = (Z.of_nat t + 1)%Z) -> nth t u' 0%Z = 1%Z)
        /\ ((forall b, In b bi -> nth b tiles 0%Z <> (Z.of_nat t + 1)%Z) -> nth t u' 0%Z = nth t u 0%Z).
Proof.
  unfold tile_marks. induction bi as [|b bi IH]; intros u Hu HB; cbn [fold_res].
  - exists u. split; auto. split; auto. intros t Ht. split; auto. intros (b & [] & _).
  - destruct (HB b (or_introl eq_refl)) as [H1 H2]. apply Nat.ltb_lt in H1. rewrite H1.
    unfold norm_index at 1. replace ((0 <=? nth b tiles 0 - 1)%Z && (nth b tiles 0 - 1 <? Z.of_nat n)%Z) with true by lia.
    cbn [bind].
    destruct (IH (upd u (Z.to_nat (nth b tiles 0 - 1)%Z) 1%Z)) as (u' & E & L & S).
    { now rewrite upd_length. } { intros; apply HB; now right. }
    exists u'. split; [exact E|]. split; auto. intros t Ht. destruct (S t Ht) as [S1 S2].
    assert (D : forall b', (exists b0, In b0 bi /\ nth b0 tiles 0%Z = b') \/ (forall b0, In b0 bi -> nth b0 tiles 0%Z <> b')).
    { intros v. clear. induction bi as [|a l IH]; [right; intros ? []|].
      destruct IH as [(b0 & I & E)|N]; [left; exists b0; split; auto; now right|].
      destruct (Z.eq_dec (nth a tiles 0%Z) v) as [E|E]; [left; exists a; split; auto; now left|].
      right. intros b0 [<-|I]; auto. }
    destruct (D (Z.of_nat t + 1)%Z) as [Y|N]; split; intros H.
    + auto.
    + destruct Y as (b0 & I & E0). exfalso. apply (H b0); auto. now right.
    + rewrite (S2 N). destruct H as (b0 & [<-|I] & E0).
      * replace (Z.to_nat (nth b tiles 0%Z - 1)) with t by lia. apply upd_same. lia.
      * exfalso. now apply (N b0).
    + rewrite (S2 N). apply upd_other. intros E0. apply (H b (or_introl eq_refl)). lia.
Qed.

Definition marked (o : fobs) (w : arr3 Q) (p t : nat) : Prop :=
  exists b, b < d_bl w /\ bl_ok w p b = true
    /\ (nth b (b_tile_a o) 0%Z = (Z.of_nat t + 1)%Z \/ nth b (b_tile_b o) 0%Z = (Z.of_nat t + 1)%Z).

Lemma marked_dec o w p t : marked o w p t \/ ~ marked o w p t.
Proof.
  destruct (existsb (fun b => bl_ok w p b
     && ((nth b (b_tile_a o) 0 =? Z.of_nat t + 1)%Z || (nth b (b_tile_b o) 0 =? Z.of_nat t + 1)%Z)) (seq 0 (d_bl w))) eqn:E.
  - left. apply existsb_seq in E as (b & Hb & E). exists b. apply andb_true_iff in E as [E1 E2]. split; [lia|]. split; auto. lia.
  - right. intros (b & Hb & E1 & E2). rewrite <- not_true_iff_false in E. apply E. apply existsb_seq.
    exists b. split; [lia|]. rewrite E1. lia.
Qed.

Lemma tile_round o w p : (forall b, b < d_bl w -> b < length (b_tile_a o) /\ (1 <= nth b (b_tile_a o) 0 <= Z.of_nat (b_n_tile o))%Z) ->
  (forall b, b < d_bl w -> b < length (b_tile_b o) /\ (1 <= nth b (b_tile_b o) 0 <= Z.of_nat (b_n_tile o))%Z) ->
  exists t, (t1 <- tile_marks (b_n_tile o) (b_tile_a o) (filter (bl_ok w p) (seq 0 (d_bl w))) (repeat 0%Z (b_n_tile o)) ;;
             tile_marks (b_n_tile o) (b_tile_b o) (filter (bl_ok w p) (seq 0 (d_bl w))) t1) = Ok t
    /\ length t = b_n_tile o
    /\ forall k, k < b_n_tile o -> (marked o w p k -> nth k t 0%Z = 1%Z) /\ (~ marked o w p k -> nth k t 0%Z = 0%Z).
Proof.
  intros HA HB. set (bi := filter (bl_ok w p) (seq 0 (d_bl w))).
  assert (I : forall b, In b bi <-> b < d_bl w /\ bl_ok w p b = true).
  { intros b. unfold bi. rewrite filter_In, in_seq. split; intros [H1 H2]; split; auto; lia. }
  destruct (tile_marks_ok (b_n_tile o) (b_tile_a o) bi (repeat 0%Z (b_n_tile o))) as (t1 & E1 & L1 & S1).
  { apply repeat_length. } { intros b Hb. apply I in Hb. now apply HA. }
  destruct (tile_marks_ok (b_n_tile o) (b_tile_b o) bi t1) as (t2 & E2 & L2 & S2); auto.
  { intros b Hb. apply I in Hb. now apply HB. }
  exists t2. rewrite E1. cbn [bind]. split; [exact E2|]. split; auto.
  intros k Hk. destruct (S1 k Hk) as [A1 A2]. destruct (S2 k Hk) as [B1 B2]. rewrite nth_repeat_lt in A2 by auto. split.
  - intros (b & Hb & Hu & [Ha|Hbb]).
    + destruct (existsb (fun b => (nth b (b_tile_b o) 0 =? Z.of_nat k + 1)%Z) bi) eqn:X.
      * apply existsb_exists in X as (b' & Ib & X). apply B1. exists b'. split; auto. lia.
      * rewrite B2. { apply A1. exists b. split; auto. apply I; auto. }
        intros b' Ib Hx. rewrite <- not_true_iff_false in X. apply X, existsb_exists. exists b'. split; auto. lia.
    + apply B1. exists b. split; auto. apply I; auto.
  - intros N. rewrite B2, A2; auto.
    + intros b Ib Hx. apply N. apply I in Ib as [? ?]. exists b; auto.
    + intros b Ib Hx. apply N. apply I in Ib as [? ?]. exists b; auto.
Qed.

Lemma tile_use_ok o w : (forall b, b < d_bl w -> b < length (b_tile_a o) /\ (1 <= nth b (b_tile_a o) 0 <= Z.of_nat (b_n_tile o))%Z) ->
  (forall b, b < d_bl w -> b < length (b_tile_b o) /\ (1 <= nth b (b_tile_b o) 0 <= Z.of_nat (b_n_tile o))%Z) ->
  exists u, tile_use_of o w = Ok u /\ length u = b_n_tile o
    /\ forall k, k < b_n_tile o ->
      ((forall p, p < b_n_pol o -> marked o w p k) -> nth k u 0%Z = 1%Z)
      /\ ((exists p, p < b_n_pol o /\ ~ marked o w p k) -> nth k u 0%Z = 0%Z).
Proof.
  intros HA HB. unfold tile_use_of.
  enough (G : forall ps u, length u = b_n_tile o ->
    exists u', fold_res (fun u p =>
      let bi := filter (bl_ok w p) (seq 0 (d_bl w)) in
      t <- tile_marks (b_n_tile o) (b_tile_a o) bi (repeat 0%Z (b_n_tile o)) ;;
      t <- tile_marks (b_n_tile o) (b_tile_b o) bi t ;;
      Ok (map (fun x => (fst x * snd x)%Z) (combine u t))) ps u = Ok u' /\ length u' = b_n_tile o
    /\ forall k, k < b_n_tile o ->
      ((forall p, In p ps -> marked o w p k) -> nth k u' 0%Z = nth k u 0%Z)
      /\ (nth k u 0%Z = 0%Z \/ (exists p, In p ps /\ ~ marked o w p k) -> nth k u' 0%Z = 0%Z)).
  { destruct (G (seq 0 (b_n_pol o)) (repeat 1%Z (b_n_tile o))) as (u & E & L & S); [apply repeat_length|].
    exists u. split; [exact E|]. split; auto. intros k Hk. destruct (S k Hk) as [S1 S2].
    rewrite nth_repeat_lt in * by auto. split.
    - intros H. apply S1. intros p Hp%in_seq. apply H. lia.
    - intros (p & Hp & N). apply S2. right. exists p. split; auto. apply in_seq. lia. }
  induction ps as [|p ps IH]; intros u Hu; cbn [fold_res].
  - exists u. split; auto. split; auto. intros k Hk. split; auto. intros [H|(p & [] & _)]; auto.
  - cbv zeta. destruct (tile_round o w p HA HB) as (t & E & L & S).
    destruct (tile_marks (b_n_tile o) (b_tile_a o) (filter (bl_ok w p) (seq 0 (d_bl w))) (repeat 0%Z (b_n_tile o))) as [t1|e]; [|discriminate E].
    cbn [bind] in E |- *. rewrite E. cbn [bind].
    set (v := map (fun x => (fst x * snd x)%Z) (combine u t)).
    assert (Lv : length v = b_n_tile o). { unfold v. rewrite map_length, combine_length. lia. }
    assert (Nv : forall k, k < b_n_tile o -> nth k v 0%Z = (nth k u 0 * nth k t 0)%Z).
    { intros k Hk. unfold v. set (G := fun x : Z * Z => (fst x * snd x)%Z).
      rewrite (nth_indep _ 0%Z (G (0%Z, 0%Z))) by (unfold G; rewrite map_length, combine_length; lia).
      rewrite (map_nth G), combine_nth by lia. reflexivity. }
    destruct (IH v Lv) as (u' & E' & L' & S'). exists u'. split; [exact E'|]. split; auto.
    intros k Hk. destruct (S' k Hk) as [S1' S2']. destruct (S k Hk) as [T1 T2]. split.
    + intros H. rewrite S1' by (intros; apply H; now right). rewrite Nv, T1 by (auto; apply H; now left). lia.
    + intros H. apply S2'. destruct H as [H|(p0 & [<-|Ip] & Hn)].
      * left. rewrite Nv, H by auto. lia.
      * left. rewrite Nv, T2 by auto. lia.
      * right. exists p0. auto.
Qed.

(** ** Times *)
Lemma time_cut_ok o w : length (b_time_use o) = b_n_time o -> length (b_bin_offset o) = b_n_time o ->
  (forall t, t < b_n_time o -> 0 < nth (S t) (b_bin_offset o ++ [length (b_tile_a o)]) 0) ->
  exists w', time_cut o w = Ok w' /\ d_pol w' = d_pol w /\ d_freq w' = d_freq w /\ d_bl w' = d_bl w
    /\ forall p f b, (time_cleared o b -> at3 w' p f b = 0%Q)
                     /\ (~ time_cleared o b -> at3 w' p f b = at3 w p f b).
Proof.
  intros H1 H2 H3. unfold time_cut. cbv zeta. set (offs := b_bin_offset o ++ [length (b_tile_a o)]) in *.
  assert (LO : length offs = S (b_n_time o)). { unfold offs. rewrite app_length. cbn [length]. lia. }
  enough (G : forall ts, (forall t, In t ts -> t < b_n_time o) -> forall w,
    exists w', fold_res (fun w ti =>
      if negb (ti <? length (b_time_use o)) then Err IndexError
      else if (0 <? nth ti (b_time_use o) 0)%Z then Ok w
      else if negb (S ti <? length offs) then Err IndexError
      else
        Ok (Arr3 (d_pol w) (d_freq w) (d_bl w)
              (fun p f b => if (nth ti offs 0 <=? b) && (b <? (if nth (S ti) offs 0 =? 0 then d_bl w - 1 else nth (S ti) offs 0 - 1)) then 0%Q else at3 w p f b))) ts w = Ok w'
    /\ d_pol w' = d_pol w /\ d_freq w' = d_freq w /\ d_bl w' = d_bl w
    /\ forall p f b, ((exists t, In t ts /\ (nth t (b_time_use o) 0 <= 0)%Z /\ nth t offs 0 <= b /\ S b < nth (S t) offs 0) -> at3 w' p f b = 0%Q)
       /\ ((forall t, In t ts -> (nth t (b_time_use o) 0 <= 0)%Z -> nth t offs 0 <= b -> nth (S t) offs 0 <= S b) -> at3 w' p f b = at3 w p f b)).
  { destruct (G (seq 0 (b_n_time o)) ltac:(intros t Ht%in_seq; lia) w) as (w' & E & D1 & D2 & D3 & SS).
    exists w'. split; [exact E|]. split; auto. split; auto. split; auto. intros p f b. destruct (SS p f b) as [S1 S2].
    assert (O : forall t, t < b_n_time o -> nth t offs 0 = nth t (b_bin_offset o) 0).
    { intros t Ht. unfold offs. apply app_nth1. lia. }
    split.
    - intros (t & Ht & Hu & Hl & Hh). apply S1. exists t. rewrite in_seq, O by auto. repeat split; auto; lia.
    - intros N. apply S2. intros t Ht%in_seq Hu Hl. destruct (le_lt_dec (nth (S t) offs 0) (S b)); auto.
      exfalso. apply N. exists t. rewrite O in Hl by lia. repeat split; auto; lia. }
  induction ts as [|t ts IH]; intros Hts w0; cbn [fold_res].
  - exists w0. repeat split; auto. intros (t & [] & _).
  - assert (Ht : t < b_n_time o) by (apply Hts; now left).
    replace (t <? length (b_time_use o)) with true by (rewrite H1; lia). cbn [negb].
    destruct (0 <? nth t (b_time_use o) 0)%Z eqn:Eu; cbn [bind].
    + destruct (IH ltac:(intros; apply Hts; now right) w0) as (w' & E & D1 & D2 & D3 & SS).
      exists w'. split; [exact E|]. repeat split; auto.
      * intros (x & [<-|Ix] & Hu & Hb); [lia|]. apply SS. exists x; auto.
      * intros N. apply SS. intros x Ix. apply N. now right.
    + replace (S t <? length offs) with true by (rewrite LO; lia). cbn [negb bind].
      specialize (H3 t Ht). replace (nth (S t) offs 0 =? 0) with false by lia.
      match goal with |- context [fold_res _ ts ?x] => set (w1 := x) end.
      destruct (IH ltac:(intros; apply Hts; now right) w1) as (w' & E & D1 & D2 & D3 & SS).
      exists w'. split; [exact E|]. split; auto. split; auto. split; auto.
      intros p f b. destruct (SS p f b) as [S1 S2]. split.
      * intros (x & Ix & Hu & Hb).
        destruct (existsb (fun t => (nth t (b_time_use o) 0 <=? 0)%Z && (nth t offs 0 <=? b) && (S b <? nth (S t) offs 0)) ts) eqn:X.
        { apply existsb_exists in X as (y & Iy & X). apply S1. exists y. split; auto. lia. }
        rewrite S2.
        { destruct Ix as [<-|Ix].
          - unfold w1. cbn [at3]. replace ((nth t offs 0 <=? b) && (b <? nth (S t) offs 0 - 1)) with true by lia. reflexivity.
          - exfalso. rewrite <- not_true_iff_false in X. apply X, existsb_exists. exists x. split; auto. lia. }
        intros y Iy A B. destruct (le_lt_dec (nth (S y) offs 0) (S b)) as [|C]; auto.
        exfalso. rewrite <- not_true_iff_false in X. apply X, existsb_exists. exists y. split; auto. lia.
      * intros N. rewrite S2 by (intros; apply N; auto; now right).
        unfold w1. cbn [at3]. specialize (N t (or_introl eq_refl)).
        replace ((nth t offs 0 <=? b) && (b <? nth (S t) offs 0 - 1)) with false; auto.
        symmetry. apply andb_false_iff. destruct (Nat.leb_spec (nth t offs 0) b); auto. right. lia.
Qed.

(** ** Combining with the previous flags *)
Lemma combine_use_ok new old : length new = length old -> bits new -> bits old ->
  exists u, combine_use new old = Ok u /\ length u = length old /\ bits u
    /\ forall k, k < length old -> (nth k u 0%Z = 1%Z <-> nth k new 0%Z = 1%Z /\ nth k old 0%Z = 1%Z).
Proof.
  intros HL HN HO. unfold combine_use. replace (length new =? length old) with true by lia. cbn [negb].
  eexists. split; [reflexivity|]. split; [rewrite map_length, combine_length; lia|]. split.
  - intros z Hz. apply in_map_iff in Hz as (x & <- & _). destruct (_ =? _)%Z; auto.
  - intros k Hk.
    match goal with |- nth k (map ?g _) _ = _ <-> _ => set (G := g) end.
    rewrite (nth_indep _ 0%Z (G (0, 0)%Z)) by (rewrite map_length, combine_length; lia).
    rewrite map_nth, combine_nth by lia. unfold G. cbn [fst snd].
    destruct (HN (nth k new 0%Z)) as [-> | ->]; [apply nth_In; lia| |];
      destruct (HO (nth k old 0%Z)) as [-> | ->]; try (apply nth_In; lia); cbn; split; intuition discriminate.
Qed.

Lemma zeros_count l : zeros l = count_occ Z.eq_dec l 0%Z.
Proof.
  unfold zeros. induction l as [|z l IH]; auto. cbn [filter count_occ].
  destruct (Z.eqb_spec z 0), (Z.eq_dec z 0); cbn [length]; try contradiction; lia.
Qed.

(** ** The whole function *)
Definition masked (w : arr3 Q) (o : fobs) (c : fconfig) (w1 : arr3 Q) : Prop :=
  d_pol w1 = d_pol w /\ d_freq w1 = d_freq w /\ d_bl w1 = d_bl w
  /\ forall p f b, f < d_freq w ->
       (initially_cut o c f -> at3 w1 p f b = 0%Q)
       /\ (~ initially_cut o c f -> at3 w1 p f b = at3 w p f b).

Lemma mask_stage w o c : flag_ready w o c -> exists w0 w1,
  zero_freqs (length (b_freq o)) (freq_cut o c) w = Ok w0
  /\ (if f_flag_frequencies c then
          cuts <- map_res (edge_cut (b_n_freq o)) (seq 0 (b_n_freq o)) ;;
          _ <- edge_cut (b_n_freq o) 0 ;;
          zero_freqs (b_n_freq o) (fun f => nth f cuts false) w0
        else Ok w0) = Ok w1
  /\ masked w o c w1
  /\ (forall f, f < d_freq w -> initially_cut o c f \/ ~ initially_cut o c f).
Proof.
  intros R. pose proof (fr_freq _ _ _ R) as R1. pose proof (fr_nf _ _ _ R) as R2.
  rewrite zero_freqs_ok by congruence.
  match goal with |- exists w0 w1, Ok ?a = Ok w0 /\ _ => exists a end. destruct (f_flag_frequencies c) eqn:EF.
  - pose proof (fr_edge _ _ _ R EF) as HE.
    set (g := fun f => match edge_cut (b_n_freq o) f with Ok b => b | Err _ => false end).
    assert (HG : forall f, edge_cut (b_n_freq o) f = Ok (g f) /\ (g f = true <-> edge_channel (b_n_freq o) f)).
    { intros f. destruct (edge_cut_spec (b_n_freq o) f HE) as (b & E & S). unfold g. rewrite E. auto. }
    rewrite (map_res_total _ g) by (intros a _; exact (proj1 (HG a))). cbn [bind]. rewrite (proj1 (HG 0)). cbn [bind].
    rewrite zero_freqs_ok by (cbn [d_freq]; auto). eexists. split; [reflexivity|]. split; [reflexivity|].
    assert (D : forall f, f < d_freq w -> (g f || freq_cut o c f = true <-> initially_cut o c f)).
    { intros f Hf. unfold initially_cut. rewrite EF, orb_true_iff, (proj2 (HG f)), freq_cut_spec. tauto. }
    split.
    + split; auto. split; auto. split; auto. intros p f b Hf. cbn [at3 d_pol d_freq d_bl].
      rewrite nth_map_seq by lia. replace (f <? b_n_freq o) with true by lia. replace (f <? length (b_freq o)) with true by lia.
      cbn [andb]. specialize (D f Hf). split; intros H.
      * apply D in H. destruct (g f); auto. cbn [orb] in H. now rewrite H.
      * destruct (g f); [exfalso; apply H, D; reflexivity|]. destruct (freq_cut o c f); auto. exfalso; apply H, D; reflexivity.
    + intros f Hf. destruct (g f || freq_cut o c f) eqn:E; [left|right]; rewrite <- (D f Hf), E; auto.
  - eexists. split; [reflexivity|]. split; [reflexivity|].
    assert (D : forall f, f < d_freq w -> (freq_cut o c f = true <-> initially_cut o c f)).
    { intros f Hf. unfold initially_cut. rewrite EF, freq_cut_spec. intuition discriminate. }
    split.
    + split; auto. split; auto. split; auto. intros p f b Hf. cbn [at3 d_pol d_freq d_bl].
      replace (f <? length (b_freq o)) with true by lia. cbn [andb]. specialize (D f Hf). split; intros H.
      * apply D in H. now rewrite H.
      * destruct (freq_cut o c f); auto. exfalso; apply H, D; reflexivity.
    + intros f Hf. destruct (freq_cut o c f) eqn:E; [left|right]; rewrite <- (D f Hf), E; auto.
Qed.

Lemma usable_masked w o c w1 p f b : masked w o c w1 ->
  (forall f, f < d_freq w -> initially_cut o c f \/ ~ initially_cut o c f) ->
  f < d_freq w -> b < d_bl w ->
  (Qltb 0 (at3 w1 p f b) = true <-> usable w o c p f b).
Proof.
  intros (_ & _ & _ & M) D Hf Hb. rewrite Qltb_true. unfold usable. destruct (M p f b Hf) as [M1 M2].
  destruct (D f Hf) as [I|I].
  - rewrite M1 by auto. split; [intros H; exfalso; exact (Qlt_irrefl 0 H)|]. intros (_ & _ & N & _). contradiction.
  - rewrite M2 by auto. tauto.
Qed.
Lemma bl_ok_spec w o c w1 p b : masked w o c w1 ->
  (forall f, f < d_freq w -> initially_cut o c f \/ ~ initially_cut o c f) -> b < d_bl w ->
  (bl_ok w1 p b = true <-> exists f, usable w o c p f b).
Proof.
  intros M D Hb. unfold bl_ok. rewrite existsb_seq. pose proof M as (_ & M2 & _ & _). rewrite M2. split.
  - intros (f & Hf & H). exists f. apply (usable_masked w o c w1); auto; lia.
  - intros (f & H). pose proof H as (Hf & _). exists f. split; [lia|]. now apply (usable_masked w o c w1).
Qed.
Lemma fq_ok_spec w o c w1 p f : masked w o c w1 ->
  (forall f, f < d_freq w -> initially_cut o c f \/ ~ initially_cut o c f) -> f < d_freq w ->
  (fq_ok w1 p f = true <-> exists b, usable w o c p f b).
Proof.
  intros M D Hf. unfold fq_ok. rewrite existsb_seq. pose proof M as (_ & _ & M2 & _). rewrite M2. split.
  - intros (b & Hb & H). exists b. apply (usable_masked w o c w1); auto; lia.
  - intros (b & H). pose proof H as (_ & Hb & _). exists b. split; [lia|]. now apply (usable_masked w o c w1).
Qed.

Lemma flag_basic_ok w nz o c : flag_ready w o c ->
  exists w' r, vis_flag_basic w nz o c = Ok (w', r)
    /\ d_pol w' = d_pol w /\ d_freq w' = d_freq w /\ d_bl w' = d_bl w
    /\ length (r_tile_use r) = b_n_tile o /\ bits (r_tile_use r)
    /\ length (r_freq_use r) = b_n_freq o /\ bits (r_freq_use r)
    /\ (forall t, t < b_n_tile o ->
          (nth t (r_tile_use r) 0%Z = 1%Z <->
           nth t (b_tile_use o) 0%Z = 1%Z /\ forall p, p < b_n_pol o -> tile_has_data w o c p t))
    /\ (forall f, f < b_n_freq o ->
          (nth f (r_freq_use r) 0%Z = 1%Z <->
           nth f (b_freq_use o) 0%Z = 1%Z
           /\ (f_flag_frequencies c = true -> forall p, p < b_n_pol o -> exists b, usable w o c p f b)))
    /\ r_n_tile_flag r = count_occ Z.eq_dec (r_tile_use r) 0%Z
    /\ r_n_freq_flag r = count_occ Z.eq_dec (r_freq_use r) 0%Z
    /\ r_n_time_flag r = count_occ Z.eq_dec (b_time_use o) 0%Z
    /\ (forall p f b, f < d_freq w -> b < d_bl w ->
          (time_cleared o b -> at3 w' p f b = 0%Q)
          /\ (~ time_cleared o b -> restored w nz o c p f b -> at3 w' p f b = 1%Q)
          /\ (~ time_cleared o b -> ~ restored w nz o c p f b -> initially_cut o c f -> at3 w' p f b = 0%Q)
          /\ (~ time_cleared o b -> ~ restored w nz o c p f b -> ~ initially_cut o c f -> at3 w' p f b = at3 w p f b)).
Proof.
  intros R. destruct (mask_stage w o c R) as (w0 & w1 & E0 & E1 & M & D).
  pose proof M as (M1 & M2 & M3 & M4). pose proof (fr_nf _ _ _ R) as Hnf.
  unfold vis_flag_basic. rewrite E0. cbn [bind]. rewrite (fr_list _ _ _ R). cbn [bind]. rewrite E1. cbn [bind].
  rewrite M1, M2, M3, Hnf, Nat.sub_diag. cbn [seq existsb].
  replace ((b_n_freq o =? 0) || (d_bl w =? 0)) with false by (pose proof (fr_f _ _ _ R); pose proof (fr_bl _ _ _ R); lia).
  replace (d_pol w <? b_n_pol o) with false by (pose proof (fr_pol _ _ _ R); lia).
  assert (HA : forall b, b < d_bl w1 -> b < length (b_tile_a o) /\ (1 <= nth b (b_tile_a o) 0 <= Z.of_nat (b_n_tile o))%Z).
  { intros b Hb. rewrite (fr_ta _ _ _ R), <- M3. split; auto. apply (fr_ra _ _ _ R), nth_In. rewrite (fr_ta _ _ _ R). lia. }
  assert (HB : forall b, b < d_bl w1 -> b < length (b_tile_b o) /\ (1 <= nth b (b_tile_b o) 0 <= Z.of_nat (b_n_tile o))%Z).
  { intros b Hb. rewrite (fr_tb _ _ _ R), <- M3. split; auto. apply (fr_rb _ _ _ R), nth_In. rewrite (fr_tb _ _ _ R). lia. }
  destruct (tile_use_ok o w1 HA HB) as (tu & ET & LT & ST). rewrite ET. cbn [bind].
  assert (MK : forall p t, marked o w1 p t <-> tile_has_data w o c p t).
  { intros p t. unfold marked, tile_has_data. split.
    - intros (b & Hb & Hk & Ht). rewrite M3 in Hb. apply (bl_ok_spec w o c w1) in Hk as (f & U); auto. exists f, b; auto.
    - intros (f & b & U & Ht). pose proof U as (Uf & Ub & _). exists b. rewrite M3. split; auto. split; auto.
      apply (bl_ok_spec w o c w1); eauto. }
  set (fu := freq_use_of o w1).
  assert (LF : length fu = b_n_freq o). { unfold fu, freq_use_of. now rewrite map_length, seq_length. }
  assert (SF : forall f, f < b_n_freq o -> (nth f fu 0%Z = 1%Z <-> forall p, p < b_n_pol o -> exists b, usable w o c p f b)).
  { intros f Hf. unfold fu, freq_use_of. rewrite nth_map_seq by auto.
    destruct (forallb _ _) eqn:E.
    - rewrite forallb_seq in E. split; auto. intros _ p Hp. apply (fq_ok_spec w o c w1); auto. lia.
    - split; [discriminate|]. intros H. rewrite <- not_true_iff_false in E. exfalso. apply E, forallb_seq. intros p Hp.
      apply (fq_ok_spec w o c w1); auto. lia. }
  assert (BF : bits fu).
  { intros z Hz. unfold fu, freq_use_of in Hz. apply in_map_iff in Hz as (f & <- & _). destruct (forallb _ _); auto. }
  assert (BT : bits tu).
  { intros z Hz. apply (In_nth _ _ 0%Z) in Hz as (k & Hk & <-). rewrite LT in Hk. destruct (ST k Hk) as [S1 S2].
    assert (Dc : (forall p, p < b_n_pol o -> marked o w1 p k) \/ exists p, p < b_n_pol o /\ ~ marked o w1 p k).
      { clear. induction (b_n_pol o) as [|n IH]; [left; intros; lia|].
        destruct IH as [A|(p & Hp & N)]; [|right; exists p; split; auto; lia].
        destruct (marked_dec o w1 n k) as [Y|N]; [left|right; exists n; split; auto].
        intros p Hp. destruct (Nat.eq_dec p n) as [->|]; auto. apply A; lia. }
      destruct Dc; auto. }
  set (restore := negb (f_flag_frequencies c) && existsb (fun z => (z =? 0)%Z) fu).
  set (w2 := if restore then unflag o nz w1 else w1).
  assert (D2 : d_pol w2 = d_pol w /\ d_freq w2 = d_freq w /\ d_bl w2 = d_bl w).
  { unfold w2. destruct restore; cbn [unflag d_pol d_freq d_bl]; auto. }
  assert (S2 : forall p f b, f < d_freq w -> b < d_bl w ->
     (restored w nz o c p f b -> at3 w2 p f b = 1%Q) /\ (~ restored w nz o c p f b -> at3 w2 p f b = at3 w1 p f b)).
  { intros p f b Hf Hb.
    assert (RS : f_flag_frequencies c = false ->
       ((p <? b_n_pol o) && negb (fq_ok w1 p f) && bl_ok w1 p b && nz p f b = true <-> restored w nz o c p f b)).
    { intros EF. unfold restored. rewrite !andb_true_iff, negb_true_iff, Nat.ltb_lt, (bl_ok_spec w o c w1) by auto.
      assert (NF : fq_ok w1 p f = false <-> forall b', ~ usable w o c p f b').
      { rewrite <- not_true_iff_false, (fq_ok_spec w o c w1) by auto. split.
        - intros N b' U. apply N. eauto.
        - intros N (b' & U). exact (N b' U). }
      rewrite NF. tauto. }
    unfold w2, restore. destruct (f_flag_frequencies c) eqn:EF; cbn [negb andb].
    - split; auto. intros (X & _). congruence.
    - destruct (existsb (fun z => (z =? 0)%Z) fu) eqn:EX.
      + unfold unflag. cbn [at3]. specialize (RS eq_refl).
        destruct ((p <? b_n_pol o) && negb (fq_ok w1 p f) && bl_ok w1 p b && nz p f b).
        * split; auto. intros N. exfalso. apply N, RS. reflexivity.
        * split; auto. intros Y. apply RS in Y. discriminate Y.
      + split; auto. intros (_ & Hp & N & _). exfalso. rewrite <- not_true_iff_false in EX. apply EX.
        apply existsb_exists. exists (nth f fu 0%Z). split; [apply nth_In; lia|].
        assert (Hf' : f < b_n_freq o) by lia.
        destruct (BF (nth f fu 0%Z)) as [-> | H1]; [apply nth_In; lia|reflexivity|].
        destruct (proj1 (SF f Hf') H1 p Hp) as (b' & U). exfalso. exact (N b' U). }
  set (fu2 := if f_flag_frequencies c then fu else repeat 1%Z (b_n_freq o)).
  assert (LF2 : length fu2 = b_n_freq o). { unfold fu2. destruct (f_flag_frequencies c); auto. apply repeat_length. }
  assert (BF2 : bits fu2).
  { unfold fu2. destruct (f_flag_frequencies c); auto. intros z Hz. apply repeat_spec in Hz. auto. }
  assert (TC : exists w3, match b_time_use o with
        | [] => Err ValueError
        | _ => if existsb (fun z => (z <=? 0)%Z) (b_time_use o) then time_cut o w2 else Ok w2
        end = Ok w3 /\ d_pol w3 = d_pol w2 /\ d_freq w3 = d_freq w2 /\ d_bl w3 = d_bl w2
        /\ forall p f b, (time_cleared o b -> at3 w3 p f b = 0%Q) /\ (~ time_cleared o b -> at3 w3 p f b = at3 w2 p f b)).
  { destruct (time_cut_ok o w2) as (w3 & E3 & T1 & T2 & T3 & T4).
    - apply (fr_time _ _ _ R). - apply (fr_off _ _ _ R).
    - intros t Ht. pose proof (fr_pos _ _ _ R t Ht). lia.
    - assert (NE : b_time_use o <> []).
      { intros H. pose proof (fr_time _ _ _ R) as Z1. pose proof (fr_t _ _ _ R) as Z2. rewrite H in Z1. cbn [length] in Z1. lia. }
      destruct (existsb (fun z => (z <=? 0)%Z) (b_time_use o)) eqn:EX.
      + exists w3. split; [destruct (b_time_use o); [congruence|exact E3]|]. auto.
      + exists w2. split; [destruct (b_time_use o); [congruence|reflexivity]|]. split; auto. split; auto. split; auto.
        intros p f b. split; auto. intros (t & Ht & Hu & _). exfalso. rewrite <- not_true_iff_false in EX. apply EX.
        apply existsb_exists. exists (nth t (b_time_use o) 0%Z). split; [apply nth_In; rewrite (fr_time _ _ _ R); auto|]. lia. }
  destruct TC as (w3 & E3 & T1 & T2 & T3 & T4). rewrite E3. cbn [bind].
  destruct (combine_use_ok tu (b_tile_use o)) as (u1 & EU1 & LU1 & BU1 & SU1); auto.
  { rewrite LT, (fr_tile _ _ _ R). auto. } { apply (fr_tbits _ _ _ R). }
  destruct (combine_use_ok fu2 (b_freq_use o)) as (u2 & EU2 & LU2 & BU2 & SU2); auto.
  { rewrite LF2, (fr_fuse _ _ _ R). auto. } { apply (fr_fbits _ _ _ R). }
  rewrite EU1. cbn [bind]. rewrite EU2. cbn [bind]. destruct D2 as (P1 & P2 & P3).
  eexists. eexists. split; [reflexivity|]. cbn [r_tile_use r_freq_use r_n_tile_flag r_n_freq_flag r_n_time_flag].
  rewrite T1, T2, T3, P1, P2, P3, LU1, LU2, (fr_tile _ _ _ R), (fr_fuse _ _ _ R), Hnf, !zeros_count.
  do 7 (split; [solve [auto]|]). split; [|split; [|do 3 (split; [solve [auto]|])]].
  - intros t Ht. rewrite SU1 by (rewrite (fr_tile _ _ _ R); auto). destruct (ST t Ht) as [S1' S2']. split.
    + intros [H1 H2]. split; auto. intros p Hp. apply MK. destruct (marked_dec o w1 p t) as [|N]; auto.
      rewrite S2' in H1 by eauto. discriminate H1.
    + intros [H1 H2]. split; auto. apply S1'. intros p Hp. apply MK. auto.
  - intros f Hf. rewrite SU2 by (rewrite (fr_fuse _ _ _ R); auto). unfold fu2. destruct (f_flag_frequencies c).
    + rewrite SF by auto. tauto.
    + rewrite nth_repeat_lt by auto. split; intros [H1 H2]; split; auto. discriminate.
  - intros p f b Hf Hb. rewrite <- Hnf in Hf. destruct (T4 p f b) as [Q1 Q2]. destruct (S2 p f b Hf Hb) as [Q3 Q4].
    destruct (M4 p f b Hf) as [Q5 Q6].
    split; [auto|]. split; [|split].
    + intros H1 H2. rewrite Q2, Q3; auto.
    + intros H1 H2 H3. rewrite Q2, Q4, Q5; auto.
    + intros H1 H2 H3. rewrite Q2, Q4, Q6; auto.
Qed.
