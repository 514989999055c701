From Coq Require Import ZifyBool ZifyNat.
From Verif Require Import Base Cplx NpArr Rebin.
Open Scope nat_scope.

Lemma qc_of_nat_neq0 n : n <> 0 -> qc_of_nat n <> 0%Qc.
Proof.
  intros H E. apply (f_equal this) in E. unfold qc_of_nat in E. cbn [this Q2Qc] in E.
  assert (E1 : (inject_Z (Z.of_nat n) == 0)%Q) by (rewrite <- (Qred_correct (inject_Z _)), E; reflexivity).
  change 0%Q with (inject_Z 0) in E1. apply (proj1 (inject_Z_injective _ 0)) in E1. lia.
Qed.
Lemma qc_of_nat_mul m n : qc_of_nat (m * n) = (qc_of_nat m * qc_of_nat n)%Qc.
Proof.
  unfold qc_of_nat. apply Qc_is_canon. cbn [this Q2Qc Qcmult]. rewrite !Qred_correct.
  rewrite <- inject_Z_mult, Nat2Z.inj_mul. reflexivity.
Qed.
Lemma qc_of_nat_0 : qc_of_nat 0 = 0%Qc.
Proof. reflexivity. Qed.

(** Sums *)
Lemma Qcsum_n_ext n f g : (forall k, k < n -> f k = g k) -> Qcsum_n n f = Qcsum_n n g.
Proof. intros H. unfold Qcsum_n. f_equal. apply map_ext_in. intros k Hk%in_seq. apply H; lia. Qed.
Lemma Qcsum_n_S n f : Qcsum_n (S n) f = (Qcsum_n n f + f n)%Qc.
Proof.
  unfold Qcsum_n. rewrite seq_S, map_app, Qcsum_app. simpl. f_equal. ring.
Qed.
Lemma Qcsum_n_0 f : Qcsum_n 0 f = 0%Qc.
Proof. reflexivity. Qed.
Lemma Qcsum_n_add n m f : Qcsum_n (n + m) f = (Qcsum_n n f + Qcsum_n m (fun k => f (n + k)%nat))%Qc.
Proof.
  induction m as [|m IH]; [rewrite Nat.add_0_r, Qcsum_n_0; ring|].
  rewrite Nat.add_succ_r, !Qcsum_n_S, IH. ring.
Qed.
Lemma Qcsum_n_blocks n p f :
  Qcsum_n n (fun i => Qcsum_n p (fun r => f (i * p + r))) = Qcsum_n (n * p) f.
Proof.
  induction n as [|n IH]; [reflexivity|]. rewrite Qcsum_n_S, IH.
  replace (S n * p) with (n * p + p) by lia. now rewrite Qcsum_n_add.
Qed.
Lemma Qcsum_n_scale n c f : Qcsum_n n (fun k => c * f k)%Qc = (c * Qcsum_n n f)%Qc.
Proof. induction n as [|n IH]; [rewrite !Qcsum_n_0; ring|]. rewrite !Qcsum_n_S, IH. ring. Qed.
Lemma Qcsum_n_plus n f g : Qcsum_n n (fun k => f k + g k)%Qc = (Qcsum_n n f + Qcsum_n n g)%Qc.
Proof. induction n as [|n IH]; [rewrite !Qcsum_n_0; ring|]. rewrite !Qcsum_n_S, IH. ring. Qed.
Lemma Qcsum_n_swap n m f :
  Qcsum_n n (fun i => Qcsum_n m (fun j => f i j)) = Qcsum_n m (fun j => Qcsum_n n (fun i => f i j)).
Proof.
  induction n as [|n IH].
  - rewrite Qcsum_n_0. symmetry. transitivity (Qcsum_n m (fun _ => 0 * 0)%Qc).
    { apply Qcsum_n_ext. intros. rewrite Qcsum_n_0. ring. }
    rewrite Qcsum_n_scale. ring.
  - rewrite Qcsum_n_S, IH, <- Qcsum_n_plus. apply Qcsum_n_ext. intros. now rewrite Qcsum_n_S.
Qed.

(** ** Downsizing *)
Lemma reshape4_at_block a p s1 q i r j t : cols a = s1 * q -> j < s1 -> t < q ->
  reshape4_at a p s1 q i r j t = at2 a (i * p + r)%nat (j * q + t)%nat.
Proof.
  intros Hc Hj Ht. unfold reshape4_at. cbv zeta. rewrite Hc.
  assert (Hlt : j * q + t < s1 * q) by nia.
  replace (((i * p + r) * s1 + j) * q + t) with ((i * p + r) * (s1 * q) + (j * q + t)) by ring.
  rewrite Nat.div_add_l by nia. rewrite Nat.div_small by auto.
  rewrite Nat.add_comm with (n := (i * p + r) * (s1 * q)), Nat.mod_add by nia.
  rewrite Nat.mod_small by auto. now rewrite Nat.add_0_r.
Qed.

Definition fixed (is_int : bool) (x : Qc) : Qc := if is_int then qc_fix x else x.
Definition floored (is_int : bool) (x : Qc) : Qc := if is_int then qc_floor x else x.

Lemma maybe_at b f a i j : at2 (maybe b f a) i j = if b then f (at2 a i j) else at2 a i j.
Proof. now destruct b. Qed.
Lemma maybe_rows b f a : rows (maybe b f a) = rows a.
Proof. now destruct b. Qed.
Lemma maybe_cols b f a : cols (maybe b f a) = cols a.
Proof. now destruct b. Qed.

Lemma max_mod_ok s p : 1 <= s -> 1 <= p -> Nat.max (s * p) s mod Nat.min (s * p) s = 0.
Proof.
  intros Hs Hp. rewrite Nat.max_l, Nat.min_r by nia. rewrite Nat.mul_comm. apply Nat.mod_mul. lia.
Qed.

Lemma rebin_down is_int x s0 s1 p q :
  1 <= s0 -> 1 <= s1 -> 1 <= p -> 1 <= q -> 2 <= p * q ->
  rows (body x) = s0 * p -> cols (body x) = s1 * q ->
  exists out, rebin is_int x (s0, s1) false = Ok out
    /\ (s0 = 1 -> exists r, out = D1 r) /\ (s0 <> 1 -> exists r, out = D2 r)
    /\ rows (body out) = s0 /\ cols (body out) = s1
    /\ forall i j, i < s0 -> j < s1 ->
         at2 (body out) i j =
         fixed is_int (Qcsum_n p (fun r =>
            fixed is_int (Qcsum_n q (fun t => at2 (body x) (i * p + r)%nat (j * q + t)%nat) / qc_of_nat q)%Qc)
            / qc_of_nat p)%Qc.
Proof.
  intros Hs0 Hs1 Hp Hq Hpq Hr Hc. unfold rebin. rewrite Hr, Hc.
  assert (Hne : (match x with D2 _ => (s0 * p =? s0) && (s1 * q =? s1) | D1 _ => false end) = false).
  { destruct x; auto. apply andb_false_iff. destruct (Nat.eq_dec p 1); [right|left]; apply Nat.eqb_neq; nia. }
  rewrite Hne.
  replace ((s0 <? s0 * p) || (s1 <? s1 * q)) with true.
  2:{ symmetry. apply orb_true_iff. destruct (Nat.eq_dec p 1); [right|left]; apply Nat.ltb_lt; nia. }
  replace ((Nat.min (s0 * p) s0 =? 0) || (Nat.min (s1 * q) s1 =? 0)) with false.
  2:{ symmetry. apply orb_false_iff. rewrite !Nat.min_r by nia. split; apply Nat.eqb_neq; lia. }
  rewrite !max_mod_ok by auto. cbn [Nat.eqb negb orb].
  replace (s0 * p <? s0) with false by (symmetry; apply Nat.ltb_ge; nia).
  replace (s1 * q <? s1) with false by (symmetry; apply Nat.ltb_ge; nia).
  rewrite Hr, Hc.
  replace (s0 * p / s0) with p by (rewrite Nat.mul_comm, Nat.div_mul; lia).
  replace (s1 * q / s1) with q by (rewrite Nat.mul_comm, Nat.div_mul; lia).
  eexists. split; [reflexivity|].
  split; [intros ->; eexists; reflexivity|].
  split; [intros H; rewrite (proj2 (Nat.eqb_neq _ _) H); eexists; reflexivity|].
  assert (B : forall m : arr2 Qc, body (if s0 =? 1 then D1 m else D2 m) = m) by (intros; now destruct (s0 =? 1)).
  rewrite B, maybe_rows, maybe_cols. split; auto. split; auto.
  intros i j Hi Hj. rewrite maybe_at. cbn [at2].
  assert (E : forall f g, (forall r, r < p -> f r = g r) ->
     (if is_int then qc_fix (Qcsum_n p f / qc_of_nat p)%Qc else (Qcsum_n p f / qc_of_nat p)%Qc)
     = fixed is_int (Qcsum_n p g / qc_of_nat p)%Qc).
  { intros f g H. rewrite (Qcsum_n_ext p f g H). now destruct is_int. }
  apply E. intros r Hr'.
  rewrite (Qcsum_n_ext q _ (fun t => at2 (body x) (i * p + r)%nat (j * q + t)%nat)).
  - now destruct is_int.
  - intros t Ht. apply reshape4_at_block; auto.
Qed.

Lemma rebin_down_mean x s0 s1 p q out :
  1 <= s0 -> 1 <= s1 -> 1 <= p -> 1 <= q -> 2 <= p * q ->
  rows (body x) = s0 * p -> cols (body x) = s1 * q ->
  rebin false x (s0, s1) false = Ok out ->
  (forall i j, i < s0 -> j < s1 ->
     at2 (body out) i j = (Qcsum_n p (fun r => Qcsum_n q (fun t => at2 (body x) (i * p + r)%nat (j * q + t)%nat))
                           / qc_of_nat (p * q)%nat)%Qc)
  /\ (Qcsum_n s0 (fun i => Qcsum_n s1 (fun j => at2 (body out) i j)) * qc_of_nat (p * q)%nat
      = Qcsum_n (s0 * p)%nat (fun i => Qcsum_n (s1 * q)%nat (fun j => at2 (body x) i j)))%Qc.
Proof.
  intros Hs0 Hs1 Hp Hq Hpq Hr Hc HR.
  destruct (rebin_down false x s0 s1 p q Hs0 Hs1 Hp Hq Hpq Hr Hc) as (o & HR' & _ & _ & _ & _ & Hat).
  rewrite HR in HR'. injection HR' as <-.
  assert (Hat' : forall i j, i < s0 -> j < s1 ->
     at2 (body out) i j = (Qcsum_n p (fun r => Qcsum_n q (fun t => at2 (body x) (i * p + r)%nat (j * q + t)%nat))
                           / qc_of_nat (p * q)%nat)%Qc).
  { intros i j Hi Hj. rewrite Hat by auto. unfold fixed. rewrite qc_of_nat_mul.
    assert (Hnp := qc_of_nat_neq0 p ltac:(lia)). assert (Hnq := qc_of_nat_neq0 q ltac:(lia)).
    rewrite (Qcsum_n_ext p _ (fun r => / qc_of_nat q * Qcsum_n q (fun t => at2 (body x) (i * p + r)%nat (j * q + t)%nat))%Qc)
      by (intros; unfold Qcdiv; ring).
    rewrite Qcsum_n_scale. field. auto. }
  split; auto.
  rewrite (Qcsum_n_ext s0 _ (fun i => / qc_of_nat (p * q)%nat *
     Qcsum_n p (fun r => Qcsum_n (s1 * q)%nat (fun j => at2 (body x) (i * p + r)%nat j)))%Qc).
  - rewrite Qcsum_n_scale.
    rewrite (Qcsum_n_blocks s0 p (fun k => Qcsum_n (s1 * q) (fun j => at2 (body x) k j))).
    assert (H := qc_of_nat_neq0 (p * q) ltac:(lia)). field. auto.
  - intros i Hi.
    rewrite (Qcsum_n_ext s1 _ (fun j => / qc_of_nat (p * q)%nat *
       Qcsum_n p (fun r => Qcsum_n q (fun t => at2 (body x) (i * p + r)%nat (j * q + t)%nat)))%Qc).
    + rewrite Qcsum_n_scale. f_equal. rewrite Qcsum_n_swap. apply Qcsum_n_ext. intros r Hr'.
      now rewrite (Qcsum_n_blocks s1 q (fun k => at2 (body x) (i * p + r) k)).
    + intros j Hj. rewrite Hat' by auto. unfold Qcdiv. ring.
Qed.

(** Non-dividing shapes are refused. *)
Lemma rebin_down_bad is_int x s0 s1 : 1 <= s0 -> 1 <= s1 ->
  1 <= rows (body x) -> 1 <= cols (body x) ->
  s0 < rows (body x) \/ s1 < cols (body x) ->
  (s0 <= rows (body x) /\ rows (body x) mod s0 <> 0) \/ (s1 <= cols (body x) /\ cols (body x) mod s1 <> 0) ->
  rebin is_int x (s0, s1) false = Err ValueError.
Proof.
  intros H0 H1 Hr Hc Hlt Hbad. unfold rebin.
  assert (Hne : (match x with D2 _ => (rows (body x) =? s0) && (cols (body x) =? s1) | D1 _ => false end) = false).
  { destruct x; auto. apply andb_false_iff. destruct Hlt; [left|right]; apply Nat.eqb_neq; lia. }
  rewrite Hne.
  replace ((s0 <? rows (body x)) || (s1 <? cols (body x))) with true
    by (symmetry; apply orb_true_iff; destruct Hlt; [left|right]; now apply Nat.ltb_lt).
  replace ((Nat.min (rows (body x)) s0 =? 0) || (Nat.min (cols (body x)) s1 =? 0)) with false
    by (symmetry; apply orb_false_iff; split; apply Nat.eqb_neq; lia).
  assert (E : negb (Nat.max (rows (body x)) s0 mod Nat.min (rows (body x)) s0 =? 0)
     || negb (Nat.max (cols (body x)) s1 mod Nat.min (cols (body x)) s1 =? 0) = true).
  { apply orb_true_iff. destruct Hbad as [[Ha Hb]|[Ha Hb]]; [left|right];
    rewrite Nat.max_l, Nat.min_r by lia; apply negb_true_iff, Nat.eqb_neq; auto. }
  rewrite E. reflexivity.
Qed.

(** ** Expansion *)
Lemma mod_block i k r : r < k -> (i * k + r) mod k = r.
Proof. intros. rewrite Nat.add_comm, Nat.mod_add by lia. now apply Nat.mod_small. Qed.
Lemma div_block i k r : r < k -> (i * k + r) / k = i.
Proof. intros. rewrite Nat.div_add_l by lia. rewrite Nat.div_small by lia. lia. Qed.

(** One-dimensional interpolation between neighbours x and y at offset s of k. *)
Definition lerp (is_int : bool) (k s : nat) (x y : Qc) : Qc :=
  (x + floored is_int ((y - x) * qc_of_nat s / qc_of_nat k))%Qc.

Lemma qc_floor_0 : qc_floor 0%Qc = 0%Qc.
Proof. reflexivity. Qed.

Lemma lerp_same is_int k s x : lerp is_int k s x x = x.
Proof.
  unfold lerp. replace ((x - x) * qc_of_nat s / qc_of_nat k)%Qc with 0%Qc by (unfold Qcdiv; ring).
  destruct is_int; simpl; rewrite ?qc_floor_0; ring.
Qed.
Lemma lerp_start is_int k x y : lerp is_int k 0 x y = x.
Proof.
  unfold lerp. rewrite qc_of_nat_0. replace ((y - x) * 0 / qc_of_nat k)%Qc with 0%Qc by (unfold Qcdiv; ring).
  destruct is_int; simpl; rewrite ?qc_floor_0; ring.
Qed.

Lemma bdim_same n : bdim n n = Some n.
Proof. unfold bdim. now rewrite Nat.eqb_refl. Qed.
Lemma bidx_lt n i : i < n -> bidx n i = i.
Proof. unfold bidx. destruct (Nat.eqb_spec n 1); lia. Qed.

Lemma rebin_rows_spec is_int a o0 o1 rs s1 :
  1 <= o0 -> 1 <= o1 -> 1 <= rs -> rows a = o0 -> cols a = o1 ->
  exists r, rebin_rows is_int a (o0 * rs, s1) o1 rs = Ok r
    /\ rows r = o0 * rs /\ cols r = o1
    /\ forall p s j, p < o0 -> s < rs -> j < o1 ->
         at2 r (p * rs + s) j = lerp is_int rs s (at2 a p j) (at2 a (Nat.min (S p) (o0 - 1)) j).
Proof.
  intros Ho0 Ho1 Hrs Hr Hc. unfold rebin_rows.
  assert (T : (o0 * rs - rs) / rs = o0 - 1).
  { replace (o0 * rs - rs) with ((o0 - 1) * rs) by nia. apply Nat.div_mul. lia. }
  rewrite T. cbn [bind azip].
  unfold azip at 1. cbn [rows cols np_repeat0 np_tile amap np_diff0].
  rewrite Hr, Hc.
  replace (rs * (o0 - 1)) with ((o0 - 1) * rs) by ring. rewrite Nat.mul_1_l, !bdim_same.
  cbn [bind]. unfold azip. rewrite maybe_rows, maybe_cols.
  cbn [rows cols drop_cols np_pad np_repeat0].
  rewrite Hr, Hc. replace ((o0 - 1) * rs + rs) with (o0 * rs) by nia.
  replace (o1 + rs - rs) with o1 by lia. rewrite !bdim_same.
  eexists. split; [reflexivity|]. cbn [rows cols]. split; auto. split; auto.
  intros p s j Hp Hs Hj.
  assert (Hi : p * rs + s < o0 * rs) by nia.
  cbn [at2]. rewrite (bidx_lt (o0 * rs)) by auto. rewrite (bidx_lt o1) by auto.
  rewrite maybe_at. cbn [at2 drop_cols np_pad np_repeat0 rows cols].
  rewrite div_block by auto.
  destruct (Nat.ltb_spec (p * rs + s) ((o0 - 1) * rs)) as [Hlt|Hge].
  - rewrite (proj2 (Nat.ltb_lt j o1)) by auto. cbn [andb].
    rewrite !(bidx_lt ((o0 - 1) * rs)) by auto. rewrite !(bidx_lt o1) by auto.
    cbn [at2 amap np_diff0 np_tile rows cols]. rewrite div_block, mod_block by auto.
    assert (Hp1 : p < o0 - 1) by nia.
    rewrite Nat.min_l by lia. unfold lerp, floored.
    replace ((at2 a (S p) j - at2 a p j) / qc_of_nat rs * qc_of_nat s)%Qc
      with ((at2 a (S p) j - at2 a p j) * qc_of_nat s / qc_of_nat rs)%Qc by (unfold Qcdiv; ring).
    destruct is_int; ring.
  - cbn [andb].
    assert (Hp1 : p = o0 - 1) by nia.
    rewrite Nat.min_r by lia. rewrite <- Hp1, lerp_same.
    destruct is_int; rewrite ?qc_floor_0; ring.
Qed.

(** Columns; [a] may have fewer rows than s0 when it has one row (broadcast). *)
Lemma rebin_columns_spec is_int a s0 o1 cs :
  1 <= s0 -> 1 <= o1 -> 1 <= cs -> (rows a = s0 \/ rows a = 1) -> cols a = o1 ->
  exists r, rebin_columns is_int a (s0, o1 * cs) cs = Ok r
    /\ rows r = s0 /\ cols r = o1 * cs
    /\ forall i q t, i < s0 -> q < o1 -> t < cs ->
         at2 r i (q * cs + t) = lerp is_int cs t (at2 a (bidx (rows a) i) q)
                                              (at2 a (bidx (rows a) i) (Nat.min (S q) (o1 - 1))).
Proof.
  intros Hs0 Ho1 Hcs Hr Hc. unfold rebin_columns.
  rewrite Nat.div_mul by lia.
  unfold azip at 1. cbn [rows cols np_repeat1 np_tile amap np_diff1].
  rewrite Hc.
  assert (BR : bdim (rows a) (1 * s0) = Some s0).
  { unfold bdim. rewrite Nat.mul_1_l. destruct Hr as [-> | ->].
    - now rewrite Nat.eqb_refl.
    - destruct (Nat.eqb_spec 1 s0) as [<-|]; reflexivity. }
  rewrite BR. replace (cs * (o1 - 1)) with ((o1 - 1) * cs) by ring. rewrite bdim_same.
  cbn [bind]. unfold azip. rewrite maybe_rows, maybe_cols.
  cbn [rows cols drop_rows np_pad np_repeat1].
  rewrite Hc. replace (s0 + cs - cs) with s0 by lia.
  replace ((o1 - 1) * cs + cs) with (o1 * cs) by nia. rewrite bdim_same.
  assert (BR2 : bdim s0 (rows a) = Some s0).
  { unfold bdim. destruct Hr as [-> | ->].
    - now rewrite Nat.eqb_refl.
    - destruct (Nat.eqb_spec s0 1) as [->|]; reflexivity. }
  rewrite BR2. eexists. split; [reflexivity|]. cbn [rows cols]. split; auto. split; auto.
  intros i q t Hi Hq Ht.
  assert (Hj : q * cs + t < o1 * cs) by nia.
  cbn [at2]. rewrite (bidx_lt s0) by auto. rewrite !(bidx_lt (o1 * cs)) by auto.
  rewrite maybe_at. cbn [at2 drop_rows np_pad np_repeat1 rows cols].
  rewrite div_block by auto. rewrite (proj2 (Nat.ltb_lt i s0)) by auto. cbn [andb].
  destruct (Nat.ltb_spec (q * cs + t) ((o1 - 1) * cs)) as [Hlt|Hge].
  - rewrite !(bidx_lt ((o1 - 1) * cs)) by auto.
    cbn [at2 amap np_diff1 np_tile rows cols]. rewrite div_block, mod_block by auto.
    assert (Hq1 : q < o1 - 1) by nia.
    rewrite Nat.min_l by lia. unfold lerp, floored.
    set (b := bidx (rows a) i).
    replace ((at2 a b (S q) - at2 a b q) / qc_of_nat cs * qc_of_nat t)%Qc
      with ((at2 a b (S q) - at2 a b q) * qc_of_nat t / qc_of_nat cs)%Qc by (unfold Qcdiv; ring).
    destruct is_int; ring.
  - assert (Hq1 : q = o1 - 1) by nia.
    rewrite Nat.min_r by lia. rewrite <- Hq1, lerp_same.
    destruct is_int; rewrite ?qc_floor_0; ring.
Qed.

Lemma rebin_up_2d is_int a o0 o1 rs cs :
  2 <= o0 -> 1 <= o1 -> 1 <= rs -> 1 <= cs -> rows a = o0 -> cols a = o1 ->
  exists out, rebin is_int (D2 a) (o0 * rs, o1 * cs) false = Ok (D2 out)
    /\ rows out = o0 * rs /\ cols out = o1 * cs
    /\ forall p s q t, p < o0 -> s < rs -> q < o1 -> t < cs ->
         let row j := lerp is_int rs s (at2 a p j) (at2 a (Nat.min (S p) (o0 - 1)) j) in
         at2 out (p * rs + s) (q * cs + t) = lerp is_int cs t (row q) (row (Nat.min (S q) (o1 - 1))).
Proof.
  intros Ho0 Ho1 Hrs Hcs Hr Hc. unfold rebin. cbn [body]. rewrite Hr, Hc.
  destruct (Nat.eqb_spec o0 (o0 * rs)) as [E0|E0]; [destruct (Nat.eqb_spec o1 (o1 * cs)) as [E1|E1]|]; cbn [andb].
  { (* same shape *)
    assert (rs = 1) by nia. assert (cs = 1) by nia. subst rs cs.
    exists a. split; auto. split; [lia|]. split; [lia|].
    intros p s q t Hp Hs Hq Ht. assert (s = 0) by lia. assert (t = 0) by lia. subst.
    cbv zeta. rewrite !lerp_start. f_equal; lia. }
  all: replace ((o0 * rs <? o0) || (o1 * cs <? o1)) with false
      by (symmetry; apply orb_false_iff; split; apply Nat.ltb_ge; nia);
    replace ((o0 =? 0) || (o1 =? 0)) with false
      by (symmetry; apply orb_false_iff; split; apply Nat.eqb_neq; lia);
    rewrite (Nat.mul_comm o0 rs), (Nat.mul_comm o1 cs), !Nat.mod_mul by lia; cbn [negb orb Nat.eqb];
    rewrite !Nat.div_mul by lia;
    rewrite (Nat.mul_comm rs o0), (Nat.mul_comm cs o1);
    replace (o0 =? 1) with false by (symmetry; apply Nat.eqb_neq; lia);
    destruct (rebin_rows_spec is_int a o0 o1 rs (o1 * cs) ltac:(lia) Ho1 Hrs Hr Hc) as (r & Er & Rr & Rc & Rat);
    rewrite Er; cbn [bind]; rewrite Rr, Rc, Nat.eqb_refl; cbn [andb].
  - rewrite (proj2 (Nat.eqb_neq _ _) E1).
    destruct (rebin_columns_spec is_int r (o0 * rs) o1 cs ltac:(nia) Ho1 Hcs (or_introl Rr) Rc)
      as (u & Eu & Ur & Uc & Uat).
    rewrite Eu. cbn [bind]. exists u. split; auto. split; auto. split; auto.
    intros p s q t Hp Hs Hq Ht. cbv zeta.
    assert (p * rs + s < o0 * rs) by nia.
    rewrite Uat by auto. rewrite Rr, bidx_lt by auto.
    rewrite !Rat by (auto; lia). reflexivity.
  - destruct (Nat.eqb_spec o1 (o1 * cs)) as [E1|E1].
    + assert (cs = 1) by nia. subst cs.
      exists r. split; auto. split; auto. split; [lia|].
      intros p s q t Hp Hs Hq Ht. cbv zeta. assert (t = 0) by lia. subst t.
      rewrite lerp_start. rewrite Nat.mul_1_r, Nat.add_0_r. apply Rat; auto.
    + destruct (rebin_columns_spec is_int r (o0 * rs) o1 cs ltac:(nia) Ho1 Hcs (or_introl Rr) Rc)
        as (u & Eu & Ur & Uc & Uat).
      rewrite Eu. cbn [bind]. exists u. split; auto. split; auto. split; auto.
      intros p s q t Hp Hs Hq Ht. cbv zeta.
      assert (p * rs + s < o0 * rs) by nia.
      rewrite Uat by auto. rewrite Rr, bidx_lt by auto.
      rewrite !Rat by (auto; lia). reflexivity.
Qed.

Lemma rebin_up_1d is_int a o1 s0 cs :
  1 <= o1 -> 1 <= s0 -> 1 <= cs -> rows a = 1 -> cols a = o1 ->
  exists out, rebin is_int (D1 a) (s0, o1 * cs) false = Ok out
    /\ (s0 = 1 -> out = D1 (body out)) /\ (s0 <> 1 -> out = D2 (body out))
    /\ rows (body out) = s0 /\ cols (body out) = o1 * cs
    /\ forall i q t, i < s0 -> q < o1 -> t < cs ->
         at2 (body out) i (q * cs + t) = lerp is_int cs t (at2 a 0 q) (at2 a 0 (Nat.min (S q) (o1 - 1))).
Proof.
  intros Ho1 Hs0 Hcs Hr Hc. unfold rebin. cbn [body]. rewrite Hr, Hc.
  replace ((s0 <? 1) || (o1 * cs <? o1)) with false
    by (symmetry; apply orb_false_iff; split; apply Nat.ltb_ge; nia).
  replace ((1 =? 0) || (o1 =? 0)) with false
    by (symmetry; apply orb_false_iff; split; apply Nat.eqb_neq; lia).
  rewrite Nat.mod_1_r, (Nat.mul_comm o1 cs), Nat.mod_mul by lia. cbn [negb orb Nat.eqb].
  rewrite Nat.div_mul by lia. rewrite (Nat.mul_comm cs o1).
  destruct (rebin_columns_spec is_int a s0 o1 cs Hs0 Ho1 Hcs (or_intror Hr) Hc) as (u & Eu & Ur & Uc & Uat).
  rewrite Eu. cbn [bind]. eexists. split; [reflexivity|].
  assert (B : body (if s0 =? 1 then D1 u else D2 u) = u) by now destruct (s0 =? 1).
  rewrite B. split; [intros ->; reflexivity|].
  split; [intros H; now rewrite (proj2 (Nat.eqb_neq _ _) H)|].
  split; auto. split; auto. intros i q t Hi Hq Ht. rewrite Uat by auto.
  rewrite Hr. reflexivity.
Qed.

Lemma rebin_up_bad is_int x s0 s1 : 1 <= rows (body x) -> 1 <= cols (body x) ->
  rows (body x) <= s0 -> cols (body x) <= s1 ->
  (s0 mod rows (body x) <> 0 \/ s1 mod cols (body x) <> 0) ->
  rebin is_int x (s0, s1) false = Err ValueError.
Proof.
  intros Hr Hc H0 H1 Hbad. unfold rebin.
  assert (Hne : (match x with D2 _ => (rows (body x) =? s0) && (cols (body x) =? s1) | D1 _ => false end) = false).
  { destruct x; auto. apply andb_false_iff. destruct Hbad as [H|H]; [left|right]; apply Nat.eqb_neq; intros E;
    apply H; rewrite <- E; apply Nat.mod_same; lia. }
  rewrite Hne.
  replace ((s0 <? rows (body x)) || (s1 <? cols (body x))) with false
    by (symmetry; apply orb_false_iff; split; apply Nat.ltb_ge; lia).
  replace ((rows (body x) =? 0) || (cols (body x) =? 0)) with false
    by (symmetry; apply orb_false_iff; split; apply Nat.eqb_neq; lia).
  replace (negb (s0 mod rows (body x) =? 0) || negb (s1 mod cols (body x) =? 0)) with true; [reflexivity|].
  symmetry. apply orb_true_iff. destruct Hbad; [left|right]; now apply negb_true_iff, Nat.eqb_neq.
Qed.

(** ** Sampling *)
Lemma sample_up_2d is_int a o0 o1 rs cs :
  2 <= o0 -> 1 <= o1 -> 1 <= rs -> 1 <= cs -> 2 <= rs * cs -> rows a = o0 -> cols a = o1 ->
  exists out, rebin is_int (D2 a) (o0 * rs, o1 * cs) true = Ok (D2 out)
    /\ rows out = o0 * rs /\ cols out = o1 * cs
    /\ forall p s q t, p < o0 -> s < rs -> q < o1 -> t < cs ->
         at2 out (p * rs + s) (q * cs + t) = at2 a p q.
Proof.
  intros Ho0 Ho1 Hrs Hcs H2 Hr Hc. unfold rebin. cbn [body]. rewrite Hr, Hc.
  replace ((o0 =? o0 * rs) && (o1 =? o1 * cs)) with false.
  2:{ symmetry. apply andb_false_iff. destruct (Nat.eq_dec rs 1); [right|left]; apply Nat.eqb_neq; nia. }
  replace (o0 =? 1) with false by (symmetry; apply Nat.eqb_neq; lia).
  replace (o0 <=? o0 * rs) with true by (symmetry; apply Nat.leb_le; nia).
  replace (o0 =? 0) with false by (symmetry; apply Nat.eqb_neq; lia). cbn [bind].
  replace (o1 <=? o1 * cs) with true by (symmetry; apply Nat.leb_le; nia).
  replace (o1 =? 0) with false by (symmetry; apply Nat.eqb_neq; lia). cbn [bind].
  rewrite (Nat.mul_comm o0 rs), (Nat.mul_comm o1 cs), !Nat.div_mul by lia.
  eexists. split; [reflexivity|]. cbn [rows cols np_repeat0 np_repeat1 at2]. rewrite Hr, Hc.
  split; [lia|]. split; [lia|]. intros p s q t Hp Hs Hq Ht.
  rewrite !div_block by auto. reflexivity.
Qed.

Lemma ceil_mul n k : 1 <= k -> (n * k + k - 1) / k = n.
Proof.
  intros H. replace (n * k + k - 1) with (n * k + (k - 1)) by lia.
  rewrite div_block; lia.
Qed.

Lemma sample_down_2d is_int a s0 s1 rs cs :
  2 <= s0 -> 1 <= s1 -> 1 <= rs -> 1 <= cs -> 2 <= rs * cs -> rows a = s0 * rs -> cols a = s1 * cs ->
  exists out, rebin is_int (D2 a) (s0, s1) true = Ok (D2 out)
    /\ rows out = s0 /\ cols out = s1
    /\ forall i j, i < s0 -> j < s1 -> at2 out i j = at2 a (i * rs) (j * cs).
Proof.
  intros Hs0 Hs1 Hrs Hcs H2 Hr Hc. unfold rebin. cbn [body]. rewrite Hr, Hc.
  replace ((s0 * rs =? s0) && (s1 * cs =? s1)) with false.
  2:{ symmetry. apply andb_false_iff. destruct (Nat.eq_dec rs 1); [right|left]; apply Nat.eqb_neq; nia. }
  replace (s0 * rs =? 1) with false by (symmetry; apply Nat.eqb_neq; nia).
  assert (R : exists b, (if s0 * rs <=? s0 then if s0 * rs =? 0 then Err ZeroDivision
       else Ok (np_repeat0 a (s0 / (s0 * rs)))
     else if s0 =? 0 then Err ZeroDivision else Ok (stride0 a (s0 * rs / s0))) = Ok b
     /\ rows b = s0 /\ cols b = cols a /\ forall i j, i < s0 -> at2 b i j = at2 a (i * rs) j).
  { destruct (Nat.leb_spec (s0 * rs) s0) as [H|H].
    - assert (rs = 1) by nia. subst rs. rewrite Nat.mul_1_r in *.
      replace (s0 =? 0) with false by (symmetry; apply Nat.eqb_neq; lia).
      eexists. split; [reflexivity|]. rewrite Nat.div_same by lia. cbn [rows cols np_repeat0 at2].
      split; [lia|]. split; auto. intros. rewrite Nat.div_1_r. f_equal; lia.
    - replace (s0 =? 0) with false by (symmetry; apply Nat.eqb_neq; lia).
      rewrite Nat.mul_comm, Nat.div_mul by lia.
      eexists. split; [reflexivity|]. cbn [rows cols stride0 at2]. rewrite Hr.
      split; [apply ceil_mul; lia|]. split; auto. }
  destruct R as (b & Eb & Br & Bc & Bat). rewrite Eb. cbn [bind].
  assert (R : exists u, (if s1 * cs <=? s1 then if s1 * cs =? 0 then Err ZeroDivision
       else Ok (np_repeat1 b (s1 / (s1 * cs)))
     else if s1 =? 0 then Err ZeroDivision else Ok (stride1 b (s1 * cs / s1))) = Ok u
     /\ rows u = rows b /\ cols u = s1 /\ forall i j, j < s1 -> at2 u i j = at2 b i (j * cs)).
  { destruct (Nat.leb_spec (s1 * cs) s1) as [H|H].
    - assert (cs = 1) by nia. subst cs. rewrite Nat.mul_1_r in *.
      replace (s1 =? 0) with false by (symmetry; apply Nat.eqb_neq; lia).
      eexists. split; [reflexivity|]. rewrite Nat.div_same by lia. cbn [rows cols np_repeat1 at2].
      split; auto. split; [lia|]. intros. rewrite Nat.div_1_r. f_equal; lia.
    - replace (s1 =? 0) with false by (symmetry; apply Nat.eqb_neq; lia).
      rewrite Nat.mul_comm, Nat.div_mul by lia.
      eexists. split; [reflexivity|]. cbn [rows cols stride1 at2]. rewrite Bc, Hc.
      split; auto. split; [apply ceil_mul; lia|]. auto. }
  destruct R as (u & Eu & Ur & Uc & Uat). rewrite Eu. cbn [bind].
  exists u. split; auto. split; [congruence|]. split; auto.
  intros i j Hi Hj. rewrite Uat, Bat by auto. reflexivity.
Qed.

Lemma sample_round_trip is_int a o0 o1 rs cs :
  2 <= o0 -> 1 <= o1 -> 1 <= rs -> 1 <= cs -> rows a = o0 -> cols a = o1 ->
  exists big back, rebin is_int (D2 a) (o0 * rs, o1 * cs) true = Ok (D2 big)
    /\ rebin is_int (D2 big) (o0, o1) true = Ok (D2 back)
    /\ arr_eq back a.
Proof.
  intros Ho0 Ho1 Hrs Hcs Hr Hc.
  destruct (Nat.lt_ge_cases (rs * cs) 2) as [H1|H2].
  - assert (rs = 1) by nia. assert (cs = 1) by nia. subst rs cs.
    exists a, a. unfold rebin; cbn [body]. rewrite Hr, Hc, !Nat.mul_1_r, !Nat.eqb_refl. cbn [andb].
    split; auto. split; auto. now repeat split.
  - destruct (sample_up_2d is_int a o0 o1 rs cs) as (big & Eb & Br & Bc & Bat); auto.
    destruct (sample_down_2d is_int big o0 o1 rs cs) as (back & Ek & Kr & Kc & Kat); auto.
    exists big, back. split; auto. split; auto. split; [congruence|]. split; [congruence|].
    intros i j Hi Hj. rewrite Kat by lia.
    rewrite <- (Bat i 0 j 0) by lia. f_equal; lia.
Qed.

Lemma sample_1d is_int a o1 cs s0 :
  1 <= o1 -> 2 <= cs -> rows a = 1 -> cols a = o1 ->
  exists out, rebin is_int (D1 a) (s0, o1 * cs) true = Ok (D1 out)
    /\ rows out = 1 /\ cols out = o1 * cs
    /\ (forall q t, q < o1 -> t < cs -> at2 out 0 (q * cs + t) = at2 a 0 q)
    /\ exists back, rebin is_int (D1 out) (s0, o1) true = Ok (D1 back) /\ arr_eq back a.
Proof.
  intros Ho1 Hcs Hr Hc. unfold rebin at 1. cbn [body]. rewrite Hr, Hc. cbn [Nat.eqb].
  replace (o1 <? o1 * cs) with true by (symmetry; apply Nat.ltb_lt; nia).
  rewrite (Nat.mul_comm o1 cs), Nat.div_mul by lia.
  eexists. split; [reflexivity|]. cbn [rows cols np_repeat1 at2]. split; auto. rewrite Hc.
  split; [lia|]. split.
  - intros q t Hq Ht. now rewrite div_block.
  - unfold rebin. cbn [body rows cols np_repeat1]. rewrite Hr, Hc. cbn [Nat.eqb].
    replace (o1 * cs <? o1) with false by (symmetry; apply Nat.ltb_ge; nia).
    replace (o1 =? 0) with false by (symmetry; apply Nat.eqb_neq; lia).
    rewrite (Nat.mul_comm o1 cs), Nat.div_mul by lia.
    eexists. split; [reflexivity|]. split; [reflexivity|]. cbn [rows cols stride1 at2 np_repeat1].
    rewrite Hc, ceil_mul by lia. split; auto.
    intros i j Hi Hj. rewrite Nat.div_mul by lia. reflexivity.
Qed.

(** ** The mixed case: one dimension grows while the other shrinks. *)
Lemma rebin_mixed_rows a o0 s0 s1 k q :
  2 <= k -> 1 <= o0 -> s0 = o0 * k -> 1 <= s1 -> 2 <= q -> rows a = o0 -> cols a = s1 * q ->
  exists out, rebin false (D2 a) (s0, s1) false = Ok (D2 out)
    /\ rows out = s0 /\ cols out = s1
    /\ forall i j, i < s0 -> j < s1 ->
        at2 out i j = (Qcsum_n o0 (fun r => Qcsum_n q (fun t => at2 a r (j * q + t)%nat)) / qc_of_nat (o0 * q)%nat)%Qc.
Proof.
  intros Hk Ho0 -> Hs1 Hq Hr Hc. unfold rebin. cbn [body]. rewrite Hr, Hc.
  replace ((o0 =? o0 * k) && (s1 * q =? s1)) with false
    by (symmetry; apply andb_false_iff; left; apply Nat.eqb_neq; nia).
  replace ((o0 * k <? o0) || (s1 <? s1 * q)) with true
    by (symmetry; apply orb_true_iff; right; apply Nat.ltb_lt; nia).
  replace ((Nat.min o0 (o0 * k) =? 0) || (Nat.min (s1 * q) s1 =? 0)) with false
    by (symmetry; apply orb_false_iff; split; apply Nat.eqb_neq; rewrite ?Nat.min_l, ?Nat.min_r by nia; lia).
  rewrite max_mod_ok by lia.
  rewrite (Nat.max_comm o0), (Nat.min_comm o0), max_mod_ok by lia. cbn [Nat.eqb negb orb].
  replace (o0 <? o0 * k) with true by (symmetry; apply Nat.ltb_lt; nia).
  cbn [np_tile rows cols]. rewrite Hr, Hc, Nat.mul_1_r.
  rewrite (Nat.div_mul o0 (o0 * k)) by nia.
  replace (s1 * q / s1) with q by (rewrite Nat.mul_comm, Nat.div_mul; lia).
  replace (o0 * k =? 1) with false by (symmetry; apply Nat.eqb_neq; nia).
  eexists. split; [reflexivity|]. cbn [maybe rows cols]. split; auto. split; auto.
  intros i j Hi Hj. cbn [at2 maybe].
  assert (Hnp := qc_of_nat_neq0 o0 ltac:(lia)). assert (Hnq := qc_of_nat_neq0 q ltac:(lia)).
  rewrite (Qcsum_n_ext o0 _ (fun r => / qc_of_nat q * Qcsum_n q (fun t => at2 a r (j * q + t)%nat))%Qc).
  - rewrite Qcsum_n_scale, qc_of_nat_mul. field. auto.
  - intros r Hr'. 
    rewrite (Qcsum_n_ext q _ (fun t => at2 a r (j * q + t)%nat)); [unfold Qcdiv; ring|].
    intros t Ht. rewrite reshape4_at_block by (auto; unfold np_tile; cbn [cols]; lia). cbn [at2 np_tile].
    rewrite Hr, Hc. rewrite mod_block by auto. f_equal. apply Nat.mod_small. nia.
Qed.
