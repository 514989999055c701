(** C69: property theorems about the mixing angle between Stokes Q and U (calibrate_qu_mixing). *)
From Coq Require Import ZifyBool ZifyNat.
From Verif Require Import Base Cplx NpArr VisWeights VisWeightsProps Utils1 Utils1Spec Utils1Proofs CalApply CalAutoProofs QuMixing QuMixingSpec.
Open Scope nat_scope.
Ltac Zify.zify_post_hook ::= idtac.

Lemma clip_is w : clip_weight w = weight01 w.
Proof.
  unfold clip_weight, weight01. destruct (Qclt_le_dec w 0) as [L|L].
  - destruct (Qclt_le_dec 1 0) as [X|_]; [discriminate X|reflexivity].
  - destruct (Qclt_le_dec 1 w) as [X|X], (Qclt_le_dec w 1) as [Y|Y]; auto.
    + exfalso. apply (Qclt_not_le _ _ X). now apply Qclt_le_weak.
    + now apply Qcle_antisym.
Qed.
Lemma weight01_nonneg w : (0 <= weight01 w)%Qc.
Proof. unfold weight01. destruct (Qclt_le_dec w 0); [discriminate|]. destruct (Qclt_le_dec w 1); auto. discriminate. Qed.
Lemma weight01_pos w : weight01 w <> 0%Qc <-> (0 < w)%Qc.
Proof.
  unfold weight01. destruct (Qclt_le_dec w 0) as [L|L].
  - split; [contradiction|]. intros P. exfalso. apply (Qclt_not_le _ _ P). now apply Qclt_le_weak.
  - destruct (Qclt_le_dec w 1) as [Y|Y].
    + split; [|intros P E; rewrite E in P; discriminate P]. intros N. apply Qcle_lt_or_eq in L as [L|L]; auto. congruence.
    + split; [|discriminate]. intros _. eapply Qclt_le_trans; [|exact Y]. reflexivity.
Qed.

Lemma Qcsum_zero l : (forall x, In x l -> (0 <= x)%Qc) -> (Qcsum l = 0%Qc <-> forall x, In x l -> x = 0%Qc).
Proof.
  induction l as [|a l IH]; intros H; [cbn; split; auto; intros _ x []|].
  change (Qcsum (a :: l)) with (a + Qcsum l)%Qc.
  assert (Hl : (0 <= Qcsum l)%Qc).
  { clear IH. assert (H' : forall x, In x l -> (0 <= x)%Qc) by (intros; apply H; now right). clear H.
    induction l as [|b l IH]; [discriminate|]. change (Qcsum (b :: l)) with (b + Qcsum l)%Qc.
    replace 0%Qc with (0 + 0)%Qc by ring. apply Qcplus_le_compat; [apply H'; now left|]. apply IH. intros; apply H'; now right. }
  pose proof (H a (or_introl eq_refl)) as Ha.
  assert (IH' := IH (fun x Hx => H x (or_intror Hx))). split.
  - intros E. assert (Ea : a = 0%Qc).
    { apply Qcle_antisym; auto. rewrite <- E. replace a with (a + 0)%Qc at 1 by ring. apply Qcplus_le_compat; auto. apply Qcle_refl. }
    subst a. intros x [<-|Hx]; auto. apply IH'; auto. rewrite <- E. ring.
  - intros E. rewrite (E a) by now left. rewrite (proj2 IH'); [ring|]. intros; apply E; now right.
Qed.

Lemma flat_map_map {A B D} (f : A -> list B) (g : B -> D) l : map g (flat_map f l) = flat_map (fun a => map g (f a)) l.
Proof. induction l as [|a l IH]; cbn [flat_map map]; auto. now rewrite map_app, IH. Qed.
Lemma flat_map_ext_in {A B} (f g : A -> list B) l : (forall a, In a l -> f a = g a) -> flat_map f l = flat_map g l.
Proof. induction l as [|a l IH]; intros H; cbn [flat_map]; auto. rewrite (H a), IH; auto; [intros; apply H; now right|now left]. Qed.
Lemma filter_ext_in' {A} (f g : A -> bool) l : (forall a, In a l -> f a = g a) -> filter f l = filter g l.
Proof. induction l as [|a l IH]; intros H; cbn [filter]; auto. rewrite (H a), IH; auto; [intros; apply H; now right|now left]. Qed.

Lemma combine2_avg op v i j nf nt nb w :
  i < d_pol v -> j < d_pol v -> d_freq v = nf -> d_bl v = nt * nb ->
  exists m out, combine2 op v i j = Ok m /\ reshape_and_average_in_time m nf nt nb (nf, nt, nb) w = Ok out
    /\ forall f b, f < nf -> b < nb -> nth b (nth f out []) C0
         = Csum (map (fun t => Cscale (w f t b) (op (at3 v i f (t * nb + b)) (at3 v j f (t * nb + b)))) (seq 0 nt)).
Proof.
  intros Hi Hj Ef Eb. unfold combine2. replace ((d_pol v <=? i) || (d_pol v <=? j)) with false by lia.
  set (m := map _ _). assert (Sh : shape2 m nf (nt * nb)).
  { split; [unfold m; rewrite map_length, seq_length; auto|]. intros r Hr. unfold m. rewrite nth_map_seq by lia. rewrite map_length, seq_length. auto. }
  destruct (time_average m nf nt nb w Sh) as (out & E & _ & V). exists m, out. split; auto. split; auto.
  intros f b Hf Hb. specialize (V f b Hf Hb). unfold nth2 in V. rewrite V. f_equal. apply map_ext_in. intros t Ht%in_seq. f_equal.
  unfold m. rewrite nth_map_seq by lia. rewrite nth_map_seq by nia. reflexivity.
Qed.

(** The value: the angle of the model minus that of the data, over the frequencies and baselines seen. *)
Theorem C69_value : forall slope arg_ vis model weights n_freq n_time n_baselines,
  full_pol vis n_freq n_time n_baselines -> full_pol model n_freq n_time n_baselines -> weights_for weights n_freq n_time n_baselines ->
  calibrate_qu_mixing slope arg_ vis model weights n_freq n_time n_baselines
  = Ok (mixing_angle slope arg_ n_freq n_time n_baselines weights model - mixing_angle slope arg_ n_freq n_time n_baselines weights vis)%Qc.
Proof.
  intros slope arg_ vis model w nf nt nb (V1 & V2 & V3) (M1 & M2 & M3) (W1 & W2 & W3). unfold calibrate_qu_mixing.
  replace (d_pol w =? 0) with false by lia. rewrite W2, W3. replace (nf * (nt * nb) =? nf * nt * nb) with true by lia. cbn [negb].
  set (wf := fun f t b => _).
  assert (Hw : forall f t b, f < nf -> t < nt -> b < nb -> wf f t b = weight01 (at3 w 0 f (t * nb + b))).
  { intros f t b Hf Ht Hb. unfold wf. rewrite clip_is. assert (t * nb + b < nt * nb) by nia.
    replace (f * (nt * nb) + t * nb + b) with (t * nb + b + f * (nt * nb)) by lia.
    rewrite Nat.div_add, Nat.mod_add, Nat.div_small, Nat.mod_small by lia. reflexivity. }
  destruct (combine2_avg Csub vis 1 0 nf nt nb wf) as (m1 & o1 & E1 & A1 & L1); auto; try lia. rewrite E1. cbn [bind]. rewrite A1. cbn [bind].
  destruct (combine2_avg Cadd vis 3 2 nf nt nb wf) as (m2 & o2 & E2 & A2 & L2); auto; try lia. rewrite E2. cbn [bind]. rewrite A2. cbn [bind].
  destruct (combine2_avg Csub model 1 0 nf nt nb wf) as (m3 & o3 & E3 & A3 & L3); auto; try lia. rewrite E3. cbn [bind]. rewrite A3. cbn [bind].
  destruct (combine2_avg Cadd model 3 2 nf nt nb wf) as (m4 & o4 & E4 & A4 & L4); auto; try lia. rewrite E4. cbn [bind]. rewrite A4. cbn [bind].
  assert (X : forall m v (x : arr3 C -> nat -> nat -> C),
    (forall f b, f < nf -> b < nb -> nth b (nth f m []) C0 = Csum (map (fun t => Cscale (wf f t b) (x v f (t * nb + b))) (seq 0 nt))) ->
    select nf nb (fun f b => negb (if Qc_eq_dec (Qcsum (map (fun t => wf f t b) (seq 0 nt))) 0 then true else false)) m
    = map (fun fb => over_time nt nb w (x v) (fst fb) (snd fb)) (seen nf nt nb w)).
  { intros m v x Hm. unfold select, seen. rewrite flat_map_map. apply flat_map_ext_in. intros f Hf%in_seq. rewrite map_map. cbn [fst snd].
    rewrite (filter_ext_in' _ (fun b => existsb (fun t => positive (at3 w 0 f (t * nb + b))) (seq 0 nt))).
    - apply map_ext_in. intros b Hb. apply filter_In in Hb as [Hb%in_seq _]. rewrite Hm by lia. unfold over_time. f_equal.
      apply map_ext_in. intros t Ht%in_seq. now rewrite Hw by lia.
    - intros b Hb%in_seq. replace (map (fun t => wf f t b) (seq 0 nt)) with (map (fun t => weight01 (at3 w 0 f (t * nb + b))) (seq 0 nt)).
      2:{ apply map_ext_in. intros t Ht%in_seq. now rewrite Hw by lia. }
      apply Bool.eq_iff_eq_true. rewrite existsb_exists. destruct (Qc_eq_dec _ 0) as [Z|Z]; cbn [negb].
      + split; [discriminate|]. intros (t & Ht & P). exfalso. unfold positive in P. destruct (Qclt_le_dec 0 _) as [P'|]; [|discriminate].
        apply weight01_pos in P'. apply P'. apply (proj1 (Qcsum_zero _ ltac:(intros y Hy; apply in_map_iff in Hy as (k & <- & _); apply weight01_nonneg)) Z).
        apply in_map_iff. eauto.
      + split; auto. intros _. destruct (existsb (fun t => positive (at3 w 0 f (t * nb + b))) (seq 0 nt)) eqn:Ex.
        * apply existsb_exists in Ex as (t & Ht & P). eauto.
        * exfalso. apply Z. apply Qcsum_zero; [intros y Hy; apply in_map_iff in Hy as (k & <- & _); apply weight01_nonneg|].
          intros y Hy. apply in_map_iff in Hy as (t & <- & Ht). destruct (Qc_eq_dec (weight01 (at3 w 0 f (t * nb + b))) 0) as [|N]; auto.
          exfalso. apply weight01_pos in N. apply Bool.not_true_iff_false in Ex. apply Ex, existsb_exists. exists t. split; auto.
          unfold positive. destruct (Qclt_le_dec 0 _) as [|Y]; auto. now apply Qcle_not_lt in Y. }
  unfold mixing_angle. rewrite <- (X o1 vis pseudo_q L1), <- (X o2 vis pseudo_u L2), <- (X o3 model pseudo_q L3), <- (X o4 model pseudo_u L4). reflexivity.
Qed.
Print Assumptions C69_value.

Lemma over_time_ext nt nb w x y f b :
  (forall t, t < nt -> (0 < at3 w 0 f (t * nb + b))%Qc -> x f (t * nb + b) = y f (t * nb + b)) ->
  over_time nt nb w x f b = over_time nt nb w y f b.
Proof.
  intros H. unfold over_time. f_equal. apply map_ext_in. intros t Ht%in_seq.
  destruct (Qc_eq_dec (weight01 (at3 w 0 f (t * nb + b))) 0) as [->|N].
  - apply C_ext; cbn [re im Cscale]; ring.
  - apply weight01_pos in N. rewrite H; auto. lia.
Qed.
Lemma seen_In nf nt nb w f b : In (f, b) (seen nf nt nb w) -> f < nf /\ b < nb.
Proof.
  unfold seen. rewrite in_flat_map. intros (g & Hg%in_seq & H). apply in_map_iff in H as (c & [= <- <-] & H).
  apply filter_In in H as [H%in_seq _]. lia.
Qed.
Lemma angle_ext slope arg_ nf nt nb w v v' : weights_for w nf nt nb -> agree_where_used w v v' ->
  mixing_angle slope arg_ nf nt nb w v = mixing_angle slope arg_ nf nt nb w v'.
Proof.
  intros (W1 & W2 & W3) H. unfold mixing_angle. do 2 f_equal; apply map_ext_in; intros [f b] I; apply seen_In in I; cbn [fst snd];
    apply over_time_ext; intros t Ht P; apply H; auto; nia.
Qed.

(** Calibrated data that equal the model have no excess mixing; what is in flagged samples does not matter. *)
Theorem C69_perfect : forall slope arg_ vis model weights n_freq n_time n_baselines,
  full_pol vis n_freq n_time n_baselines -> full_pol model n_freq n_time n_baselines -> weights_for weights n_freq n_time n_baselines ->
  agree_where_used weights vis model ->
  calibrate_qu_mixing slope arg_ vis model weights n_freq n_time n_baselines = Ok 0%Qc.
Proof.
  intros. rewrite C69_value by auto. rewrite (angle_ext slope arg_ n_freq n_time n_baselines weights vis model) by auto. f_equal. ring.
Qed.
Print Assumptions C69_perfect.

(** Flagged samples of the data, of the model, or both never influence the result. *)
Theorem C69_flagged : forall slope arg_ vis vis' model model' weights n_freq n_time n_baselines,
  full_pol vis n_freq n_time n_baselines -> full_pol vis' n_freq n_time n_baselines ->
  full_pol model n_freq n_time n_baselines -> full_pol model' n_freq n_time n_baselines -> weights_for weights n_freq n_time n_baselines ->
  agree_where_used weights vis vis' -> agree_where_used weights model model' ->
  calibrate_qu_mixing slope arg_ vis model weights n_freq n_time n_baselines
  = calibrate_qu_mixing slope arg_ vis' model' weights n_freq n_time n_baselines.
Proof.
  intros. rewrite !C69_value by auto. rewrite (angle_ext slope arg_ n_freq n_time n_baselines weights vis vis') by auto.
  now rewrite (angle_ext slope arg_ n_freq n_time n_baselines weights model model') by auto.
Qed.
Print Assumptions C69_flagged.

(** If the Q of the data is the Q of the model turned by a factor [c] and U is the same, the result is minus the angle of [c]. *)
Theorem C69_rotated : forall slope arg_ vis model weights n_freq n_time n_baselines c,
  full_pol vis n_freq n_time n_baselines -> full_pol model n_freq n_time n_baselines -> weights_for weights n_freq n_time n_baselines ->
  (forall f b, pseudo_q vis f b = (c * pseudo_q model f b)%C) -> (forall f b, pseudo_u vis f b = pseudo_u model f b) ->
  (forall x y, slope x (map (Cmul c) y) = (c * slope x y)%C) ->
  (forall z, arg_ (c * z)%C = (arg_ c + arg_ z)%Qc) ->
  calibrate_qu_mixing slope arg_ vis model weights n_freq n_time n_baselines = Ok (- arg_ c)%Qc.
Proof.
  intros slope arg_ vis model w nf nt nb c V M W Q U Hs Ha. rewrite C69_value by auto. f_equal. unfold mixing_angle.
  set (s := seen nf nt nb w).
  assert (Eu : map (fun fb => over_time nt nb w (pseudo_u vis) (fst fb) (snd fb)) s = map (fun fb => over_time nt nb w (pseudo_u model) (fst fb) (snd fb)) s).
  { apply map_ext. intros fb. apply over_time_ext. auto. }
  assert (Eq : map (fun fb => over_time nt nb w (pseudo_q vis) (fst fb) (snd fb)) s
               = map (Cmul c) (map (fun fb => over_time nt nb w (pseudo_q model) (fst fb) (snd fb)) s)).
  { rewrite map_map. apply map_ext. intros fb. unfold over_time. generalize (seq 0 nt). intros l. induction l as [|t l IH]; cbn [map Csum fold_right].
    - ring.
    - unfold Csum in IH. rewrite IH, Q. match goal with |- (Cscale ?x (c * ?y) + ?z)%C = _ => generalize x y end.
      intros x y. match goal with |- (_ + c * ?z)%C = _ => generalize z end. intros z. apply C_ext; cbn [re im Cscale Cmul Cadd]; ring. }
  rewrite Eu, Eq, Hs, Ha. ring.
Qed.
Print Assumptions C69_rotated.

(** A case: one channel, two times of two baselines, the second baseline flagged throughout and one time weighted half;
    the angle oracle tells 1 from i by 0 and 1, the slope oracle divides the first entries. *)
Definition c69_model : arr3 C := Arr3 4 1 4 (fun p _ b => match p with 1 => mkC (Q2Qc (inject_Z (Z.of_nat (b + 1)))) 0 | 3 => C1 | _ => C0 end).
Definition c69_vis : arr3 C := Arr3 4 1 4 (fun p f b => match p with 1 => (Ci * at3 c69_model 1 f b)%C | _ => at3 c69_model p f b end).
Definition c69_w : arr3 Qc := Arr3 4 1 4 (fun _ _ b => match b with 0 => Q2Qc (1 # 2) | 2 => Q2Qc 3 | 1 => (- (1))%Qc | _ => 0%Qc end).
Definition c69_slope (u q : list C) : C := match u, q with a :: _, b :: _ => (b / a)%C | _, _ => C0 end.
Definition c69_arg (c : C) : Qc := if Qc_eq_dec (im c) 0 then 0%Qc else 1%Qc.
Example C69_case : full_pol c69_vis 1 2 2 /\ full_pol c69_model 1 2 2 /\ weights_for c69_w 1 2 2
  /\ (forall f b, pseudo_q c69_vis f b = (Ci * pseudo_q c69_model f b)%C) /\ (forall f b, pseudo_u c69_vis f b = pseudo_u c69_model f b)
  /\ seen 1 2 2 c69_w = [(0, 0)]
  /\ match calibrate_qu_mixing c69_slope c69_arg c69_vis c69_model c69_w 1 2 2 with Ok q => Qeq_bool (this q) (-1) | _ => false end = true.
Proof.
  split; [repeat split; cbn; lia|]. split; [repeat split; cbn; lia|]. split; [repeat split; cbn; lia|].
  split; [intros f b; unfold pseudo_q; cbn [c69_vis c69_model at3]; ring|]. split; [reflexivity|]. split; vm_compute; reflexivity.
Qed.
