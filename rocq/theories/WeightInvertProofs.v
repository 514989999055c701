From Verif Require Import Base Cplx WeightInvert WeightInvertSpec.
Open Scope Qc_scope.

Lemma Qcleb_true x y : Qcleb x y = true <-> x <= y.
Proof.
  unfold Qcleb. destruct (Qclt_le_dec y x); split; intros; try discriminate; auto.
  exfalso. eapply Qclt_not_le; eauto.
Qed.
Lemma Qceqb_true x y : Qceqb x y = true <-> x = y.
Proof. unfold Qceqb. destruct (Qc_eq_dec x y); split; intros; congruence. Qed.
Lemma Qceqb_false x y : Qceqb x y = false <-> x <> y.
Proof. unfold Qceqb. destruct (Qc_eq_dec x y); split; intros; congruence. Qed.

(** Squares and absolute values. *)
Lemma Qclt_le x y : x < y -> x <= y.
Proof. apply Qclt_le_weak. Qed.
Lemma Qcmul_nonneg x y : 0 <= x -> 0 <= y -> 0 <= x * y.
Proof. intros Hx Hy. replace 0 with (0 * y) by ring. now apply Qcmult_le_compat_r. Qed.
Lemma Qc_sub_nonneg x y : x <= y <-> 0 <= y - x.
Proof.
  split; intros H.
  - replace 0 with (x + - x) by ring. unfold Qcminus. apply Qcplus_le_compat; auto. apply Qcle_refl.
  - replace x with (0 + x) by ring. replace y with ((y - x) + x) by ring.
    apply Qcplus_le_compat; auto. apply Qcle_refl.
Qed.
Lemma Qc_neg_pos x : x < 0 -> 0 <= - x.
Proof.
  intros H. apply Qc_sub_nonneg. replace (- x - 0) with (- x) by ring.
  replace (- x) with (0 - x) by ring. apply -> Qc_sub_nonneg. now apply Qclt_le.
Qed.
Lemma Qc_le_of_sq s t : 0 <= s -> 0 <= t -> s * s <= t * t -> s <= t.
Proof.
  intros Hs Ht H. destruct (Qclt_le_dec t s) as [Hlt|]; auto. exfalso.
  assert (H1 : t * t <= t * s).
  { rewrite (Qcmult_comm t s). apply Qcmult_le_compat_r; auto. now apply Qclt_le. }
  assert (H2 : 0 < s).
  { eapply Qcle_lt_trans; eauto. }
  assert (H3 : t * s < s * s) by (apply Qcmult_lt_compat_r; auto).
  eapply Qclt_not_le; [eapply Qcle_lt_trans; [exact H1|exact H3]|exact H].
Qed.
Lemma Qc_sq_le s t : 0 <= s -> s <= t -> s * s <= t * t.
Proof.
  intros Hs H. eapply Qcle_trans with (s * t).
  - rewrite (Qcmult_comm s t). apply Qcmult_le_compat_r; auto.
  - apply Qcmult_le_compat_r; auto. eapply Qcle_trans; eauto.
Qed.

Definition Qcabs_ (x : Qc) : Qc := if Qclt_le_dec x 0 then - x else x.
Lemma Qcabs_nonneg x : 0 <= Qcabs_ x.
Proof. unfold Qcabs_. destruct (Qclt_le_dec x 0); auto. now apply Qc_neg_pos. Qed.
Lemma Qcabs_sq x : Qcabs_ x * Qcabs_ x = x * x.
Proof. unfold Qcabs_. destruct (Qclt_le_dec x 0); ring. Qed.
Lemma Qcabs_0 x : Qcabs_ x = 0 <-> x = 0.
Proof.
  unfold Qcabs_. destruct (Qclt_le_dec x 0); split; intros H; subst; auto.
  - replace x with (- - x) by ring. rewrite H. ring.
Qed.
Lemma abs_ge x t : t <= Qcabs_ x <-> t < 0 \/ t * t <= x * x.
Proof.
  rewrite <- (Qcabs_sq x). split.
  - intros H. destruct (Qclt_le_dec t 0); auto. right. now apply Qc_sq_le.
  - intros [H|H].
    + apply Qcle_trans with 0; [now apply Qclt_le|apply Qcabs_nonneg].
    + destruct (Qclt_le_dec t 0) as [Hn|Hn].
      * apply Qcle_trans with 0; [now apply Qclt_le|apply Qcabs_nonneg].
      * apply Qc_le_of_sq; auto. apply Qcabs_nonneg.
Qed.

Lemma Qc_mul_0 x y : x * y = 0 -> x = 0 \/ y = 0.
Proof. apply Qcmult_integral. Qed.

(** The reciprocal computed by the complex division algorithm. *)
Lemma xcinv_finite x y : x * x + y * y <> 0 ->
  xcinv (Fin x) (Fin y) = (Fin (x / (x * x + y * y)), Fin (- y / (x * x + y * y))).
Proof.
  intros Hn. unfold xcinv. cbn [xabs]. fold (Qcabs_ x) (Qcabs_ y).
  destruct (xge (Fin (Qcabs_ x)) (Fin (Qcabs_ y))) eqn:E; cbn [xge] in E.
  - apply Qcleb_true in E.
    assert (Hx : x <> 0).
    { intros ->. apply Hn. assert (Qcabs_ 0 = 0) as E0 by (apply Qcabs_0; auto). rewrite E0 in E.
      assert (Ey : y = 0) by (apply Qcabs_0, Qcle_antisym; auto; apply Qcabs_nonneg).
      rewrite Ey. ring. }
    cbn [xnonzero]. rewrite (proj2 (Qceqb_false (Qcabs_ x) 0)) by (rewrite Qcabs_0; auto).
    cbn [negb andb xdiv xmul xadd xsub xopp].
    destruct (Qc_eq_dec x 0) as [|_]; [contradiction|]. cbn [xmul xadd xdiv].
    assert (Hd : x + y * (y / x) <> 0).
    { intros E1. apply Hn. replace (x * x + y * y) with (x * (x + y * (y / x))) by (field; auto).
      rewrite E1. ring. }
    destruct (Qc_eq_dec (x + y * (y / x)) 0) as [|_]; [contradiction|].
    unfold xsub; cbn [xmul xadd xopp]; f_equal; f_equal; field; auto.
  - assert (Hy : y <> 0).
    { intros ->. assert (Qcabs_ 0 = 0) as E0 by (apply Qcabs_0; auto). rewrite E0 in E.
      assert (Qcleb 0 (Qcabs_ x) = true) by (apply Qcleb_true, Qcabs_nonneg). congruence. }
    cbn [xdiv xmul xadd xsub xopp].
    destruct (Qc_eq_dec y 0) as [|_]; [contradiction|]. cbn [xmul xadd xdiv].
    assert (Hd : y + x * (x / y) <> 0).
    { intros E1. apply Hn. replace (x * x + y * y) with (y * (y + x * (x / y))) by (field; auto).
      rewrite E1. ring. }
    destruct (Qc_eq_dec (y + x * (x / y)) 0) as [|_]; [contradiction|].
    assert (Hn2 : y * y + x * x <> 0) by (rewrite Qcplus_comm; auto).
    unfold xsub; cbn [xmul xadd xopp]; f_equal; f_equal; field; auto.
Qed.

Lemma xcinv_zero : xcinv (Fin 0) (Fin 0) = (PInf, NaN).
Proof. vm_compute. reflexivity. Qed.

Definition fin (x : xf) : bool := match x with Fin _ => true | _ => false end.

Ltac fin_zero := match goal with
  | |- Some _ = Some _ => f_equal; apply C_ext; cbn [re im C0]; try ring
  end.

Lemma xcinv_nonfinite r i : fin r && fin i = false ->
  value (clean_inf (clean_nan (let '(a, b) := xcinv r i in NCplx a b))) = Some C0.
Proof.
  destruct r as [x| | |], i as [y| | |]; simpl fin; intros H; try discriminate;
  cbv [xcinv xabs xge xnonzero negb andb xdiv xmul xadd xsub xopp clean_nan clean_inf is_nan is_inf orb value inf_times];
  repeat (match goal with |- context [Qceqb ?a ?b] => destruct (Qceqb a b) end);
  try reflexivity; try fin_zero.
Qed.

Lemma used_complex t ua x y :
  (x * x + y * y <> 0) ->
  (used t ua (NCplx (Fin x) (Fin y)) = true <-> meets t ua (NCplx (Fin x) (Fin y)) (mkC x y)).
Proof.
  intros Hn. unfold used, meets, cmod. destruct t as [t|].
  - destruct t as [t| | |]; simpl; try (split; intros; [discriminate|contradiction]); [|split; auto].
    destruct (Qclt_le_dec t 0) as [Hl|Hl].
    + split; auto.
    + rewrite Qcleb_true. split; [auto|]. intros [H|H]; auto. exfalso.
      eapply Qclt_not_le; eauto.
  - rewrite (proj2 (Qceqb_false _ _) Hn). simpl. split; auto.
Qed.

Lemma used_real t ua x (w : num) :
  (w = NFloat (Fin x) \/ (exists z, w = NInt z /\ x = Q2Qc (inject_Z z))) ->
  x <> 0 ->
  (used t ua w = true <-> meets t ua w (mkC x 0)).
Proof.
  assert (G : forall q, q = (if ua then Qcabs_ x else x) -> x <> 0 ->
    (match t with Some t => xge (Fin q) t | None => xnonzero (Fin q) end = true
     <-> match t with None => True
         | Some t => if ua then abs_at_least (mkC x 0) t else real_at_least x t end)).
  { intros q Hq Hx. destruct t as [t|].
    - destruct t as [t| | |].
      + simpl. rewrite Qcleb_true. destruct ua; subst q; simpl; [|tauto].
        replace (x * x + 0 * 0) with (x * x) by ring. apply abs_ge.
      + destruct ua; simpl; split; intros; [discriminate|contradiction|discriminate|contradiction].
      + destruct ua; simpl; split; auto.
      + destruct ua; simpl; split; intros; [discriminate|contradiction|discriminate|contradiction].
    - simpl. split; auto. intros _. rewrite (proj2 (Qceqb_false _ _)); auto.
      subst q. destruct ua; auto. rewrite Qcabs_0. auto. }
  intros Hw Hx. destruct Hw as [->|(z & -> & Hz)].
  - unfold used, meets. rewrite <- (G (if ua then Qcabs_ x else x)) by auto.
    destruct ua; reflexivity.
  - unfold used, meets. cbv zeta.
    rewrite <- (G (Q2Qc (inject_Z (if ua then Z.abs z else z)))).
    + reflexivity.
    + destruct ua; auto. subst x. unfold Qcabs_. destruct (Qclt_le_dec (Q2Qc (inject_Z z)) 0) as [Hn|Hn].
      * assert (Hz : (z < 0)%Z).
        { unfold Qclt in Hn. cbn [this Q2Qc] in Hn. rewrite !Qred_correct in Hn.
          rewrite Zlt_Qlt. exact Hn. }
        rewrite Z.abs_neq by lia. apply Qc_is_canon. cbn [this Q2Qc Qcopp].
        rewrite !Qred_correct, inject_Z_opp. reflexivity.
      * assert (Hz : (0 <= z)%Z).
        { unfold Qcle in Hn. cbn [this Q2Qc] in Hn. rewrite !Qred_correct in Hn.
          rewrite Zle_Qle. exact Hn. }
        rewrite Z.abs_eq by lia. reflexivity.
    + auto.
Qed.

Lemma clean_fin_real q : clean_inf (clean_nan (NFloat (Fin q))) = NFloat (Fin q).
Proof. reflexivity. Qed.

Lemma entry_float_complex t ua w : ~ is_integer_dtype w ->
  exists c', value (invert_entry t ua w) = Some c'
    /\ (forall c, usable t ua w c -> (c' * c)%C = C1)
    /\ ((forall c, ~ usable t ua w c) -> c' = C0).
Proof.
  intros Hk. destruct w as [x|z|r i]; [| now simpl in Hk |].
  - (* floats *)
    destruct x as [x| | |].
    + destruct (Qc_eq_dec x 0) as [->|Hx].
      * exists C0. split; [|split; auto].
        { unfold invert_entry, assigned. destruct (used _ _ _); [|reflexivity].
          vm_compute. reflexivity. }
        intros c (Hv & Hc & _). injection Hv as <-. exfalso. now apply Hc.
      * destruct (used t ua (NFloat (Fin x))) eqn:E.
        -- exists (mkC (1 / x) 0). split; [|split].
           { unfold invert_entry, assigned. rewrite E. cbn [xdiv].
             destruct (Qc_eq_dec x 0); [contradiction|]. reflexivity. }
           { intros c (Hv & _). injection Hv as <-. apply C_ext; simpl; field; auto. }
           { intros H. exfalso. apply (H (mkC x 0)). split; [reflexivity|]. split.
             - intros E0. apply Hx. now injection E0.
             - apply used_real; auto. }
        -- exists C0. split; [|split; auto].
           { unfold invert_entry, assigned. rewrite E. reflexivity. }
           intros c (Hv & Hc & Hm). injection Hv as <-.
           apply (used_real t ua x) in Hm; auto. congruence.
    + exists C0. split; [|split; auto; intros c (Hv & _); discriminate].
      unfold invert_entry, assigned. destruct (used _ _ _); reflexivity.
    + exists C0. split; [|split; auto; intros c (Hv & _); discriminate].
      unfold invert_entry, assigned. destruct (used _ _ _); reflexivity.
    + exists C0. split; [|split; auto; intros c (Hv & _); discriminate].
      unfold invert_entry, assigned. destruct (used _ _ _); reflexivity.
  - destruct (fin r && fin i) eqn:F.
    + destruct r as [x| | |]; try discriminate. destruct i as [y| | |]; try discriminate. clear F.
      destruct (Qc_eq_dec (x * x + y * y) 0) as [H0|Hn].
      * apply Qc_sum_sq_0 in H0. destruct H0 as [-> ->].
        exists C0. split; [|split; auto].
        { unfold invert_entry, assigned. destruct (used _ _ _); [|reflexivity].
          rewrite xcinv_zero. reflexivity. }
        intros c (Hv & Hc & _). injection Hv as <-. exfalso. now apply Hc.
      * assert (Hc0 : mkC x y <> C0).
        { intros E0. apply Hn. injection E0 as -> ->. ring. }
        destruct (used t ua (NCplx (Fin x) (Fin y))) eqn:E.
        -- exists (mkC (x / (x * x + y * y)) (- y / (x * x + y * y))). split; [|split].
           { unfold invert_entry, assigned. rewrite E, xcinv_finite by auto. reflexivity. }
           { intros c (Hv & _). injection Hv as <-. apply C_ext; simpl; field; auto. }
           { intros H. exfalso. apply (H (mkC x y)). split; [reflexivity|]. split; auto.
             apply used_complex; auto. }
        -- exists C0. split; [|split; auto].
           { unfold invert_entry, assigned. rewrite E. reflexivity. }
           intros c (Hv & Hc & Hm). injection Hv as <-.
           apply (used_complex t ua x y) in Hm; auto. congruence.
    + exists C0. split; [|split; auto].
      * unfold invert_entry, assigned. destruct (used _ _ _); [|reflexivity].
        now apply xcinv_nonfinite.
      * intros c (Hv & _). destruct r, i; simpl in F; try discriminate.
Qed.

(** The dtype is kept. *)
Definition same_kind (a b : num) : Prop :=
  match a, b with NFloat _, NFloat _ | NInt _, NInt _ | NCplx _ _, NCplx _ _ => True | _, _ => False end.
Lemma entry_kind t ua w : same_kind w (invert_entry t ua w).
Proof.
  unfold invert_entry, assigned. destruct (used t ua w), w as [x|z|r i]; try exact I.
  - destruct (xdiv (Fin 1) x); exact I.
  - destruct (xcinv r i) as [a b]. simpl. destruct (is_nan a || is_nan b); simpl; auto.
    destruct (is_inf a || is_inf b); exact I.
Qed.

(** Integer arrays: the reciprocal is truncated. *)
Lemma Q2Qc_inject_0 z : Q2Qc (inject_Z z) = 0 <-> z = 0%Z.
Proof.
  split; [|intros ->; reflexivity]. intros H.
  assert (E : (inject_Z z == 0)%Q).
  { rewrite <- (Qred_correct (inject_Z z)). change (Qred (inject_Z z)) with (this (Q2Qc (inject_Z z))).
    rewrite H. reflexivity. }
  change 0%Q with (inject_Z 0) in E. now apply (proj1 (inject_Z_injective z 0)) in E.
Qed.

Lemma trunc_inverse z : z <> 0%Z ->
  Qtrunc (this (1 / Q2Qc (inject_Z z))) = if (Z.abs z =? 1)%Z then z else 0%Z.
Proof.
  intros Hz.
  assert (E : (this (1 / Q2Qc (inject_Z z)) == 1 / inject_Z z)%Q).
  { cbn [this Qcdiv Qcmult Qcinv Q2Qc]. rewrite !Qred_correct. reflexivity. }
  assert (EF : forall a b, (a == b)%Q -> Qtrunc a = Qtrunc b).
  { intros a b Hab. unfold Qtrunc.
    assert (Hb : Qle_bool 0 a = Qle_bool 0 b).
    { destruct (Qle_bool 0 a) eqn:Ea; symmetry.
      - apply Qle_bool_iff. rewrite <- Hab. now apply Qle_bool_iff.
      - destruct (Qle_bool 0 b) eqn:Eb; auto. apply Qle_bool_iff in Eb. rewrite <- Hab in Eb.
        apply Qle_bool_iff in Eb. congruence. }
    rewrite Hb. destruct (Qle_bool 0 b); [now apply Qfloor_comp|].
    unfold Qceiling. f_equal. apply Qfloor_comp. now rewrite Hab. }
  rewrite (EF _ _ E). destruct z as [|p|p]; [congruence| |].
  - assert (E1 : (1 / inject_Z (Z.pos p) == 1 # p)%Q) by reflexivity.
    rewrite (EF _ _ E1). rewrite Qtrunc_nonneg by (unfold Qle; simpl; lia).
    unfold Qfloor. destruct (Z.eqb_spec (Z.abs (Z.pos p)) 1) as [Hp|Hp].
    + simpl in Hp. rewrite Hp. reflexivity.
    + apply Z.div_1_l. simpl in Hp. lia.
  - assert (E1 : (1 / inject_Z (Z.neg p) == (-1) # p)%Q) by reflexivity.
    rewrite (EF _ _ E1). unfold Qtrunc.
    replace (Qle_bool 0 (-1 # p)) with false by reflexivity.
    unfold Qceiling, Qfloor. simpl Qopp. cbn [Qopp Qnum Qden].
    destruct (Z.eqb_spec (Z.abs (Z.neg p)) 1) as [Hp|Hp].
    + simpl in Hp. injection Hp as ->. reflexivity.
    + rewrite Z.div_1_l; [reflexivity|]. simpl in Hp. lia.
Qed.

Lemma entry_int t ua z : 
  invert_entry t ua (NInt z) =
  NInt (if used t ua (NInt z)
        then if (z =? 0)%Z then int_min else if (Z.abs z =? 1)%Z then z else 0%Z
        else 0%Z).
Proof.
  unfold invert_entry, assigned. destruct (used t ua (NInt z)); [|reflexivity].
  cbn [clean_inf clean_nan]. f_equal. cbn [xdiv].
  destruct (Z.eqb_spec z 0) as [->|Hz].
  - vm_compute. reflexivity.
  - destruct (Qc_eq_dec (Q2Qc (inject_Z z)) 0) as [E|_].
    + apply Q2Qc_inject_0 in E. contradiction.
    + cbn [to_int]. now apply trunc_inverse.
Qed.
