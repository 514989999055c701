(** Gridding is linear in the visibilities: relational proof over three runs. *)
From Coq Require Import ZifyBool ZifyNat.
From Verif Require Import Base SortLib Cplx NpArr PyIndex Histogram ArrayMatch Utils1 WeightInvert GridLoc VisGrid.
Open Scope nat_scope.

Definition with_data (gi : grid_input) (vis : arr2 C) (model : option (arr2 C)) : grid_input :=
  {| gi_loc := gi_loc gi; gi_fbin := gi_fbin gi; gi_group := gi_group gi; gi_group_cols := gi_group_cols gi;
     gi_n_baselines := gi_n_baselines gi; gi_n_time := gi_n_time gi; gi_beam := gi_beam gi;
     gi_beam_pb := gi_beam_pb gi; gi_vis := vis; gi_model := model; gi_nf_vis := gi_nf_vis gi |}.

Section Lin.
  Context (a b : Qc).
  Definition lin (x y : C) : C := (Cscale a x + Cscale b y)%C.
  Lemma lin_0 : lin C0 C0 = C0.
  Proof. apply C_ext; cbn; ring. Qed.
  Lemma lin_add x y x' y' : (lin x y + lin x' y')%C = lin (x + x') (y + y').
  Proof. apply C_ext; cbn; ring. Qed.
  Lemma lin_mul z x y : (z * lin x y)%C = lin (z * x) (z * y).
  Proof. apply C_ext; cbn; ring. Qed.
  Lemma lin_scale s x y : Cscale s (lin x y) = lin (Cscale s x) (Cscale s y).
  Proof. apply C_ext; cbn; ring. Qed.
  Lemma lin_conj x y : Cconj (lin x y) = lin (Cconj x) (Cconj y).
  Proof. apply C_ext; cbn; ring. Qed.
  Lemma lin_sub x y x' y' : (lin x y - lin x' y')%C = lin (x - x') (y - y').
  Proof. apply C_ext; cbn; ring. Qed.

  Inductive L3 : list C -> list C -> list C -> Prop :=
  | L3_nil : L3 [] [] []
  | L3_cons x y l1 l2 l3 : L3 l1 l2 l3 -> L3 (x :: l1) (y :: l2) (lin x y :: l3).

  Lemma L3_map {A} (f1 f2 f3 : A -> C) l : (forall x, f3 x = lin (f1 x) (f2 x)) -> L3 (map f1 l) (map f2 l) (map f3 l).
  Proof. intros H. induction l; cbn [map]; [constructor|]. rewrite H. now constructor. Qed.
  Lemma L3_mapl f l1 l2 l3 : (forall x y, f (lin x y) = lin (f x) (f y)) -> L3 l1 l2 l3 -> L3 (map f l1) (map f l2) (map f l3).
  Proof. intros H. induction 1; cbn [map]; [constructor|]. rewrite H. now constructor. Qed.
  Lemma L3_nth l1 l2 l3 n : L3 l1 l2 l3 -> nth n l3 C0 = lin (nth n l1 C0) (nth n l2 C0).
  Proof. intros H. revert n. induction H; intros [|n]; cbn [nth]; auto; now rewrite lin_0. Qed.
  Lemma L3_firstn n l1 l2 l3 : L3 l1 l2 l3 -> L3 (firstn n l1) (firstn n l2) (firstn n l3).
  Proof. intros H. revert n. induction H; intros [|n]; cbn [firstn]; try constructor; auto. Qed.
  Lemma L3_skipn n l1 l2 l3 : L3 l1 l2 l3 -> L3 (skipn n l1) (skipn n l2) (skipn n l3).
  Proof. intros H. revert n. induction H; intros [|n]; cbn [skipn]; try constructor; auto. Qed.
  Lemma L3_slice lo hi l1 l2 l3 : L3 l1 l2 l3 -> L3 (slice l1 lo hi) (slice l2 lo hi) (slice l3 lo hi).
  Proof. intros H. unfold slice. now apply L3_firstn, L3_skipn. Qed.
  Lemma L3_sum l1 l2 l3 : L3 l1 l2 l3 -> Csum l3 = lin (Csum l1) (Csum l2).
  Proof. induction 1; cbn [Csum fold_right]; [now rewrite lin_0|]. fold (Csum l1) (Csum l2) (Csum l3). now rewrite IHL3, lin_add. Qed.
  Lemma L3_upd n x y l1 l2 l3 : L3 l1 l2 l3 -> L3 (upd l1 n x) (upd l2 n y) (upd l3 n (lin x y)).
  Proof. intros H. revert n. induction H; intros [|n]; cbn [upd]; try constructor; auto. Qed.
  Lemma L3_nths idx l1 l2 l3 : L3 l1 l2 l3 -> L3 (nths C0 l1 idx) (nths C0 l2 idx) (nths C0 l3 idx).
  Proof. intros H. unfold nths. apply L3_map. intros i. now apply L3_nth. Qed.

  Lemma L3_group_sums ui0 ui wt l1 l2 l3 : L3 l1 l2 l3 ->
    L3 (group_sums ui0 ui wt l1) (group_sums ui0 ui wt l2) (group_sums ui0 ui wt l3).
  Proof.
    intros H. unfold group_sums.
    generalize (if length ui0 =? 1 then [0] else where_ (fun w => 1 <? w) wt). intros rs.
    generalize (L3_nths ui _ _ _ H). generalize (nths C0 l1 ui) (nths C0 l2 ui) (nths C0 l3 ui).
    induction rs as [|r rs IH]; intros v1 v2 v3 Hv; cbn [fold_left]; auto. apply IH.
    rewrite (L3_sum _ _ _ (L3_slice (nth r ui0 0) (nth r ui 0 + 1) _ _ _ H)). now apply L3_upd.
  Qed.

  Lemma L3_dot rws l1 l2 l3 q : L3 l1 l2 l3 -> dag_dot rws l3 q = lin (dag_dot rws l1 q) (dag_dot rws l2 q).
  Proof.
    intros H. unfold dag_dot. revert rws. induction H; intros [|r rws]; cbn [combine map Csum fold_right];
      try (now rewrite lin_0). cbn [fst snd].
    fold (Csum (map (fun p : list C * C => Cconj (nth q (fst p) C0) * snd p)%C (combine rws l1))).
    fold (Csum (map (fun p : list C * C => Cconj (nth q (fst p) C0) * snd p)%C (combine rws l2))).
    fold (Csum (map (fun p : list C * C => Cconj (nth q (fst p) C0) * snd p)%C (combine rws l3))).
    now rewrite IHL3, lin_mul, lin_add.
  Qed.
  Lemma L3_times (fs : list Qc) l1 l2 l3 : L3 l1 l2 l3 ->
    let t := fun vs : list C => map (fun q : Qc * C => Cscale (fst q) (snd q)) (combine fs vs) in
    L3 (t l1) (t l2) (t l3).
  Proof.
    intros H. cbv zeta. revert fs. induction H; intros [|f fs]; cbn [combine map]; try constructor. cbn [fst snd].
    rewrite lin_scale. now constructor.
  Qed.

  (** arrays *)
  Definition alin (x1 x2 x3 : arr2 C) : Prop :=
    rows x1 = rows x3 /\ cols x1 = cols x3 /\ rows x2 = rows x3 /\ cols x2 = cols x3
    /\ forall i j, at2 x3 i j = lin (at2 x1 i j) (at2 x2 i j).

  Lemma alin_flat x1 x2 x3 k : alin x1 x2 x3 -> flat_at x3 k = lin (flat_at x1 k) (flat_at x2 k).
  Proof. intros (R1 & C1 & R2 & C2 & V). unfold flat_at. now rewrite C1, C2, V. Qed.
  Lemma alin_add_box y0 x0 p b1 b2 b3 x1 x2 x3 y1 y2 : alin x1 x2 x3 -> (forall q, b3 q = lin (b1 q) (b2 q)) ->
    add_box Cadd y0 x0 p b1 x1 = Ok y1 -> add_box Cadd y0 x0 p b2 x2 = Ok y2 ->
    exists y3, add_box Cadd y0 x0 p b3 x3 = Ok y3 /\ alin y1 y2 y3.
  Proof.
    intros (R1 & C1 & R2 & C2 & V) Hb. unfold add_box. rewrite R1, C1, R2, C2. destruct (_ && _); [|discriminate].
    intros [= <-] [= <-]. eexists; split; [reflexivity|]. unfold alin. cbn [rows cols at2]. repeat split; auto.
    intros i j. destruct (covers y0 x0 p i j); auto. now rewrite V, Hb, lin_add.
  Qed.

  Definition clin (m1 m2 m3 : option (arr2 C)) : Prop :=
    match m1, m2, m3 with
    | Some x1, Some x2, Some x3 => alin x1 x2 x3
    | None, None, None => True
    | _, _, _ => False
    end.

  Definition box_lin (b1 b2 b3 : box) : Prop :=
    b_rows b1 = b_rows b3 /\ b_rows b2 = b_rows b3 /\ b_wt b1 = b_wt b3 /\ b_wt b2 = b_wt b3
    /\ b_freq b1 = b_freq b3 /\ b_freq b2 = b_freq b3
    /\ L3 (b_vis b1) (b_vis b2) (b_vis b3) /\ L3 (b_model b1) (b_model b2) (b_model b3).

  Context (gi : grid_input) (d1 d2 d3 : arr2 C) (mo1 mo2 mo3 : option (arr2 C)).
  Let g1 := with_data gi d1 mo1.
  Let g2 := with_data gi d2 mo2.
  Let g3 := with_data gi d3 mo3.

  Lemma bin_box_lin cfg l fb v1 v2 v3 m1 m2 m3 inds b1 b2 : alin v1 v2 v3 -> alin m1 m2 m3 ->
    bin_box cfg g1 l fb v1 m1 inds = Ok b1 -> bin_box cfg g2 l fb v2 m2 inds = Ok b2 ->
    exists b3, bin_box cfg g3 l fb v3 m3 inds = Ok b3 /\ box_lin b1 b2 b3.
  Proof.
    intros Hv Hm. unfold bin_box. cbv zeta. cbn [g1 g2 g3 with_data gi_loc gi_beam gi_beam_pb].
    assert (SV : forall idx, L3 (map (flat_at v1) idx) (map (flat_at v2) idx) (map (flat_at v3) idx))
      by (intros; apply L3_map; intros; now apply alin_flat).
    assert (SM : forall idx, L3 (map (flat_at m1) idx) (map (flat_at m2) idx) (map (flat_at m3) idx))
      by (intros; apply L3_map; intros; now apply alin_flat).
    destruct (c_interp cfg).
    - destruct (l_deriv l) as [[[[d00 d01] d10] d11]|]; [|discriminate]. intros [= <-] [= <-].
      eexists; split; [reflexivity|]. repeat split; auto; cbn [b_vis b_model]; auto.
    - change (group_at g1 fb) with (group_at gi fb). change (group_at g2 fb) with (group_at gi fb).
      change (group_at g3 fb) with (group_at gi fb).
      destruct (map_res (group_at gi fb) inds) as [gid|]; cbn [bind]; [|discriminate].
      match goal with |- context [if ?c then _ else _] => destruct c end.
      + intros [= <-] [= <-]. eexists; split; [reflexivity|]. repeat split; auto; cbn [b_vis b_model]; apply L3_group_sums; auto.
      + intros [= <-] [= <-]. eexists; split; [reflexivity|]. repeat split; auto; cbn [b_vis b_model]; auto.
  Qed.

  Definition plin (s1 s2 s3 : planes) : Prop :=
    alin (p_image s1) (p_image s2) (p_image s3) /\ alin (p_model s1) (p_model s2) (p_model s3)
    /\ alin (p_specA s1) (p_specA s2) (p_specA s3) /\ alin (p_specM s1) (p_specM s2) (p_specM s3)
    /\ p_weights s1 = p_weights s3 /\ p_weights s2 = p_weights s3
    /\ p_variance s1 = p_variance s3 /\ p_variance s2 = p_variance s3
    /\ p_uniform s1 = p_uniform s3 /\ p_uniform s2 = p_uniform s3
    /\ p_specB s1 = p_specB s3 /\ p_specB s2 = p_specB s3 /\ p_specD s1 = p_specD s3 /\ p_specD s2 = p_specD s3.

  Hypothesis Hmo : clin mo1 mo2 mo3.

  Lemma when_lin c f1 f2 f3 x1 x2 x3 y1 y2 : alin x1 x2 x3 ->
    (c = true -> forall y1 y2, f1 x1 = Ok y1 -> f2 x2 = Ok y2 -> exists y3, f3 x3 = Ok y3 /\ alin y1 y2 y3) ->
    when c f1 x1 = Ok y1 -> when c f2 x2 = Ok y2 -> exists y3, when c f3 x3 = Ok y3 /\ alin y1 y2 y3.
  Proof. intros Hx Hf. unfold when. destruct c; [now apply Hf|]. intros [= <-] [= <-]. eauto. Qed.

  Lemma grid_bin_lin cfg uf l fb v1 v2 v3 m1 m2 m3 n bn ri s1 s2 s3 bb t1 t2 :
    alin v1 v2 v3 -> alin m1 m2 m3 -> plin s1 s2 s3 ->
    grid_bin cfg g1 uf l fb v1 m1 n bn ri s1 bb = Ok t1 -> grid_bin cfg g2 uf l fb v2 m2 n bn ri s2 bb = Ok t2 ->
    exists t3, grid_bin cfg g3 uf l fb v3 m3 n bn ri s3 bb = Ok t3 /\ plin t1 t2 t3.
  Proof.
    intros Hv Hm (PI & PM & PA & PS & W1 & W2 & V1 & V2 & U1 & U2 & B1 & B2 & D1 & D2).
    unfold grid_bin. cbv zeta. change (gi_loc g1) with (gi_loc gi). change (gi_loc g2) with (gi_loc gi). change (gi_loc g3) with (gi_loc gi).
    set (inds := slice ri (nth bb ri 0) (nth (S bb) ri 0)).
    destruct (bin_box cfg g1 l fb v1 m1 inds) as [b1|] eqn:Eb1; cbn [bind]; [|discriminate].
    destruct (bin_box cfg g2 l fb v2 m2 inds) as [b2|] eqn:Eb2; cbn [bind]; [|intros _; discriminate].
    destruct (bin_box_lin cfg l fb v1 v2 v3 m1 m2 m3 inds b1 b2 Hv Hm Eb1 Eb2) as (b3 & Eb3 & R1 & R2 & T1 & T2 & F1 & F2 & LV & LM).
    rewrite Eb3. cbn [bind]. rewrite R1, R2, T1, T2, F1, F2, W1, W2, V1, V2, U1, U2, B1, B2, D1, D2.
    clear R1 R2 T1 T2 F1 F2 W1 W2 V1 V2 U1 U2 B1 B2 D1 D2.
    assert (Hh : match gi_model g1 with Some _ => true | None => false end = match gi_model g3 with Some _ => true | None => false end
              /\ match gi_model g2 with Some _ => true | None => false end = match gi_model g3 with Some _ => true | None => false end).
    { cbn [g1 g2 g3 with_data gi_model]. unfold clin in Hmo. destruct mo1, mo2, mo3; tauto. }
    destruct Hh as [-> ->].
    match goal with |- context [if negb ?c then _ else _] => destruct c end; cbn [negb]; [|discriminate].
    set (hm := match gi_model g3 with Some _ => true | None => false end).
    set (fv := map qc_nat (b_freq b3)). set (inv := (/ qc_nat n)%Qc).
    set (y0 := flat_at (l_ymin l) (nth 0 inds 0)). set (x0 := flat_at (l_xmin l) (nth 0 inds 0)). set (p := g_psf_dim (gi_loc gi)).
    assert (OV : forall l1 l2 l3, L3 l1 l2 l3 -> forall q,
      dag_dot (b_rows b3) (map (Cscale inv) l3) q = lin (dag_dot (b_rows b3) (map (Cscale inv) l1) q) (dag_dot (b_rows b3) (map (Cscale inv) l2) q)).
    { intros l1 l2 l3 HL q. apply L3_dot. apply L3_mapl; auto. intros; apply lin_scale. }
    pose proof (L3_times fv _ _ _ LV) as TV. pose proof (L3_times fv _ _ _ LM) as TM. cbv zeta in TV, TM.
    match goal with |- bind ?x _ = _ -> _ => destruct x as [sA1|] eqn:EA1 end; cbn [bind]; [|discriminate].
    match goal with |- bind ?x _ = _ -> _ => destruct x as [sB|] eqn:EB end; cbn [bind]; [|discriminate].
    match goal with |- bind ?x _ = _ -> _ => destruct x as [sD|] eqn:ED end; cbn [bind]; [|discriminate].
    match goal with |- bind ?x _ = _ -> _ => destruct x as [sM1|] eqn:EM1 end; cbn [bind]; [|discriminate].
    match goal with |- bind ?x _ = _ -> _ => destruct x as [mm1|] eqn:Em1 end; cbn [bind]; [|discriminate].
    match goal with |- bind ?x _ = _ -> _ => destruct x as [im1|] eqn:Ei1 end; cbn [bind]; [|discriminate].
    match goal with |- bind ?x _ = _ -> _ => destruct x as [wt|] eqn:EW end; cbn [bind]; [|discriminate].
    match goal with |- bind ?x _ = _ -> _ => destruct x as [va|] eqn:EV end; cbn [bind]; [|discriminate].
    intros [= <-].
    match goal with |- bind ?x _ = _ -> _ => destruct x as [sA2|] eqn:EA2 end; cbn [bind]; [|discriminate].
    match goal with |- bind ?x _ = _ -> _ => destruct x as [sM2|] eqn:EM2 end; cbn [bind]; [|discriminate].
    match goal with |- bind ?x _ = _ -> _ => destruct x as [mm2|] eqn:Em2 end; cbn [bind]; [|discriminate].
    match goal with |- bind ?x _ = _ -> _ => destruct x as [im2|] eqn:Ei2 end; cbn [bind]; [|discriminate].
    intros [= <-].
    match goal with |- exists t3, bind ?x _ = _ /\ _ =>
      assert (QA : exists y3, x = Ok y3 /\ alin sA1 sA2 y3) end.
    { eapply when_lin; [exact PA| |exact EA1|exact EA2]. intros _ y1 y2. eapply alin_add_box; [exact PA|]. now apply OV. }
    destruct QA as (sA3 & -> & QA). cbn [bind].
    match goal with |- exists t3, bind ?x _ = _ /\ _ =>
      assert (QM : exists y3, x = Ok y3 /\ alin sM1 sM2 y3) end.
    { eapply when_lin; [exact PS| |exact EM1|exact EM2]. intros _ y1 y2. destruct (p =? 1)%Z; [|discriminate].
      eapply alin_add_box; [exact PS|]. now apply OV. }
    destruct QM as (sM3 & -> & QM). cbn [bind].
    match goal with |- exists t3, bind ?x _ = _ /\ _ =>
      assert (Qm : exists y3, x = Ok y3 /\ alin mm1 mm2 y3) end.
    { eapply when_lin; [exact PM| |exact Em1|exact Em2]. intros _ y1 y2. eapply alin_add_box; [exact PM|]. now apply OV. }
    destruct Qm as (mm3 & -> & Qm). cbn [bind].
    match goal with |- exists t3, bind ?x _ = _ /\ _ =>
      assert (Qi : exists y3, x = Ok y3 /\ alin im1 im2 y3) end.
    { eapply alin_add_box; [exact PI| |exact Ei1|exact Ei2]. now apply OV. }
    destruct Qi as (im3 & -> & Qi). cbn [bind].
    eexists; split; [reflexivity|]. unfold plin. cbn [p_image p_model p_specA p_specM p_weights p_variance p_uniform p_specB p_specD].
    repeat (split; [assumption|]). repeat split; reflexivity.
  Qed.

  Lemma loop_lin cfg uf l fb v1 v2 v3 m1 m2 m3 n bn ri bs :
    alin v1 v2 v3 -> alin m1 m2 m3 -> forall s1 s2 s3 t1 t2, plin s1 s2 s3 ->
    fold_res (grid_bin cfg g1 uf l fb v1 m1 n bn ri) bs s1 = Ok t1 ->
    fold_res (grid_bin cfg g2 uf l fb v2 m2 n bn ri) bs s2 = Ok t2 ->
    exists t3, fold_res (grid_bin cfg g3 uf l fb v3 m3 n bn ri) bs s3 = Ok t3 /\ plin t1 t2 t3.
  Proof.
    intros Hv Hm. induction bs as [|bb bs IH]; intros s1 s2 s3 t1 t2 Hp; cbn [fold_res].
    - intros [= <-] [= <-]. eauto.
    - destruct (grid_bin cfg g1 uf l fb v1 m1 n bn ri s1 bb) as [u1|] eqn:E1; cbn [bind]; [|discriminate].
      destruct (grid_bin cfg g2 uf l fb v2 m2 n bn ri s2 bb) as [u2|] eqn:E2; cbn [bind]; [|intros _; discriminate].
      destruct (grid_bin_lin _ _ _ _ _ _ _ _ _ _ _ _ _ _ _ _ _ _ _ Hv Hm Hp E1 E2) as (u3 & -> & Hp'). cbn [bind].
      now apply IH.
  Qed.

  Definition same {A} (x y : arr2 A) : Prop := rows x = rows y /\ cols x = cols y /\ forall i j, at2 x i j = at2 y i j.

  (** Post-processing *)
  Lemma alin_mirror x1 x2 x3 : alin x1 x2 x3 -> alin (mirror_avg x1) (mirror_avg x2) (mirror_avg x3).
  Proof.
    intros (R1 & C1 & R2 & C2 & V). unfold alin, mirror_avg. cbn [rows cols at2]. repeat split; auto.
    intros i j. unfold conjugate_mirror. cbn [amap at2 np_roll2 np_flip2 rows cols]. rewrite !R1, !C1, !R2, !C2, !V, lin_conj, lin_add, lin_scale. reflexivity.
  Qed.
  Lemma alin_czip w x1 x2 x3 : alin x1 x2 x3 ->
    alin (czip (fun z x => Cscale (winvert None x) z) x1 w) (czip (fun z x => Cscale (winvert None x) z) x2 w)
         (czip (fun z x => Cscale (winvert None x) z) x3 w).
  Proof. intros (R1 & C1 & R2 & C2 & V). unfold alin, czip. cbn [rows cols at2]. repeat split; auto. intros i j. now rewrite V, lin_scale. Qed.
  Lemma alin_spectral n B D x1 x2 x3 y1 y2 y3 : alin x1 x2 x3 -> alin y1 y2 y3 ->
    alin (spectral_plane n x1 B D y1) (spectral_plane n x2 B D y2) (spectral_plane n x3 B D y3).
  Proof.
    intros (R1 & C1 & R2 & C2 & V) (R1' & C1' & R2' & C2' & V'). unfold alin, spectral_plane. cbn [rows cols at2]. repeat split; auto.
    intros i j. now rewrite V, V', lin_scale, lin_sub, lin_scale.
  Qed.
End Lin.

Lemma take2_lin a b (x1 x2 x3 : arr2 C) fi bi y1 y2 : alin a b x1 x2 x3 ->
  take2 x1 fi bi = Ok y1 -> take2 x2 fi bi = Ok y2 -> exists y3, take2 x3 fi bi = Ok y3 /\ alin a b y1 y2 y3.
Proof.
  intros (R1 & C1 & R2 & C2 & V). unfold take2. rewrite R1, C1, R2, C2.
  destruct (map_res (norm_index (rows x3)) fi) as [r|]; cbn [bind]; [|discriminate].
  destruct (map_res (norm_index (cols x3)) bi) as [c|]; cbn [bind]; [|discriminate].
  intros [= <-] [= <-]. eexists; split; [reflexivity|]. unfold alin. cbn [rows cols at2]. repeat split; auto.
Qed.
Lemma conj_cols_lin a b vv (x1 x2 x3 : arr2 C) : alin a b x1 x2 x3 -> alin a b (conj_cols vv x1) (conj_cols vv x2) (conj_cols vv x3).
Proof.
  intros (R1 & C1 & R2 & C2 & V). unfold alin, conj_cols. cbn [rows cols at2]. repeat split; auto.
  intros i j. rewrite V. destruct (Qltb 0 (nth j vv 0%Q)); auto. apply lin_conj.
Qed.
Lemma czeros_lin a b n m : alin a b (czeros n m) (czeros n m) (czeros n m).
Proof. unfold alin. cbn [rows cols at2 czeros]. repeat split; auto. intros. now rewrite lin_0. Qed.

Theorem grid_lin a b cfg gi d1 d2 d3 mo1 mo2 mo3 uf nc fi_use bi_use o1 o2 :
  alin a b d1 d2 d3 -> clin a b mo1 mo2 mo3 ->
  visibility_grid cfg (with_data gi d1 mo1) uf nc fi_use bi_use = Ok (Some o1) ->
  visibility_grid cfg (with_data gi d2 mo2) uf nc fi_use bi_use = Ok (Some o2) ->
  exists o3, visibility_grid cfg (with_data gi d3 mo3) uf nc fi_use bi_use = Ok (Some o3)
    /\ alin a b (o_image o1) (o_image o2) (o_image o3)
    /\ clin a b (o_model o1) (o_model o2) (o_model o3)
    /\ clin a b (o_spectral o1) (o_spectral o2) (o_spectral o3)
    /\ clin a b (o_spectral_model o1) (o_spectral_model o2) (o_spectral_model o3)
    /\ o_weights o1 = o_weights o3 /\ o_weights o2 = o_weights o3
    /\ o_variance o1 = o_variance o3 /\ o_uniform o1 = o_uniform o3
    /\ o_n_vis o1 = o_n_vis o3 /\ o_nf_vis o1 = o_nf_vis o3.
Proof.
  intros Hd Hmo. unfold visibility_grid. cbv zeta. cbn [with_data gi_loc gi_fbin gi_vis gi_model gi_nf_vis].
  set (fi := choose_fi_use (gi_loc gi) false fi_use).
  destruct (take 0 (gi_fbin gi) fi) as [fb|]; cbn [bind]; [|discriminate].
  destruct (baseline_grid_locations (gi_loc gi) bi_use (Some fi) false (c_interp cfg) (c_mask_mirror cfg)) as [l|]; cbn [bind]; [|discriminate].
  set (bi := match bi_use with Some b => b | None => _ end).
  destruct (take2 d1 fi bi) as [v1|] eqn:E1; cbn [bind]; [|discriminate].
  destruct (match mo1 with Some m => take2 m fi bi | None => Ok (czeros 0 0) end) as [m1|] eqn:Em1; cbn [bind]; [|discriminate].
  destruct (take2 d2 fi bi) as [v2|] eqn:E2; cbn [bind]; [|intros _; discriminate].
  destruct (match mo2 with Some m => take2 m fi bi | None => Ok (czeros 0 0) end) as [m2|] eqn:Em2; cbn [bind]; [|intros _; discriminate].
  destruct (take2_lin _ _ _ _ _ _ _ _ _ Hd E1 E2) as (v3 & -> & Hv). cbn [bind].
  assert (HM : exists m3, match mo3 with Some m => take2 m fi bi | None => Ok (czeros 0 0) end = Ok m3 /\ alin a b m1 m2 m3).
  { unfold clin in Hmo. destruct mo1, mo2, mo3; try tauto.
    - eapply take2_lin; eauto.
    - injection Em1 as <-. injection Em2 as <-. eexists; split; [reflexivity|apply czeros_lin]. }
  destruct HM as (m3 & -> & Hm). cbn [bind].
  destruct (take 0%Q (g_vv (gi_loc gi)) bi) as [vv|]; cbn [bind]; [|discriminate].
  destruct (l_bins l) as [[[bn bin_i] ri]|]; [|discriminate].
  destruct (set_nf_vis fi (length bi) l (gi_nf_vis gi)) as [nf|]; cbn [bind]; [|discriminate].
  match goal with |- bind (fold_res _ _ ?s) _ = _ -> _ => set (st0 := s) end.
  match goal with |- bind ?x _ = _ -> _ => destruct x as [t1|] eqn:F1 end; cbn [bind]; [|discriminate].
  intros [= <-].
  match goal with |- bind ?x _ = _ -> _ => destruct x as [t2|] eqn:F2 end; cbn [bind]; [|discriminate].
  intros [= <-].
  assert (P0 : plin a b st0 st0 st0).
  { unfold plin, st0. cbn. repeat (split; [apply czeros_lin|]). repeat split; reflexivity. }
  destruct (loop_lin a b gi d1 d2 d3 mo1 mo2 mo3 Hmo _ _ _ _ _ _ _ _ _ _ _ _ _ _ (conj_cols_lin _ _ vv _ _ _ Hv) (conj_cols_lin _ _ vv _ _ _ Hm) _ _ _ _ _ P0 F1 F2) as (t3 & F3 & HP).
  fold fi bi. change (fold_res (grid_bin cfg (with_data gi d3 mo3) (uf || c_uniform cfg) l fb (conj_cols vv v3) (conj_cols vv m3) (sum_nat bn) bn ri) bin_i st0) with
    (fold_res (grid_bin cfg (with_data gi d3 mo3) (uf || c_uniform cfg) l fb (conj_cols vv v3) (conj_cols vv m3) (sum_nat bn) bn ri) bin_i st0).
  rewrite F3. cbn [bind]. eexists; split; [reflexivity|].
  destruct HP as (PI & PM & PA & PS & W1 & W2 & V1 & V2 & U1 & U2 & B1 & B2 & D1 & D2).
  unfold grid_finish. cbn [o_image o_model o_spectral o_spectral_model o_weights o_variance o_uniform o_n_vis o_nf_vis with_data gi_model].
  rewrite W1, W2, V1, U1, U2, B1, B2, D1, D2.
  assert (SC : forall (x1 x2 x3 : arr2 C) w, alin a b x1 x2 x3 ->
     let sc := fun x => if c_uniform cfg then czip (fun z x => Cscale (winvert None x) z) x w else x in
     let avg := fun x => if nc then x else mirror_avg x in
     alin a b (avg (sc x1)) (avg (sc x2)) (avg (sc x3))).
  { intros x1 x2 x3 w Hx. cbv zeta. destruct nc, (c_uniform cfg); auto using alin_czip, alin_mirror. }
  assert (AV : forall (x1 x2 x3 : arr2 C), alin a b x1 x2 x3 ->
     alin a b (if nc then x1 else mirror_avg x1) (if nc then x2 else mirror_avg x2) (if nc then x3 else mirror_avg x3)).
  { intros x1 x2 x3 Hx. destruct nc; auto using alin_mirror. }
  split; [now apply SC|].
  split; [unfold clin in *; destruct mo1, mo2, mo3; try tauto; now apply SC|].
  split; [destruct (c_spectral cfg); cbn [clin]; auto; apply AV; now apply alin_spectral|].
  split; [unfold clin in *; destruct mo1, mo2, mo3; try tauto; destruct (c_spectral cfg); auto; apply AV; now apply alin_spectral|].
  repeat split; reflexivity.
Qed.
