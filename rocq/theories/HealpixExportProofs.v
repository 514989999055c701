(** Proofs for C50 and C63. *)
From Coq Require Import String.
From Verif Require Import Base VisWeights HealpixExport HealpixExportSpec.
Import ListNotations.
Open Scope nat_scope.
Ltac Zify.zify_post_hook ::= idtac.

Lemma div_block c n i : n <> 0 -> (c / n =? i) = (i * n <=? c) && (c <? (i + 1) * n).
Proof.
  intros Hn. pose proof (Nat.div_mod c n Hn) as D. pose proof (Nat.mod_upper_bound c n Hn) as M.
  apply Bool.eq_iff_eq_true. rewrite Nat.eqb_eq, andb_true_iff, Nat.leb_le, Nat.ltb_lt. split.
  - intros <-. nia.
  - intros [A B]. symmetry. apply (Nat.div_unique c n i (c - i * n)); nia.
Qed.

Lemma fi_use_block n_freq n_avg freq_use i : n_avg <> 0 -> length freq_use = n_freq ->
  where_ (fun p => (fst p =? i) && (0 <? snd p)%Z) (combine (freq_bins n_freq n_avg) freq_use) = block n_freq n_avg freq_use i.
Proof.
  intros Hn HL. unfold block. rewrite (where_spec _ _ (0, 0%Z)).
  assert (L : length (freq_bins n_freq n_avg) = n_freq) by (unfold freq_bins; now rewrite map_length, seq_length).
  rewrite combine_length, L, HL, Nat.min_id. apply filter_ext_in. intros c Hc%in_seq.
  rewrite combine_nth by lia. cbn [fst snd]. unfold freq_bins. rewrite nth_map_seq by lia. now rewrite div_block.
Qed.

Lemma list_max0_spec l : forall a, (forall x, In x l -> x <= fold_left Nat.max l a) /\ a <= fold_left Nat.max l a
  /\ (fold_left Nat.max l a = a \/ In (fold_left Nat.max l a) l).
Proof.
  induction l as [|h t IH]; intros a; cbn [fold_left In]; [repeat split; auto; intros x []|].
  destruct (IH (Nat.max a h)) as (H1 & H2 & H3). repeat split; try lia.
  - intros x [<-|H]; [lia|auto].
  - destruct H3 as [H3|H3]; [|tauto]. rewrite H3. destruct (Nat.max_spec a h) as [[_ E]|[_ E]]; rewrite E; auto.
Qed.

Lemma nf_spec n_freq n_avg : n_freq <> 0 -> n_avg <> 0 ->
  list_max0 (freq_bins n_freq n_avg) = (n_freq - 1) / n_avg.
Proof.
  intros H0 Hn. unfold list_max0. destruct (list_max0_spec (freq_bins n_freq n_avg) 0) as (A & _ & B).
  apply Nat.le_antisymm.
  - destruct B as [->|B]; [apply Nat.le_0_l|]. unfold freq_bins in B at 2. apply in_map_iff in B. destruct B as (c & <- & Hc%in_seq).
    apply Nat.div_le_mono; lia.
  - apply A. unfold freq_bins. apply in_map_iff. exists (n_freq - 1). split; auto. apply in_seq. lia.
Qed.

Lemma nf_bounds n_freq n_avg : n_freq <> 0 -> n_avg <> 0 ->
  let nf := (n_freq - 1) / n_avg + 1 in (nf - 1) * n_avg < n_freq /\ n_freq <= nf * n_avg.
Proof.
  intros H0 Hn nf. subst nf. pose proof (Nat.div_mod (n_freq - 1) n_avg Hn). pose proof (Nat.mod_upper_bound (n_freq - 1) n_avg Hn).
  split; nia.
Qed.

Lemma In_block n_freq n_avg freq_use i c :
  In c (block n_freq n_avg freq_use i) <-> c < n_freq /\ i * n_avg <= c < (i + 1) * n_avg /\ (0 < nth c freq_use 0)%Z.
Proof.
  unfold block. rewrite filter_In, in_seq, !andb_true_iff, Nat.leb_le, Nat.ltb_lt, Z.ltb_lt. intuition lia.
Qed.

Lemma fold_upd_nth {A} (f : nat -> A) (l : list nat) : forall (acc : list A) k d,
  nth k (fold_left (fun acc c => upd acc c (f c)) l acc) d
  = if (k <? length acc) && existsb (Nat.eqb k) l then f k else nth k acc d.
Proof.
  induction l as [|c t IH]; intros acc k d; cbn [fold_left existsb]; [now rewrite andb_false_r|].
  rewrite IH, upd_length, nth_upd. destruct (Nat.eqb_spec k c) as [->|E].
  - rewrite Nat.eqb_refl. cbn [orb]. destruct (c <? length acc) eqn:L; cbn [andb]; auto.
    now destruct (existsb (Nat.eqb c) t).
  - replace (c =? k) with false by (symmetry; apply Nat.eqb_neq; auto). cbn [andb orb]. reflexivity.
Qed.
Lemma fold_upd_length {A} (f : nat -> A) (l : list nat) : forall acc : list A,
  length (fold_left (fun acc c => upd acc c (f c)) l acc) = length acc.
Proof. induction l as [|c t IH]; intros acc; cbn [fold_left]; auto. now rewrite IH, upd_length. Qed.

Definition zero4 {P} (o : ops P) := Planes (op_zero o) (op_zero o) (op_zero o) (op_zero o).

(** One step. *)
Lemma step_spec {P} (o : ops P) fft model n_freq n_avg freq_use bi st i st' : n_avg <> 0 -> length freq_use = n_freq ->
  split_step o fft model (freq_bins n_freq n_avg) freq_use bi st i = Ok st' ->
  let ch := block n_freq n_avg freq_use i in
  match gridding o bi ch with
  | None => st' = st
  | Some g => exists c u, is_cube o fft bi ch c /\ is_cube o false bi ch u
      /\ st' = SplitState (upd (ss_cubes st) i c) (upd (ss_uv st) i u) (ss_n_vis st + g_n_vis g)
                 (fold_left (fun acc c => upd acc c (g_nf g c)) ch (ss_nf st))
  end.
Proof.
  intros Hn HL E ch. unfold split_step in E. rewrite fi_use_block in E by auto. fold ch in E. unfold is_cube.
  destruct (gridding o bi ch) as [g|] eqn:G.
  - unfold gridding in G. destruct ch as [|c0 t]; [discriminate|]. cbn [length Nat.eqb] in E.
    destruct model; [|discriminate]. cbn [negb] in E.
    destruct (op_grid o (c0 :: t) bi) as [[g'|]|]; try discriminate. inversion G. subst g'. cbn [bind] in E.
    destruct fft.
    + destruct (op_image o (g_image g)) as [d|] eqn:E1; [|discriminate]. cbn [bind] in E.
      destruct (op_image o (op_rephase o (g_weights g))) as [w|] eqn:E2; [|discriminate]. cbn [bind] in E.
      destruct (op_image o (op_rephase o (g_variance g))) as [v|] eqn:E3; [|discriminate]. cbn [bind] in E.
      destruct (op_image o (g_model g)) as [m|] eqn:E4; [|discriminate]. cbn [bind] in E. inversion E. subst st'.
      do 2 eexists. split; [|split; [|reflexivity]].
      * cbn [pl_dirty pl_weights pl_variance pl_model]. repeat split; eexists; split; eauto.
      * cbn [pl_dirty pl_weights pl_variance pl_model]. repeat split; eexists; split; eauto.
    + cbn [bind] in E. inversion E. subst st'. do 2 eexists. split; [|split; [|reflexivity]];
        cbn [pl_dirty pl_weights pl_variance pl_model]; repeat split; eexists; split; eauto.
  - unfold gridding in G. destruct ch as [|c0 t]; cbn [length Nat.eqb] in E; [now inversion E|].
    destruct model; [|discriminate]. cbn [negb] in E.
    destruct (op_grid o (c0 :: t) bi) as [[g'|]|]; try discriminate. now inversion E.
Qed.

Lemma is_cube_zero {P} (o : ops P) fft bi ch : gridding o bi ch = None -> is_cube o fft bi ch (zero4 o).
Proof. intros G. unfold is_cube. now rewrite G. Qed.

(** The loop. *)
Lemma loop_spec {P} (o : ops P) fft model n_freq n_avg freq_use bi nf nf_vis : n_avg <> 0 -> length freq_use = n_freq ->
  n_freq <= length nf_vis -> forall k, k <= nf -> forall st,
  fold_res (split_step o fft model (freq_bins n_freq n_avg) freq_use bi) (seq 0 k)
    (SplitState (repeat (zero4 o) nf) (repeat (zero4 o) nf) 0 nf_vis) = Ok st ->
  length (ss_cubes st) = nf /\ length (ss_uv st) = nf /\ length (ss_nf st) = length nf_vis
  /\ (forall i, i < k -> is_cube o fft bi (block n_freq n_avg freq_use i) (nth i (ss_cubes st) (zero4 o))
                         /\ is_cube o false bi (block n_freq n_avg freq_use i) (nth i (ss_uv st) (zero4 o)))
  /\ (forall i, k <= i -> nth i (ss_cubes st) (zero4 o) = zero4 o /\ nth i (ss_uv st) (zero4 o) = zero4 o)
  /\ ss_n_vis st = sum_nat (map (fun i => count_of o bi (block n_freq n_avg freq_use i)) (seq 0 k))
  /\ (forall c, (forall i g, i < k -> In c (block n_freq n_avg freq_use i) -> gridding o bi (block n_freq n_avg freq_use i) = Some g ->
                   nth c (ss_nf st) 0 = g_nf g c)
        /\ ((forall i, i < k -> ~ (In c (block n_freq n_avg freq_use i) /\ gridding o bi (block n_freq n_avg freq_use i) <> None)) ->
            nth c (ss_nf st) 0 = nth c nf_vis 0)).
Proof.
  intros Hn HL HV. induction k as [|k IH]; intros Hk st E.
  - cbn [seq fold_res] in E. inversion E. subst st. cbn [ss_cubes ss_uv ss_n_vis ss_nf]. rewrite repeat_length.
    split; [auto|]. split; [auto|]. split; [auto|]. split; [intros; lia|]. split; [|split; [auto|]].
    + intros i _. split; (destruct (Nat.lt_ge_cases i nf); [now apply nth_repeat_lt|apply nth_overflow; rewrite repeat_length; auto]).
    + intros c. split; [intros; lia|auto].
  - rewrite seq_S in E. rewrite fold_res_app in E. cbn [plus] in E.
    destruct (fold_res _ (seq 0 k) _) as [st0|] eqn:E0; [|discriminate]. cbn [bind fold_res] in E.
    destruct (split_step _ _ _ _ _ _ st0 k) as [st1|] eqn:E1; [|discriminate]. cbn [bind] in E. inversion E. subst st1. clear E.
    destruct (IH ltac:(lia) st0 eq_refl) as (L1 & L2 & L3 & H1 & H2 & H3 & H4). clear IH.
    pose proof (step_spec o fft model n_freq n_avg freq_use bi st0 k st Hn HL E1) as S1. cbn zeta in S1.
    rewrite seq_S, map_app, sum_nat_app, <- H3. cbn [plus map sum_nat fold_right].
    set (B := block n_freq n_avg freq_use) in *. unfold count_of. destruct (gridding o bi (B k)) as [g|] eqn:G.
    + destruct S1 as (c & u & C1 & C2 & ->). cbn [ss_cubes ss_uv ss_n_vis ss_nf]. rewrite !upd_length.
      split; [auto|]. split; [auto|]. split; [now rewrite fold_upd_length|]. split; [|split; [|split]].
      * intros i Hi. destruct (Nat.eq_dec i k) as [->|Hik].
        -- rewrite !upd_same by lia. auto.
        -- rewrite !upd_other by lia. apply H1. lia.
      * intros i Hi. rewrite !upd_other by lia. apply H2. lia.
      * lia.
      * intros c'. rewrite fold_upd_nth. split.
        -- intros i g' Hi Hc Hg. destruct (Nat.eq_dec i k) as [->|Hik].
           ++ rewrite G in Hg. inversion Hg. subst g'.
              assert (c' < n_freq) by (apply (In_block n_freq n_avg freq_use k) in Hc; tauto).
              replace (c' <? length (ss_nf st0)) with true by (symmetry; apply Nat.ltb_lt; lia).
              replace (existsb (Nat.eqb c') (B k)) with true; auto. symmetry. apply existsb_exists. exists c'. split; auto. apply Nat.eqb_refl.
           ++ replace (existsb (Nat.eqb c') (B k)) with false.
              { rewrite andb_false_r. apply (proj1 (H4 c') i); auto. lia. }
              symmetry. apply not_true_iff_false. rewrite existsb_exists. intros (y & Hy & Hyc). apply Nat.eqb_eq in Hyc. subst y.
              apply In_block in Hy. apply In_block in Hc. destruct Hy as (_ & ? & _), Hc as (_ & ? & _).
              destruct (Nat.lt_ge_cases i k); nia.
        -- intros Hno. replace (existsb (Nat.eqb c') (B k)) with false.
           { rewrite andb_false_r. apply (proj2 (H4 c')). intros i Hi. apply Hno. lia. }
           symmetry. apply not_true_iff_false. rewrite existsb_exists. intros (y & Hy & Hyc). apply Nat.eqb_eq in Hyc. subst y.
           apply (Hno k ltac:(lia)). rewrite G. split; auto. discriminate.
    + subst st0. split; [auto|]. split; [auto|]. split; [auto|]. split; [|split; [|split]].
      * intros i Hi. destruct (Nat.eq_dec i k) as [->|Hik]; [|apply H1; lia].
        destruct (H2 k (le_n k)) as [-> ->]. split; now apply is_cube_zero.
      * intros i Hi. apply H2. lia.
      * lia.
      * intros c'. split.
        -- intros i g' Hi Hc Hg. destruct (Nat.eq_dec i k) as [->|Hik]; [congruence|]. apply (proj1 (H4 c') i); auto. lia.
        -- intros Hno. apply (proj2 (H4 c')). intros i Hi. apply Hno. lia.
Qed.

Lemma split_spec {P} (o : ops P) fft model n_freq n_avg freq_use bi nf_vis st : n_avg <> 0 -> n_freq <= length nf_vis ->
  vis_model_freq_split o fft model n_freq n_avg freq_use bi nf_vis = Ok st ->
  let nf := (n_freq - 1) / n_avg + 1 in let B := block n_freq n_avg freq_use in
  n_freq <> 0 /\ length freq_use = n_freq
  /\ length (ss_cubes st) = nf /\ length (ss_uv st) = nf /\ length (ss_nf st) = length nf_vis
  /\ (forall i, i < nf -> is_cube o fft bi (B i) (nth i (ss_cubes st) (zero4 o))
                         /\ is_cube o false bi (B i) (nth i (ss_uv st) (zero4 o)))
  /\ ss_n_vis st = sum_nat (map (fun i => count_of o bi (B i)) (seq 0 nf))
  /\ (forall c, (forall i g, i < nf -> In c (B i) -> gridding o bi (B i) = Some g -> nth c (ss_nf st) 0 = g_nf g c)
        /\ ((forall i, i < nf -> ~ (In c (B i) /\ gridding o bi (B i) <> None)) -> nth c (ss_nf st) 0 = nth c nf_vis 0)).
Proof.
  intros Hn HV E nf B. unfold vis_model_freq_split in E.
  destruct (Nat.eqb_spec n_freq 0) as [|H0]; [discriminate|].
  destruct (Nat.eqb_spec (length freq_use) n_freq) as [HL|]; [|discriminate]. cbn [negb] in E.
  rewrite nf_spec in E by auto. fold nf in E.
  destruct (loop_spec o fft model n_freq n_avg freq_use bi nf nf_vis Hn HL HV nf (le_n _) st E) as (A1 & A2 & A3 & A4 & _ & A5 & A6).
  repeat split; auto; try apply A4; auto; apply A6.
Qed.

(** It returns when the gridder and the imager do. *)
Lemma split_ok {P} (o : ops P) fft n_freq n_avg freq_use bi nf_vis :
  n_freq <> 0 -> length freq_use = n_freq ->
  (forall ch, ch <> [] -> exists r, op_grid o ch bi = Ok r) -> (forall p, exists y, op_image o p = Ok y) ->
  exists st, vis_model_freq_split o fft true n_freq n_avg freq_use bi nf_vis = Ok st.
Proof.
  intros H0 HL HG HI. unfold vis_model_freq_split. apply Nat.eqb_neq in H0. rewrite H0, HL, Nat.eqb_refl. cbn [negb].
  generalize (SplitState (repeat (Planes (op_zero o) (op_zero o) (op_zero o) (op_zero o)) (list_max0 (freq_bins n_freq n_avg) + 1))
    (repeat (Planes (op_zero o) (op_zero o) (op_zero o) (op_zero o)) (list_max0 (freq_bins n_freq n_avg) + 1)) 0 nf_vis).
  generalize (seq 0 (list_max0 (freq_bins n_freq n_avg) + 1)). intros l.
  induction l as [|i t IH]; intros st; cbn [fold_res]; [eauto|].
  assert (S1 : exists st', split_step o fft true (freq_bins n_freq n_avg) freq_use bi st i = Ok st').
  { unfold split_step. destruct (where_ _ _) as [|c ch]; cbn [length Nat.eqb negb]; [eauto|].
    destruct (HG (c :: ch) ltac:(discriminate)) as [[g|] ->]; cbn [bind]; [|eauto].
    destruct fft; [|cbn [bind]; eauto]. destruct (HI (g_image g)) as [? ->]. cbn [bind]. destruct (HI (op_rephase o (g_weights g))) as [? ->]. cbn [bind].
    destruct (HI (op_rephase o (g_variance g))) as [? ->]. cbn [bind]. destruct (HI (g_model g)) as [? ->]. cbn [bind]. eauto. }
  destruct S1 as [st' ->]. cbn [bind]. apply IH.
Qed.

(** ** The export *)
Lemma map_r_spec {A B} (f : A -> result B) l : forall r, map_r f l = Ok r ->
  length r = length l /\ forall i a, nth_error l i = Some a -> exists b, f a = Ok b /\ nth_error r i = Some b.
Proof.
  induction l as [|h t IH]; intros r E; cbn [map_r] in E.
  - inversion E. split; auto. intros [|i] a H; discriminate.
  - destruct (f h) as [b|] eqn:Eb; [|discriminate]. cbn [bind] in E. destruct (map_r f t) as [r'|] eqn:Er; [|discriminate].
    cbn [bind] in E. inversion E. subst r. destruct (IH r' eq_refl) as [L H]. cbn [length]. split; [lia|].
    intros [|i] a Ha; cbn [nth_error] in *; [inversion Ha; subst; eauto|]. now apply H.
Qed.
Lemma map_r_ok {A B} (f : A -> result B) l : (forall a, In a l -> exists b, f a = Ok b) -> exists r, map_r f l = Ok r.
Proof.
  induction l as [|h t IH]; intros H; cbn [map_r]; [eauto|].
  destruct (H h (or_introl eq_refl)) as [b ->]. cbn [bind]. destruct IH as [r ->]; [intros; apply H; now right|]. cbn [bind]. eauto.
Qed.
Lemma nth_error_seq0 n i : i < n -> nth_error (seq 0 n) i = Some i.
Proof. intros H. rewrite (nth_error_nth' _ 0) by (rewrite seq_length; auto). now rewrite seq_nth. Qed.

Lemma sum_slice l lo n : lo + n <= length l -> sum_nat (slice l lo (lo + n)) = sum_nat (map (fun k => nth (lo + k) l 0) (seq 0 n)).
Proof.
  intros H. f_equal. apply (list_ext 0).
  - rewrite slice_length, map_length, seq_length by lia. lia.
  - intros k Hk. rewrite slice_length in Hk by lia. rewrite nth_slice, nth_map_seq by lia. reflexivity.
Qed.

Lemma div_le_nf n_freq n_avg : n_freq <> 0 -> n_avg <> 0 -> n_freq / n_avg <= (n_freq - 1) / n_avg + 1.
Proof.
  intros H0 Hn. pose proof (Nat.div_mod (n_freq - 1) n_avg Hn). pose proof (Nat.mod_upper_bound (n_freq - 1) n_avg Hn).
  pose proof (Nat.mul_div_le n_freq n_avg Hn). nia.
Qed.

Lemma export_pol_spec {P M} (x : export_in P M) name bi nf files pol out : x_n_avg x <> 0 -> x_n_freq x <= length nf ->
  export_pol x (x_n_freq x / x_n_avg x) name bi (nf, files) pol = Ok out ->
  exists p f, nth_error (x_pol_names x) pol = Some p
    /\ out = (f_nf f, files ++ [((x_obs_id x ++ "_" ++ name ++ "_" ++ p ++ ".h5")%string, f)])
    /\ length (f_nf f) = length nf /\ file_holds x bi pol (x_n_freq x / x_n_avg x) f
    /\ exists st, vis_model_freq_split (x_ops x pol) true (x_has_model x) (x_n_freq x) (x_n_avg x) (x_freq_use x) bi nf = Ok st
         /\ f_n_vis f = ss_n_vis st /\ f_nf f = ss_nf st.
Proof.
  intros Hn HV E. unfold export_pol in E. cbv beta iota in E.
  destruct (vis_model_freq_split _ _ _ _ _ _ _ _) as [st|] eqn:Es; [|discriminate]. cbn [bind] in E.
  destruct (split_spec _ _ _ _ _ _ _ _ _ Hn HV Es) as (H0 & HL & L1 & L2 & L3 & HC & HN & _).
  set (nfu := x_n_freq x / x_n_avg x) in *.
  destruct (map_r _ (seq 0 nfu)) as [rows|] eqn:Er; [|discriminate]. cbn [bind] in E.
  destruct (nth_error (x_pol_names x) pol) as [p|]; [|discriminate].
  match type of E with Ok (_, _ ++ [(_, ?f)]) = _ => exists p, f end.
  split; [reflexivity|]. cbn [f_nf f_n_vis]. split; [congruence|]. split; [auto|]. split; [|now exists st].
  destruct (map_r_spec _ _ _ Er) as [Lr Hr]. rewrite seq_length in Lr.
  unfold file_holds, map_of. cbn [f_beam f_weights f_variance f_model f_res f_dirty f_nf]. rewrite !map_length.
  do 4 (split; [auto|]). intros i Hi. destruct (Hr i i (nth_error_seq0 _ _ Hi)) as ([[[[b w] v] m] d] & Ei & Ni).
  unfold export_freq in Ei. pose proof (div_le_nf _ _ H0 Hn) as Hle. fold nfu in Hle.
  rewrite (nth_error_nth' _ (zero4 (x_ops x pol))) in Ei by lia. set (c := nth i (ss_cubes st) (zero4 (x_ops x pol))) in *.
  destruct (x_beam x pol i) as [b0|] eqn:Eb; [|discriminate]. cbn [bind] in Ei.
  destruct (x_cnv x (x_scale x _ b0)) as [b1|] eqn:E1; [|discriminate]. cbn [bind] in Ei.
  destruct (x_cnv x (pl_weights c)) as [w1|] eqn:E2; [|discriminate]. cbn [bind] in Ei.
  destruct (x_cnv x (pl_variance c)) as [v1|] eqn:E3; [|discriminate]. cbn [bind] in Ei.
  destruct (x_cnv x (pl_model c)) as [m1|] eqn:E4; [|discriminate]. cbn [bind] in Ei.
  destruct (x_cnv x (pl_dirty c)) as [d1|] eqn:E5; [|discriminate]. cbn [bind] in Ei. inversion Ei. subst b1 w1 v1 m1 d1. clear Ei.
  assert (NE : forall T (f : M * M * M * M * M -> T), nth_error (map f rows) i = Some (f (b, w, v, m, d))) by (intros T f; now apply map_nth_error).
  exists c, b0, (map (fun r : M * M * M * M * M => let '(_, _, _, _, d) := r in d) rows).
  split; [apply HC; lia|].
  split; [exists w; split; [assumption|apply NE]|].
  split; [exists v; split; [assumption|apply NE]|].
  split; [exists m; split; [assumption|apply NE]|].
  split; [auto|]. split.
  { exists b. split; [|apply NE]. rewrite <- E1. f_equal. f_equal.
    replace ((i + 1) * x_n_avg x) with (i * x_n_avg x + x_n_avg x) by nia. symmetry. apply sum_slice.
    pose proof (Nat.mul_div_le (x_n_freq x) (x_n_avg x) Hn) as HM. fold nfu in HM. nia. }
  split; [exists d; split; [assumption|apply NE]|]. rewrite map_length. split; [auto|].
  destruct (negb (x_residual x) && x_has_model x); auto.
Qed.

Lemma export_pols_spec {P M} (x : export_in P M) name bi : x_n_avg x <> 0 -> forall n nf files nf' files',
  x_n_freq x <= length nf ->
  fold_res (export_pol x (x_n_freq x / x_n_avg x) name bi) (seq 0 n) (nf, files) = Ok (nf', files') ->
  length nf' = length nf /\ exists fs, files' = files ++ fs /\ length fs = n
  /\ forall pol, pol < n -> exists p f, nth_error (x_pol_names x) pol = Some p
       /\ nth_error fs pol = Some ((x_obs_id x ++ "_" ++ name ++ "_" ++ p ++ ".h5")%string, f)
       /\ file_holds x bi pol (x_n_freq x / x_n_avg x) f.
Proof.
  intros Hn. induction n as [|n IH]; intros nf files nf' files' HV E.
  - cbn in E. inversion E. subst. split; auto. exists []. rewrite app_nil_r. repeat split; auto. intros; lia.
  - rewrite seq_S, fold_res_app in E. cbn [plus] in E.
    destruct (fold_res _ (seq 0 n) _) as [[nf1 files1]|] eqn:E0; [|discriminate]. cbn [bind fold_res] in E.
    destruct (export_pol x _ name bi (nf1, files1) n) as [out|] eqn:E1; [|discriminate]. cbn [bind] in E. inversion E. subst out. clear E.
    destruct (IH nf files nf1 files1 HV E0) as (L & fs & -> & Lf & H). clear IH.
    destruct (export_pol_spec x name bi nf1 _ n _ Hn ltac:(lia) E1) as (p & f & Np & Eo & Ln & Hf & _).
    inversion Eo. subst nf' files'. split; [lia|]. exists (fs ++ [((x_obs_id x ++ "_" ++ name ++ "_" ++ p ++ ".h5")%string, f)]).
    rewrite app_assoc, app_length. split; [auto|]. split; [cbn [length]; lia|].
    intros pol Hp. destruct (Nat.eq_dec pol n) as [->|Hpn].
    + exists p, f. rewrite nth_error_app2, Lf, Nat.sub_diag by lia. cbn [nth_error]. auto.
    + destruct (H pol ltac:(lia)) as (p' & f' & A & B & C). exists p', f'. rewrite nth_error_app1 by lia. auto.
Qed.

Definition cube_name (iter : nat) : string := if iter =? 0 then "hpx_even"%string else "hpx_odd"%string.

Lemma snapshot_spec {P M} (x : export_in P M) bi out : x_n_freq x <= length (x_nf_vis x) -> x_split_ps x = true ->
  x_split x = Ok bi -> snapshot x = Ok out ->
  length out = 2 * x_n_pol x
  /\ forall iter pol, iter < 2 -> pol < x_n_pol x -> exists b p f, nth_error bi iter = Some b /\ nth_error (x_pol_names x) pol = Some p
     /\ nth_error out (iter * x_n_pol x + pol) = Some ((x_obs_id x ++ "_" ++ cube_name iter ++ "_" ++ p ++ ".h5")%string, f)
     /\ file_holds x b pol (x_n_freq x / x_n_avg x) f.
Proof.
  intros HV Hs Hb E. unfold snapshot in E. destruct (Nat.eqb_spec (x_n_avg x) 0) as [|Hn]; [discriminate|].
  rewrite Hs, Hb in E. cbn [bind] in E. destruct (x_noise x true) as [[]|]; [|discriminate]. cbn [bind fold_res fst snd] in E.
  destruct (nth_error bi 0) as [b0|] eqn:B0; [|discriminate].
  destruct (fold_res (export_pol x _ "hpx_even" b0) _ _) as [[nf1 f1]|] eqn:E1; [|discriminate]. cbn [bind fold_res fst snd] in E.
  destruct (nth_error bi 1) as [b1|] eqn:B1; [|discriminate].
  destruct (fold_res (export_pol x _ "hpx_odd" b1) _ _) as [[nf2 f2]|] eqn:E2; [|discriminate]. cbn [bind snd] in E.
  inversion E. subst out. clear E.
  destruct (export_pols_spec x _ _ Hn _ _ _ _ _ HV E1) as (L1 & fs1 & -> & Lf1 & H1).
  destruct (export_pols_spec x _ _ Hn _ _ _ _ _ ltac:(rewrite L1; exact HV) E2) as (L2 & fs2 & -> & Lf2 & H2).
  cbn [app]. rewrite app_length. split; [lia|]. intros iter pol Hi Hp.
  destruct iter as [|[|iter]]; [| |lia].
  - destruct (H1 pol Hp) as (p & f & A & B & C). exists b0, p, f. cbn [Nat.mul plus]. rewrite nth_error_app1 by lia. auto.
  - destruct (H2 pol Hp) as (p & f & A & B & C). exists b1, p, f. rewrite nth_error_app2 by lia.
    replace (1 * x_n_pol x + pol - length fs1) with pol by lia. auto.
Qed.

(** The export returns when its parts do. *)
Lemma snapshot_ok {P M} (x : export_in P M) b0 b1 :
  x_n_freq x <> 0 -> x_n_avg x <> 0 -> length (x_freq_use x) = x_n_freq x -> x_n_freq x <= length (x_nf_vis x) ->
  x_n_pol x <= length (x_pol_names x) -> x_has_model x = true -> x_split_ps x = true -> x_split x = Ok [b0; b1] -> x_noise x true = Ok tt ->
  (forall pol ch bi, ch <> [] -> exists r, op_grid (x_ops x pol) ch bi = Ok r) ->
  (forall pol p, exists y, op_image (x_ops x pol) p = Ok y) -> (forall pol i, exists b, x_beam x pol i = Ok b) ->
  (forall p, exists m, x_cnv x p = Ok m) -> exists out, snapshot x = Ok out.
Proof.
  intros H0 Hn HL HV HP HM Hs Hb HNo HG HI HB HC.
  assert (S1 : forall name bi pol nf files, pol < x_n_pol x -> x_n_freq x <= length nf ->
    exists nf' files', export_pol x (x_n_freq x / x_n_avg x) name bi (nf, files) pol = Ok (nf', files') /\ length nf' = length nf).
  { intros name bi pol nf files Hp HV'. unfold export_pol. cbv beta iota. rewrite HM.
    destruct (split_ok (x_ops x pol) true (x_n_freq x) (x_n_avg x) (x_freq_use x) bi nf H0 HL) as [st Es]; [intros; apply HG; auto|apply HI|].
    rewrite Es. cbn [bind]. destruct (split_spec _ _ _ _ _ _ _ _ _ Hn HV' Es) as (_ & _ & L1 & _ & L3 & _).
    destruct (map_r_ok (export_freq x (x_n_freq x / x_n_avg x) pol st) (seq 0 (x_n_freq x / x_n_avg x))) as [rows ->].
    { intros i Hi%in_seq. unfold export_freq. pose proof (div_le_nf _ _ H0 Hn).
      rewrite (nth_error_nth' _ (zero4 (x_ops x pol))) by lia. set (c := nth i _ _).
      destruct (HB pol i) as [b ->]. cbn [bind]. destruct (HC (x_scale x (sum_nat (slice (ss_nf st) (i * x_n_avg x) ((i + 1) * x_n_avg x))) b)) as [? ->].
      cbn [bind]. destruct (HC (pl_weights c)) as [? ->]. cbn [bind]. destruct (HC (pl_variance c)) as [? ->]. cbn [bind].
      destruct (HC (pl_model c)) as [? ->]. cbn [bind]. destruct (HC (pl_dirty c)) as [? ->]. cbn [bind]. eauto. }
    cbn [bind]. destruct (nth_error (x_pol_names x) pol) as [p|] eqn:Np; [eauto|]. apply nth_error_None in Np. lia. }
  assert (S2 : forall name bi l nf files, (forall p, In p l -> p < x_n_pol x) -> x_n_freq x <= length nf ->
    exists nf' files', fold_res (export_pol x (x_n_freq x / x_n_avg x) name bi) l (nf, files) = Ok (nf', files') /\ length nf' = length nf).
  { intros name bi l. induction l as [|p t IH]; intros nf files Hl HV'; cbn [fold_res]; [eauto|].
    destruct (S1 name bi p nf files (Hl p (or_introl eq_refl)) HV') as (nf1 & f1 & -> & L1). cbn [bind].
    destruct (IH nf1 f1) as (nf2 & f2 & E2 & L2); [intros; apply Hl; now right|lia|]. exists nf2, f2. split; [auto|lia]. }
  unfold snapshot. apply Nat.eqb_neq in Hn. rewrite Hn, Hs, Hb, HNo. cbn [bind fold_res fst snd nth_error].
  destruct (S2 "hpx_even"%string b0 (seq 0 (x_n_pol x)) (x_nf_vis x) []) as (nf1 & f1 & -> & L1); [intros p Hp%in_seq; lia|auto|].
  cbn [bind]. destruct (S2 "hpx_odd"%string b1 (seq 0 (x_n_pol x)) nf1 f1) as (nf2 & f2 & -> & L2); [intros p Hp%in_seq; lia|lia|].
  cbn [bind snd]. eauto.
Qed.
