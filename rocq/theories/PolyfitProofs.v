From Coq Require Import ZifyBool ZifyNat.
From Verif Require Import Base Cplx NpArr PyIndex VisWeights GridLoc AutoProofs CalFlag CalFlagSpec CalFlagProofs CalAutoProofs CalibrateProofs
  Polyfit PolyfitSpec.
Open Scope nat_scope.
Ltac Zify.zify_post_hook ::= idtac.

Lemma poly_app c a x : poly (c ++ [a]) x = (poly c x + a * Qcpower x (length c))%Qc.
Proof.
  induction c as [|b c IH]; cbn [app poly length Qcpower]; [ring|]. rewrite IH. ring.
Qed.
Lemma poly_firstn c x n : n <= length c -> poly_sum (map Some c) n x = Some (poly (firstn n c) x).
Proof.
  induction n as [|n IH]; intros L; cbn [poly_sum]; [reflexivity|]. rewrite IH by lia.
  assert (E : firstn (S n) c = firstn n c ++ [nth n c 0%Qc]).
  { clear IH. revert c L. induction n as [|n IH]; intros [|a c] L; cbn in L; try lia; auto.
    cbn [firstn app nth]. f_equal. apply IH. cbn in *. lia. }
  rewrite E, poly_app, firstn_length, Nat.min_l by lia.
  rewrite (nth_indep (map Some c) None (Some 0%Qc)) by (rewrite map_length; lia). rewrite (map_nth Some). reflexivity.
Qed.
Lemma poly_all c x n : n = length c -> poly_sum (map Some c) n x = Some (poly c x).
Proof. intros ->. now rewrite poly_firstn, firstn_all by auto. Qed.

Lemma map_res_nth {A B} (f : A -> result B) l r d e k : map_res f l = Ok r -> k < length l ->
  f (nth k l d) = Ok (nth k r e).
Proof.
  revert r k. induction l as [|a l IH]; intros r k E H; [cbn in H; lia|]. cbn [map_res] in E.
  destruct (f a) as [b|] eqn:Ea; cbn [bind] in E; [|discriminate]. destruct (map_res f l) as [bs|]; cbn [bind] in E; [|discriminate].
  injection E as <-. destruct k; cbn [nth]; auto. apply IH; auto. cbn in H. lia.
Qed.

Lemma fit_all_at abs_ arg_ expi unwrap fit cfg below freqs gain g p t :
  fit_all abs_ arg_ expi unwrap fit cfg below freqs gain = Ok g -> p < d_pol gain -> t < d_bl gain ->
  exists h, fit_tile abs_ arg_ expi unwrap fit cfg below freqs (fun f => at3 gain p f t) = Ok h
    /\ forall f, at3 g p f t = h f.
Proof.
  unfold fit_all. destruct (negb _); [discriminate|]. intros E Hp Ht. apply bind_ok in E as (rows & E & G). injection G as <-.
  pose proof (map_res_nth _ _ _ 0 [] p E ltac:(rewrite seq_length; auto)) as R. rewrite seq_nth in R by auto. cbn [Nat.add] in R.
  pose proof (map_res_nth _ _ _ 0 (fun _ => None) t R ltac:(rewrite seq_length; auto)) as T. rewrite seq_nth in T by auto. cbn [Nat.add] in T.
  eexists. split; [exact T|]. reflexivity.
Qed.
Lemma fit_all_dims abs_ arg_ expi unwrap fit cfg below freqs gain g :
  fit_all abs_ arg_ expi unwrap fit cfg below freqs gain = Ok g ->
  d_pol g = d_pol gain /\ d_freq g = d_freq gain /\ d_bl g = d_bl gain.
Proof.
  unfold fit_all. destruct (negb _); [discriminate|]. intros E. apply bind_ok in E as (rows & E & G). now injection G as <-.
Qed.

Lemma theory_off q : q = 0%Qc -> negb (if Qc_eq_dec q 0 then true else false) = false.
Proof. intros ->. now destruct (Qc_eq_dec 0 0). Qed.
Lemma theory_on q : q <> 0%Qc -> negb (if Qc_eq_dec q 0 then true else false) = true.
Proof. intros H. now destruct (Qc_eq_dec q 0). Qed.

Lemma plain_run abs_ arg_ expi unwrap fit turn hyper dm cfg below fu tu light span table auto gain :
  no_reflections cfg ->
  vis_cal_polyfit abs_ arg_ expi unwrap fit turn hyper dm cfg below fu tu light span table auto gain
  = fit_all abs_ arg_ expi unwrap fit cfg below (nonzero fu) gain.
Proof.
  intros (F & T & D & Hy). unfold vis_cal_polyfit. rewrite F, D, Hy, (theory_off _ T). cbn [orb negb andb].
  destruct (fit_all _ _ _ _ _ _ _ _ _); reflexivity.
Qed.

Lemma degree_a cfg : (if c_amp_degree cfg =? 0 then 2 else c_amp_degree cfg) = amp_degree cfg.
Proof. unfold amp_degree. now destruct (c_amp_degree cfg). Qed.
Lemma degree_p cfg : (if c_phase_degree cfg =? 0 then 1 else c_phase_degree cfg) = phase_degree cfg.
Proof. unfold phase_degree. now destruct (c_phase_degree cfg). Qed.

(** ** The amplitude over the full band *)
Lemma amp_full_inv fit freqs deg amp a : amp_full fit freqs deg amp = Ok a ->
  let c := fit freqs (map amp freqs) deg in
  (length c = deg + 1 \/ length c = 1 /\ deg <= 1) /\ forall f, a f = poly_sum c deg (qc_nat f).
Proof.
  intros E c. unfold amp_full in E. destruct freqs as [|x [|y l]]; try discriminate. fold c in E. clearbody c. unfold store in E.
  destruct (_ || _) eqn:O; [|discriminate]. destruct (_ <? _) eqn:L; [discriminate|]. injection E as <-.
  split; [lia|reflexivity].
Qed.
Lemma phase_full_inv unwrap fit freqs deg ph a : phase_full unwrap fit freqs deg ph = Ok a ->
  let c := fit freqs (unwrap (map ph freqs)) deg in forall f, a f = poly_sum c (length c) (qc_nat f).
Proof.
  intros E c. unfold phase_full in E. destruct freqs as [|x [|y l]]; try discriminate. fold c in E. clearbody c. unfold store in E.
  destruct (_ || _) eqn:O; [|discriminate]. now injection E as <-.
Qed.

Lemma tile_inv abs_ arg_ expi unwrap fit cfg below freqs g h :
  fit_tile abs_ arg_ expi unwrap fit cfg below freqs g = Ok h ->
  exists a p, (if c_jump cfg then amp_jump fit below freqs (amp_degree cfg) (fun f => option_map abs_ (g f))
               else amp_full fit freqs (amp_degree cfg) (fun f => option_map abs_ (g f))) = Ok a
    /\ phase_full unwrap fit freqs (phase_degree cfg) (fun f => option_map arg_ (g f)) = Ok p
    /\ forall f, h f = match a f, p f with Some x, Some y => Some (Cscale x (expi y)) | _, _ => None end.
Proof.
  unfold fit_tile. rewrite degree_a, degree_p. intros E. apply bind_ok in E as (a & Ea & E). apply bind_ok in E as (p & Ep & E).
  injection E as <-. exists a, p. auto.
Qed.

(** ** Sorted channels split at a frequency *)
Lemma filter_below_firstn k l : StronglySorted lt l ->
  filter (fun f => f <? k) l = firstn (length (filter (fun f => f <? k) l)) l
  /\ filter (fun f => negb (f <? k)) l = skipn (length (filter (fun f => f <? k) l)) l.
Proof.
  induction l as [|a l IH]; intros St; [auto|]. inversion St as [|? ? S1 S2]; subst. cbn [filter].
  destruct (a <? k) eqn:E; cbn [negb length firstn skipn].
  - destruct (IH S1) as [I1 I2]. split; [f_equal|]; auto.
  - assert (F : filter (fun f => f <? k) l = []).
    { apply filter_none. rewrite Forall_forall in S2. intros x Hx. specialize (S2 x Hx). lia. }
    rewrite F. cbn [length firstn skipn]. split; auto. f_equal. apply filter_all.
    rewrite Forall_forall in S2. intros x Hx. specialize (S2 x Hx). lia.
Qed.
Lemma where_below k l : StronglySorted lt l ->
  where_ (fun f => f <? k) l = seq 0 (length (filter (fun f => f <? k) l)).
Proof.
  intros St. unfold where_. generalize 0. induction l as [|a l IH]; intros s; [reflexivity|].
  inversion St as [|? ? S1 S2]; subst. cbn [length seq combine filter snd]. destruct (a <? k) eqn:E.
  - cbn [map fst length seq]. f_equal. now apply IH.
  - rewrite (IH S1 (S s)). rewrite (filter_none (fun f => f <? k) l); [reflexivity|].
    rewrite Forall_forall in S2. intros x Hx. specialize (S2 x Hx). lia.
Qed.
Lemma list_max_seq n : list_max (seq 0 (S n)) = n.
Proof.
  apply Nat.le_antisymm.
  - apply list_max_le. apply Forall_forall. intros x Hx. apply in_seq in Hx. lia.
  - assert (F : Forall (fun x => x <= list_max (seq 0 (S n))) (seq 0 (S n))) by (apply list_max_le; auto).
    rewrite Forall_forall in F. apply F. apply in_seq. lia.
Qed.

Lemma amp_jump_split fit k freqs deg amp : StronglySorted lt freqs ->
  let lo := filter (fun f => f <? k) freqs in let hi := filter (fun f => negb (f <? k)) freqs in
  lo <> [] -> hi <> [] -> deg <> 0 -> fit lo (map amp lo) (deg - 1) <> [] ->
  amp_jump fit (fun f => f <? k) freqs deg amp =
  (let c1 := fit lo (map amp lo) (deg - 1) in let c2 := fit hi (map amp hi) (deg - 1) in
   let f0 := hd 0 lo in let fl := last lo 0 in let h0 := hd 0 hi in let hl := last hi 0 in
   if negb ((fl - f0 + 1 =? fl) || (fl =? 1)) then Err ValueError else
   if (length c1 <? deg) || (length c2 <? deg) then Err IndexError else
   if negb ((length c1 =? deg) && (length c2 =? deg) && (deg =? 2)) then Err ValueError else
   Ok (fun f =>
     oadd (if (f0 <=? f) && (f <=? fl) then poly_sum c1 deg (qc_nat (if fl =? 1 then 0 else f - f0)) else Some 0%Qc)
          (if (h0 <=? f) && (f <=? hl) then poly_sum c2 deg (qc_nat f) else Some 0%Qc))).
Proof.
  intros St lo hi Nlo Nhi Nd Nc. unfold amp_jump. rewrite (where_below k freqs St). fold lo.
  destruct (filter_below_firstn k freqs St) as [F1 F2]. fold lo in F1, F2. fold hi in F2.
  assert (Llo : 0 < length lo) by (destruct lo; [contradiction|cbn; lia]).
  assert (Lhi : 0 < length hi) by (destruct hi; [contradiction|cbn; lia]).
  assert (Lf : length freqs = length lo + length hi).
  { transitivity (length (firstn (length lo) freqs ++ skipn (length lo) freqs)); [now rewrite firstn_skipn|].
    rewrite app_length. now rewrite <- F1, <- F2. }
  assert (Fq : freqs = lo ++ hi) by (rewrite F1, F2 at 1; now rewrite firstn_skipn).
  destruct (length lo) as [|n] eqn:En; [lia|]. cbn [seq]. cbv zeta. change (0 :: seq 1 n) with (seq 0 (S n)). rewrite list_max_seq. rewrite <- F1, <- F2.
  replace (length freqs =? 1) with false by (symmetry; apply Nat.eqb_neq; lia).
  replace (deg =? 0) with false by (symmetry; apply Nat.eqb_neq; auto).
  replace (length (fit lo (map amp lo) (deg - 1)) =? 0) with false.
  2:{ symmetry. apply Nat.eqb_neq. intros Z. apply Nc. now apply length_zero_iff_nil. }
  assert (E0 : nth 0 freqs 0 = hd 0 lo) by (rewrite Fq; destruct lo; [contradiction|reflexivity]).
  assert (Last : forall l : list nat, l <> [] -> last l 0 = nth (length l - 1) l 0).
  { intros l. induction l as [|a l IH]; [contradiction|]. intros _. destruct l as [|b l]; [reflexivity|].
    change (last (a :: b :: l) 0) with (last (b :: l) 0). rewrite IH by discriminate. cbn [length]. replace (S (S (length l)) - 1) with (S (length l)) by lia. replace (S (length l) - 1) with (length l) by lia. reflexivity. }
  assert (E1 : nth n freqs 0 = last lo 0).
  { rewrite Last by auto. rewrite En, Fq, app_nth1 by lia. f_equal. lia. }
  assert (E2 : nth (length freqs - 1) freqs 0 = last hi 0).
  { rewrite Last by auto. rewrite Fq at 2. rewrite app_nth2 by lia. f_equal. lia. }
  rewrite E0, E1, E2. destruct hi as [|h0 hi']; [contradiction|]. reflexivity.
Qed.

Lemma amp_jump_none fit below freqs deg amp : (forall f, In f freqs -> below f = false) ->
  amp_jump fit below freqs deg amp = Ok (fun _ => Some 0%Qc).
Proof.
  intros H. unfold amp_jump. replace (where_ (fun f => below f) freqs) with (@nil nat); [reflexivity|].
  symmetry. unfold where_. generalize 0. induction freqs as [|a l IH]; intros s; [reflexivity|].
  cbn [length seq combine filter snd]. rewrite (H a) by now left. apply IH. intros; apply H; now right.
Qed.

Lemma sorted_last l f d : StronglySorted lt l -> In f l -> f <= last l d.
Proof.
  revert f. induction l as [|a l IH]; intros f St I; [destruct I|]. inversion St as [|? ? S1 S2]; subst.
  destruct l as [|b l].
  - cbn in I |- *. lia.
  - change (last (a :: b :: l) d) with (last (b :: l) d). destruct I as [<-|I]; [|now apply IH].
    transitivity b; [rewrite Forall_forall in S2; specialize (S2 b (or_introl eq_refl)); lia|].
    apply IH; auto. now left.
Qed.
Lemma sorted_hd l f d : StronglySorted lt l -> In f l -> hd d l <= f.
Proof.
  destruct l as [|a l]; intros St I; [destruct I|]. inversion St as [|? ? S1 S2]; subst. cbn [hd].
  destruct I as [<-|I]; auto. rewrite Forall_forall in S2. specialize (S2 f I). lia.
Qed.
Lemma last_In (l : list nat) d : l <> [] -> In (last l d) l.
Proof.
  induction l as [|a l IH]; [contradiction|]. intros _. destruct l; [now left|]. right. apply IH. discriminate.
Qed.
Lemma hd_In (l : list nat) d : l <> [] -> In (hd d l) l.
Proof. destruct l; [contradiction|]. intros _. now left. Qed.

Lemma theory_periods light span n row : (1 <= k_flag row)%Qc -> theory_mode light span n row = reflection_periods light span n row.
Proof.
  intro H. unfold theory_mode, reflection_periods. assert (clip01 (k_flag row) = 1%Qc) as ->.
  { unfold clip01. destruct (Qclt_le_dec (k_flag row) 0) as [L|_].
    - exfalso. pose proof (Qcle_lt_trans _ _ _ H L) as X. discriminate X.
    - destruct (Qclt_le_dec 1 (k_flag row)) as [_|L]; [reflexivity|]. apply Qcle_antisym; assumption. }
  replace (Q2Qc 2) with (1 + 1)%Qc by (apply Qc_is_canon; reflexivity). unfold Qcdiv. ring.
Qed.
Lemma theory_marked light span n row : (k_flag row <= 0)%Qc -> theory_mode light span n row = 0%Qc.
Proof.
  intro H. unfold theory_mode. assert (clip01 (k_flag row) = 0%Qc) as ->.
  { unfold clip01. destruct (Qclt_le_dec (k_flag row) 0) as [L|L]; [reflexivity|].
    destruct (Qclt_le_dec 1 (k_flag row)) as [L'|_].
    - exfalso. pose proof (Qclt_le_trans _ _ _ L' H) as X. discriminate X.
    - apply Qcle_antisym; assumption. }
  ring.
Qed.
