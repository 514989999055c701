From Coq Require Import ZifyBool ZifyNat.
From Verif Require Import Base Cplx NpArr VisWeights CalApply CalApplySpec CalApplyProofs CalFlag CalFlagSpec CalFlagProofs
  Bandpass BandpassSpec BandpassProofs CalAuto CalAutoProofs Calibrate CalibrateSpec.
Open Scope nat_scope.
Ltac Zify.zify_post_hook ::= idtac.

Lemma bind_ok {A B} (x : result A) (k : A -> result B) r : (a <- x ;; k a) = Ok r -> exists a, x = Ok a /\ k a = Ok r.
Proof. destruct x; cbn [bind]; [eauto|discriminate]. Qed.

Lemma same3_true {A B} (x : arr3 A) (y : arr3 B) : same3 x y = true <-> d_pol x = d_pol y /\ d_freq x = d_freq y /\ d_bl x = d_bl y.
Proof. unfold same3. rewrite !andb_true_iff, !Nat.eqb_eq. tauto. Qed.

Lemma gzip_ok op a b np nf nt : shape a np nf nt -> shape b np nf nt ->
  exists r, gzip op a b = Ok r /\ shape r np nf nt /\ forall p f t,
    at3 r p f t = match at3 a p f t, at3 b p f t with Some x, Some y => Some (op x y) | _, _ => None end.
Proof.
  intros (A1 & A2 & A3) (B1 & B2 & B3). unfold gzip. rewrite (proj2 (same3_true a b)) by (repeat split; congruence).
  eexists. split; [reflexivity|]. split; [repeat split; auto|reflexivity].
Qed.
Lemma gzip_inv op a b r : gzip op a b = Ok r ->
  shape a (d_pol b) (d_freq b) (d_bl b) /\ shape r (d_pol b) (d_freq b) (d_bl b) /\ forall p f t,
    at3 r p f t = match at3 a p f t, at3 b p f t with Some x, Some y => Some (op x y) | _, _ => None end.
Proof.
  unfold gzip. destruct (same3 a b) eqn:E; [|discriminate]. apply same3_true in E as (E1 & E2 & E3).
  intros [= <-]. unfold shape. cbn [d_pol d_freq d_bl at3]. repeat split; auto.
Qed.

(** The course of a successful run. *)
Lemma calibrate_inv {A R H} abs_ (st : cal_stages A R H) o np nf nt nn use r :
  calibrate abs_ st o np nf nt nn use = Ok r ->
  exists a g0 base fit,
    s_autos st = Ok a
    /\ (if o_auto_initialize o then s_auto_init st a
        else Ok (Arr3 (Nat.min np 2) nf nt (fun _ _ _ => Some (o_gain_init o)))) = Ok g0
    /\ s_solve st g0 = Ok base
    /\ (if o_flag o then s_flag st base use else Ok use) = Ok (r_use r)
    /\ fit_gains st o (r_use r) a base = Ok fit
    /\ (if o_auto_fit o then s_auto_fit st (r_use r) fit a else Ok fit) = Ok (r_gain r)
    /\ gzip Csub base (r_gain r) = Ok (r_residual r)
    /\ s_apply st (r_gain r) = Ok (r_vis r)
    /\ s_hist st (r_vis r) = Ok (r_hist r)
    /\ r_mean_gain r = map (stat abs_ omean (r_use r) (r_gain r)) (seq 0 (Nat.min np 2))
    /\ r_mean_residual r = map (stat abs_ omean (r_use r) (r_residual r)) (seq 0 (Nat.min np 2))
    /\ r_restrict r = map (stat abs_ (s_rmean st) (r_use r) (r_residual r)) (seq 0 (Nat.min np 2))
    /\ r_stddev r = map (stat abs_ (s_std st) (r_use r) (r_residual r)) (seq 0 (Nat.min np 2)).
Proof.
  unfold calibrate. destruct (nn <? 2); [discriminate|]. intros E.
  apply bind_ok in E as (a & E1 & E). apply bind_ok in E as (g0 & E2 & E). apply bind_ok in E as (base & E3 & E).
  apply bind_ok in E as (u & E4 & E). apply bind_ok in E as (fit & E5 & E). apply bind_ok in E as (g & E6 & E).
  apply bind_ok in E as (res & E7 & E). apply bind_ok in E as (v & E8 & E). apply bind_ok in E as (h & E9 & E).
  destruct (_ || _); [discriminate|]. apply bind_ok in E as (tt_ & E10 & E). injection E as <-.
  exists a, g0, base, fit. cbn [r_vis r_gain r_residual r_use r_hist r_mean_gain r_mean_residual r_restrict r_stddev].
  repeat (split; auto).
Qed.

Lemma omean_spec l : l <> [] -> mean_of l (omean l).
Proof.
  intros N. unfold omean. destruct (in_dec (fun x y : option Qc => ltac:(decide equality; apply Qc_eq_dec)) None l) as [I|I].
  - right; left. rewrite osum_none by auto. auto.
  - right; right. split; auto.
    assert (exists vs, l = map Some vs) as (vs & ->).
    { clear N. induction l as [|[x|] l IH]; [now exists []| |contradict I; now left].
      destruct IH as (vs & ->); [intros X; apply I; now right|]. now exists (x :: vs). }
    rewrite osum_some. eexists; split; [reflexivity|]. exists vs. split; auto. rewrite map_length.
    change (Q2Qc (inject_Z (Z.of_nat (length vs)))) with (GridLoc.qc_nat (length vs)).
    assert (L : length vs <> 0) by (destruct vs; [now contradiction N|discriminate]).
    pose proof (Qc_pos_neq _ (qc_nat_pos (length vs) ltac:(lia))) as P.
    transitivity (Qcsum vs); [field; auto|]. reflexivity.
Qed.

Lemma stat_used abs_ fn use g p fs ts : in_use (u_freq use) fs -> in_use (u_tile use) ts ->
  stat abs_ fn use g p = match ts, fs with
    | [], _ | _, [] => Some 0%Qc
    | _, _ => fn (flat_map (fun f => map (fun t => option_map abs_ (at3 g p f t)) ts) fs) end.
Proof.
  intros F T. apply in_use_unique in F, T. unfold stat, used_abs. unfold nonzero in F, T. rewrite <- F, <- T.
  destruct ts, fs; auto.
Qed.

Lemma in_use_lt l k : In k (nonzero l) -> k < length l.
Proof.
  rewrite nonzero_used. unfold used. intros H. destruct (Nat.lt_ge_cases k (length l)); auto.
  rewrite nth_overflow in H by auto. now contradiction H.
Qed.

(** A run whose steps succeed ends, unless it asks for a polynomial without a bandpass. *)
Lemma fit_ok {A R H} (st : cal_stages A R H) np nf nt o u a g : steps_succeed st np nf nt ->
  o_bandpass o = true \/ o_polyfit o = false -> fits u nf nt -> shape g np nf nt ->
  exists g', fit_gains st o u a g = Ok g' /\ shape g' np nf nt.
Proof.
  intros W Hp Fu Sg. unfold fit_gains. destruct (o_bandpass o).
  2:{ destruct (o_polyfit o); [destruct Hp; discriminate|]. eauto. }
  match goal with |- exists _, bind ?e _ = _ /\ _ => assert (exists g1 r1, e = Ok (g1, r1) /\ shape g1 np nf nt) as (g1 & r1 & E1 & S1) end.
  { destruct (o_auto_ratio o); [|now exists g, None].
    destruct (w_divide st np nf nt W u g a Fu Sg) as (g' & r & E & S'). rewrite E. cbn [bind]. eauto. }
  rewrite E1. cbn [bind]. destruct (w_bandpass st np nf nt W u g1 Fu S1) as (b & rm & E2 & S2 & S3). rewrite E2. cbn [bind].
  assert (exists g2, (if o_polyfit o then pf <- s_polyfit st u rm r1;; gzip Cmul pf b else Ok b) = Ok g2
            /\ shape g2 np nf nt) as (g2 & E3 & S4).
  { destruct (o_polyfit o); [|eauto]. destruct (w_polyfit st np nf nt W u rm r1 Fu S3) as (pf & E & S'). rewrite E. cbn [bind].
    destruct (gzip_ok Cmul pf b np nf nt S' S2) as (g2 & E' & S'' & _). eauto. }
  rewrite E3. cbn [bind]. destruct r1 as [r|]; [|eauto]. exact (w_remultiply st np nf nt W g2 r a S4).
Qed.

Lemma calibrate_ok {A R H} abs_ (st : cal_stages A R H) o n_pol nf nt nn use :
  steps_succeed st (Nat.min n_pol 2) nf nt -> 2 <= nn -> fits use nf nt ->
  o_bandpass o = true \/ o_polyfit o = false ->
  exists r, calibrate abs_ st o n_pol nf nt nn use = Ok r.
Proof.
  intros W Hn Fu Hp. unfold calibrate. replace (nn <? 2) with false by (symmetry; apply Nat.ltb_ge; lia).
  set (np := Nat.min n_pol 2) in *.
  destruct (w_autos st np nf nt W) as (a & ->). cbn [bind].
  assert (exists g0, (if o_auto_initialize o then s_auto_init st a
        else Ok (Arr3 np nf nt (fun _ _ _ => Some (o_gain_init o)))) = Ok g0 /\ shape g0 np nf nt) as (g0 & -> & S0).
  { destruct (o_auto_initialize o); [apply (w_init st np nf nt W)|]. eexists; split; [reflexivity|repeat split]. }
  cbn [bind]. destruct (w_solve st np nf nt W g0 S0) as (b & -> & Sb). cbn [bind].
  assert (exists u, (if o_flag o then s_flag st b use else Ok use) = Ok u /\ fits u nf nt) as (u & -> & Uu).
  { destruct (o_flag o); [|now exists use]. exact (w_flag st np nf nt W b use Fu Sb). }
  cbn [bind]. destruct (fit_ok st np nf nt o u a b W Hp Uu Sb) as (g1 & -> & S1). cbn [bind].
  assert (exists g2, (if o_auto_fit o then s_auto_fit st u g1 a else Ok g1) = Ok g2 /\ shape g2 np nf nt) as (g2 & -> & S2).
  { destruct (o_auto_fit o); [|eauto]. apply (w_auto_fit st np nf nt W u g1 a Uu S1). }
  cbn [bind]. destruct (gzip_ok Csub b g2 np nf nt Sb S2) as (rs & -> & Sr & _). cbn [bind].
  destruct (w_apply st np nf nt W g2 S2) as (v & ->). cbn [bind]. destruct (w_hist st np nf nt W v) as (h & ->). cbn [bind].
  fold (nonzero (u_freq u)). fold (nonzero (u_tile u)). destruct S2 as (D1 & D2 & D3), Uu as [Ut Uf].
  replace (forallb _ _) with true; [replace (forallb _ _) with true|].
  - rewrite D1, Nat.ltb_irrefl. cbn [andb negb orb]. destruct (o_plots o); [|cbn [bind]; eauto].
    destruct (w_plots st np nf nt W g2 rs) as (t & ->). cbn [bind]. eauto.
  - symmetry. apply forallb_forall. intros t Ht. apply in_use_lt in Ht. apply Nat.ltb_lt. lia.
  - symmetry. apply forallb_forall. intros t Ht. apply in_use_lt in Ht. apply Nat.ltb_lt. lia.
Qed.
