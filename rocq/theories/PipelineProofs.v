(** Proofs about main. *)
From Coq Require Import String.
From Verif Require Import Base H5IO Pipeline PipelineSpec.
Import ListNotations.
Open Scope nat_scope.

Lemma append_inj (a b c : string) : (a ++ b)%string = (a ++ c)%string -> b = c.
Proof. induction a as [|x a IH]; cbn; auto. intros E. injection E. auto. Qed.
Lemma lookup_write_other {D} name name' c (fs : files D) : name <> name' -> lookup name (write name' c fs) = lookup name fs.
Proof. intros H. unfold write. cbn [lookup]. destruct (String.eqb_spec name name'); [contradiction|auto]. Qed.
Lemma lookup_write {D} name c (fs : files D) : lookup name (write name c fs) = Some c.
Proof. unfold write. cbn [lookup]. now rewrite String.eqb_refl. Qed.

Ltac stage E := match type of E with bind ?x _ = Ok _ => let H := fresh "St" in destruct x as [?|] eqn:H; cbn [bind] in E; [|discriminate] end.
Ltac stage_as E n := match type of E with bind ?x _ = Ok _ => let H := fresh "St" in destruct x as [n|] eqn:H; cbn [bind] in E; [|discriminate] end.
Ltac pairs := repeat match goal with p : (_ * _)%type |- _ => destruct p end.

(** Without a calibration checkpoint the files are only written. *)
Lemma calibration_files {D} (st : stages D) cfg fs vars psf r fs' : calibrate_checkpoint cfg = None ->
  calibration st cfg fs vars psf = Ok (r, fs') ->
  (forall name, name <> file_of cfg "_calibration_checkpoint.h5" -> lookup name fs' = lookup name fs)
  /\ forall fs2, exists fs2', calibration st cfg fs2 vars psf = Ok (r, fs2').
Proof.
  intros Hc E. unfold calibration in *. rewrite Hc in *.
  stage E. pairs. rewrite ?St. cbn [bind].
  repeat (stage E; pairs; cbn [bind]; try rewrite St0; try rewrite St1; try rewrite St2; cbn [bind]).
  destruct (calibrate_visibilities cfg).
  - repeat (stage E; pairs; cbn [bind]). injection E as <- <-. split.
    + intros name Hn. destruct (save_checkpoints cfg); auto. now apply lookup_write_other.
    + intros fs2. eexists.
      repeat match goal with H : _ = Ok _ |- context [bind ?x _] => match type of H with x = _ => rewrite H; cbn [bind] end end. reflexivity.
  - injection E as <- <-. split; auto. intros fs2. eexists.
    repeat match goal with H : _ = Ok _ |- context [bind ?x _] => match type of H with x = _ => rewrite H; cbn [bind] end end. reflexivity.
Qed.

Lemma gridding_files {D} (st : stages D) cfg fs a b c d e f r p fs' : gridding_checkpoint cfg = None ->
  gridding st cfg fs a b c d e f = Ok (r, p, fs') ->
  (forall name, name <> file_of cfg "_gridding_checkpoint.h5" -> lookup name fs' = lookup name fs)
  /\ forall fs2, exists fs2', gridding st cfg fs2 a b c d e f = Ok (r, p, fs2').
Proof.
  intros Hc E. unfold gridding in *. rewrite Hc in *. destruct (c_recalculate_grid cfg).
  - stage E. pairs. injection E as <- <- <-. split.
    + intros name Hn. destruct (save_checkpoints cfg); auto. now apply lookup_write_other.
    + intros fs2. eexists. cbn [bind]. reflexivity.
  - injection E as <- <- <-. split; auto. intros fs2. eexists. reflexivity.
Qed.

Lemma final_app {D} (a b : list (output D)) : final (a ++ b) = final a ++ final b.
Proof. apply filter_app. Qed.
Lemma raw_final {D} (st : stages D) cfg fs v fs' raw : load_obs st cfg fs = Ok (v, fs', raw) -> final raw = [].
Proof.
  unfold load_obs. intros E. destruct (obs_checkpoint cfg).
  - repeat (stage E; pairs). injection E as <- <- <-. reflexivity.
  - destruct (calibrate_checkpoint cfg); [injection E as <- <- <-; reflexivity|].
    stage E. pairs. stage E. injection E as <- <- <-. destruct (save_weights cfg), (c_save_visibilities cfg); try discriminate; injection St0 as <-; reflexivity.
Qed.
Lemma reload_all {D} (st : stages D) (c : list (string * D)) : (forall d, reload st d = d) ->
  map (fun kd => (fst kd, reload st (snd kd))) c = c.
Proof. intros H. transitivity (map (fun kd : string * D => kd) c); [|apply map_id]. apply map_ext. intros [k d]. cbn. now rewrite H. Qed.

(** What the obs checkpoint holds, and that it is left alone afterwards. *)
Lemma load_obs_fresh {D} (st : stages D) cfg fs v fs' raw :
  obs_checkpoint cfg = None -> calibrate_checkpoint cfg = None -> save_checkpoints cfg = true ->
  load_obs st cfg fs = Ok (v, fs', raw) ->
  exists obs params vis_arr vis_weights, v = Some (obs, params, vis_arr, vis_weights)
  /\ lookup (file_of cfg "_obs_checkpoint.h5") fs'
     = Some [("obs"%string, obs); ("params"%string, params); ("vis_arr"%string, vis_arr); ("vis_weights"%string, vis_weights)].
Proof.
  intros H1 H2 H3 E. unfold load_obs in E. rewrite H1, H2, H3 in E. stage E. pairs. stage E. injection E as <- <- _.
  do 4 eexists. split; [reflexivity|]. apply lookup_write.
Qed.

Lemma resume_obs_spec {D} (st : stages D) cfg fs out fs' : (forall d, reload st d = d) ->
  obs_checkpoint cfg = None -> calibrate_checkpoint cfg = None -> gridding_checkpoint cfg = None -> save_checkpoints cfg = true ->
  main st cfg fs = Ok (out, fs') ->
  (exists c, lookup (file_of cfg "_obs_checkpoint.h5") fs' = Some c)
  /\ forall fs2, lookup (file_of cfg "_obs_checkpoint.h5") fs2 = lookup (file_of cfg "_obs_checkpoint.h5") fs' ->
  exists out' fs'', main st (resume_obs cfg (file_of cfg "_obs_checkpoint.h5")) fs2 = Ok (out', fs'') /\ final out' = final out.
Proof.
  intros Hr H1 H2 H3 H4 E. unfold main in E. stage_as E p. destruct p as [[v fs1] raw]. pose proof (raw_final _ _ _ _ _ _ St) as Rw.
  destruct (load_obs_fresh st cfg fs v fs1 raw H1 H2 H4 St) as (obs & params & vis & w & -> & L).
  stage_as E d. stage_as E p. destruct p as [v2 fs3]. destruct (calibration_files st cfg fs1 _ d v2 fs3 H2 St1) as [C1 C2].
  assert (N1 : file_of cfg "_obs_checkpoint.h5" <> file_of cfg "_calibration_checkpoint.h5")
    by (unfold file_of; intros X; apply append_inj in X; discriminate).
  assert (N2 : file_of cfg "_obs_checkpoint.h5" <> file_of cfg "_gridding_checkpoint.h5")
    by (unfold file_of; intros X; apply append_inj in X; discriminate).
  assert (M : forall fs2, lookup (file_of cfg "_obs_checkpoint.h5") fs2 = lookup (file_of cfg "_obs_checkpoint.h5") fs1 ->
    load_obs st (resume_obs cfg (file_of cfg "_obs_checkpoint.h5")) fs2 = Ok (Some (obs, params, vis, w), fs2, [])).
  { intros fs2 Hf. unfold load_obs. cbn [resume_obs obs_checkpoint]. unfold load_ckpt. rewrite Hf, L. cbn [bind].
    rewrite reload_all by auto. reflexivity. }
  assert (Cal : forall fs, calibration st (resume_obs cfg (file_of cfg "_obs_checkpoint.h5")) fs (Some (obs, params, vis, w)) d
     = calibration st cfg fs (Some (obs, params, vis, w)) d) by reflexivity.
  destruct (cal_stop cfg) eqn:Stop.
  - stage E. pairs. stage E. injection E as <- <-. split; [eexists; rewrite (C1 _ N1); exact L|].
    intros fs2 Hf. rewrite (C1 _ N1) in Hf. destruct (C2 fs2) as [fs2' E2].
    do 2 eexists. unfold main. rewrite M by auto. cbn [bind]. rewrite St0. cbn [bind]. rewrite Cal, E2. cbn [bind resume_obs cal_stop]. rewrite Stop. rewrite St2. cbn [bind].
    change (@stop_outputs D (resume_obs cfg (file_of cfg "_obs_checkpoint.h5"))) with (@stop_outputs D cfg). rewrite St3. cbn [bind].
    split; [reflexivity|]. rewrite !final_app, Rw. reflexivity.
  - stage_as E p. destruct p as [[[[[obs1 params1] vis1] model1] w1] cal1]. stage_as E p. destruct p as [[obs2 planes] fs4]. stage E. injection E as <- <-.
    destruct (gridding_files st cfg fs3 _ _ _ _ _ _ _ _ _ H3 St3) as [G1 G2].
    split; [eexists; rewrite (G1 _ N2), (C1 _ N1); exact L|].
    intros fs2 Hf. rewrite (G1 _ N2), (C1 _ N1) in Hf. destruct (C2 fs2) as [fs2' E2]. destruct (G2 fs2') as [fs3' E3].
    do 2 eexists. unfold main. rewrite M by auto. cbn [bind]. rewrite St0. cbn [bind]. rewrite Cal, E2. cbn [bind resume_obs cal_stop]. rewrite Stop, St2. cbn [bind].
    change (gridding st (resume_obs cfg (file_of cfg "_obs_checkpoint.h5"))) with (gridding st cfg).
    rewrite E3. cbn [bind]. change (@exports D (resume_obs cfg (file_of cfg "_obs_checkpoint.h5"))) with (@exports D cfg). rewrite St4. cbn [bind].
    split; [reflexivity|]. rewrite !final_app, Rw. reflexivity.
Qed.

(** ** The gridding checkpoint *)
Lemma exports_counts {D} (st : stages D) cfg obs n params vis model w psf cal planes out :
  exports cfg (set_nf_vis st obs n) params vis model w psf cal planes = Ok out ->
  exists out', exports cfg obs params vis model w psf cal planes = Ok out' /\ Forall2 (without_counts st) out out'.
Proof.
  unfold exports. intros E. stage_as E q. stage_as E h. injection E as <-.
  assert (Q : exists q', (if export_images cfg then
          cal <- need cal ;; '(image_uv, weights_uv, variance_uv, uniform_filter_uv, model_uv) <- need planes ;; model_uv <- need model_uv ;;
          Ok [Quickview obs psf params cal vis w image_uv weights_uv variance_uv uniform_filter_uv model_uv]
        else Ok []) = Ok q' /\ Forall2 (without_counts st) q q').
  { destruct (export_images cfg); [|injection St as <-; eauto]. stage_as St c. stage_as St p. destruct p as [[[[p1 p2] p3] p4] p5].
    stage_as St m. injection St as <-. cbn [bind]. rewrite St3. cbn [bind]. eexists. split; [reflexivity|]. constructor; [|constructor].
    cbn. eauto. }
  assert (H : exists h', (if c_healpix_export cfg then cal <- need cal ;; Ok [Healpix obs psf cal params vis model w] else Ok []) = Ok h'
    /\ Forall2 (without_counts st) h h').
  { destruct (c_healpix_export cfg); [|injection St0 as <-; eauto]. stage_as St0 c. injection St0 as <-. cbn [bind].
    eexists. split; [reflexivity|]. constructor; [|constructor]. cbn. eauto. }
  destruct Q as (q' & Eq & Fq), H as (h' & Eh & Fh). exists (q' ++ h'). rewrite Eq. cbn [bind]. rewrite Eh. cbn [bind].
  split; [reflexivity|]. now apply Forall2_app.
Qed.
Lemma without_refl {D} (st : stages D) raw : (forall o, In o raw -> match o with RawFile _ _ => True | _ => False end) -> Forall2 (without_counts st) raw raw.
Proof.
  induction raw as [|o raw IH]; intros H; constructor; [|apply IH; intros; apply H; now right].
  specialize (H o (or_introl eq_refl)). destruct o; try contradiction. reflexivity.
Qed.
Lemma raw_only {D} (st : stages D) cfg fs v fs' raw : load_obs st cfg fs = Ok (v, fs', raw) ->
  forall o, In o raw -> match o with RawFile _ _ => True | _ => False end.
Proof.
  unfold load_obs. intros E. destruct (obs_checkpoint cfg).
  - repeat (stage E; pairs). injection E as <- <- <-. intros o [].
  - destruct (calibrate_checkpoint cfg); [injection E as <- <- <-; intros o []|].
    stage E. pairs. stage E. injection E as <- <- <-.
    destruct (save_weights cfg), (c_save_visibilities cfg); try discriminate; injection St0 as <-; cbn; intros o Ho;
      repeat destruct Ho as [<-|Ho]; try contradiction; exact I.
Qed.
Lemma load_obs_any {D} (st : stages D) cfg fs v fs' raw : obs_checkpoint cfg = None -> load_obs st cfg fs = Ok (v, fs', raw) ->
  forall fs2, exists fs2', load_obs st cfg fs2 = Ok (v, fs2', raw)
    /\ forall name, name <> file_of cfg "_obs_checkpoint.h5" -> lookup name fs2' = lookup name fs2.
Proof.
  unfold load_obs. intros -> E fs2. destruct (calibrate_checkpoint cfg).
  - injection E as <- <- <-. eauto.
  - stage_as E p. pairs. stage_as E r. injection E as <- <- <-. cbn [bind]. rewrite St0. cbn [bind]. eexists. split; [reflexivity|].
    intros name Hn. destruct (save_checkpoints cfg); auto. now apply lookup_write_other.
Qed.
Lemma resume_gridding_spec {D} (st : stages D) cfg fs out fs' : (forall d, reload st d = d) ->
  obs_checkpoint cfg = None -> calibrate_checkpoint cfg = None -> gridding_checkpoint cfg = None -> save_checkpoints cfg = true ->
  c_recalculate_grid cfg = true -> cal_stop cfg = false ->
  main st cfg fs = Ok (out, fs') ->
  (exists c, lookup (file_of cfg "_gridding_checkpoint.h5") fs' = Some c)
  /\ forall fs2, lookup (file_of cfg "_gridding_checkpoint.h5") fs2 = lookup (file_of cfg "_gridding_checkpoint.h5") fs' ->
  exists out' fs'', main st (resume_gridding cfg (file_of cfg "_gridding_checkpoint.h5")) fs2 = Ok (out', fs'')
    /\ Forall2 (without_counts st) out out'.
Proof.
  intros Hr H1 H2 H3 H4 H5 Stop E. unfold main in E. stage_as E p. destruct p as [[v fs1] raw].
  pose proof (load_obs_any st cfg fs v fs1 raw H1 St) as Any. pose proof (raw_only st cfg fs v fs1 raw St) as Raw.
  stage_as E d. stage_as E p. destruct p as [v2 fs3]. destruct (calibration_files st cfg fs1 _ d v2 fs3 H2 St1) as [C1 C2].
  rewrite Stop in E. stage_as E p. destruct p as [[[[[obs1 params1] vis1] model1] w1] cal1]. stage_as E p. destruct p as [[obs2 planes] fs4].
  stage_as E o. injection E as <- <-. unfold gridding in St3. rewrite H5, H3, H4 in St3. stage_as St3 p. destruct p as [[[[[p1 p2] p3] p4] p5] n].
  injection St3 as <- <- <-.
  assert (L : lookup (file_of cfg "_gridding_checkpoint.h5") (write (file_of cfg "_gridding_checkpoint.h5")
     [("image_uv"%string, p1); ("weights_uv"%string, p2); ("variance_uv"%string, p3); ("uniform_filter_uv"%string, p4); ("model_uv"%string, p5)] fs3)
     = Some [("image_uv"%string, p1); ("weights_uv"%string, p2); ("variance_uv"%string, p3); ("uniform_filter_uv"%string, p4); ("model_uv"%string, p5)])
    by apply lookup_write.
  split; [eexists; exact L|]. intros fs2 Hf. rewrite L in Hf.
  assert (N1 : file_of cfg "_gridding_checkpoint.h5" <> file_of cfg "_calibration_checkpoint.h5")
    by (unfold file_of; intros X; apply append_inj in X; discriminate).
  assert (N2 : file_of cfg "_gridding_checkpoint.h5" <> file_of cfg "_obs_checkpoint.h5")
    by (unfold file_of; intros X; apply append_inj in X; discriminate).
  destruct (Any fs2) as (fs2a & A1 & A2). destruct (C2 fs2a) as (fs2b & B1).
  destruct (calibration_files st cfg fs2a _ d v2 fs2b H2 B1) as [B2 _].
  destruct (exports_counts st cfg obs1 n params1 vis1 model1 w1 d cal1 _ o St4) as (out' & X1 & X2).
  assert (Gr : gridding st (resume_gridding cfg (file_of cfg "_gridding_checkpoint.h5")) fs2b obs1 params1 vis1 model1 w1 d
    = Ok (obs1, Some (p1, p2, p3, p4, Some p5), fs2b)).
  { unfold gridding, resume_gridding. cbn [c_recalculate_grid gridding_checkpoint]. rewrite H5. unfold load_ckpt.
    rewrite (B2 _ N1), (A2 _ N2), Hf. cbn [bind]. rewrite reload_all by auto. reflexivity. }
  exists (raw ++ out'), fs2b. split; [|apply Forall2_app; auto; now apply without_refl].
  unfold main. change (load_obs st (resume_gridding cfg (file_of cfg "_gridding_checkpoint.h5")) fs2) with (load_obs st cfg fs2).
  rewrite A1. cbn [bind]. rewrite St0. cbn [bind].
  change (calibration st (resume_gridding cfg (file_of cfg "_gridding_checkpoint.h5")) fs2a v d) with (calibration st cfg fs2a v d).
  rewrite B1. cbn [bind resume_gridding cal_stop]. rewrite Stop, St2. cbn [bind].
  rewrite Gr. cbn [bind].
  match goal with |- context [@exports D ?c] => change (@exports D c) with (@exports D cfg) end.
  rewrite X1. reflexivity.
Qed.
