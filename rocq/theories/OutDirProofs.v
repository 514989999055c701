(** Proofs about the files of runs. *)
From Coq Require Import String Ascii.
From Verif Require Import Base OutDir OutDirSpec.
Import ListNotations.
Open Scope string_scope.
Open Scope list_scope.

(* ---- paths ---- *)
Lemma path_eqb_eq : forall p q, path_eqb p q = true <-> p = q.
Proof. intros p q. unfold path_eqb. destruct (list_eq_dec string_dec p q); split; congruence. Qed.
Lemma path_eqb_refl : forall p, path_eqb p p = true.
Proof. intros. apply path_eqb_eq. reflexivity. Qed.
Lemma path_eqb_neq : forall p q, p <> q -> path_eqb p q = false.
Proof. intros p q H. destruct (path_eqb p q) eqn:E; [apply path_eqb_eq in E; contradiction | reflexivity]. Qed.

Lemma file_put : forall s p c q, file (put s p c) q = if path_eqb p q then Some c else file s q.
Proof. reflexivity. Qed.
Lemma file_add_dirs : forall s ps q, file (add_dirs s ps) q = file s q.
Proof. reflexivity. Qed.
Lemma is_dir_put : forall s p c q, is_dir (put s p c) q = is_dir s q.
Proof. reflexivity. Qed.
Lemma is_dir_add : forall s p q, is_dir (add_dirs s [p]) q = true <-> is_dir s q = true \/ q = p.
Proof.
  intros s p [|x t].
  - unfold is_dir. split; auto.
  - unfold is_dir, add_dirs. cbn [dirs app existsb]. rewrite orb_true_iff, path_eqb_eq. tauto.
Qed.

Lemma file_mkdirs : forall rp s q, file (mkdirs rp s) q = file s q.
Proof.
  induction rp as [|x t IH]; intros s q; cbn [mkdirs]; [destruct (is_dir s (rev [])); reflexivity|].
  destruct (is_dir s (rev (x :: t))); [reflexivity|]. rewrite file_add_dirs. apply IH.
Qed.
Lemma mkdirs_keep : forall rp s q, is_dir s q = true -> is_dir (mkdirs rp s) q = true.
Proof.
  induction rp as [|x t IH]; intros s q H; cbn [mkdirs]; [destruct (is_dir s (rev [])); exact H|].
  destruct (is_dir s (rev (x :: t))); [exact H|]. apply is_dir_add. left. apply IH, H.
Qed.
Lemma mkdirs_made : forall rp s, is_dir (mkdirs rp s) (rev rp) = true.
Proof.
  intros [|x t] s; cbn [mkdirs].
  - destruct (is_dir s (rev [])) eqn:E; [exact E | reflexivity].
  - destruct (is_dir s (rev (x :: t))) eqn:E; [exact E|]. apply is_dir_add. right. reflexivity.
Qed.
(** what mkdirs adds below a directory that is there *)
Lemma mkdirs_new : forall sub d s q, is_dir s d = true -> is_dir (mkdirs (rev (d ++ sub)) s) q = true ->
  is_dir s q = true \/ exists a b, sub = a ++ b /\ a <> [] /\ q = d ++ a.
Proof.
  induction sub as [|x t IH] using rev_ind; intros d s q Hd H.
  - rewrite app_nil_r in H. destruct (rev d) as [|y rd] eqn:E; cbn [mkdirs] in H.
    + destruct (is_dir s (rev [])); left; exact H.
    + rewrite <- E, rev_involutive, Hd in H. left; exact H.
  - rewrite app_assoc, rev_app_distr in H. cbn [rev app mkdirs] in H.
    destruct (is_dir s (rev (rev (d ++ t)) ++ [x])).
    + left; exact H.
    + apply is_dir_add in H. destruct H as [H | H].
      * destruct (IH d s q Hd H) as [H' | (a & b & Ha & Hn & Hq)]; [left; exact H'|].
        right. exists a, (b ++ [x]). subst t. rewrite app_assoc. auto.
      * right. exists (t ++ [x]), []. rewrite app_nil_r. rewrite rev_involutive, <- app_assoc in H.
        repeat split; [|exact H]. intro Hc. apply app_eq_nil in Hc. destruct Hc; discriminate.
Qed.

(* ---- strings ---- *)
Lemma las_app : forall a b, list_ascii_of_string (a ++ b)%string = list_ascii_of_string a ++ list_ascii_of_string b.
Proof. induction a as [|c a IH]; intros b; cbn; [reflexivity | rewrite IH; reflexivity]. Qed.
Lemma las_inj : forall a b, list_ascii_of_string a = list_ascii_of_string b -> a = b.
Proof.
  intros a b H. rewrite <- (string_of_list_ascii_of_string a), <- (string_of_list_ascii_of_string b), H. reflexivity.
Qed.
Lemma first_mark : forall (c : ascii) a b x y, ~ In c a -> ~ In c b -> a ++ c :: x = b ++ c :: y -> a = b.
Proof.
  intros c. induction a as [|h a IH]; intros b x y Ha Hb H; destruct b as [|k b]; cbn [app] in H.
  - reflexivity.
  - injection H; intros; subst. exfalso; apply Hb; left; reflexivity.
  - injection H; intros; subst. exfalso; apply Ha; left; reflexivity.
  - injection H as -> H. f_equal. eapply IH; [| |exact H]; intro; [apply Ha | apply Hb]; right; assumption.
Qed.
Lemma plain_split : forall o o' x y, plain o -> plain o' -> (o ++ "_" ++ x)%string = (o' ++ "_" ++ y)%string -> o = o'.
Proof.
  intros o o' x y Ho Ho' H. apply las_inj. apply (f_equal list_ascii_of_string) in H.
  rewrite !las_app in H. cbn in H. eapply first_mark; [exact Ho | exact Ho' | exact H].
Qed.
Lemma str_app_inj : forall a x y, (a ++ x)%string = (a ++ y)%string -> x = y.
Proof. induction a as [|c a IH]; intros x y H; cbn in H; [exact H | injection H as H; auto]. Qed.
Lemma str_app_inj_r : forall a b x, (a ++ x)%string = (b ++ x)%string -> a = b.
Proof.
  intros a b x H. apply las_inj. apply (f_equal list_ascii_of_string) in H. rewrite !las_app in H. apply app_inv_tail in H. exact H.
Qed.
Lemma las_len : forall s, List.length (list_ascii_of_string s) = String.length s.
Proof. induction s; cbn; congruence. Qed.

Definition marked (s : string) : Prop := exists x, s = ("pyfhd_" ++ x)%string.
Lemma dir_name_marked : forall r, marked (dir_name r).
Proof. intros r. unfold dir_name. destruct (description r); eexists; reflexivity. Qed.

(* ---- the places of a run's files ---- *)
Definition shape (q : path) : Prop := q <> [] /\ Forall (fun x => ~ marked x) (removelast q).

Lemma removelast_app_In : forall (l q : path) x, q <> [] -> In x l -> In x (removelast (l ++ q)).
Proof. intros l q x Hq Hx. rewrite removelast_app by exact Hq. apply in_or_app. left; exact Hx. Qed.

Lemma same_place : forall r r' q q', shape q -> shape q' -> outdir r ++ q = outdir r' ++ q' -> outdir r = outdir r' /\ q = q'.
Proof.
  assert (W : forall r r' q q' l, shape q -> shape q' -> outdir r = outdir r' ++ l -> q' = l ++ q -> l = []).
  { intros r r' q q' l [Hq _] [_ Hq'] Hd Hl. destruct l as [|x l] using rev_ind; [reflexivity|]. exfalso.
    unfold outdir in Hd at 1. rewrite app_assoc in Hd. apply app_inj_tail in Hd. destruct Hd as [_ Hx]. subst x q'.
    rewrite Forall_forall in Hq'. apply (Hq' (dir_name r)); [|apply dir_name_marked].
    apply removelast_app_In; [exact Hq | apply in_or_app; right; left; reflexivity]. }
  intros r r' q q' Hq Hq' H. destruct (app_eq_app _ _ _ _ H) as (l & [[H1 H2] | [H1 H2]]).
  - assert (l = []) by (eapply (W r r' q q'); eassumption). subst l. rewrite app_nil_r in H1. auto.
  - assert (l = []) by (eapply (W r' r q' q); eassumption). subst l. rewrite app_nil_r in H1. auto.
Qed.

Ltac not_marked := let x := fresh "x" in let E := fresh "E" in intros (x & E); discriminate E.

Definition sub_dirs : list path := [[]; ["config"]; ["checkpoints"]] ++ result_dirs.
Lemma shape_sub : forall sub n, In sub sub_dirs -> shape (sub ++ [n]).
Proof.
  intros sub n H. unfold sub_dirs, result_dirs in H. cbn [app In] in H. split.
  - intro E. apply app_eq_nil in E. destruct E; discriminate.
  - rewrite removelast_last.
    repeat (destruct H as [H | H]; [subst sub; repeat (constructor; try not_marked)|]). destruct H.
Qed.

(** a directory that a run makes below its own *)
Definition made_dirs : list path :=
  [["config"]; ["checkpoints"]; ["visibilities"]; ["metadata"]; ["calibration"]; ["gridding"]; ["fits"]; ["healpix"]].
Definition deep_dirs : list path := [["plots"; "calibration"]; ["healpix"; "uvf_grid"]].

Definition suffixes : list string := ["_obs_checkpoint.h5"; "_calibration_checkpoint.h5"; "_gridding_checkpoint.h5"].

(** the places of the files a run saves *)
Definition saved (r : run) (p : path) : Prop :=
  beam_h5 r = Some p
  \/ exists sub n, p = outdir r ++ sub ++ [n]
     /\ ((In sub result_dirs /\ exists m, n = (obs_id r ++ "_" ++ m)%string)
         \/ (sub = ["config"] /\ In n [(log_name r ++ ".yaml")%string; (log_name r ++ "-final.yaml")%string; "pyfhd_config.h5"])
         \/ (sub = [] /\ n = "layout.h5")
         \/ (sub = ["checkpoints"] /\ exists x, In x suffixes /\ n = (checkpoint_name r ++ x)%string)).

Definition good (r : run) (a : act) : Prop :=
  match a with
  | TestMkdir p | Mkdir p => p = output_path r \/ p = outdir r
  | MkdirOk p => exists sub, In sub made_dirs /\ p = outdir r ++ sub
  | Mkdirs p => exists sub, In sub deep_dirs /\ p = outdir r ++ sub
  | Append p => p = outdir r ++ [(log_name r ++ ".log")%string]
  | Save p | Finish p => saved r p
  end.

Ltac gp := first [apply in_eq | apply in_cons; gp].

Lemma good_own : forall r sub n, In sub result_dirs -> good r (Save (own r sub n)).
Proof. intros r sub n H. right. exists sub, (obs_id r ++ "_" ++ n)%string. split; [reflexivity|]. left. split; [exact H|]. eexists; reflexivity. Qed.
Lemma good_mk : forall r sub, In sub made_dirs -> good r (MkdirOk (below r sub)).
Proof. intros. exists sub. split; [assumption | reflexivity]. Qed.
Lemma good_deep : forall r sub, In sub deep_dirs -> good r (Mkdirs (below r sub)).
Proof. intros. exists sub. split; [assumption | reflexivity]. Qed.

Lemma Forall_only : forall {A} (P : A -> Prop) b l, Forall P l -> Forall P (only b l).
Proof. intros A P [|] l H; [exact H | constructor]. Qed.
Lemma Forall_fm : forall {A B} (P : B -> Prop) (f : A -> list B) l, (forall a, In a l -> Forall P (f a)) -> Forall P (flat_map f l).
Proof.
  intros A B P f l H. rewrite Forall_forall. intros b Hb. apply in_flat_map in Hb. destruct Hb as (a & Ha & Hb).
  specialize (H a Ha). rewrite Forall_forall in H. auto.
Qed.

Ltac good_one :=
  first [ apply good_own; unfold result_dirs; gp
        | apply good_mk; unfold made_dirs; gp
        | apply good_deep; unfold deep_dirs; gp ].
Ltac goods := repeat first
  [ apply Forall_nil | apply Forall_app; split | apply Forall_only | apply Forall_cons; [good_one|]
  | apply Forall_fm; intros | progress cbn [map] ].

Lemma good_checkpoint : forall r x, In x suffixes -> Forall (good r) (checkpoint r x).
Proof.
  intros r x H. unfold checkpoint. apply Forall_only. constructor; [|constructor]. right.
  exists ["checkpoints"], (checkpoint_name r ++ x)%string. split; [reflexivity|]. right; right; right. split; [reflexivity|].
  exists x. split; [exact H | reflexivity].
Qed.
Lemma good_metadata : forall r, Forall (good r) (metadata r).
Proof. intros r. unfold metadata. goods. Qed.
Lemma good_cal_file : forall r, Forall (good r) (cal_file r).
Proof. intros r. unfold cal_file. goods. Qed.
Lemma good_cal_weights : forall r, Forall (good r) (cal_weights r).
Proof. intros r. unfold cal_weights. goods. Qed.
Lemma good_cal_vis : forall r, Forall (good r) (cal_vis r).
Proof. intros r. unfold cal_vis. goods. Qed.
Lemma good_plots : forall r, Forall (good r) (plots r).
Proof. intros r. unfold plots. goods. Qed.
Lemma good_quickview : forall r, Forall (good r) (quickview r).
Proof.
  intros r. unfold quickview. apply Forall_app; split; [apply good_metadata|].
  apply Forall_app; split; [unfold uv_planes; goods|]. apply Forall_app; split; [apply good_cal_vis|].
  apply Forall_app; split; [apply good_cal_file|]. apply Forall_app; split; [apply good_cal_weights|].
  unfold fits. goods.
Qed.
Lemma good_healpix : forall r, Forall (good r) (healpix r).
Proof.
  intros r. unfold healpix. constructor; [good_one|]. apply Forall_fm. intros [cube uvf] _. apply Forall_fm. intros pol _.
  constructor; [good_one|]. goods.
Qed.

(** after the two tests of the output directory *)
Definition tail (r : run) : list act :=
  (only (log_file r) [Append (below r [(log_name r ++ ".log")%string])]
   ++ [MkdirOk (below r ["config"]); Save (below r ["config"; (log_name r ++ ".yaml")%string])])
  ++ only (save_checkpoints r) [MkdirOk (below r ["checkpoints"])]
  ++ only (negb (resumed r)) (fresh r)
  ++ beam r
  ++ calibration r
  ++ (if cal_stop r then metadata r ++ cal_file r ++ cal_weights r ++ cal_vis r
      else only (recalculate_grid r && negb (grid_resumed r)) (checkpoint r "_gridding_checkpoint.h5")
           ++ only (export_images r) (quickview r)
           ++ only (snapshot_healpix_export r) (healpix r))
  ++ finish r.
Lemma actions_tail : forall r, actions r = TestMkdir (output_path r) :: TestMkdir (outdir r) :: tail r.
Proof. reflexivity. Qed.

Lemma good_config : forall r n, In n [(log_name r ++ ".yaml")%string; (log_name r ++ "-final.yaml")%string; "pyfhd_config.h5"] ->
  good r (Save (below r ["config"; n])).
Proof. intros r n H. right. exists ["config"], n. split; [reflexivity|]. right; left. split; [reflexivity | exact H]. Qed.

Lemma good_tail : forall r, Forall (good r) (tail r).
Proof.
  intros r. unfold tail. apply Forall_app; split; [apply Forall_app; split|].
  - apply Forall_only. constructor; [reflexivity | constructor].
  - constructor; [good_one|]. constructor; [apply good_config; gp | constructor].
  - apply Forall_app; split; [apply Forall_only; constructor; [good_one | constructor]|].
    apply Forall_app; split.
    { apply Forall_only. unfold fresh. repeat (apply Forall_app; split); [goods | goods | |].
      - constructor; [|constructor]. right. exists [], "layout.h5". split; [reflexivity|]. right; right; left. auto.
      - apply good_checkpoint. unfold suffixes. gp. }
    apply Forall_app; split.
    { unfold beam. destruct (beam_h5 r) as [p|] eqn:E; constructor; [left; exact E | constructor]. }
    apply Forall_app; split.
    { unfold calibration. apply Forall_only. apply Forall_app; split; [apply Forall_only, good_plots|].
      apply good_checkpoint. unfold suffixes. gp. }
    apply Forall_app; split.
    { destruct (cal_stop r).
      - apply Forall_app; split; [apply good_metadata|]. apply Forall_app; split; [apply good_cal_file|].
        apply Forall_app; split; [apply good_cal_weights | apply good_cal_vis].
      - apply Forall_app; split; [apply Forall_only, good_checkpoint; unfold suffixes; gp|].
        apply Forall_app; split; apply Forall_only; auto using good_quickview, good_healpix. }
    unfold finish. constructor; [apply good_config; gp|]. constructor; [apply good_config; gp | constructor].
Qed.
Lemma good_actions : forall r, Forall (good r) (actions r).
Proof.
  intros r. rewrite actions_tail. constructor; [left; reflexivity|]. constructor; [right; reflexivity | apply good_tail].
Qed.

Lemma step_good : forall r i a rest s rest' s', good r a -> Forall (good r) rest -> step i a rest s = Ok (rest', s') ->
  Forall (good r) rest'.
Proof.
  intros r i a rest s rest' s' Ha Hr H. destruct a as [p|p|p|p|p|p|p]; cbn [step] in H;
    repeat match type of H with context[if ?b then _ else _] => destruct b end; try discriminate H;
    injection H as <- <-; try exact Hr; constructor; assumption.
Qed.

(** a step changes only the file it names *)
Definition touches (a : act) (p : path) : Prop :=
  match a with Append q | Save q | Finish q => q = p | _ => False end.
Lemma step_file : forall i a rest s rest' s' p, step i a rest s = Ok (rest', s') -> ~ touches a p -> file s' p = file s p.
Proof.
  intros i a rest s rest' s' p H Hp. destruct a as [q|q|q|q|q|q|q]; cbn [step] in H;
    repeat match type of H with context[if ?b then _ else _] => destruct b end; try discriminate H;
    injection H as <- <-; try reflexivity; try apply file_mkdirs; cbn [touches] in Hp; rewrite file_put, path_eqb_neq; auto.
Qed.
Lemma step_some : forall i a rest s rest' s' p, step i a rest s = Ok (rest', s') -> file s p <> None -> file s' p <> None.
Proof.
  intros i a rest s rest' s' p H Hp. destruct a as [q|q|q|q|q|q|q]; cbn [step] in H;
    repeat match type of H with context[if ?b then _ else _] => destruct b end; try discriminate H;
    injection H as <- <-; try exact Hp; try (rewrite file_mkdirs; exact Hp); rewrite file_put;
    destruct (path_eqb q p); try discriminate; exact Hp.
Qed.
Lemma step_dir : forall i a rest s rest' s' p, step i a rest s = Ok (rest', s') -> is_dir s p = true -> is_dir s' p = true.
Proof.
  intros i a rest s rest' s' p H Hp. destruct a as [q|q|q|q|q|q|q]; cbn [step] in H;
    repeat match type of H with context[if ?b then _ else _] => destruct b end; try discriminate H;
    injection H as <- <-; try exact Hp; try (apply is_dir_add; left; exact Hp). apply mkdirs_keep, Hp.
Qed.

(* ---- the system ---- *)
Lemma upd_len : forall {A} (l : list A) i v, List.length (upd l i v) = List.length l.
Proof. intros A. induction l as [|h t IH]; intros [|i] v; cbn; congruence. Qed.
Lemma nth_upd : forall {A} (l : list A) i j v,
  nth_error (upd l i v) j = if Nat.eqb i j then (match nth_error l i with Some _ => Some v | None => None end) else nth_error l j.
Proof.
  intros A. induction l as [|h t IH]; intros [|i] [|j] v; cbn [upd nth_error Nat.eqb]; try reflexivity.
  - destruct (Nat.eqb i j); reflexivity.
  - apply IH.
Qed.

Definition pacts (pr : proc) : list act := match pr with Running l => l | Failed _ => [] end.

(** an invariant of the system, from one of its steps *)
Lemma sys_inv : forall (I : list proc * fs -> Prop),
  (forall st i a rest rest' s', I st -> nth_error (fst st) i = Some (Running (a :: rest)) -> step i a rest (snd st) = Ok (rest', s') ->
     I (upd (fst st) i (Running rest'), s')) ->
  (forall st i a rest e, I st -> nth_error (fst st) i = Some (Running (a :: rest)) -> step i a rest (snd st) = Err e ->
     I (upd (fst st) i (Failed e), snd st)) ->
  forall sched st, I st -> I (fold_left sys_step sched st).
Proof.
  intros I HO HE. induction sched as [|i sched IH]; intros st H; cbn [fold_left]; [exact H|]. apply IH.
  unfold sys_step. destruct (nth_error (fst st) i) as [pr|] eqn:E; [|exact H].
  assert (U : forall pr', nth_error (fst st) i = Some pr' -> upd (fst st) i pr' = fst st).
  { intros pr'. generalize (fst st) as l. intros l. revert i E. clear. intros i _. revert i.
    induction l as [|h t IH]; intros [|i] E; cbn in *; try reflexivity; [congruence|]. f_equal. apply IH, E. }
  destruct pr as [[|a rest]|e]; cbn [proc_step].
  - rewrite (U _ E). destruct st; exact H.
  - destruct (step i a rest (snd st)) as [[rest' s']|e] eqn:Es; [eapply HO; eassumption | eapply HE; eassumption].
  - rewrite (U _ E). destruct st; exact H.
Qed.

(** every run does only its own kind of actions *)
Definition all_good (rs : list run) (ps : list proc) : Prop :=
  List.length ps = List.length rs
  /\ forall i r pr, nth_error rs i = Some r -> nth_error ps i = Some pr -> Forall (good r) (pacts pr).
Lemma start_good : forall rs, all_good rs (start rs).
Proof.
  intros rs. unfold start. split; [apply map_length|]. intros i r pr Hr Hp. rewrite nth_error_map, Hr in Hp.
  injection Hp as <-. apply good_actions.
Qed.
Lemma good_at : forall rs ps i pr, all_good rs ps -> nth_error ps i = Some pr ->
  exists r, nth_error rs i = Some r /\ Forall (good r) (pacts pr).
Proof.
  intros rs ps i pr [HL H] Hp. destruct (nth_error rs i) as [r|] eqn:E.
  - exists r. split; [reflexivity | eapply H; eassumption].
  - apply nth_error_None in E. assert (nth_error ps i <> None) by congruence. apply nth_error_Some in H0. lia.
Qed.
Lemma good_upd : forall rs ps i pr r, all_good rs ps -> nth_error rs i = Some r -> Forall (good r) (pacts pr) -> all_good rs (upd ps i pr).
Proof.
  intros rs ps i pr r [HL H] Hi Hp. split; [rewrite upd_len; exact HL|]. intros j r' pr' Hj Hp'. rewrite nth_upd in Hp'.
  destruct (Nat.eqb i j) eqn:E.
  - apply Nat.eqb_eq in E. subst j. destruct (nth_error ps i); [|discriminate]. injection Hp' as <-.
    rewrite Hi in Hj. injection Hj as <-. exact Hp.
  - eapply H; eassumption.
Qed.

(** an invariant of the system in which every run does its own kind of actions *)
Lemma exec_inv : forall rs (I : list proc -> fs -> Prop) s sched,
  I (start rs) s ->
  (forall ps s i r a rest rest' s', all_good rs ps -> I ps s -> nth_error rs i = Some r -> nth_error ps i = Some (Running (a :: rest)) ->
     good r a -> Forall (good r) rest -> step i a rest s = Ok (rest', s') -> I (upd ps i (Running rest')) s') ->
  (forall ps s i r a rest e, all_good rs ps -> I ps s -> nth_error rs i = Some r -> nth_error ps i = Some (Running (a :: rest)) ->
     good r a -> Forall (good r) rest -> step i a rest s = Err e -> I (upd ps i (Failed e)) s) ->
  I (fst (execute rs s sched)) (snd (execute rs s sched)).
Proof.
  intros rs I s sched H0 HO HE. unfold execute.
  cut (all_good rs (fst (fold_left sys_step sched (start rs, s)))
       /\ I (fst (fold_left sys_step sched (start rs, s))) (snd (fold_left sys_step sched (start rs, s)))); [tauto|].
  apply (sys_inv (fun st => all_good rs (fst st) /\ I (fst st) (snd st))).
  - intros st i a rest rest' s' [HG HI] Hp Hs. destruct (good_at _ _ _ _ HG Hp) as (r & Hr & HF). cbn [pacts] in HF.
    inversion HF; subst. cbn [fst snd]. split; [|eapply HO; eassumption].
    eapply good_upd; [exact HG | exact Hr | cbn [pacts]; eapply step_good; eassumption].
  - intros st i a rest e [HG HI] Hp Hs. destruct (good_at _ _ _ _ HG Hp) as (r & Hr & HF). cbn [pacts] in HF.
    inversion HF; subst. cbn [fst snd]. split; [|eapply HE; eassumption].
    eapply good_upd; [exact HG | exact Hr | constructor].
  - cbn [fst snd]. split; [apply start_good | exact H0].
Qed.

(* ---- C107, C109: who changes a file ---- *)
(** the file [p] is none of run [r]'s *)
Definition foreign (r : run) (p : path) : Prop := p <> outdir r ++ [(log_name r ++ ".log")%string] /\ ~ saved r p.
Lemma foreign_touch : forall r a p, good r a -> foreign r p -> ~ touches a p.
Proof.
  intros r a p Hg [Hl Hs] Ht. destruct a; cbn [touches good] in *; try contradiction; subst; auto.
Qed.

Lemma unchanged : forall rs s sched p, Forall (fun r => foreign r p) rs -> file (snd (execute rs s sched)) p = file s p.
Proof.
  intros rs s sched p HF. rewrite Forall_forall in HF. apply (exec_inv rs (fun _ s' => file s' p = file s p)); [reflexivity | |].
  - intros ps s0 i r a rest rest' s' HG HI Hr Hp Ha Hrest Hs. rewrite <- HI. eapply step_file; [exact Hs|].
    eapply foreign_touch; [exact Ha | apply HF; eapply nth_error_In; exact Hr].
  - auto.
Qed.

(** the file [p] is saved by run [i] alone *)
Lemma completed : forall rs s sched i r p, nth_error rs i = Some r ->
  (forall j r', j <> i -> nth_error rs j = Some r' -> foreign r' p) ->
  p <> outdir r ++ [(log_name r ++ ".log")%string] -> In (Save p) (actions r) ->
  finished (execute rs s sched) i -> file (snd (execute rs s sched)) p = Some (Whole i).
Proof.
  intros rs s sched i r p Hi HF Hlog Hin Hfin.
  pose (pend := fun l => In (Save p) l \/ In (Finish p) l).
  assert (K : forall pr, nth_error (fst (execute rs s sched)) i = Some pr ->
              match pr with Running l => pend l \/ file (snd (execute rs s sched)) p = Some (Whole i) | Failed _ => True end).
  { apply (exec_inv rs (fun ps s' => forall pr, nth_error ps i = Some pr ->
              match pr with Running l => pend l \/ file s' p = Some (Whole i) | Failed _ => True end)).
    - intros pr Hp. unfold start in Hp. rewrite nth_error_map, Hi in Hp. injection Hp as <-. left; left; exact Hin.
    - intros ps s0 j r' a rest rest' s' HG HI Hr Hp Ha Hrest Hs pr Hpr. rewrite nth_upd in Hpr.
      destruct (Nat.eqb j i) eqn:E.
      + apply Nat.eqb_eq in E. subst j. rewrite Hp in Hpr. injection Hpr as <-. rewrite Hi in Hr. injection Hr as <-.
        specialize (HI _ Hp). cbn beta iota in HI.
        destruct a as [q|q|q|q|q|q|q]; cbn [step] in Hs;
          repeat match type of Hs with context[if ?b then _ else _] => destruct b end; try discriminate Hs; injection Hs as <- <-.
        * destruct HI as [[HI | HI] | HI]; [| |right; exact HI]; left; destruct HI as [HI | HI]; try discriminate HI; [left | right]; exact HI.
        * destruct HI as [[HI | HI] | HI]; [| |right; exact HI]; left; destruct HI as [HI | HI]; try discriminate HI;
            [left | right]; right; exact HI.
        * destruct HI as [[HI | HI] | HI]; [| |right; exact HI]; left; destruct HI as [HI | HI]; try discriminate HI; [left | right]; exact HI.
        * destruct HI as [[HI | HI] | HI]; [| |right; exact HI]; left; destruct HI as [HI | HI]; try discriminate HI; [left | right]; exact HI.
        * destruct HI as [[HI | HI] | HI]; [| |right; exact HI]; left; destruct HI as [HI | HI]; try discriminate HI; [left | right]; exact HI.
        * destruct HI as [[HI | HI] | HI]; [| |right; rewrite file_mkdirs; exact HI]; left; destruct HI as [HI | HI]; try discriminate HI; [left | right]; exact HI.
        * assert (Hq : q <> p) by (cbn [good] in Ha; subst q; congruence).
          rewrite file_put, path_eqb_neq by exact Hq.
          destruct HI as [[HI | HI] | HI]; [| |right; exact HI]; left; destruct HI as [HI | HI]; try discriminate HI; [left | right]; exact HI.
        * rewrite file_put. destruct (path_eqb q p) eqn:Eq.
          -- apply path_eqb_eq in Eq. subst q. left; right; left; reflexivity.
          -- destruct HI as [[HI | HI] | HI]; [| |right; exact HI]; left; destruct HI as [HI | HI]; try discriminate HI;
               [|left; right; exact HI | right; right; exact HI]. injection HI as ->. rewrite path_eqb_refl in Eq. discriminate.
        * rewrite file_put. destruct (path_eqb q p) eqn:Eq; [right; reflexivity|].
          destruct HI as [[HI | HI] | HI]; [| |right; exact HI]; left; destruct HI as [HI | HI]; try discriminate HI;
            [left; exact HI | injection HI as ->; rewrite path_eqb_refl in Eq; discriminate | right; exact HI].
      + specialize (HI _ Hpr). destruct pr as [l|]; [|exact I]. destruct HI as [HI | HI]; [left; exact HI | right].
        rewrite <- HI. eapply step_file; [exact Hs|]. eapply foreign_touch; [exact Ha|]. eapply HF; [|exact Hr].
        intros ->. rewrite Nat.eqb_refl in E. discriminate.
    - intros ps s0 j r' a rest e HG HI Hr Hp Ha Hrest Hs pr Hpr. rewrite nth_upd in Hpr. destruct (Nat.eqb j i) eqn:E.
      + apply Nat.eqb_eq in E. subst j. rewrite Hp in Hpr. injection Hpr as <-. exact I.
      + apply HI, Hpr. }
  specialize (K _ Hfin). cbn beta iota in K. destruct K as [[[] | []] | K]. exact K.
Qed.

(** a result of another observation, or in another directory *)
Lemma result_foreign : forall r o d p r0, outdir r0 = d -> plain o -> plain (obs_id r) -> result_of o d p ->
  obs_id r <> o \/ outdir r <> d -> beam_h5 r <> Some p -> foreign r p.
Proof.
  intros r o d p r0 Hd Ho Hr (sub & name & Hsub & Hp) Hne Hb. subst d p.
  assert (S0 : shape (sub ++ [(o ++ "_" ++ name)%string])) by (apply shape_sub; unfold sub_dirs; apply in_or_app; right; exact Hsub).
  split.
  - intro E. change [(log_name r ++ ".log")%string] with ([] ++ [(log_name r ++ ".log")%string]) in E.
    apply same_place in E; [|exact S0 | apply shape_sub; left; reflexivity]. destruct E as [_ E].
    apply app_inj_tail in E. destruct E as [E _]. subst sub. cbn in Hsub. intuition discriminate.
  - intros [H | (sub' & n' & E & H)]; [contradiction|].
    assert (Hin : In sub' sub_dirs).
    { unfold sub_dirs. destruct H as [[H _] | [[H _] | [[H _] | [H _]]]]; [apply in_or_app; right; exact H | | |]; subst; cbn; auto. }
    apply same_place in E; [|exact S0 | apply shape_sub; exact Hin]. destruct E as [E1 E2].
    apply app_inj_tail in E2. destruct E2 as [E2 E3]. subst sub' n'.
    destruct H as [[_ (m & H)] | [[H _] | [[H _] | [H _]]]].
    + destruct Hne as [Hne | Hne]; [|congruence]. apply Hne. symmetry. eapply plain_split; eassumption.
    + subst sub. cbn in Hsub. intuition discriminate.
    + subst sub. cbn in Hsub. intuition discriminate.
    + subst sub. cbn in Hsub. intuition discriminate.
Qed.

(* ---- C107: what a run is asked for is among what it saves ---- *)
Lemma in_only : forall {A} (b : bool) (x : A) l, b = true -> In x l -> In x (only b l).
Proof. intros A b x l -> H. exact H. Qed.

Lemma in_fresh : forall r a, resumed r = false -> In a (fresh r) -> In a (tail r).
Proof.
  intros r a H Ha. unfold tail. apply in_or_app; right. apply in_or_app; right. apply in_or_app; left.
  apply in_only; [rewrite H; reflexivity | exact Ha].
Qed.
Lemma in_calibration : forall r a, In a (calibration r) -> In a (tail r).
Proof. intros r a Ha. unfold tail. do 4 (apply in_or_app; right). apply in_or_app; left. exact Ha. Qed.
Lemma in_stop : forall r a, cal_stop r = true -> In a (metadata r ++ cal_file r ++ cal_weights r ++ cal_vis r) -> In a (tail r).
Proof. intros r a H Ha. unfold tail. do 5 (apply in_or_app; right). apply in_or_app; left. rewrite H. exact Ha. Qed.
Lemma in_quickview : forall r a, cal_stop r = false -> export_images r = true -> In a (quickview r) -> In a (tail r).
Proof.
  intros r a H He Ha. unfold tail. do 5 (apply in_or_app; right). apply in_or_app; left. rewrite H.
  apply in_or_app; right. apply in_or_app; left. apply in_only; assumption.
Qed.
Lemma in_healpix : forall r a, cal_stop r = false -> snapshot_healpix_export r = true -> In a (healpix r) -> In a (tail r).
Proof.
  intros r a H He Ha. unfold tail. do 5 (apply in_or_app; right). apply in_or_app; left. rewrite H.
  apply in_or_app; right. apply in_or_app; right. apply in_only; assumption.
Qed.
Lemma in_finish : forall r a, In a (finish r) -> In a (tail r).
Proof. intros r a Ha. unfold tail. do 6 (apply in_or_app; right). exact Ha. Qed.

(** the files common to a stop after the calibration and to the images *)
Lemma in_both : forall r a, cal_stop r = true \/ export_images r = true ->
  In a (metadata r) \/ In a (cal_file r) \/ In a (cal_weights r) \/ In a (cal_vis r) -> In a (tail r).
Proof.
  intros r a H Ha. destruct (cal_stop r) eqn:E.
  - apply in_stop; [exact E|]. rewrite !in_app_iff. exact Ha.
  - apply in_quickview; [exact E | destruct H as [H|H]; [discriminate|exact H] |].
    unfold quickview. rewrite !in_app_iff. tauto.
Qed.

Lemma in_healpix_pol : forall r cube uvf pol a,
  In (cube, uvf) (if split_ps_export r then [("hpx_even", "even"); ("hpx_odd", "odd")] else [("healpix_cube", "")]) -> In pol (pol_names r) ->
  In a (map (fun n => Save (own r ["healpix"; "uvf_grid"] (uvf ++ "_" ++ pol ++ n)%string))
            ["_dirty_uv_arr_gridded_uvf.h5"; "_weights_uv_gridded_uvf.h5"; "_variance_uv_arr_gridded_uvf.h5";
             "_model_uv_arr_gridded_uvf.h5"]
       ++ [Save (own r ["healpix"] (cube ++ "_" ++ pol ++ ".h5")%string)]) -> In a (healpix r).
Proof.
  intros r cube uvf pol a Hc Hp Ha. unfold healpix. right. apply in_flat_map. exists (cube, uvf). split; [exact Hc|].
  apply in_flat_map. exists pol. split; [exact Hp|]. right. exact Ha.
Qed.

Lemma asked_saved : forall r sub n, asked r sub n -> In (Save (own r sub n)) (actions r).
Proof.
  intros r sub n H. rewrite actions_tail. right; right. destruct H.
  - apply in_fresh; [assumption|]. unfold fresh. apply in_or_app; left. apply in_only; [assumption | gp].
  - apply in_fresh; [assumption|]. unfold fresh. apply in_or_app; right. apply in_or_app; left. apply in_only; [assumption | gp].
  - apply in_both; [assumption|]. left. unfold metadata. apply in_or_app; right. apply in_or_app; left. apply in_only; [assumption | gp].
  - apply in_both; [assumption|]. left. unfold metadata. apply in_or_app; right. apply in_or_app; right. apply in_only; [assumption | gp].
  - apply in_both; [assumption|]. right; left. apply in_only; [apply andb_true_iff; auto | gp].
  - apply in_both; [assumption|]. right; right; right. apply in_only; [assumption | gp].
  - apply in_both; [assumption|]. right; right; left. apply in_only; [assumption | gp].
  - destruct H2 as [Hs He]. apply in_quickview; [assumption | assumption |]. unfold quickview. rewrite !in_app_iff. right; left.
    apply in_only; [apply andb_true_iff; auto|]. right. cbn [map].
    repeat (destruct H as [<- | H]; [gp|]). destruct H.
  - destruct H1 as [Hs He]. apply in_quickview; [assumption | assumption |]. unfold quickview. rewrite !in_app_iff. do 5 right.
    right. apply in_flat_map. exists pol. split; [assumption|]. cbn [map].
    repeat (destruct H as [<- | H]; [gp|]). destruct H.
  - destruct H0 as [Hs He]. apply in_quickview; [assumption | assumption |]. unfold quickview. rewrite !in_app_iff. do 5 right.
    right. apply in_flat_map. exists pol. split; [assumption|]. cbn [map]. gp.
  - destruct H0 as [Hs He]. apply in_quickview; [assumption | assumption |]. unfold quickview. rewrite !in_app_iff. do 5 right.
    right. apply in_flat_map. exists pol. split; [assumption|]. cbn [map]. gp.
  - destruct H0 as [[Hs He] Hsp]. apply in_healpix; [assumption | assumption |].
    apply (in_healpix_pol r "healpix_cube" "" pol); [rewrite Hsp; gp | assumption |]. apply in_or_app; right. gp.
  - destruct H1 as [[Hs He] Hsp]. apply in_healpix; [assumption | assumption |].
    destruct H as [<- | [<- | []]].
    + apply (in_healpix_pol r "hpx_even" "even" pol); [rewrite Hsp; gp | assumption |]. apply in_or_app; right. gp.
    + apply (in_healpix_pol r "hpx_odd" "odd" pol); [rewrite Hsp; gp | assumption |]. apply in_or_app; right. gp.
  - destruct H1 as [[Hs He] Hsp]. apply in_healpix; [assumption | assumption |].
    apply (in_healpix_pol r "healpix_cube" "" pol); [rewrite Hsp; gp | assumption |]. cbn [map app].
    repeat (destruct H as [<- | H]; [gp|]). destruct H.
  - destruct H2 as [[Hs He] Hsp]. apply in_healpix; [assumption | assumption |].
    destruct H0 as [<- | [<- | []]].
    + apply (in_healpix_pol r "hpx_even" "even" pol); [rewrite Hsp; gp | assumption |]. cbn [map app].
      repeat (destruct H as [<- | H]; [gp|]). destruct H.
    + apply (in_healpix_pol r "hpx_odd" "odd" pol); [rewrite Hsp; gp | assumption |]. cbn [map app].
      repeat (destruct H as [<- | H]; [gp|]). destruct H.
  - apply in_calibration. unfold calibration. apply in_only; [assumption|]. apply in_or_app; left. apply in_only; [assumption|].
    unfold plots. right. apply in_flat_map. exists kind. split; [assumption|]. apply in_flat_map. exists page. split; [assumption|].
    destruct H0 as [<- | [<- | []]]; gp.
Qed.

Lemma asked_result : forall r sub n, asked r sub n -> result_of (obs_id r) (outdir r) (own r sub n).
Proof.
  intros r sub n H. exists sub, n. split; [|reflexivity]. destruct H; unfold result_dirs; gp.
Qed.

Lemma result_not_log : forall r o p, result_of o (outdir r) p -> p <> outdir r ++ [(log_name r ++ ".log")%string].
Proof.
  intros r o p (sub & name & Hsub & ->) E. apply app_inv_head in E.
  change [(log_name r ++ ".log")%string] with ([] ++ [(log_name r ++ ".log")%string]) in E.
  apply app_inj_tail in E. destruct E as [-> _]. cbn in Hsub. intuition discriminate.
Qed.

(* ---- C108: the files that are not an observation's ---- *)
(** [log_name] and the postfixes of the configuration files *)
Lemma log_name_time : forall r, exists x, log_name r = (x ++ log_time r)%string.
Proof.
  intros r. unfold log_name. destruct (description r) as [d|].
  - exists ("pyfhd_" ++ underscored d ++ "_")%string. apply las_inj. rewrite !las_app, <- !app_assoc. reflexivity.
  - exists "pyfhd_". reflexivity.
Qed.
Lemma yaml_names : forall r r', timestamp (log_time r) -> (log_name r ++ ".yaml")%string <> (log_name r' ++ "-final.yaml")%string.
Proof.
  intros r r' [Hm Hl] E. apply (f_equal list_ascii_of_string) in E. rewrite !las_app in E.
  change (list_ascii_of_string "-final.yaml") with (list_ascii_of_string "-final" ++ list_ascii_of_string ".yaml") in E.
  rewrite app_assoc in E. apply app_inv_tail in E. destruct (log_name_time r) as (x & Hx). rewrite Hx, las_app in E.
  remember (list_ascii_of_string (log_time r)) as t. assert (HL : 6 <= List.length t) by (subst t; rewrite las_len; exact Hl). clear Heqt Hl Hx.
  destruct (app_eq_app _ _ _ _ E) as (l & [[H1 H2] | [H1 H2]]).
  - pose proof H2 as H2'. apply (f_equal (@List.length _)) in H2'. rewrite app_length in H2'. change (List.length (list_ascii_of_string "-final")) with 6 in H2'.
    destruct l; [|cbn in H2'; lia]. cbn [app] in H2. rewrite <- H2 in Hm. apply Hm. left; reflexivity.
  - subst t. apply Hm. apply in_or_app. right. left. reflexivity.
Qed.

Lemma last_char : forall a b (x y : string) c d, (a ++ x)%string = (b ++ y)%string ->
  list_ascii_of_string x = removelast (list_ascii_of_string x) ++ [c] -> list_ascii_of_string y = removelast (list_ascii_of_string y) ++ [d] ->
  c = d.
Proof.
  intros a b x y c d E Hx Hy. apply (f_equal list_ascii_of_string) in E. rewrite !las_app, Hx, Hy, !app_assoc in E.
  apply app_inj_tail in E. tauto.
Qed.

(** the configuration a run writes is changed only by runs with the same name *)
Lemma record_foreign : forall r r' n, In n [(log_name r ++ ".yaml")%string; (log_name r ++ "-final.yaml")%string] ->
  timestamp (log_time r) -> timestamp (log_time r') -> log_name r' <> log_name r \/ outdir r' <> outdir r ->
  beam_h5 r' <> Some (outdir r ++ ["config"; n]) -> foreign r' (outdir r ++ ["config"; n]).
Proof.
  intros r r' n Hn Ht Ht' Hne Hb.
  assert (S0 : shape (["config"] ++ [n])) by (apply shape_sub; unfold sub_dirs; right; left; reflexivity).
  split.
  - intro E. change [(log_name r' ++ ".log")%string] with ([] ++ [(log_name r' ++ ".log")%string]) in E.
    apply (same_place r r' (["config"] ++ [n])) in E; [|exact S0 | apply shape_sub; left; reflexivity]. destruct E as [_ E].
    discriminate E.
  - intros [H | (sub' & n' & E & H)]; [contradiction|].
    assert (Hin : In sub' sub_dirs).
    { unfold sub_dirs. destruct H as [[H _] | [[H _] | [[H _] | [H _]]]]; [apply in_or_app; right; exact H | | |]; subst; cbn; auto. }
    apply (same_place r r' (["config"] ++ [n])) in E; [|exact S0 | apply shape_sub; exact Hin]. destruct E as [E1 E2].
    apply app_inj_tail in E2. destruct E2 as [E2 E3]. subst sub' n'.
    destruct H as [[H _] | [[_ H] | [[H _] | [H _]]]]; try discriminate H.
    + cbn in H. intuition discriminate.
    + destruct Hne as [Hne | Hne]; [|congruence].
      assert (X : forall a, a <> "pyfhd_config" -> forall m, a = (m ++ ".yaml")%string -> a <> "pyfhd_config.h5").
      { intros a _ m -> E. change "pyfhd_config.h5" with ("pyfhd_config" ++ ".h5")%string in E.
        pose proof (last_char _ _ _ _ "l"%char "5"%char E eq_refl eq_refl). discriminate. }
      assert (D : forall a b, (a ++ "-final.yaml")%string = (b ++ "-final.yaml")%string -> a = b) by (intros; eapply str_app_inj_r; eassumption).
      assert (D' : forall a b, (a ++ ".yaml")%string = (b ++ ".yaml")%string -> a = b) by (intros; eapply str_app_inj_r; eassumption).
      destruct Hn as [<- | [<- | []]]; destruct H as [H | [H | [H | []]]].
      * apply Hne, D', H.
      * symmetry in H. revert H. apply yaml_names; assumption.
      * change "pyfhd_config.h5" with ("pyfhd_config" ++ ".h5")%string in H.
        pose proof (last_char _ _ _ _ "5"%char "l"%char H eq_refl eq_refl). discriminate.
      * revert H. apply yaml_names; assumption.
      * apply Hne, D, H.
      * change "pyfhd_config.h5" with ("pyfhd_config" ++ ".h5")%string in H.
        pose proof (last_char _ _ _ _ "5"%char "l"%char H eq_refl eq_refl). discriminate.
Qed.

(** without a description, a checkpoint is changed only by runs of the same observation *)
Lemma undescribed_name : forall r, undescribed r -> checkpoint_name r = obs_id r.
Proof. intros r [H | H]; unfold checkpoint_name; rewrite H; reflexivity. Qed.
Lemma checkpoint_foreign : forall r r' x, In x suffixes -> undescribed r -> undescribed r' -> plain (obs_id r) -> plain (obs_id r') ->
  obs_id r' <> obs_id r \/ outdir r' <> outdir r ->
  beam_h5 r' <> Some (outdir r ++ ["checkpoints"; (obs_id r ++ x)%string]) -> foreign r' (outdir r ++ ["checkpoints"; (obs_id r ++ x)%string]).
Proof.
  intros r r' x Hx Hu Hu' Hp Hp' Hne Hb.
  assert (S0 : shape (["checkpoints"] ++ [(obs_id r ++ x)%string])) by (apply shape_sub; unfold sub_dirs; right; right; left; reflexivity).
  assert (SX : forall y, In y suffixes -> exists z, y = ("_" ++ z)%string).
  { intros y Hy. repeat (destruct Hy as [<- | Hy]; [eexists; reflexivity|]). destruct Hy. }
  split.
  - intro E. change [(log_name r' ++ ".log")%string] with ([] ++ [(log_name r' ++ ".log")%string]) in E.
    apply (same_place r r' (["checkpoints"] ++ _)) in E; [|exact S0 | apply shape_sub; left; reflexivity]. destruct E as [_ E].
    discriminate E.
  - intros [H | (sub' & n' & E & H)]; [contradiction|].
    assert (Hin : In sub' sub_dirs).
    { unfold sub_dirs. destruct H as [[H _] | [[H _] | [[H _] | [H _]]]]; [apply in_or_app; right; exact H | | |]; subst; cbn; auto. }
    apply (same_place r r' (["checkpoints"] ++ _)) in E; [|exact S0 | apply shape_sub; exact Hin]. destruct E as [E1 E2].
    apply app_inj_tail in E2. destruct E2 as [E2 E3]. subst sub' n'.
    destruct H as [[H _] | [[H _] | [[H _] | [_ (y & Hy & H)]]]]; try discriminate H.
    + cbn in H. intuition discriminate.
    + destruct Hne as [Hne | Hne]; [|congruence]. rewrite undescribed_name in H by exact Hu'.
      destruct (SX _ Hx) as (z & ->). destruct (SX _ Hy) as (z' & ->). apply Hne. symmetry. eapply plain_split; eassumption.
Qed.

(** the log of a run is changed only by adding lines *)
Lemma log_not_saved : forall r r', beam_h5 r' <> Some (outdir r ++ [(log_name r ++ ".log")%string]) ->
  ~ saved r' (outdir r ++ [(log_name r ++ ".log")%string]).
Proof.
  intros r r' Hb [H | (sub' & n' & E & H)]; [contradiction|].
  assert (Hin : In sub' sub_dirs).
  { unfold sub_dirs. destruct H as [[H _] | [[H _] | [[H _] | [H _]]]]; [apply in_or_app; right; exact H | | |]; subst; cbn; auto. }
  apply (same_place r r' ([] ++ _)) in E; [|apply shape_sub; left; reflexivity | apply shape_sub; exact Hin].
  destruct E as [_ E]. apply app_inj_tail in E. destruct E as [<- E]. subst n'.
  destruct H as [[H _] | [[H _] | [[_ H] | [H _]]]]; try discriminate H.
  - cbn in H. intuition discriminate.
  - change "layout.h5" with ("layout" ++ ".h5")%string in H.
    pose proof (last_char _ _ _ _ "g"%char "5"%char H eq_refl eq_refl). discriminate.
Qed.
Lemma log_grows : forall rs r s sched l, Forall (fun r' => beam_h5 r' <> Some (outdir r ++ [(log_name r ++ ".log")%string])) rs ->
  file s (outdir r ++ [(log_name r ++ ".log")%string]) = Some (Lines l) ->
  exists l', file (snd (execute rs s sched)) (outdir r ++ [(log_name r ++ ".log")%string]) = Some (Lines (l ++ l')).
Proof.
  intros rs r s sched l HF H. set (p := outdir r ++ [(log_name r ++ ".log")%string]) in *. rewrite Forall_forall in HF.
  apply (exec_inv rs (fun _ s' => exists l', file s' p = Some (Lines (l ++ l')))).
  - exists []. rewrite app_nil_r. exact H.
  - intros ps s0 i r' a rest rest' s' HG (l' & HI) Hr Hp Ha Hrest Hs.
    assert (HS : ~ saved r' p) by (apply log_not_saved, HF; eapply nth_error_In; exact Hr).
    destruct a as [q|q|q|q|q|q|q]; try (exists l'; rewrite <- HI; eapply step_file; [exact Hs | cbn [touches]; intros ->; exact (HS Ha)]);
      try (exists l'; rewrite <- HI; eapply step_file; [exact Hs | cbn [touches]; tauto]).
    cbn [step] in Hs. destruct (is_dir s0 (parent q)); [|discriminate]. injection Hs as <- <-. rewrite file_put.
    destruct (path_eqb q p) eqn:E; [|exists l'; exact HI]. apply path_eqb_eq in E. subst q. rewrite HI, <- app_assoc. eexists; reflexivity.
  - auto.
Qed.

(* ---- the last of two runs that save the same file ---- *)
Definition pending (p : path) (l : list act) : Prop := In (Save p) l \/ In (Finish p) l.
Lemma solo : forall n ps s i l p, nth_error ps i = Some (Running l) -> (forall q, In (Append q) l -> q <> p) ->
  pending p l \/ file s p = Some (Whole i) -> finished (fold_left sys_step (repeat i n) (ps, s)) i ->
  file (snd (fold_left sys_step (repeat i n) (ps, s))) p = Some (Whole i).
Proof.
  induction n as [|n IH]; intros ps s i l p Hp HA HI Hf; cbn [repeat fold_left] in *.
  - unfold finished in Hf. cbn [fst] in Hf. rewrite Hp in Hf. injection Hf as ->. destruct HI as [[[] | []] | HI]; exact HI.
  - assert (G : forall pr, nth_error (upd ps i pr) i = Some pr) by (intros pr; rewrite nth_upd, Nat.eqb_refl, Hp; reflexivity).
    unfold sys_step at 2 in Hf. unfold sys_step at 2. cbn [fst snd] in *. rewrite Hp in *.
    destruct l as [|a rest]; cbn [proc_step] in *.
    { eapply IH; [apply G | exact HA | exact HI | exact Hf]. }
    destruct (step i a rest s) as [[rest' s']|e] eqn:Es.
    + eapply IH; [apply G | | | exact Hf].
      * intros q Hq. apply HA. destruct a as [x|x|x|x|x|x|x]; cbn [step] in Es;
          repeat match type of Es with context[if ?b then _ else _] => destruct b end; try discriminate Es; injection Es as <- <-;
          try (right; exact Hq); destruct Hq as [Hq | Hq]; try discriminate Hq; right; exact Hq.
      * destruct a as [x|x|x|x|x|x|x]; cbn [step] in Es;
          repeat match type of Es with context[if ?b then _ else _] => destruct b end; try discriminate Es; injection Es as <- <-;
          unfold pending in *; rewrite ?file_mkdirs, ?file_put; cbn [In] in *;
          try (destruct (path_eqb x p) eqn:Eq; [apply path_eqb_eq in Eq; subst x | ]);
          try (right; reflexivity); try (left; right; left; reflexivity);
          try (exfalso; eapply HA; [left; reflexivity | reflexivity]);
          (destruct HI as [[[HI | HI] | [HI | HI]] | HI];
           [ try discriminate HI; try (injection HI as ->; rewrite path_eqb_refl in Eq; discriminate Eq)
           | tauto
           | try discriminate HI; try (injection HI as ->; rewrite path_eqb_refl in Eq; discriminate Eq)
           | tauto | right; exact HI ]).
    + exfalso. clear -Hf G Hp. assert (K : forall k qs t, nth_error qs i = Some (Failed e) ->
        nth_error (fst (fold_left sys_step (repeat i k) (qs, t))) i = Some (Failed e)).
      { induction k as [|m IHm]; intros qs t H; cbn [repeat fold_left]; [exact H|]. unfold sys_step at 2. cbn [fst snd].
        rewrite H. cbn [proc_step]. apply IHm. rewrite nth_upd, Nat.eqb_refl, H. reflexivity. }
      unfold finished in Hf. rewrite K in Hf by apply G. discriminate.
Qed.

Lemma others_wait : forall n ps s i j, i <> j -> nth_error (fst (fold_left sys_step (repeat i n) (ps, s))) j = nth_error ps j.
Proof.
  induction n as [|n IH]; intros ps s i j H; cbn [repeat fold_left]; [reflexivity|].
  unfold sys_step at 2. cbn [fst snd]. destruct (nth_error ps i) as [pr|] eqn:E; [|apply IH, H].
  destruct (proc_step i pr s) as [pr' s']. rewrite IH by exact H. rewrite nth_upd.
  destruct (Nat.eqb i j) eqn:Ej; [apply Nat.eqb_eq in Ej; contradiction | reflexivity].
Qed.

Lemma append_log : forall r q, In (Append q) (actions r) -> q = outdir r ++ [(log_name r ++ ".log")%string].
Proof. intros r q H. pose proof (good_actions r) as G. rewrite Forall_forall in G. apply (G _ H). Qed.

(** the second of two runs, one after the other *)
Lemma overwritten : forall r r' s n m p, In (Save p) (actions r') -> p <> outdir r' ++ [(log_name r' ++ ".log")%string] ->
  finished (execute [r; r'] s (repeat 0 n ++ repeat 1 m)) 1 ->
  file (snd (execute [r; r'] s (repeat 0 n ++ repeat 1 m))) p = Some (Whole 1).
Proof.
  intros r r' s n m p Hin Hlog Hf. unfold execute in *. rewrite fold_left_app in *.
  pose proof (others_wait n (start [r; r']) s 0 1 ltac:(discriminate)) as W.
  destruct (fold_left sys_step (repeat 0 n) (start [r; r'], s)) as [ps1 s1]. cbn [fst] in W.
  eapply solo; [exact W | | left; left; exact Hin | exact Hf].
  intros q Hq E. apply append_log in Hq. congruence.
Qed.

(* ---- C110: no step fails ---- *)
Definition effect (a : act) (s : fs) : fs :=
  match a with MkdirOk p | Mkdirs p => add_dirs s [p] | _ => s end.
Fixpoint ready (s : fs) (l : list act) : Prop :=
  match l with
  | [] => True
  | a :: t =>
    match a with
    | Save p | Append p | MkdirOk p => is_dir s (parent p) = true
    | Mkdirs _ | Finish _ => True
    | TestMkdir _ | Mkdir _ => False
    end /\ ready (effect a s) t
  end.
Definition sub_fs (s s2 : fs) : Prop := forall q, is_dir s q = true -> is_dir s2 q = true.

Lemma effect_mono : forall a s s2, sub_fs s s2 -> sub_fs (effect a s) (effect a s2).
Proof.
  intros a s s2 H q. destruct a; cbn [effect]; try apply H; rewrite !is_dir_add; intros [Hq | Hq]; auto.
Qed.
Lemma effect_grow : forall a s, sub_fs s (effect a s).
Proof. intros a s q Hq. destruct a; cbn [effect]; try exact Hq; apply is_dir_add; left; exact Hq. Qed.
Lemma ready_mono : forall l s s2, sub_fs s s2 -> ready s l -> ready s2 l.
Proof.
  induction l as [|a t IH]; intros s s2 H HR; cbn [ready] in *; [exact I|]. destruct HR as [Ha Ht]. split.
  - destruct a; auto.
  - eapply IH; [apply effect_mono, H | exact Ht].
Qed.

(** one step of a run that is ready *)
Lemma ready_step : forall i a rest s, ready s (a :: rest) -> exists rest' s', step i a rest s = Ok (rest', s') /\ ready s' rest'.
Proof.
  intros i a rest s [Ha HR]. destruct a as [p|p|p|p|p|p|p]; cbn [step effect] in *; try contradiction.
  - destruct (is_dir s p) eqn:E.
    + exists rest, s. split; [reflexivity|]. eapply ready_mono; [|exact HR]. intros q Hq. apply is_dir_add in Hq.
      destruct Hq as [Hq | ->]; assumption.
    + rewrite Ha. eexists _, _. split; [reflexivity | exact HR].
  - eexists _, _. split; [reflexivity|]. eapply ready_mono; [|exact HR]. intros q Hq. apply is_dir_add in Hq.
    destruct Hq as [Hq | ->]; [apply mkdirs_keep, Hq|]. rewrite <- (rev_involutive p) at 2. apply mkdirs_made.
  - rewrite Ha. eexists _, _. split; [reflexivity|]. eapply ready_mono; [|exact HR]. intros q Hq. exact Hq.
  - rewrite Ha. eexists _, _. split; [reflexivity|]. cbn [ready effect]. split; [exact I|].
    eapply ready_mono; [|exact HR]. intros q Hq. exact Hq.
  - eexists _, _. split; [reflexivity|]. eapply ready_mono; [|exact HR]. intros q Hq. exact Hq.
Qed.

Section Ready.
  Variable r : run.
  (** ready wherever the directories [D] of the run are there *)
  Definition Rd (D : list path) (l : list act) : Prop :=
    forall s, (forall sub, In sub D -> is_dir s (below r sub) = true) ->
      (forall p, beam_h5 r = Some p -> is_dir s (parent p) = true) -> ready s l.

  Lemma Rd_nil : forall D, Rd D [].
  Proof. intros D s _ _. exact I. Qed.
  Lemma ready_app : forall l1 l2 s, ready s l1 -> (forall s2, sub_fs s s2 -> ready s2 l2) -> ready s (l1 ++ l2).
  Proof.
    induction l1 as [|a t IH]; intros l2 s H1 H2; cbn [app ready] in *; [apply H2; intros q Hq; exact Hq|].
    destruct H1 as [Ha H1]. split; [exact Ha|]. apply IH; [exact H1|]. intros s2 H. apply H2. intros q Hq. apply H, effect_grow, Hq.
  Qed.
  Lemma Rd_app : forall D l1 l2, Rd D l1 -> Rd D l2 -> Rd D (l1 ++ l2).
  Proof.
    intros D l1 l2 H1 H2 s Hs Hb. apply ready_app; [apply H1; assumption|]. intros s2 H. apply H2; intros; apply H; auto.
  Qed.
  Lemma Rd_only : forall D b l, (b = true -> Rd D l) -> Rd D (only b l).
  Proof. intros D [|] l H; [apply H; reflexivity | apply Rd_nil]. Qed.
  Lemma Rd_fm : forall {A} D (f : A -> list act) l, (forall a, Rd D (f a)) -> Rd D (flat_map f l).
  Proof. intros A D f l H. induction l as [|a t IH]; cbn [flat_map]; [apply Rd_nil | apply Rd_app; auto]. Qed.
  Lemma parent_below : forall sub n, parent (below r (sub ++ [n])) = below r sub.
  Proof. intros sub n. unfold parent, below. rewrite app_assoc. apply removelast_last. Qed.
  Lemma Rd_save : forall D sub n t, In sub D -> Rd D t -> Rd D (Save (below r (sub ++ [n])) :: t).
  Proof. intros D sub n t Hin Ht s Hs Hb. split; [rewrite parent_below; auto | apply Ht; assumption]. Qed.
  Lemma Rd_own : forall D sub n t, In sub D -> Rd D t -> Rd D (Save (own r sub n) :: t).
  Proof. intros. apply Rd_save; assumption. Qed.
  Lemma Rd_append : forall D n t, In [] D -> Rd D t -> Rd D (Append (below r [n]) :: t).
  Proof.
    intros D n t Hin Ht s Hs Hb. split; [|apply Ht; assumption]. change [n] with ([] ++ [n]). rewrite parent_below. auto.
  Qed.
  Lemma Rd_mk : forall D n t, In [] D -> Rd ([n] :: D) t -> Rd D (MkdirOk (below r [n]) :: t).
  Proof.
    intros D n t Hin Ht s Hs Hb. split; [change [n] with ([] ++ [n]); rewrite parent_below; auto|].
    apply Ht; cbn [effect].
    - intros sub [<- | H]; apply is_dir_add; auto.
    - intros p Hp. apply is_dir_add. auto.
  Qed.
  Lemma Rd_deep : forall D sub t, Rd (sub :: D) t -> Rd D (Mkdirs (below r sub) :: t).
  Proof.
    intros D sub t Ht s Hs Hb. split; [exact I|]. apply Ht; cbn [effect].
    - intros sub' [<- | H]; apply is_dir_add; auto.
    - intros p Hp. apply is_dir_add. auto.
  Qed.
  Lemma Rd_checkpoint : forall D x, (save_checkpoints r = true -> In ["checkpoints"] D) -> Rd D (checkpoint r x).
  Proof.
    intros D x H. unfold checkpoint. apply Rd_only. intro E.
    change ["checkpoints"; (checkpoint_name r ++ x)%string] with (["checkpoints"] ++ [(checkpoint_name r ++ x)%string]).
    apply Rd_save; [auto | apply Rd_nil].
  Qed.
  Lemma Rd_weaken : forall D D' l, (forall x, In x D' -> In x D) -> Rd D' l -> Rd D l.
  Proof. intros D D' l H HR s Hs Hb. apply HR; auto. Qed.

  Ltac rd := repeat first
    [ apply Rd_nil | apply Rd_own; [cbn [In]; tauto|] | apply Rd_mk; [cbn [In]; tauto|] | apply Rd_deep
    | apply Rd_fm; intros | apply Rd_only; intros | progress cbn [map app] ].

  Lemma Rd_plots : forall D, Rd D (plots r).
  Proof. intros D. unfold plots. apply Rd_deep. apply Rd_fm. intros type. apply Rd_fm. intros page. rd. Qed.
  Lemma Rd_fits : forall D, In [] D -> Rd D (fits r).
  Proof. intros D H. unfold fits. apply Rd_mk; [exact H|]. apply Rd_fm. intros pol. rd. Qed.
  Lemma Rd_planes : forall D, In [] D -> Rd D (uv_planes r).
  Proof. intros D H. unfold uv_planes. apply Rd_only. intros _. apply Rd_mk; [exact H|]. rd. Qed.
  Lemma Rd_cal_file : forall D, In [] D -> Rd D (cal_file r).
  Proof. intros D H. unfold cal_file. apply Rd_only. intros _. apply Rd_mk; [exact H|]. rd. Qed.
  Lemma Rd_cal_weights : forall D, In ["visibilities"] D -> Rd D (cal_weights r).
  Proof. intros D H. unfold cal_weights. apply Rd_only. intros _. apply Rd_own; [exact H | apply Rd_nil]. Qed.
  Lemma Rd_cal_vis : forall D, In ["visibilities"] D -> Rd D (cal_vis r).
  Proof. intros D H. unfold cal_vis. apply Rd_only. intros _. apply Rd_own; [exact H | apply Rd_nil]. Qed.
  Lemma Rd_metadata : forall D t, In [] D -> Rd (["visibilities"] :: ["metadata"] :: D) t -> Rd D (metadata r ++ t).
  Proof.
    intros D t H Ht. unfold metadata. cbn [app]. apply Rd_mk; [exact H|]. apply Rd_mk; [right; exact H|].
    rewrite <- app_assoc. apply Rd_app; [apply Rd_only; intros _; apply Rd_own; [cbn; tauto | apply Rd_nil]|].
    apply Rd_app; [apply Rd_only; intros _; apply Rd_own; [cbn; tauto | apply Rd_nil] | exact Ht].
  Qed.
  Lemma Rd_quickview : forall D, In [] D -> Rd D (quickview r).
  Proof.
    intros D H. unfold quickview. apply Rd_metadata; [exact H|]. apply Rd_app; [apply Rd_planes; right; right; exact H|].
    apply Rd_app; [apply Rd_cal_vis; left; reflexivity|]. apply Rd_app; [apply Rd_cal_file; right; right; exact H|].
    apply Rd_app; [apply Rd_cal_weights; left; reflexivity | apply Rd_fits; right; right; exact H].
  Qed.
  Lemma Rd_healpix : forall D, In [] D -> Rd D (healpix r).
  Proof.
    intros D H. unfold healpix. apply Rd_mk; [exact H|]. apply Rd_fm. intros [cube uvf]. apply Rd_fm. intros pol.
    apply Rd_deep. cbn [map app]. rd.
  Qed.

  Lemma Rd_tail : (resumed r = false -> save_weights r = true -> save_visibilities r = true) -> Rd [[]] (tail r).
  Proof.
    intros HW. unfold tail.
    set (rest := only (negb (resumed r)) (fresh r) ++ beam r ++ calibration r
      ++ (if cal_stop r then metadata r ++ cal_file r ++ cal_weights r ++ cal_vis r
          else only (recalculate_grid r && negb (grid_resumed r)) (checkpoint r "_gridding_checkpoint.h5")
               ++ only (export_images r) (quickview r) ++ only (snapshot_healpix_export r) (healpix r)) ++ finish r).
    assert (HR : forall D, In [] D -> In ["config"] D -> (save_checkpoints r = true -> In ["checkpoints"] D) -> Rd D rest).
    { intros D H0 Hc HC. unfold rest.
      apply Rd_app.
      { apply Rd_only. intro Hr. apply negb_true_iff in Hr. unfold fresh. destruct (save_visibilities r) eqn:EV.
        - cbn [only app]. apply Rd_mk; [exact H0|]. apply Rd_own; [left; reflexivity|].
          apply Rd_app; [apply Rd_only; intros _; apply Rd_own; [left; reflexivity | apply Rd_nil]|].
          change ["layout.h5"] with ([] ++ ["layout.h5"]). apply Rd_save; [right; exact H0|]. apply Rd_checkpoint. intro E. right. auto.
        - cbn [only app]. destruct (save_weights r) eqn:EW; [specialize (HW Hr eq_refl); discriminate|]. cbn [only app].
          change ["layout.h5"] with ([] ++ ["layout.h5"]). apply Rd_save; [exact H0|]. apply Rd_checkpoint. auto. }
      apply Rd_app.
      { unfold beam. destruct (beam_h5 r) as [p|] eqn:E; [|apply Rd_nil]. intros s Hs Hb. split; [auto | exact I]. }
      apply Rd_app.
      { unfold calibration. apply Rd_only. intros _. apply Rd_app; [apply Rd_only; intros _; apply Rd_plots | apply Rd_checkpoint, HC]. }
      apply Rd_app.
      { destruct (cal_stop r).
        - apply Rd_metadata; [exact H0|]. apply Rd_app; [apply Rd_cal_file; right; right; exact H0|].
          apply Rd_app; [apply Rd_cal_weights; left; reflexivity | apply Rd_cal_vis; left; reflexivity].
        - apply Rd_app; [apply Rd_only; intros _; apply Rd_checkpoint, HC|].
          apply Rd_app; apply Rd_only; intros _; [apply Rd_quickview, H0 | apply Rd_healpix, H0]. }
      unfold finish. change ["config"; (log_name r ++ "-final.yaml")%string] with (["config"] ++ [(log_name r ++ "-final.yaml")%string]).
      change ["config"; "pyfhd_config.h5"] with (["config"] ++ ["pyfhd_config.h5"]).
      apply Rd_save; [exact Hc|]. apply Rd_save; [exact Hc | apply Rd_nil]. }
    rewrite <- app_assoc. apply Rd_app.
    { apply Rd_only. intros _. apply Rd_append; [left; reflexivity | apply Rd_nil]. }
    cbn [app]. apply Rd_mk; [left; reflexivity|].
    change ["config"; (log_name r ++ ".yaml")%string] with (["config"] ++ [(log_name r ++ ".yaml")%string]).
    apply Rd_save; [left; reflexivity|]. destruct (save_checkpoints r) eqn:E; cbn [only app].
    - apply Rd_mk; [right; left; reflexivity|]. apply HR; cbn; tauto.
    - apply HR; [cbn; tauto | cbn; tauto | discriminate].
  Qed.
End Ready.

Lemma nil_below : forall r, below r [] = outdir r.
Proof. intros r. apply app_nil_r. Qed.

(** the directories a step makes *)
Lemma step_new : forall r i a rest s rest' s' q, good r a -> step i a rest s = Ok (rest', s') ->
  (forall p, a = Mkdirs p -> is_dir s (outdir r) = true) ->
  is_dir s' q = true -> is_dir s q = true \/ (a = Mkdir q) \/ exists sub x, q = outdir r ++ sub ++ [x] /\ ~ marked x.
Proof.
  intros r i a rest s rest' s' q Hg Hs Hd Hq. destruct a as [p|p|p|p|p|p|p]; cbn [step] in Hs.
  - injection Hs as <- <-. auto.
  - destruct (is_dir s p); [discriminate|]. destruct (is_dir s (parent p)); [|discriminate]. injection Hs as <- <-.
    apply is_dir_add in Hq. destruct Hq as [Hq | ->]; auto.
  - destruct (is_dir s p); [injection Hs as <- <-; auto|]. destruct (is_dir s (parent p)); [|discriminate]. injection Hs as <- <-.
    apply is_dir_add in Hq. destruct Hq as [Hq | ->]; [auto|]. right; right. destruct Hg as (sub & Hsub & ->).
    repeat (destruct Hsub as [<- | Hsub]; [exists []; eexists; split; [reflexivity | not_marked]|]). destruct Hsub.
  - injection Hs as <- <-. destruct Hg as (sub & Hsub & ->).
    apply mkdirs_new in Hq; [|eapply Hd; reflexivity]. destruct Hq as [Hq | (a & b & Hab & Hn & ->)]; [auto|]. right; right.
    destruct a as [|x a'] using rev_ind; [contradiction|]. exists a', x. split; [reflexivity|].
    assert (Hx : In x sub) by (rewrite Hab; apply in_or_app; left; apply in_or_app; right; left; reflexivity).
    destruct Hsub as [<- | [<- | []]]; destruct Hx as [<- | [<- | []]]; not_marked.
  - destruct (is_dir s (parent p)); [|discriminate]. injection Hs as <- <-. auto.
  - destruct (is_dir s (parent p)); [|discriminate]. injection Hs as <- <-. auto.
  - injection Hs as <- <-. auto.
Qed.

(** where a run is, when its output path is there *)
Definition phase (s : fs) (r : run) (pr : proc) : Prop :=
  match pr with
  | Failed _ => False
  | Running l => l = actions r \/ l = TestMkdir (outdir r) :: tail r \/ (l = Mkdir (outdir r) :: tail r /\ is_dir s (outdir r) = false)
                 \/ (is_dir s (outdir r) = true /\ ready s l)
  end.

Lemma outdir_parent : forall r, parent (outdir r) = output_path r.
Proof. intros r. apply removelast_last. Qed.

Lemma never_fails : forall rs s sched, prepared rs s ->
  forall i r pr, nth_error rs i = Some r -> nth_error (fst (execute rs s sched)) i = Some pr ->
    phase (snd (execute rs s sched)) r pr.
Proof.
  intros rs s sched [HP HO]. rewrite Forall_forall in HP.
  cut (sub_fs s (snd (execute rs s sched)) /\ forall i r pr, nth_error rs i = Some r -> nth_error (fst (execute rs s sched)) i = Some pr ->
    phase (snd (execute rs s sched)) r pr); [tauto|].
  assert (NEED : forall s0, sub_fs s s0 -> forall r, In r rs -> is_dir s0 (outdir r) = true -> ready s0 (tail r)).
  { intros s0 H0 r Hr Hd. destruct (HP r Hr) as (_ & Hb & Hw). apply (Rd_tail r Hw).
    - intros sub [<- | []]. rewrite nil_below. exact Hd.
    - intros p Hp. apply H0, Hb, Hp. }
  apply (exec_inv rs (fun ps s0 => sub_fs s s0 /\ forall i r pr, nth_error rs i = Some r -> nth_error ps i = Some pr -> phase s0 r pr)).
  - split; [intros q Hq; exact Hq|]. intros i r pr Hr Hp. unfold start in Hp. rewrite nth_error_map, Hr in Hp. injection Hp as <-.
    left. reflexivity.
  - intros ps s0 i r a rest rest' s' HG [HS HI] Hr Hp Ha Hrest Hs.
    assert (HS' : sub_fs s0 s') by (intros q; eapply step_dir; exact Hs).
    assert (HSS : sub_fs s s') by (intros q Hq; apply HS', HS, Hq).
    split; [exact HSS|].
    pose proof (HI _ _ _ Hr Hp) as Hme. cbn [phase] in Hme. assert (HrIn : In r rs) by (eapply nth_error_In; exact Hr).
    destruct (HP r HrIn) as (Hout & _ & _).
    intros j r' pr Hj Hpr. rewrite nth_upd in Hpr. destruct (Nat.eqb i j) eqn:E.
    + apply Nat.eqb_eq in E. subst j. rewrite Hp in Hpr. injection Hpr as <-. rewrite Hr in Hj. injection Hj as <-. cbn [phase].
      destruct Hme as [Hl | [Hl | [[Hl Hf] | [Hd Hl]]]].
      * rewrite actions_tail in Hl. injection Hl as -> ->. cbn [step] in Hs. rewrite (HS _ Hout) in Hs. injection Hs as <- <-. auto.
      * injection Hl as -> ->. cbn [step] in Hs. injection Hs as <- <-. destruct (is_dir s0 (outdir r)) eqn:Ed; auto.
        right; right; right. split; [reflexivity|]. apply NEED; assumption.
      * injection Hl as -> ->. cbn [step] in Hs. rewrite Hf in Hs. rewrite outdir_parent, (HS _ Hout) in Hs. injection Hs as <- <-.
        assert (Hd : is_dir (add_dirs s0 [outdir r]) (outdir r) = true) by (apply is_dir_add; auto).
        right; right; right. split; [exact Hd|]. apply NEED; assumption.
      * right; right; right. split; [apply HS', Hd|]. destruct (ready_step i a rest s0 Hl) as (x & y & H1 & H2).
        rewrite Hs in H1. injection H1 as <- <-. exact H2.
    + assert (Nij : i <> j) by (intros ->; rewrite Nat.eqb_refl in E; discriminate).
      specialize (HI _ _ _ Hj Hpr). destruct pr as [l|]; [|exact HI]. cbn [phase] in *.
      destruct HI as [Hl | [Hl | [[Hl Hf] | [Hd Hl]]]]; auto.
      * right; right; left. split; [exact Hl|]. destruct (is_dir s' (outdir r')) eqn:Ed; [|reflexivity]. exfalso.
        eapply step_new in Ed; [|exact Ha | exact Hs |].
        -- destruct Ed as [Ed | [Ed | (sub & x & Ed & Hm)]]; [congruence | |].
           ++ subst a. destruct Ha as [Ha | Ha].
              ** cbn [step] in Hs. rewrite Ha, (HS _ Hout) in Hs. discriminate.
              ** assert (is_dir s (outdir r') = true) by (eapply (HO j i); eauto). apply HS in H. congruence.
           ++ unfold outdir in Ed at 1. rewrite app_assoc in Ed. apply app_inj_tail in Ed. destruct Ed as [_ Ed]. subst x.
              apply Hm, dir_name_marked.
        -- intros p ->. destruct Hme as [Hm | [Hm | [[Hm _] | [Hm _]]]]; [discriminate Hm | discriminate Hm | discriminate Hm | exact Hm].
      * right; right; right. split; [apply HS', Hd|]. eapply ready_mono; [exact HS' | exact Hl].
  - intros ps s0 i r a rest e HG [HS HI] Hr Hp Ha Hrest Hs. exfalso.
    pose proof (HI _ _ _ Hr Hp) as Hme. cbn [phase] in Hme. assert (HrIn : In r rs) by (eapply nth_error_In; exact Hr).
    destruct (HP r HrIn) as (Hout & _ & _). destruct Hme as [Hl | [Hl | [[Hl Hf] | [Hd Hl]]]].
    + rewrite actions_tail in Hl. injection Hl as -> ->. discriminate Hs.
    + injection Hl as -> ->. discriminate Hs.
    + injection Hl as -> ->. cbn [step] in Hs. rewrite Hf in Hs. rewrite outdir_parent, (HS _ Hout) in Hs. discriminate Hs.
    + destruct (ready_step i a rest s0 Hl) as (x & y & H1 & _). congruence.
Qed.

(** every step brings a run nearer to its end *)
Fixpoint weight (l : list act) : nat :=
  match l with [] => 0 | a :: t => (match a with TestMkdir _ | Save _ => 2 | _ => 1 end) + weight t end.
Lemma step_weight : forall i a rest s rest' s', step i a rest s = Ok (rest', s') -> weight rest' < weight (a :: rest).
Proof.
  intros i a rest s rest' s' H. destruct a; cbn [step] in H;
    repeat match type of H with context[if ?b then _ else _] => destruct b end; try discriminate H; injection H as <- <-;
    cbn [weight]; lia.
Qed.
Lemma weight_nil : forall l, weight l = 0 -> l = [].
Proof. intros [|a l] H; [reflexivity|]. destruct a; discriminate H. Qed.

Lemma progress : forall sched ps s i l, nth_error ps i = Some (Running l) ->
  exists pr, nth_error (fst (fold_left sys_step sched (ps, s))) i = Some pr
    /\ match pr with Failed _ => True | Running l' => weight l' <= weight l - count_occ Nat.eq_dec sched i end.
Proof.
  assert (DEAD : forall sched ps s i e, nth_error ps i = Some (Failed e) ->
            nth_error (fst (fold_left sys_step sched (ps, s))) i = Some (Failed e)).
  { induction sched as [|j sched IH]; intros ps s i e H; cbn [fold_left]; [exact H|]. unfold sys_step at 2. cbn [fst snd].
    destruct (nth_error ps j) as [pr|] eqn:E; [|apply IH, H]. destruct (proc_step j pr s) as [pr' s'] eqn:Ep. apply IH.
    rewrite nth_upd. destruct (Nat.eqb j i) eqn:Ei; [|exact H]. apply Nat.eqb_eq in Ei. subst j. rewrite H in *.
    injection E as <-. cbn in Ep. injection Ep as <- <-. reflexivity. }
  induction sched as [|j sched IH]; intros ps s i l H; cbn [fold_left count_occ].
  - exists (Running l). split; [exact H | lia].
  - unfold sys_step at 2. cbn [fst snd]. destruct (Nat.eq_dec j i) as [->|Hj].
    + rewrite H. destruct l as [|a rest]; cbn [proc_step].
      * destruct (IH (upd ps i (Running [])) s i []) as (pr & H1 & H2); [rewrite nth_upd, Nat.eqb_refl, H; reflexivity|].
        exists pr. split; [exact H1|]. destruct pr; [|exact I]. cbn in *. lia.
      * destruct (step i a rest s) as [[rest' s']|e] eqn:Es.
        -- destruct (IH (upd ps i (Running rest')) s' i rest') as (pr & H1 & H2); [rewrite nth_upd, Nat.eqb_refl, H; reflexivity|].
           exists pr. split; [exact H1|]. destruct pr; [|exact I]. apply step_weight in Es. lia.
        -- exists (Failed e). split; [|exact I]. apply DEAD. rewrite nth_upd, Nat.eqb_refl, H. reflexivity.
    + destruct (nth_error ps j) as [pr|] eqn:E; [|apply IH, H]. destruct (proc_step j pr s) as [pr' s'] eqn:Ep. apply IH.
      rewrite nth_upd. destruct (Nat.eqb j i) eqn:Ei; [apply Nat.eqb_eq in Ei; contradiction | exact H].
Qed.

Lemma all_finish : forall rs s sched i r, prepared rs s -> nth_error rs i = Some r ->
  2 * List.length (actions r) <= count_occ Nat.eq_dec sched i -> finished (execute rs s sched) i.
Proof.
  intros rs s sched i r HP Hr Hc.
  assert (H0 : nth_error (start rs) i = Some (Running (actions r))) by (unfold start; rewrite nth_error_map, Hr; reflexivity).
  destruct (progress sched (start rs) s i _ H0) as (pr & H1 & H2). pose proof (never_fails rs s sched HP i r pr Hr H1) as H3.
  unfold finished. fold (execute rs s sched) in H1. rewrite H1. destruct pr as [l|e]; [|destruct H3].
  assert (W : weight (actions r) <= 2 * List.length (actions r)).
  { generalize (actions r) as l0. induction l0 as [|a t IH]; [cbn; lia|].
    assert (E : weight (a :: t) <= 2 + weight t) by (cbn [weight]; destruct a; lia).
    cbn [List.length]. lia. }
  rewrite (weight_nil l) by lia. reflexivity.
Qed.

(* ---- C109: directories ---- *)
Definition past (s : fs) (r : run) (pr : proc) : Prop :=
  match pr with
  | Failed _ => True
  | Running l => l = actions r \/ l = Mkdir (output_path r) :: TestMkdir (outdir r) :: tail r \/ l = TestMkdir (outdir r) :: tail r
                 \/ l = Mkdir (outdir r) :: tail r \/ is_dir s (outdir r) = true
  end.
Lemma new_dirs : forall rs s sched p, is_dir (snd (execute rs s sched)) p = true -> is_dir s p = false ->
  exists r, In r rs /\ (p = output_path r \/ exists q, p = outdir r ++ q).
Proof.
  intros rs s sched p Hp Hn.
  assert (K : (forall i r pr, nth_error rs i = Some r -> nth_error (fst (execute rs s sched)) i = Some pr -> past (snd (execute rs s sched)) r pr)
    /\ (is_dir (snd (execute rs s sched)) p = true -> is_dir s p = true \/ exists r, In r rs /\ (p = output_path r \/ exists q, p = outdir r ++ q))).
  { apply (exec_inv rs (fun ps s0 => (forall i r pr, nth_error rs i = Some r -> nth_error ps i = Some pr -> past s0 r pr)
      /\ (is_dir s0 p = true -> is_dir s p = true \/ exists r, In r rs /\ (p = output_path r \/ exists q, p = outdir r ++ q)))).
    - split; [|auto]. intros i r pr Hr Hpr. unfold start in Hpr. rewrite nth_error_map, Hr in Hpr. injection Hpr as <-. left. reflexivity.
    - intros ps s0 i r a rest rest' s' HG [HI HN] Hr Hpi Ha Hrest Hs.
      assert (HS' : sub_fs s0 s') by (intros q; eapply step_dir; exact Hs).
      pose proof (HI _ _ _ Hr Hpi) as Hme. cbn [past] in Hme. split.
      + intros j r' pr Hj Hpr. rewrite nth_upd in Hpr. destruct (Nat.eqb i j) eqn:E.
        * apply Nat.eqb_eq in E. subst j. rewrite Hpi in Hpr. injection Hpr as <-. rewrite Hr in Hj. injection Hj as <-. cbn [past].
          destruct Hme as [Hl | [Hl | [Hl | [Hl | Hd]]]]; [| | | |auto 6].
          -- rewrite actions_tail in Hl. injection Hl as -> ->. cbn [step] in Hs. injection Hs as <- <-. destruct (is_dir s0 (output_path r)); auto.
          -- injection Hl as -> ->. cbn [step] in Hs. destruct (is_dir s0 (output_path r)); [discriminate|].
             destruct (is_dir s0 (parent (output_path r))); [|discriminate]. injection Hs as <- <-. auto.
          -- injection Hl as -> ->. cbn [step] in Hs. injection Hs as <- <-. destruct (is_dir s0 (outdir r)) eqn:Ed; auto 6.
          -- injection Hl as -> ->. cbn [step] in Hs. destruct (is_dir s0 (outdir r)) eqn:Ed; [discriminate|].
             destruct (is_dir s0 (parent (outdir r))); [|discriminate]. injection Hs as <- <-.
             right; right; right; right. apply is_dir_add. auto.
        * specialize (HI _ _ _ Hj Hpr). destruct pr as [l|]; [|exact HI]. cbn [past] in *.
          destruct HI as [Hl | [Hl | [Hl | [Hl | Hd]]]]; auto 6.
      + intros Hq. eapply step_new in Hq; [|exact Ha | exact Hs |].
        * destruct Hq as [Hq | [Hq | (sub & x & Hq & _)]]; [auto | |].
          -- right. exists r. split; [eapply nth_error_In; exact Hr|]. subst a. destruct Ha as [Ha | Ha]; [left; exact Ha|].
             right. exists []. rewrite app_nil_r. exact Ha.
          -- right. exists r. split; [eapply nth_error_In; exact Hr|]. right. eexists. exact Hq.
        * intros q ->. destruct Hme as [Hm | [Hm | [Hm | [Hm | Hm]]]]; try discriminate Hm. exact Hm.
    - intros ps s0 i r a rest e HG [HI HN] Hr Hpi Ha Hrest Hs. split; [|exact HN]. intros j r' pr Hj Hpr. rewrite nth_upd in Hpr.
      destruct (Nat.eqb i j) eqn:E; [|eapply HI; eassumption]. rewrite Hpi in Hpr. destruct (nth_error ps i); injection Hpr as <-; exact I. }
  destruct K as [_ K]. destruct (K Hp) as [K' | K']; [congruence | exact K'].
Qed.
Lemma kept : forall rs s sched, (forall p, is_dir s p = true -> is_dir (snd (execute rs s sched)) p = true)
  /\ (forall p, file s p <> None -> file (snd (execute rs s sched)) p <> None).
Proof.
  intros rs s sched. apply (exec_inv rs (fun _ s' => (forall p, is_dir s p = true -> is_dir s' p = true) /\ (forall p, file s p <> None -> file s' p <> None))).
  - auto.
  - intros ps s0 i r a rest rest' s' HG [H1 H2] Hr Hpi Ha Hrest Hs. split; intros p Hp.
    + eapply step_dir; [exact Hs | auto].
    + eapply step_some; [exact Hs | auto].
  - auto.
Qed.
Lemma changed_by : forall rs s sched p, file (snd (execute rs s sched)) p <> file s p ->
  exists r, In r rs /\ (beam_h5 r = Some p \/ exists q, q <> [] /\ p = outdir r ++ q).
Proof.
  intros rs s sched p Hne.
  assert (K : file (snd (execute rs s sched)) p = file s p \/ exists r, In r rs /\ (beam_h5 r = Some p \/ exists q, q <> [] /\ p = outdir r ++ q)).
  { apply (exec_inv rs (fun _ s' => file s' p = file s p \/ exists r, In r rs /\ (beam_h5 r = Some p \/ exists q, q <> [] /\ p = outdir r ++ q))).
    - auto.
    - intros ps s0 i r a rest rest' s' HG [HI | HI] Hr Hpi Ha Hrest Hs; [|auto].
      assert (HrIn : In r rs) by (eapply nth_error_In; exact Hr).
      assert (SV : saved r p -> exists r, In r rs /\ (beam_h5 r = Some p \/ exists q, q <> [] /\ p = outdir r ++ q)).
      { intros [H | (sub & n & -> & _)]; exists r; (split; [exact HrIn|]); [left; exact H|]. right. exists (sub ++ [n]). split; [|reflexivity].
        intro E. apply app_eq_nil in E. destruct E; discriminate. }
      destruct a as [q|q|q|q|q|q|q]; try (left; rewrite <- HI; eapply step_file; [exact Hs | cbn; tauto]).
      + destruct (list_eq_dec string_dec q p) as [->|N]; [|left; rewrite <- HI; eapply step_file; [exact Hs | exact N]].
        right. exists r. split; [exact HrIn|]. right. eexists. split; [|exact Ha]. discriminate.
      + destruct (list_eq_dec string_dec q p) as [->|N]; [right; apply SV, Ha | left; rewrite <- HI; eapply step_file; [exact Hs | exact N]].
      + destruct (list_eq_dec string_dec q p) as [->|N]; [right; apply SV, Ha | left; rewrite <- HI; eapply step_file; [exact Hs | exact N]].
    - auto. }
  destruct K as [K | K]; [contradiction | exact K].
Qed.
