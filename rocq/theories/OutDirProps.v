(** C107-C110: the files of runs, one after the other or at the same time, each stopped anywhere. *)
From Coq Require Import String Ascii.
From Verif Require Import Base OutDir OutDirSpec OutDirProofs.
Import ListNotations.
Open Scope string_scope.
Open Scope list_scope.

(** C107. However many runs there are, in whatever order their steps happen, wherever each is stopped: if none of them is a run of
    observation [o] with output directory [outdir r0], no result of this observation in this directory changes. *)
Theorem C107_others : forall rs s schedule r0 o p,
  plain o -> Forall (fun r => plain (obs_id r)) rs ->
  result_of o (outdir r0) p ->
  Forall (fun r => obs_id r <> o \/ outdir r <> outdir r0) rs ->
  Forall (fun r => beam_h5 r <> Some p) rs ->
  file (snd (execute rs s schedule)) p = file s p.
Proof.
  intros rs s schedule r0 o p Ho HP HR HD HB. apply unchanged. rewrite Forall_forall in *. intros r Hr.
  eapply (result_foreign r o (outdir r0)); auto.
Qed.

(** C107. A run that no other run of its observation in its directory disturbs, and that is allowed its steps, leaves every file
    its options ask for, complete and its own, whatever was there before and whatever the other runs do. *)
Theorem C107_asked : forall rs s schedule i r sub n,
  nth_error rs i = Some r -> prepared rs s ->
  Forall (fun r' => plain (obs_id r')) rs ->
  (forall j r', j <> i -> nth_error rs j = Some r' -> obs_id r' <> obs_id r \/ outdir r' <> outdir r) ->
  asked r sub n ->
  Forall (fun r' => beam_h5 r' <> Some (outdir r ++ sub ++ [(obs_id r ++ "_" ++ n)%string])) rs ->
  2 * List.length (actions r) <= count_occ Nat.eq_dec schedule i ->
  file (snd (execute rs s schedule)) (outdir r ++ sub ++ [(obs_id r ++ "_" ++ n)%string]) = Some (Whole i).
Proof.
  intros rs s schedule i r sub n Hi HP HO HD HA HB HC.
  pose proof (asked_result r sub n HA) as HR. rewrite Forall_forall in *.
  apply (completed rs s schedule i r (own r sub n) Hi).
  - intros j r' Hj Hr'. assert (Hin : In r' rs) by (eapply nth_error_In; exact Hr').
    eapply (result_foreign r' (obs_id r) (outdir r)); [reflexivity | apply HO; eapply nth_error_In; exact Hi | auto | exact HR | eapply HD; eassumption | apply HB, Hin].
  - eapply result_not_log. exact HR.
  - apply asked_saved, HA.
  - eapply all_finish; eassumption.
Qed.

(** C107. Stopped anywhere, it leaves of each of its results what was there before, or the beginning or all of its own. *)
Theorem C107_stopped : forall rs s schedule i r p,
  nth_error rs i = Some r -> Forall (fun r' => plain (obs_id r')) rs ->
  (forall j r', j <> i -> nth_error rs j = Some r' -> obs_id r' <> obs_id r \/ outdir r' <> outdir r) ->
  result_of (obs_id r) (outdir r) p -> Forall (fun r' => beam_h5 r' <> Some p) rs ->
  let now := file (snd (execute rs s schedule)) p in
  now = file s p \/ now = Some (Half i) \/ now = Some (Whole i).
Proof.
  intros rs s schedule i r p Hi HO HD HR HB. rewrite Forall_forall in *. cbn zeta.
  apply (exec_inv rs (fun _ s' => file s' p = file s p \/ file s' p = Some (Half i) \/ file s' p = Some (Whole i))).
  - auto.
  - intros ps s0 j r' a rest rest' s' HG HI Hr' Hp Ha Hrest Hs.
    destruct (Nat.eq_dec j i) as [->|Hj].
    + rewrite Hi in Hr'. injection Hr' as <-.
      destruct a as [q|q|q|q|q|q|q]; try (rewrite (step_file _ _ _ _ _ _ p Hs) by (cbn; tauto); exact HI).
      * rewrite (step_file _ _ _ _ _ _ p Hs); [exact HI|]. cbn [touches]. intros ->. cbn [good] in Ha. apply (result_not_log _ _ _ HR Ha).
      * cbn [step] in Hs. destruct (is_dir s0 (parent q)); [|discriminate]. injection Hs as <- <-. rewrite file_put.
        destruct (path_eqb q p); auto.
      * cbn [step] in Hs. injection Hs as <- <-. rewrite file_put. destruct (path_eqb q p); auto.
    + rewrite (step_file _ _ _ _ _ _ p Hs); [exact HI|]. eapply foreign_touch; [exact Ha|].
      assert (Hin : In r' rs) by (eapply nth_error_In; exact Hr').
      eapply (result_foreign r' (obs_id r) (outdir r)); [reflexivity | apply HO; eapply nth_error_In; exact Hi | auto | exact HR | eapply HD; eassumption | apply HB, Hin].
  - auto.
Qed.

(** C108. With a description, the layout, the configuration and the checkpoints have no observation in their names. After two runs
    with one description, one after the other, they are the second's, whatever observations the two are of. *)
Theorem C108_description_refuted : forall r r' d s n m,
  description r = Some d -> description r' = Some d -> d <> "" -> output_path r = output_path r' ->
  resumed r' = false -> save_checkpoints r' = true -> calibrate_visibilities r' = true ->
  let st := execute [r; r'] s (repeat 0 n ++ repeat 1 m) in
  finished st 1 ->
  outdir r = outdir r' /\
  file (snd st) (outdir r ++ ["layout.h5"]) = Some (Whole 1) /\
  file (snd st) (outdir r ++ ["config"; "pyfhd_config.h5"]) = Some (Whole 1) /\
  file (snd st) (outdir r ++ ["checkpoints"; (checkpoint_name r ++ "_obs_checkpoint.h5")%string]) = Some (Whole 1) /\
  file (snd st) (outdir r ++ ["checkpoints"; (checkpoint_name r ++ "_calibration_checkpoint.h5")%string]) = Some (Whole 1).
Proof.
  intros r r' d s n m Hd Hd' Hn Ho Hres Hck Hcal st Hf.
  assert (Eo : outdir r = outdir r') by (unfold outdir, dir_name; rewrite Hd, Hd', Ho; reflexivity).
  assert (Ec : checkpoint_name r = checkpoint_name r') by (unfold checkpoint_name; rewrite Hd, Hd'; destruct (string_dec d ""); [contradiction | reflexivity]).
  rewrite Eo, Ec. split; [reflexivity|].
  assert (L : forall q, List.length q = 2 -> outdir r' ++ q <> outdir r' ++ [(log_name r' ++ ".log")%string]).
  { intros q Hq E. apply app_inv_head in E. subst q. discriminate. }
  split.
  { apply overwritten; [| |exact Hf].
    - rewrite actions_tail; right; right. apply in_fresh; [exact Hres|]. unfold fresh. apply in_or_app; right. apply in_or_app; right. left. reflexivity.
    - intro E. apply app_inv_head in E. injection E as E. change "layout.h5" with ("layout" ++ ".h5")%string in E.
      pose proof (last_char _ _ _ _ "5"%char "g"%char E eq_refl eq_refl). discriminate. }
  split; [|split]; apply overwritten; try exact Hf; try (apply L; reflexivity); rewrite actions_tail; right; right.
  - apply in_finish. right; left; reflexivity.
  - apply in_fresh; [exact Hres|]. unfold fresh. do 3 (apply in_or_app; right). unfold checkpoint. rewrite Hck. left. reflexivity.
  - apply in_calibration. unfold calibration. rewrite Hcal. cbn [only]. apply in_or_app; right. unfold checkpoint. rewrite Hck. left. reflexivity.
Qed.

(** C108. Two runs started in the same second without a description have one directory, and the configuration the first one has
    recorded is lost. *)
Theorem C108_second_refuted : forall r r' s n m,
  description r = None -> description r' = None -> output_path r = output_path r' -> log_time r = log_time r' ->
  let st := execute [r; r'] s (repeat 0 n ++ repeat 1 m) in
  finished st 1 ->
  outdir r = outdir r' /\
  file (snd st) (outdir r ++ ["config"; (log_name r ++ ".yaml")%string]) = Some (Whole 1) /\
  file (snd st) (outdir r ++ ["config"; (log_name r ++ "-final.yaml")%string]) = Some (Whole 1).
Proof.
  intros r r' s n m Hd Hd' Ho Ht st Hf.
  assert (Eo : outdir r = outdir r') by (unfold outdir, dir_name; rewrite Hd, Hd', Ho, Ht; reflexivity).
  assert (El : log_name r = log_name r') by (unfold log_name; rewrite Hd, Hd', Ht; reflexivity).
  rewrite Eo, El. split; [reflexivity|].
  assert (L : forall q, List.length q = 2 -> outdir r' ++ q <> outdir r' ++ [(log_name r' ++ ".log")%string]).
  { intros q Hq E. apply app_inv_head in E. subst q. discriminate. }
  split; apply overwritten; try exact Hf; try (apply L; reflexivity); rewrite actions_tail; right; right.
  - unfold tail. apply in_or_app; left. apply in_or_app; right. right; left; reflexivity.
  - apply in_finish. left; reflexivity.
Qed.

(** C108. What is kept of the rest: the recorded configuration, from runs with another name or directory; the checkpoints of runs
    without a description, from such runs of other observations; and the lines of the log, from every run. *)
Theorem C108_kept_partial : forall rs s schedule r,
  let now := snd (execute rs s schedule) in
  (forall n, In n [(log_name r ++ ".yaml")%string; (log_name r ++ "-final.yaml")%string] ->
     timestamp (log_time r) -> Forall (fun r' => timestamp (log_time r')) rs ->
     Forall (fun r' => log_name r' <> log_name r \/ outdir r' <> outdir r) rs ->
     Forall (fun r' => beam_h5 r' <> Some (outdir r ++ ["config"; n])) rs ->
     file now (outdir r ++ ["config"; n]) = file s (outdir r ++ ["config"; n]))
  /\ (forall x, In x ["_obs_checkpoint.h5"; "_calibration_checkpoint.h5"; "_gridding_checkpoint.h5"] ->
     plain (obs_id r) -> Forall (fun r' => plain (obs_id r')) rs -> undescribed r -> Forall undescribed rs ->
     Forall (fun r' => obs_id r' <> obs_id r \/ outdir r' <> outdir r) rs ->
     let p := outdir r ++ ["checkpoints"; (obs_id r ++ x)%string] in
     Forall (fun r' => beam_h5 r' <> Some p) rs -> file now p = file s p)
  /\ (forall l, let p := outdir r ++ [(log_name r ++ ".log")%string] in
     Forall (fun r' => beam_h5 r' <> Some p) rs -> file s p = Some (Lines l) -> exists more, file now p = Some (Lines (l ++ more))).
Proof.
  intros rs s schedule r now. split; [|split].
  - intros n Hn Ht HT HD HB. apply unchanged. rewrite Forall_forall in *. intros r' Hr'. apply record_foreign; auto.
  - intros x Hx Hp HP Hu HU HD p HB. apply unchanged. rewrite Forall_forall in *. intros r' Hr'. apply checkpoint_foreign; auto.
  - intros l p HB Hl. apply log_grows; assumption.
Qed.

(** C109. The directory of a run. *)
Theorem C109_name : forall r r',
  (description r = None -> outdir r = output_path r ++ [("pyfhd_" ++ log_time r)%string]) /\
  (description r = None -> description r' = None -> (outdir r = outdir r' <-> output_path r = output_path r' /\ log_time r = log_time r')) /\
  (forall d d', description r = Some d -> description r' = Some d' ->
     (outdir r = outdir r' <-> output_path r = output_path r' /\ underscored d = underscored d')).
Proof.
  intros r r'. unfold outdir, dir_name. split; [|split].
  - intros ->. reflexivity.
  - intros -> ->. split.
    + intro E. apply app_inj_tail in E. destruct E as [E1 E2]. split; [exact E1 | eapply str_app_inj; exact E2].
    + intros [-> ->]. reflexivity.
  - intros d d' -> ->. split.
    + intro E. apply app_inj_tail in E. destruct E as [E1 E2]. split; [exact E1 | eapply str_app_inj; exact E2].
    + intros [-> ->]. reflexivity.
Qed.

(** C109. Whatever the runs do: a file that has changed is below the output directory of one of them, or is the HDF5 copy of its
    .sav beam; a new directory is an output path, or an output directory or below one; and nothing is removed. *)
Theorem C109_confined : forall rs s schedule,
  let now := snd (execute rs s schedule) in
  (forall p, file now p <> file s p -> exists r, In r rs /\ (beam_h5 r = Some p \/ exists q, q <> [] /\ p = outdir r ++ q)) /\
  (forall p, is_dir now p = true -> is_dir s p = false -> exists r, In r rs /\ (p = output_path r \/ exists q, p = outdir r ++ q)) /\
  (forall p, is_dir s p = true -> is_dir now p = true) /\
  (forall p, file s p <> None -> file now p <> None).
Proof.
  intros rs s schedule now. split; [|split].
  - apply changed_by.
  - apply new_dirs.
  - apply kept.
Qed.

(** C109. An output path that is not there is made if the directory above it is there; otherwise the run ends at once and leaves
    nothing behind. *)
Theorem C109_missing : forall r s,
  is_dir s (output_path r) = false -> is_dir s (output_path r ++ [dir_name r]) = false ->
  (is_dir s (parent (output_path r)) = true ->
     is_dir (snd (execute [r] s (repeat 0 4))) (output_path r) = true /\ is_dir (snd (execute [r] s (repeat 0 4))) (outdir r) = true) /\
  (is_dir s (parent (output_path r)) = false -> forall n,
     execute [r] s (repeat 0 (2 + n)) = ([Failed FileMissing], s)).
Proof.
  intros r s H0 H1. split.
  - intros Hp.
    enough (X : execute [r] s (repeat 0 4) = ([Running (tail r)], add_dirs (add_dirs s [output_path r]) [outdir r])).
    { rewrite X. cbn [snd]. split; apply is_dir_add; [left; apply is_dir_add; right; reflexivity | right; reflexivity]. }
    unfold execute, start. cbn [map repeat fold_left]. rewrite actions_tail.
    unfold sys_step at 4; cbn [nth_error fst snd proc_step step upd]. rewrite H0. cbn [upd].
    unfold sys_step at 3; cbn [nth_error fst snd proc_step step upd]. rewrite H0, Hp.
    unfold sys_step at 2; cbn [nth_error fst snd proc_step step upd].
    assert (E : is_dir (add_dirs s [output_path r]) (outdir r) = false).
    { destruct (is_dir (add_dirs s [output_path r]) (outdir r)) eqn:E; [|reflexivity]. apply is_dir_add in E.
      destruct E as [E | E]; [unfold outdir in E; congruence|]. exfalso. unfold outdir in E.
      apply (f_equal (@List.length _)) in E. rewrite app_length in E. cbn in E. lia. }
    rewrite E. unfold sys_step at 1; cbn [nth_error fst snd proc_step step upd].
    rewrite E, outdir_parent. replace (is_dir (add_dirs s [output_path r]) (output_path r)) with true
      by (symmetry; apply is_dir_add; right; reflexivity).
    reflexivity.
  - intros Hp n. unfold execute, start. cbn [map repeat fold_left Nat.add]. rewrite actions_tail.
    unfold sys_step at 3; cbn [nth_error fst snd proc_step step upd]. rewrite H0. cbn [upd].
    unfold sys_step at 2; cbn [nth_error fst snd proc_step step upd]. rewrite H0, Hp. cbn [upd].
    induction n as [|n IH]; cbn [repeat fold_left]; [reflexivity|]. unfold sys_step at 2. cbn [nth_error fst snd proc_step upd]. exact IH.
Qed.

(** C110. Two runs that start at the same time with one output directory that is not there yet: both see that it is missing, and the
    one that is second to make it ends with an error, having done nothing. *)
Theorem C110_together_refuted : forall r r' s,
  outdir r = outdir r' -> is_dir s (output_path r) = true -> is_dir s (output_path r') = true -> is_dir s (outdir r) = false ->
  failed (execute [r; r'] s [0; 1; 0; 1; 0; 1]) 1.
Proof.
  intros r r' s E H H' Hn. unfold execute, start. cbn [map fold_left]. rewrite !actions_tail.
  unfold sys_step at 6; cbn [nth_error fst snd proc_step step upd]. rewrite H. cbn [upd].
  unfold sys_step at 5; cbn [nth_error fst snd proc_step step upd]. rewrite H'. cbn [upd].
  unfold sys_step at 4; cbn [nth_error fst snd proc_step step upd]. rewrite Hn. cbn [upd].
  unfold sys_step at 3; cbn [nth_error fst snd proc_step step upd]. rewrite <- E, Hn. cbn [upd].
  unfold sys_step at 2; cbn [nth_error fst snd proc_step step upd]. rewrite Hn, outdir_parent, H. cbn [upd].
  unfold sys_step at 1; cbn [nth_error fst snd proc_step step upd].
  assert (D : is_dir (add_dirs s [outdir r]) (outdir r) = true) by (apply is_dir_add; right; reflexivity).
  rewrite D. exists IOError. reflexivity.
Qed.

(** C110. If the output paths are there, and every output directory that two runs have in common, then no run is ended by the file
    system, in whatever order the steps happen, and each finishes when it is allowed its steps. *)
Theorem C110_prepared_partial : forall rs s schedule i r,
  prepared rs s -> nth_error rs i = Some r ->
  ~ failed (execute rs s schedule) i /\
  (2 * List.length (actions r) <= count_occ Nat.eq_dec schedule i -> finished (execute rs s schedule) i).
Proof.
  intros rs s schedule i r HP Hr. split.
  - intros (e & He). exact (never_fails rs s schedule HP i r _ Hr He).
  - apply all_finish; assumption.
Qed.

(* ---- concrete cases ---- *)
Definition base (o : string) (d : option string) (t : string) : run :=
  Run o d ["data"; "out"] t true true false None true true true true true true true [""] false true false true "uniform" ["XX"; "YY"] true true.
Definition night : fs := FS [["data"]; ["data"; "out"]] [].
Definition runA := base "1061316296" None "2024_01_01_10_00_00".
Definition runB := base "1061316418" None "2024_01_01_10_00_00".
Definition runC := base "1061316296" (Some "first look") "2024_01_01_10_00_00".
Definition runD := base "1061316418" (Some "first look") "2024_01_01_11_00_00".

Lemma plainA : plain "1061316296".
Proof. intro H. cbn in H. intuition discriminate. Qed.
Lemma plainB : plain "1061316418".
Proof. intro H. cbn in H. intuition discriminate. Qed.

(** two observations, started in the same second, in one directory that is there, with their steps alternating *)
Definition ready_dir : fs := FS [["data"]; ["data"; "out"]; ["data"; "out"; "pyfhd_2024_01_01_10_00_00"]] [].
Fixpoint turns (n : nat) : list nat := match n with 0 => [] | S m => 0 :: 1 :: turns m end.

Example C107_example :
  prepared [runA; runB] ready_dir
  /\ asked runA ["fits"] "uniform_dirty_XX.fits"
  /\ file (snd (execute [runA; runB] ready_dir (turns 200)))
       ["data"; "out"; "pyfhd_2024_01_01_10_00_00"; "fits"; "1061316296_uniform_dirty_XX.fits"] = Some (Whole 0)
  /\ file (snd (execute [runA; runB] ready_dir (turns 200)))
       ["data"; "out"; "pyfhd_2024_01_01_10_00_00"; "fits"; "1061316418_uniform_dirty_XX.fits"] = Some (Whole 1).
Proof.
  split; [|split; [|split; vm_compute; reflexivity]].
  - split.
    + repeat constructor; cbn; try reflexivity; intros; discriminate.
    + intros i j r r' Hi Hj Hn _. destruct i as [|[|i]]; cbn in Hi; try (destruct i; discriminate Hi); injection Hi as <-; reflexivity.
  - exact (image runA "dirty" "XX" ltac:(left; reflexivity) ltac:(left; reflexivity) (conj eq_refl eq_refl)).
Qed.

Example C108_example :
  finished (execute [runC; runD] night (repeat 0 200 ++ repeat 1 200)) 1
  /\ obs_id runC <> obs_id runD
  /\ file (snd (execute [runC; runD] night (repeat 0 200)))
       ["data"; "out"; "pyfhd_first_look"; "checkpoints"; "first look_obs_checkpoint.h5"] = Some (Whole 0)
  /\ file (snd (execute [runC; runD] night (repeat 0 200 ++ repeat 1 200)))
       ["data"; "out"; "pyfhd_first_look"; "checkpoints"; "first look_obs_checkpoint.h5"] = Some (Whole 1)
  /\ file (snd (execute [runC; runD] night (repeat 0 200 ++ repeat 1 200)))
       ["data"; "out"; "pyfhd_first_look"; "config"; "pyfhd_first_look_2024_01_01_10_00_00.yaml"] = Some (Whole 0).
Proof. split; [vm_compute; reflexivity|]. split; [discriminate|]. repeat split; vm_compute; reflexivity. Qed.

Example C108_second_example :
  finished (execute [runA; runB] night (repeat 0 200 ++ repeat 1 200)) 1
  /\ timestamp (log_time runA) /\ undescribed runA /\ log_name runC <> log_name runD.
Proof.
  split; [vm_compute; reflexivity|]. split; [|split; [left; reflexivity | discriminate]].
  split; [intro H; cbn in H; intuition discriminate | cbn; lia].
Qed.

Example C109_example :
  underscored "first look" = underscored "first_look"
  /\ execute [runA] (FS [] []) (repeat 0 5) = ([Failed FileMissing], FS [] [])
  /\ is_dir (snd (execute [runA] (FS [["data"]] []) (repeat 0 4))) (outdir runA) = true.
Proof. repeat split; vm_compute; reflexivity. Qed.

Example C110_example :
  outdir runA = outdir runB /\ is_dir night (output_path runA) = true /\ is_dir night (outdir runA) = false
  /\ failed (execute [runA; runB] night (turns 200)) 1
  /\ finished (execute [runA; runB] night (turns 200)) 0
  /\ finished (execute [runA; runB] ready_dir (turns 200)) 1.
Proof. repeat split; try (vm_compute; reflexivity). exists IOError. vm_compute. reflexivity. Qed.

Print Assumptions C107_others.
Print Assumptions C107_asked.
Print Assumptions C107_stopped.
Print Assumptions C108_description_refuted.
Print Assumptions C108_second_refuted.
Print Assumptions C108_kept_partial.
Print Assumptions C109_name.
Print Assumptions C109_confined.
Print Assumptions C109_missing.
Print Assumptions C110_together_refuted.
Print Assumptions C110_prepared_partial.
