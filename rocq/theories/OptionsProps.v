(** C103-C106: the options of the program, the configuration written for a run, and reading it again. *)
From Coq Require Import String Ascii DecimalString.
From Verif Require Import Base OptionsBase OptionsTable Options OptionsSpec OptionsProofs.
Import ListNotations.
Open Scope string_scope.
Open Scope list_scope.

Section Options.
(** [float_of s]: the repr of float(s), None when it raises; [path_of s]: str(Path(s)). *)
Variable float_of : string -> option string.
Variable path_of : string -> string.
Local Notation read_config := (read_config float_of path_of).
Local Notation read_keys := (read_keys float_of path_of).

(** C103. Take any configuration whose entries are internal ones or options with values of the option's type that the file can
    tell from the default. The file written for it is read again without error, every option in it has its value again, and
    every other option has its default. *)
Theorem C103_reload : forall cfg,
  NoDup (map fst cfg) ->
  (forall k v, In (k, v) cfg ->
     internal k \/ exists o, In o options /\ o_dest o = k /\ reloadable float_of path_of o v) ->
  exists e, read_config (write_config cfg) = Ok e
    /\ (forall k v, In (k, v) cfg -> ~ internal k -> k <> "config" -> exists w, lookup e k = Some w /\ same float_of v w)
    /\ (forall o, In o options -> ~ In (o_dest o) (map fst cfg) -> lookup e (o_dest o) = Some (o_default o)).
Proof.
  intros cfg Hnd Hc.
  destruct (reload_all float_of path_of cfg defaults Hnd) as (ys & e & Ey & Ef & Hv & Hd).
  - intros k v Hin. destruct (Hc k v Hin) as [Hi|(o & Ho & Ed & Hr)]; [now left|right].
    exists o. repeat split; try assumption. subst k. now apply dest_default.
  - exists e. split; [unfold Options.read_config; now rewrite Ey|]. split; [exact Hv|].
    intros o Ho Hn. rewrite Hd by exact Hn. now apply dest_default.
Qed.

(** The part of C103 that needs no reading: the internal entries are not in the file, and nothing but the entries of the
    configuration is. *)
Theorem C103_lines : forall cfg key t,
  In (key, t) (write_config cfg) ->
  exists k v, In (k, v) cfg /\ ~ internal k /\ v <> VList [] /\ (key = hyphens k \/ (key = k /\ exists l, v = VList l)).
Proof.
  intros cfg key t H. unfold write_config in H. apply in_flat_map in H as ((k & v) & Hin & H).
  exists k, v. unfold write_line in H.
  destruct (existsb (String.eqb k) unwritten) eqn:Eu; [now destruct H|].
  assert (Hi : ~ internal k).
  { intros Hi. assert (X : existsb (String.eqb k) unwritten = true); [|congruence].
    apply existsb_exists. exists k. split; [exact Hi|apply String.eqb_refl]. }
  rewrite dashed_hyphens in H.
  destruct v as [| | | | | |[|x l]]; try (destruct H as [H|[]]; injection H as <- _);
    try (repeat split; [assumption|assumption|discriminate|now left]).
  - destruct H.
  - repeat split; try assumption; [discriminate|right]. split; [reflexivity|]. now exists (x :: l).
Qed.

(** C104 asks the same of the configuration of any run, as the docstring promises. It fails. A run's configuration has the entry
    output_dir, for which there is no option: the file of every run is refused. *)
Theorem C104_run_refuted : forall cfg p, plain_config cfg -> In ("output_dir", VPath p) cfg ->
  forall e, read_config (write_config cfg) <> Ok e.
Proof.
  intros cfg p _ Hin. eapply unreadable; [exact Hin|now left|].
  intros y e e' Hy. cbn [fst snd] in *. cbn [yaml_value] in Hy.
  destruct (unquote (p ++ "'")) as [s|]; [|discriminate]. injection Hy as <-. discriminate.
Qed.

(** Nor could it be read without that entry: the five IDL switches are written with hyphens, which are not their flags. *)
Theorem C104_idl_refuted : forall cfg k b, plain_config cfg ->
  In k ["IDL_calibrate"; "grid_IDL_outputs"; "IDL_healpix_gridded_outputs"; "IDL_dry_run"] ->
  In (k, VBool b) cfg -> forall e, read_config (write_config cfg) <> Ok e.
Proof.
  intros cfg k b _ Hk Hin.
  destruct Hk as [<-|[<-|[<-|[<-|[]]]]]; (eapply unreadable; [exact Hin|now left|];
    intros y e e' Hy; cbn [fst snd yaml_value] in *; destruct b; injection Hy as <-; discriminate).
Qed.

(** And the default of --memory-threshold is a float, which its own type refuses. *)
Theorem C104_memory_refuted : forall cfg, plain_config cfg ->
  (forall o, In o options -> o_dest o = "memory_threshold" -> In ("memory_threshold", o_default o) cfg) ->
  forall e, read_config (write_config cfg) <> Ok e.
Proof.
  intros cfg _ Hin.
  specialize (Hin (opt "memory_threshold" ["--memory-threshold"] (Store TInt) (VFloat "100000000.0") [])).
  eapply unreadable; [apply Hin; [|reflexivity]|now left|].
  - unfold options. repeat (first [now left | right]).
  - intros y e e' Hy. cbn [fst snd yaml_value] in *. injection Hy as <-. discriminate.
Qed.

(** Flagged tiles: a list that is not empty is written under the name with underscores, which is no key. *)
Theorem C104_tiles_refuted : forall cfg x l k, In k ["flag_tiles"; "ps_tile_flag_list"] ->
  In (k, VList (x :: l)) cfg -> forall e, read_config (write_config cfg) <> Ok e.
Proof.
  intros cfg x l k Hk Hin.
  destruct Hk as [<-|[<-|[]]]; (eapply unreadable; [exact Hin|now left|];
    intros y e e' Hy; cbn [fst snd yaml_value map fold_right] in *;
    destruct (unquote _) as [s|] in Hy; [|discriminate];
    destruct (fold_right _ _ _) as [r|] in Hy; [|discriminate]; injection Hy as <-; discriminate).
Qed.

(** A quote in a text is not escaped. *)
Theorem C104_quote_refuted : forall cfg k a c b, ~ internal k -> clean a -> c <> "'"%char -> c <> " "%char ->
  In (k, VStr (a ++ String "'" (String c b))%string) cfg -> forall e, read_config (write_config cfg) <> Ok e.
Proof.
  intros cfg k a c b Hi Ha Hq Hs Hin.
  assert (Eu : existsb (String.eqb k) unwritten = false).
  { destruct (existsb (String.eqb k) unwritten) eqn:E; [|reflexivity]. exfalso. apply Hi.
    apply existsb_exists in E as (x & Hx & Ex). apply String.eqb_eq in Ex. now subst. }
  eapply unreadable; [exact Hin|unfold write_line; rewrite Eu; now left|].
  intros y e e' Hy. cbn [fst snd yaml_value] in *.
  assert (App : forall u v w : string, ((u ++ v) ++ w = u ++ (v ++ w))%string)
    by (induction u as [|h u IH]; intros v w; cbn; [reflexivity|now rewrite IH]).
  rewrite App in Hy. cbn [append] in Hy. rewrite unquote_lone in Hy by assumption. discriminate.
Qed.

(** The radius of the ring is taken for its factor: an unknown key that one flag alone begins with is that flag. *)
Theorem C104_ring_refuted : forall m r, float_of m = Some m -> float_of r = Some r -> m <> "~" -> r <> "~" ->
  exists e, read_config (write_config [("ring_radius_multi", VFloat m); ("ring_radius", VFloat r)]) = Ok e
            /\ lookup e "ring_radius_multi" = Some (VFloat r).
Proof.
  intros m r Hm Hr Nm Nr.
  assert (Em : String.eqb m "~" = false) by now apply String.eqb_neq.
  assert (Er : String.eqb r "~" = false) by now apply String.eqb_neq.
  eexists. split.
  - assert (W : write_config [("ring_radius_multi", VFloat m); ("ring_radius", VFloat r)]
                = [("ring-radius-multi", Plain m); ("ring-radius", Plain r)]) by reflexivity.
    rewrite W. unfold Options.read_config. cbn [yaml yaml_value bind]. rewrite Em, Er.
    cbn [bind]. unfold Options.read_keys. cbn [fold_res].
    unfold Options.read_key at 1.
    change (known "ring-radius-multi") with
      (Some (opt "ring_radius_multi" ["--ring-radius-multi"] (Store TFloat) (VInt 10) [])).
    cbn [o_dest o_kind]. change (String.eqb "ring_radius_multi" "config") with false.
    unfold Options.take at 1. cbn [o_kind Options.convert o_choices o_dest]. rewrite Hm. cbn [option_map in_choices bind].
    unfold Options.read_key. change (known "ring-radius") with (@None option_def).
    unfold Options.unknown_arg.
    replace (split_eq ("--" ++ "ring-radius" ++ "=" ++ r)) with ("--ring-radius", r) by reflexivity.
    replace (find (fun o => existsb (String.eqb "--ring-radius") (o_flags o)) options) with (@None option_def)
      by (vm_compute; reflexivity).
    replace (completions "--ring-radius") with
      [("--ring-radius-multi", Some (opt "ring_radius_multi" ["--ring-radius-multi"] (Store TFloat) (VInt 10) []))]
      by (vm_compute; reflexivity).
    unfold Options.take. cbn [o_kind Options.convert o_choices o_dest]. rewrite Hr. cbn [option_map in_choices bind].
    reflexivity.
  - rewrite lookup_set, String.eqb_refl, lookup_set, String.eqb_refl.
    replace (lookup defaults "ring_radius_multi") with (Some (VInt 10)) by (vm_compute; reflexivity). reflexivity.
Qed.

(** C105. A configuration file that is accepted has no misspelt option: every key with a value is the name of a flag, or the
    beginning of exactly one. *)
Theorem C105_named : forall ys e k y, read_keys ys = Ok e -> In (k, y) ys ->
  ~ In "="%char (list_ascii_of_string k) -> y <> YNull -> y <> YSeq [] -> names_flag k.
Proof. apply accepted_named. Qed.

(** So the file shipped as a template is refused: it sets disable-log and recalculate-mapfn. *)
Theorem C105_template : forall ys k s, In k ["disable-log"; "recalculate-mapfn"; "model-visibilities"] ->
  In (k, YText s) ys -> forall e, read_keys ys <> Ok e.
Proof.
  intros ys k s Hk Hin e H.
  destruct (read_keys_In float_of path_of ys e k (YText s) H Hin) as (e1 & e2 & Hr).
  destruct Hk as [<-|[<-|[<-|[]]]]; discriminate.
Qed.

(** C106 asks that an option can be given each of its values from a file. The export of images cannot be switched off. *)
Theorem C106_images_refuted : forall ys e, read_keys ys = Ok e -> lookup e "export_images" = Some (VBool true).
Proof.
  intros ys e H. eapply read_keys_inv with (Inv := fun v => v = Some (VBool true)) (d := "export_images"); [|exact H|].
  - intros o Ho Ed old new Ha Hi.
    assert (K : o_kind o = Switch).
    { revert o Ho Ed Ha. 
      assert (T : forall o, In o options -> o_dest o = "export_images" -> o_kind o = Switch).
      { apply (proj1 (Forall_forall (fun o => o_dest o = "export_images" -> o_kind o = Switch) options)).
        unfold options. repeat (constructor; [cbn; intros X; first [reflexivity | discriminate X]|]). constructor. }
      intros o Ho Ed _. now apply T. }
    unfold allowed in Ha. now rewrite K in Ha.
  - vm_compute. reflexivity.
Qed.

(** And the name of a tile to flag is never received as a name: each becomes the list of its characters. *)
Theorem C106_tiles_refuted : forall ys e, read_keys ys = Ok e ->
  exists l, lookup e "flag_tiles" = Some (VList l) /\ forall x, In x l -> exists s, x = VList (chars s).
Proof.
  intros ys e H.
  eapply read_keys_inv with
    (Inv := fun v => exists l, v = Some (VList l) /\ forall x, In x l -> exists s, x = VList (chars s)) (d := "flag_tiles");
    [|exact H|].
  - intros o Ho Ed old new Ha (l & El & Hl).
    assert (T : forall o, In o options -> o_dest o = "flag_tiles" -> o_kind o = Append TList).
    { apply (proj1 (Forall_forall (fun o => o_dest o = "flag_tiles" -> o_kind o = Append TList) options)).
      unfold options. repeat (constructor; [cbn; intros X; first [reflexivity | discriminate X]|]). constructor. }
    unfold allowed in Ha. rewrite (T o Ho Ed) in Ha. destruct Ha as (l' & v & s & Ec & Eo & ->).
    rewrite El in Eo. injection Eo as <-. injection Ec as <-.
    exists (l ++ [VList (chars s)]). split; [reflexivity|]. intros x Hx. apply in_app_or in Hx as [Hx|[<-|[]]]; [now apply Hl|].
    now exists s.
  - exists []. split; [vm_compute; reflexivity|]. intros x [].
Qed.

(** The other switches can be set and left: for each that is off by default, "true" sets it and "false" leaves it off. *)
Theorem C106_switches_partial : forall o (b : bool), In o options -> o_kind o = Switch -> o_default o = VBool false -> hyphenated o ->
  exists e, read_keys [(hyphens (o_dest o), YText (if b then "true" else "false"))] = Ok e
            /\ lookup e (o_dest o) = Some (VBool b)
            /\ forall o', In o' options -> o_dest o' <> o_dest o -> lookup e (o_dest o') = Some (o_default o').
Proof.
  intros o b Ho Hk Hd Hh.
  assert (Ec : String.eqb (o_dest o) "config" = false).
  { destruct (String.eqb (o_dest o) "config") eqn:E; [|reflexivity]. apply String.eqb_eq in E.
    pose proof (dest_default o Ho) as D. rewrite E, Hd in D.
    assert (lookup defaults "config" = Some (VStr "./pyfhd.yaml")) by (vm_compute; reflexivity). congruence. }
  unfold Options.read_keys. cbn [fold_res]. unfold Options.read_key. rewrite (known_hyphenated o Ho Hh), Ec, Hk.
  destruct b; cbn [bind].
  - eexists. split; [reflexivity|]. split.
    + rewrite lookup_set, String.eqb_refl, (dest_default o Ho). reflexivity.
    + intros o' Ho' N. rewrite lookup_set. destruct (String.eqb (o_dest o') (o_dest o)) eqn:E; [now apply String.eqb_eq in E|].
      now apply dest_default.
  - eexists. split; [reflexivity|]. split.
    + now rewrite (dest_default o Ho), Hd.
    + intros o' Ho' _. now apply dest_default.
Qed.
End Options.

Print Assumptions C103_reload.
Print Assumptions C103_lines.
Print Assumptions C104_run_refuted.
Print Assumptions C104_idl_refuted.
Print Assumptions C104_memory_refuted.
Print Assumptions C104_tiles_refuted.
Print Assumptions C104_quote_refuted.
Print Assumptions C104_ring_refuted.
Print Assumptions C105_named.
Print Assumptions C105_template.
Print Assumptions C106_images_refuted.
Print Assumptions C106_tiles_refuted.
Print Assumptions C106_switches_partial.

(** A run with a description, a path, a switch, numbers and a list meets the hypotheses of C103. *)
Definition toy_float (s : string) : option string :=
  if String.eqb s "0.5" then Some "0.5" else if String.eqb s "10" then Some "10.0" else None.
Definition toy_config : list (string * val) :=
  [("commit", VStr "it's"); ("description", VStr "zenith run"); ("input_path", VPath "/data/in"); ("dimension", VInt 1024);
   ("kbinsize", VFloat "0.5"); ("ring_radius_multi", VInt 10); ("calibrate_visibilities", VBool true); ("silent", VBool false);
   ("FoV", VNone); ("n_pol", VInt 2); ("model_file_type", VStr "uvfits"); ("flag_tiles", VList []);
   ("grid_psf_file", VList [VStr "a.sav"; VStr "b.sav"])].

Ltac conjs := lazymatch goal with |- _ /\ _ => split; [|conjs] | _ => idtac end.
Ltac clean_text := intros c Hc; cbn in Hc; repeat (destruct Hc as [<-|Hc]; [split; discriminate|]); destruct Hc.

Example C103_example_reloadable : NoDup (map fst toy_config) /\
  forall k v, In (k, v) toy_config ->
    internal k \/ exists o, In o options /\ o_dest o = k /\ reloadable toy_float (fun s => s) o v.
Proof.
  split.
  - cbn. repeat (constructor; [cbn; intros X; repeat (destruct X as [X|X]; [discriminate X|]); exact X|]). constructor.
  - assert (D : forall k v o, find (fun o => String.eqb (o_dest o) k) options = Some o ->
      reloadable toy_float (fun s => s) o v -> internal k \/ exists o, In o options /\ o_dest o = k /\ reloadable toy_float (fun s => s) o v).
    { intros k v o Hf Hr. right. exists o. apply find_some in Hf as [Ho E]. apply String.eqb_eq in E. auto. }
    intros k v Hin. cbn in Hin.
    destruct Hin as [E|Hin]; [injection E as <- <-; left; unfold internal; cbn; tauto|].
    repeat (destruct Hin as [E|Hin]; [injection E as <- <-; eapply D; [vm_compute; reflexivity|]|]); [..|destruct Hin];
      unfold hyphenated, chosen; cbn [reloadable o_kind o_flags o_choices o_default o_dest].
    + conjs; try reflexivity; [now left|now left|clean_text].
    + conjs; try reflexivity; [now right; left|clean_text].
    + split; [now left|]. left. split; [reflexivity|now left].
    + conjs; try reflexivity; [now left|discriminate].
    + split; [now left|]. right. conjs; try reflexivity. discriminate.
    + conjs; try reflexivity; [now right; left|now left].
    + conjs; try reflexivity; [now right; left|now right].
    + reflexivity.
    + split; [now left|]. left. split; [reflexivity|]. right. cbn. tauto.
    + conjs; try reflexivity; [now right; left|right; cbn; tauto|clean_text].
    + reflexivity.
    + conjs; try reflexivity; [now left|]. intros x [<-|[<-|[]]]; eexists; conjs; try reflexivity; try clean_text; reflexivity.
Qed.

Example C103_example_read :
  match Options.read_config toy_float (fun s => s) (write_config toy_config) with
  | Ok e => map (lookup e) ["description"; "dimension"; "ring_radius_multi"; "calibrate_visibilities"; "silent"; "grid_psf_file"]
  | Err _ => []
  end = [Some (VStr "zenith run"); Some (VInt 1024); Some (VFloat "10.0"); Some (VBool true); Some (VBool false);
         Some (VList [VStr "a.sav"; VStr "b.sav"])].
Proof. vm_compute. reflexivity. Qed.

(** Most options have a flag with hyphens: the part of the table C103 speaks of. *)
Example C103_example_table :
  List.length (filter (fun o => existsb (String.eqb ("--" ++ hyphens (o_dest o))) (o_flags o)) options) = 130%nat
  /\ List.length options = 141%nat.
Proof. vm_compute. now split. Qed.

(** C104 and C105: a run with the entry the program always sets; an accepted file with an abbreviated key. *)
Example C104_example : plain_config [("silent", VBool false); ("output_dir", VPath "/out/run1")]
  /\ Options.read_config toy_float (fun s => s) (write_config [("silent", VBool false); ("output_dir", VPath "/out/run1")]) = Err SystemExit.
Proof.
  split; [|vm_compute; reflexivity].
  intros k v [E|[E|[]]]; injection E as <- <-; [exact I|clean_text].
Qed.

Example C104_ring_example :
  match Options.read_config toy_float (fun s => s) (write_config [("ring_radius_multi", VInt 10); ("ring_radius", VFloat "0.5")]) with
  | Ok e => lookup e "ring_radius_multi" | Err _ => None end = Some (VFloat "0.5").
Proof. vm_compute. reflexivity. Qed.

Example C105_example :
  match Options.read_keys toy_float (fun s => s) [("descr", YText "x"); ("dimension", YText "64"); ("typo-key", YNull)] with
  | Ok e => map (lookup e) ["description"; "dimension"] | Err _ => [] end = [Some (VStr "x"); Some (VInt 64)]
  /\ Options.read_keys toy_float (fun s => s) [("dimensio", YText "64"); ("typo-key", YText "1")] = Err SystemExit.
Proof. split; vm_compute; reflexivity. Qed.

Example C106_example :
  match Options.read_keys toy_float (fun s => s)
    [("export-images", YText "False"); ("flag-tiles", YSeq ["Tile11"; "T2"]); ("save-obs", YText "True")] with
  | Ok e => map (lookup e) ["export_images"; "flag_tiles"; "save_obs"] | Err _ => [] end
  = [Some (VBool true); Some (VList [VList (map VStr ["T"; "i"; "l"; "e"; "1"; "1"]); VList [VStr "T"; VStr "2"]]); Some (VBool true)].
Proof. vm_compute. reflexivity. Qed.
