(** Lemmas behind C103-C106. *)
From Coq Require Import String Ascii DecimalString DecimalZ.
From Verif Require Import Base OptionsBase OptionsTable Options OptionsSpec.
Import ListNotations.
Open Scope string_scope.
Open Scope list_scope.

Lemma dashed_hyphens : forall s, dashed s = hyphens s.
Proof. unfold hyphens; induction s as [|c r IH]; cbn; [reflexivity|now rewrite IH]. Qed.

Lemma unquote_clean : forall s, clean s -> unquote (s ++ "'") = Some s.
Proof.
  induction s as [|c r IH]; intros Hc; [reflexivity|].
  cbn. destruct (Ascii.eqb c "'") eqn:E.
  - apply Ascii.eqb_eq in E. destruct (Hc c) as [N _]; [now left|]. now destruct N.
  - rewrite IH; [reflexivity|]. intros c' Hc'. apply Hc. now right.
Qed.

(** A text with one lone quote that is not followed by a blank or a quote. *)
Lemma unquote_lone : forall a c b, clean a -> c <> "'"%char -> c <> " "%char ->
  unquote (a ++ String "'" (String c b)) = None.
Proof.
  induction a as [|x a IH]; intros c b Ha Hq Hs.
  - cbn. destruct (Ascii.eqb c "'") eqn:E; [now apply Ascii.eqb_eq in E|].
    destruct (Ascii.eqb c " ") eqn:E2; [now apply Ascii.eqb_eq in E2|]. reflexivity.
  - cbn. destruct (Ascii.eqb x "'") eqn:E.
    + apply Ascii.eqb_eq in E. destruct (Ha x) as [N _]; [now left|]. now destruct N.
    + rewrite IH; auto. intros c' Hc'. apply Ha. now right.
Qed.

Lemma int_of_show : forall z, int_of (show_int z) = Some z.
Proof.
  intros z. unfold int_of, show_int. rewrite NilZero.isi; cbn [option_map]; [now rewrite DecimalZ.of_to| |].
  - destruct z; cbn; try discriminate. intros E. injection E. apply DecimalPos.Unsigned.to_uint_nonnil.
  - destruct z; cbn; try discriminate. intros E. injection E. apply DecimalPos.Unsigned.to_uint_nonnil.
Qed.

Lemma show_int_tilde : forall z, String.eqb (show_int z) "~" = false.
Proof.
  intros z. destruct (String.eqb (show_int z) "~") eqn:E; [|reflexivity].
  apply String.eqb_eq in E. pose proof (int_of_show z) as H. rewrite E in H. discriminate H.
Qed.

Lemma lookup_set : forall e d d' v,
  lookup (set e d v) d' = if String.eqb d' d then (match lookup e d with None => None | Some _ => Some v end) else lookup e d'.
Proof.
  induction e as [|[k x] e IH]; intros d d' v.
  - cbn. now destruct (String.eqb d' d).
  - unfold set in *; cbn [map fst lookup]. destruct (String.eqb d k) eqn:E.
    + apply String.eqb_eq in E; subst k. cbn [lookup]. rewrite IH.
      destruct (String.eqb d' d) eqn:E'; reflexivity.
    + cbn [lookup]. rewrite IH. destruct (String.eqb d' k) eqn:E1, (String.eqb d' d) eqn:E2; try reflexivity.
      apply String.eqb_eq in E1, E2. subst. rewrite String.eqb_refl in E. discriminate.
Qed.

Lemma fold_res_app : forall {A S0} (f : S0 -> A -> result S0) l1 l2 s,
  fold_res f (l1 ++ l2) s = bind (fold_res f l1 s) (fold_res f l2).
Proof.
  intros A S0 f l1; induction l1 as [|a l1 IH]; intros l2 s; [reflexivity|].
  cbn. destruct (f s a); [apply IH|reflexivity].
Qed.

Lemma fold_res_In : forall {A S0} (f : S0 -> A -> result S0) l s s' a,
  fold_res f l s = Ok s' -> In a l -> exists s1 s2, f s1 a = Ok s2.
Proof.
  intros A S0 f l; induction l as [|b l IH]; intros s s' a H Ha; [now destruct Ha|].
  cbn in H. destruct (f s b) as [s1|] eqn:E; [|discriminate]. cbn in H.
  destruct Ha as [<-|Ha]; [now exists s, s1|]. eapply IH; eauto.
Qed.

(** ** The table *)
Lemma dest_default : forall o, In o options -> lookup defaults (o_dest o) = Some (o_default o).
Proof.
  apply Forall_forall. unfold options. repeat (constructor; [vm_compute; reflexivity|]). constructor.
Qed.

Lemma known_hyphenated : forall o, In o options -> hyphenated o -> known (hyphens (o_dest o)) = Some o.
Proof.
  apply (proj1 (Forall_forall (fun o => hyphenated o -> known (hyphens (o_dest o)) = Some o) options)).
  assert (D : forall o, In ("--" ++ hyphens (o_dest o))%string (o_flags o) ->
     existsb (String.eqb ("--" ++ hyphens (o_dest o))%string) (o_flags o) = true)
    by (intros o Ho; apply existsb_exists; eexists; split; [exact Ho|apply String.eqb_refl]).
  unfold options.
  repeat (constructor; [intros Hh; apply D in Hh; vm_compute in Hh |- *; first [reflexivity | discriminate Hh]|]).
  constructor.
Qed.

Lemma known_plain : forall o, In o options -> In ("--" ++ o_dest o)%string (o_flags o) -> known (o_dest o) = Some o.
Proof.
  apply (proj1 (Forall_forall (fun o => In ("--" ++ o_dest o)%string (o_flags o) -> known (o_dest o) = Some o) options)).
  assert (D : forall o, In ("--" ++ o_dest o)%string (o_flags o) ->
     existsb (String.eqb ("--" ++ o_dest o)%string) (o_flags o) = true)
    by (intros o Ho; apply existsb_exists; eexists; split; [exact Ho|apply String.eqb_refl]).
  unfold options.
  repeat (constructor; [intros Hh; apply D in Hh; vm_compute in Hh |- *; first [reflexivity | discriminate Hh]|]).
  constructor.
Qed.

Lemma find_In : forall {A} (p : A -> bool) l x, find p l = Some x -> In x l /\ p x = true.
Proof. intros; now apply find_some. Qed.

Lemma known_In : forall k o, known k = Some o -> In o options /\ names o k = true.
Proof. unfold known; intros k o H. now apply find_some in H. Qed.

Section Options.
Variable float_of : string -> option string.
Variable path_of : string -> string.
Notation convert := (convert float_of path_of).
Notation take := (take float_of path_of).
Notation read_key := (read_key float_of path_of).
Notation read_keys := (read_keys float_of path_of).
Notation read_config := (read_config float_of path_of).
Notation unknown_arg := (unknown_arg float_of path_of).
Notation reloadable := (reloadable float_of path_of).
Notation same := (same float_of).

(** ** Reading back one written entry *)
Lemma in_choices_chosen : forall o v, (exists s, v = VStr s) \/ (exists z, v = VInt z) -> chosen o v ->
  in_choices v (o_choices o) = true.
Proof.
  intros o v Hv [E|Hin]; [now rewrite E|].
  unfold in_choices. destruct (o_choices o) as [|c cs] eqn:E; [reflexivity|]. rewrite <- E in *.
  apply existsb_exists. exists v. split; [exact Hin|].
  destruct Hv as [[s ->]|[z ->]]; [apply String.eqb_refl|apply Z.eqb_refl].
Qed.

Lemma unquote_all : forall l, (forall x, In x l -> exists s, x = VStr s /\ clean s /\ prefix "-" s = false) ->
  exists ss, l = map VStr ss /\ existsb (prefix "-") ss = false /\
  fold_right (fun s acc => match unquote (s ++ "'"), acc with Some x, Some r => Some (x :: r) | _, _ => None end)
    (Some []) (map show l) = Some ss.
Proof.
  induction l as [|x l IH]; intros Hl.
  - exists []. now cbn.
  - destruct IH as (ss & E & Ed & Ef); [intros y Hy; apply Hl; now right|].
    destruct (Hl x) as (s & -> & Hc & Hd); [now left|].
    exists (s :: ss). repeat split.
    + now rewrite E.
    + cbn [existsb]. now rewrite Hd, Ed.
    + cbn [map fold_right show]. rewrite Ef, unquote_clean by exact Hc. reflexivity.
Qed.

(** The entry is written on at most one line, and reading that line sets the option or leaves its default. *)
Lemma reload_one : forall o v, In o options -> reloadable o v -> existsb (String.eqb (o_dest o)) unwritten = false ->
  exists ys, yaml (write_line (o_dest o, v)) = Ok ys /\
  forall e, (o_dest o = "config" /\ fold_res read_key ys e = Ok e)
    \/ (v = o_default o /\ fold_res read_key ys e = Ok e)
    \/ exists w, same v w /\ fold_res read_key ys e = Ok (set e (o_dest o) w).
Proof.
  intros o v Ho Hr Hu. unfold write_line. rewrite Hu.
  destruct (String.eqb (o_dest o) "config") eqn:Ec.
  { apply String.eqb_eq in Ec.
    assert (Eo : o = opt "config" ["-c"; "--config"] (Store TText) (VStr "./pyfhd.yaml") []).
    { pose proof (known_In) as _. 
      assert (K : forall p, In p options -> o_dest p = "config" -> p = opt "config" ["-c"; "--config"] (Store TText) (VStr "./pyfhd.yaml") []).
      { apply (proj1 (Forall_forall (fun p => o_dest p = "config" -> p = opt "config" ["-c"; "--config"] (Store TText) (VStr "./pyfhd.yaml") []) options)).
        unfold options. repeat (constructor; [cbn; intros X; first [reflexivity | discriminate X]|]). constructor. }
      now apply K. }
    subst o. cbn [o_dest o_kind o_flags o_default o_choices] in *.
    destruct v; cbn [reloadable o_kind o_default] in Hr; try discriminate Hr;
      try (destruct Hr as (_ & Hk & _); discriminate Hk).
    - destruct Hr as (_ & [[Hk _]|[Hk _]]); discriminate Hk.
    - destruct Hr as (_ & _ & _ & Hc). cbn [yaml yaml_value]. rewrite unquote_clean by exact Hc.
      eexists; split; [reflexivity|]. intros e. left. split; [reflexivity|]. reflexivity.
    - destruct l as [|x l]; cbn in Hr; [discriminate|]. now destruct Hr as [Hr _]. }
  destruct v as [|b|z|t|s|s|l].
  - (* None *) eexists; split; [reflexivity|]. intros e. right; left. split; [now symmetry|].
    cbn [fold_res]. unfold Options.read_key.
    destruct (known (dashed (o_dest o))); [destruct (String.eqb (o_dest o0) "config")|]; reflexivity.
  - (* bool *) destruct Hr as (Hh & Hk & Hb). pose proof (known_hyphenated o Ho Hh) as K.
    rewrite <- dashed_hyphens in K.
    eexists; split; [destruct b; reflexivity|]. intros e. cbn [fold_res]. unfold Options.read_key. rewrite K, Ec, Hk.
    destruct b.
    + right; right. exists (VBool true). split; [now left|]. reflexivity.
    + right; left. split; [destruct Hb as [Hb|Hb]; [discriminate|now symmetry]|]. reflexivity.
  - (* int *) destruct Hr as (Hh & Hk). pose proof (known_hyphenated o Ho Hh) as K. rewrite <- dashed_hyphens in K.
    cbn [yaml yaml_value]. rewrite show_int_tilde.
    eexists; split; [reflexivity|]. intros e. cbn [fold_res]. unfold Options.read_key. rewrite K, Ec.
    right; right. destruct Hk as [[Hk Hc]|(Hk & Hc & Hf)]; rewrite Hk; unfold Options.take; rewrite Hk; cbn [Options.convert].
    + rewrite int_of_show. cbn [option_map]. rewrite in_choices_chosen; [|right; now exists z|exact Hc].
      exists (VInt z). split; [now left|reflexivity].
    + change (show_int z) with (decimal z). destruct (float_of (decimal z)) as [t|] eqn:Ef; [|congruence].
      cbn [option_map]. rewrite Hc. exists (VFloat t). split; [|reflexivity].
      right. now exists z, t.
  - (* float *) destruct Hr as (Hh & Hk & Hc & Hf & Ht). pose proof (known_hyphenated o Ho Hh) as K. rewrite <- dashed_hyphens in K.
    cbn [yaml yaml_value]. destruct (String.eqb t "~") eqn:Et; [now apply String.eqb_eq in Et|].
    eexists; split; [reflexivity|]. intros e. cbn [fold_res]. unfold Options.read_key. rewrite K, Ec, Hk.
    right; right. unfold Options.take; rewrite Hk; cbn [Options.convert]. rewrite Hf. cbn [option_map]. rewrite Hc.
    exists (VFloat t). split; [now left|reflexivity].
  - (* text *) destruct Hr as (Hh & Hk & Hc & Hs). pose proof (known_hyphenated o Ho Hh) as K. rewrite <- dashed_hyphens in K.
    cbn [yaml yaml_value]. rewrite unquote_clean by exact Hs.
    eexists; split; [reflexivity|]. intros e. cbn [fold_res]. unfold Options.read_key. rewrite K, Ec, Hk.
    right; right. unfold Options.take; rewrite Hk; cbn [Options.convert].
    rewrite in_choices_chosen; [|left; now exists s|exact Hc].
    exists (VStr s). split; [now left|reflexivity].
  - (* path *) destruct Hr as (Hh & Hk & Hc & Hp & Hs). pose proof (known_hyphenated o Ho Hh) as K. rewrite <- dashed_hyphens in K.
    cbn [yaml yaml_value]. rewrite unquote_clean by exact Hs.
    eexists; split; [reflexivity|]. intros e. cbn [fold_res]. unfold Options.read_key. rewrite K, Ec, Hk.
    right; right. unfold Options.take; rewrite Hk; cbn [Options.convert]. rewrite Hc, Hp.
    exists (VPath s). split; [now left|reflexivity].
  - (* list *) destruct l as [|x l].
    + eexists; split; [reflexivity|]. intros e. right; left. split; [now symmetry|reflexivity].
    + destruct Hr as (Hk & Hf & Hl). pose proof (known_plain o Ho Hf) as K.
      destruct (unquote_all (x :: l) Hl) as (ss & E & Ed & Eu).
      cbn [yaml yaml_value]. rewrite Eu. cbn [option_map bind].
      eexists; split; [reflexivity|]. intros e. cbn [fold_res]. unfold Options.read_key. rewrite K, Ec, Hk, Ed.
      right; right. exists (VList (map VStr ss)). split; [left; now rewrite E|reflexivity].
Qed.

Lemma yaml_app : forall f g, yaml (f ++ g) = bind (yaml f) (fun a => bind (yaml g) (fun b => Ok (a ++ b))).
Proof.
  induction f as [|[k t] f IH]; intros g.
  - cbn [app yaml bind]. now destruct (yaml g).
  - cbn [app yaml]. destruct (yaml_value t); [|reflexivity]. rewrite IH.
    destruct (yaml f); cbn [bind]; [|reflexivity]. now destruct (yaml g).
Qed.

Lemma reload_all : forall cfg e,
  NoDup (map fst cfg) ->
  (forall k v, In (k, v) cfg -> internal k \/ exists o, In o options /\ o_dest o = k /\ reloadable o v
     /\ lookup e k = Some (o_default o)) ->
  exists ys e', yaml (write_config cfg) = Ok ys /\ fold_res read_key ys e = Ok e'
    /\ (forall k v, In (k, v) cfg -> ~ internal k -> k <> "config" -> exists w, lookup e' k = Some w /\ same v w)
    /\ (forall d, ~ In d (map fst cfg) -> lookup e' d = lookup e d).
Proof.
  induction cfg as [|[k v] cfg IH]; intros e Hnd Hc.
  - exists [], e. now repeat split.
  - cbn [map fst] in Hnd. inversion Hnd as [|? ? Hk Hnd']; subst.
    assert (Step : exists y1 e1, yaml (write_line (k, v)) = Ok y1 /\ fold_res read_key y1 e = Ok e1
       /\ (~ internal k -> k <> "config" -> exists w, lookup e1 k = Some w /\ same v w)
       /\ forall d, d <> k -> lookup e1 d = lookup e d).
    { destruct (existsb (String.eqb k) unwritten) eqn:Eu.
      - exists [], e. unfold write_line. rewrite Eu. repeat split.
        intros N. exfalso. apply N. apply existsb_exists in Eu as (x & Hx & Ex). apply String.eqb_eq in Ex. now subst.
      - destruct (Hc k v) as [Hi|(o & Ho & Ed & Hr & Hl)]; [now left| |].
        { exfalso. assert (existsb (String.eqb k) unwritten = true); [|congruence].
          apply existsb_exists. exists k. split; [exact Hi|apply String.eqb_refl]. }
        subst k. destruct (reload_one o v Ho Hr Eu) as (y1 & Ey & Hy).
        destruct (Hy e) as [(E & Ef)|[(E & Ef)|(w & Hw & Ef)]].
        + exists y1, e. repeat split; try assumption. intros _ N. now destruct N.
        + exists y1, e. repeat split; try assumption. intros _ _. exists v. split; [now rewrite E|now left].
        + exists y1, (set e (o_dest o) w). repeat split; try assumption.
          * intros _ _. exists w. split; [|exact Hw]. now rewrite lookup_set, String.eqb_refl, Hl.
          * intros d Hd. rewrite lookup_set. destruct (String.eqb d (o_dest o)) eqn:E; [now apply String.eqb_eq in E|reflexivity]. }
    destruct Step as (y1 & e1 & Ey & Ef & Hv & Hs).
    destruct (IH e1 Hnd') as (ys & e' & Ey' & Ef' & Hv' & Hs').
    { intros k' v' Hin. destruct (Hc k' v') as [Hi|(o & Ho & Ed & Hr & Hl)]; [now right|now left|].
      right. exists o. repeat split; try assumption. rewrite Hs; [exact Hl|].
      intros E. apply Hk. rewrite <- E. apply in_map_iff. now exists (k', v'). }
    exists (y1 ++ ys), e'. repeat split.
    + unfold write_config. cbn [flat_map]. rewrite yaml_app, Ey. cbn [bind].
      fold (write_config cfg). rewrite Ey'. reflexivity.
    + rewrite fold_res_app, Ef. exact Ef'.
    + intros k' v' [E|Hin] Hi Hn.
      * injection E as <- <-. destruct (Hv Hi Hn) as (w & Ew & Hw). exists w. split; [|exact Hw]. now rewrite Hs'.
      * now apply Hv'.
    + intros d Hd. cbn [map fst] in Hd. rewrite Hs' by (intros X; apply Hd; now right).
      apply Hs. intros E. apply Hd. left. now symmetry.
Qed.

(** ** What reading can do to one option *)
Definition allowed (o : option_def) (old new : option val) : Prop :=
  match o_kind o with
  | Switch => new = Some (VBool true)
  | Store t => exists v s, convert t s = Some v /\ new = Some v
  | Append t => exists l v s, convert t s = Some v /\ old = Some (VList l) /\ new = Some (VList (l ++ [v]))
  | Many => exists l, new = Some (VList (map VStr l))
  end.

Section Invariant.
Variable Inv : option val -> Prop.
Variable d : string.
Hypothesis HI : forall o, In o options -> o_dest o = d -> forall old new, allowed o old new -> Inv old -> Inv new.

Lemma set_inv : forall o e v, In o options -> (lookup e (o_dest o) <> None -> allowed o (lookup e (o_dest o)) (Some v)) ->
  Inv (lookup e d) -> Inv (lookup (set e (o_dest o) v) d).
Proof.
  intros o e v Ho Ha Hi. rewrite lookup_set. destruct (String.eqb d (o_dest o)) eqn:E; [|exact Hi].
  apply String.eqb_eq in E. subst d. destruct (lookup e (o_dest o)) as [x|] eqn:El; [|exact Hi].
  apply (HI o Ho eq_refl (Some x)); [|exact Hi]. apply Ha. discriminate.
Qed.

Lemma take_inv : forall o s e e', In o options -> take o s e = Ok e' -> Inv (lookup e d) -> Inv (lookup e' d).
Proof.
  intros o s e e' Ho H Hi. unfold Options.take in H. destruct (o_kind o) as [|t|t|] eqn:Ek; try discriminate.
  - destruct (convert t s) as [v|] eqn:Ec; [|discriminate].
    destruct (in_choices v (o_choices o)); [|discriminate]. injection H as <-.
    apply set_inv; auto. intros _. unfold allowed. rewrite Ek. now exists v, s.
  - destruct (convert t s) as [v|] eqn:Ec; [|discriminate].
    destruct (lookup e (o_dest o)) as [[| | | | | |l]|] eqn:El; try discriminate. injection H as <-.
    apply set_inv; auto. intros _. unfold allowed. rewrite Ek. exists l, v, s. now rewrite El.
  - injection H as <-. apply set_inv; auto. intros _. unfold allowed. rewrite Ek. now exists [s].
Qed.

Lemma fold_take_inv : forall (f : env -> string -> result env),
  (forall e s e', f e s = Ok e' -> Inv (lookup e d) -> Inv (lookup e' d)) ->
  forall l e e', fold_res f l e = Ok e' -> Inv (lookup e d) -> Inv (lookup e' d).
Proof.
  intros f Hf l; induction l as [|s l IH]; intros e e' H Hi; cbn in H; [now injection H as <-|].
  destruct (f e s) as [e1|] eqn:E; [|discriminate]. cbn in H. eapply IH; eauto.
Qed.

Lemma long_flags_In : forall f o, In (f, Some o) long_flags -> In o options /\ In f (o_flags o) /\ prefix "--" f = true.
Proof.
  intros f o H. unfold long_flags in H. apply in_app_or in H as [H|H].
  - apply in_flat_map in H as (o' & Ho & H). apply in_map_iff in H as (f' & E & H). injection E as -> ->.
    apply filter_In in H as [H1 H2]. auto.
  - cbn in H. destruct H as [H|[H|[]]]; discriminate.
Qed.

Lemma unknown_inv : forall k s e e', unknown_arg k s e = Ok e' -> Inv (lookup e d) -> Inv (lookup e' d).
Proof.
  intros k s e e' H Hi. unfold Options.unknown_arg in H.
  destruct (split_eq _) as [name v] in H.
  destruct (find _ options) as [o|] eqn:Ef.
  - apply find_some in Ef as [Ho _]. eapply take_inv; eauto.
  - destruct (completions name) as [|[f [o|]] [|]] eqn:Ec; try discriminate.
    eapply take_inv; eauto. eapply long_flags_In with (f := f).
    eapply (proj1 (filter_In _ _ _)). unfold completions in Ec. rewrite Ec. now left.
Qed.

Lemma read_key_inv : forall kv e e', read_key e kv = Ok e' -> Inv (lookup e d) -> Inv (lookup e' d).
Proof.
  intros [k y] e e' H Hi. unfold Options.read_key in H.
  destruct (known k) as [o|] eqn:Ek.
  - apply known_In in Ek as [Ho _]. destruct (String.eqb (o_dest o) "config"); [now injection H as <-|].
    destruct y as [|s|l]; [now injection H as <-| |].
    + destruct (o_kind o) as [|t|t|] eqn:Eo; try (eapply take_inv; eassumption).
      destruct (one_of _ (lower s)) in H.
      * injection H as <-. apply set_inv; auto. intros _. unfold allowed. now rewrite Eo.
      * destruct (one_of _ (lower s)) in H; [now injection H as <-|discriminate].
    + destruct (o_kind o) as [|t|t|] eqn:Eo; try discriminate.
      * eapply fold_take_inv in H; eauto. cbn beta. intros. eapply take_inv; eauto.
      * destruct (existsb (prefix "-") l); [discriminate|]. injection H as <-.
        apply set_inv; auto. intros _. unfold allowed. rewrite Eo. now exists l.
  - destruct y as [|s|l]; [now injection H as <-| |].
    + eapply unknown_inv; eauto.
    + eapply fold_take_inv in H; eauto. cbn beta. intros. eapply unknown_inv; eauto.
Qed.

Lemma read_keys_inv : forall ys e, read_keys ys = Ok e -> Inv (lookup defaults d) -> Inv (lookup e d).
Proof.
  unfold Options.read_keys. intros ys. generalize defaults. induction ys as [|y ys IH]; intros e0 e H Hi; cbn in H.
  - now injection H as <-.
  - destruct (read_key e0 y) as [e1|] eqn:E; [|discriminate]. cbn in H. eapply IH; [exact H|].
    eapply read_key_inv; eauto.
Qed.
End Invariant.

(** ** Keys that are refused *)
Lemma read_keys_In : forall ys e k y, read_keys ys = Ok e -> In (k, y) ys -> exists e1 e2, read_key e1 (k, y) = Ok e2.
Proof. unfold Options.read_keys. intros. eapply fold_res_In; eauto. Qed.

Lemma split_eq_app : forall k s, ~ In "="%char (list_ascii_of_string k) -> split_eq (k ++ String "=" s) = (k, s).
Proof.
  induction k as [|c k IH]; intros s Hk; [reflexivity|].
  cbn. destruct (Ascii.eqb c "=") eqn:E.
  - apply Ascii.eqb_eq in E. subst. destruct Hk. now left.
  - rewrite IH; [reflexivity|]. intros X. apply Hk. now right.
Qed.

Lemma unknown_names : forall k s e e', ~ In "="%char (list_ascii_of_string k) ->
  unknown_arg k s e = Ok e' -> names_flag k.
Proof.
  intros k s e e' Hk H. unfold Options.unknown_arg in H.
  change ("--" ++ k ++ "=" ++ s)%string with (("--" ++ k) ++ String "=" s)%string in H.
  rewrite split_eq_app in H.
  2:{ cbn. intros [X|[X|X]]; [discriminate|discriminate|contradiction]. }
  destruct (find _ options) as [o|] eqn:Ef.
  - apply find_some in Ef as [Ho Hf]. apply existsb_exists in Hf as (f & Hf & Ef). apply String.eqb_eq in Ef. subst f.
    left. split; [now destruct k|]. left. now exists o.
  - destruct (completions ("--" ++ k)) as [|[f [o|]] [|]] eqn:Ec; try discriminate.
    right; right. exists f.
    assert (Hin : In (f, Some o) (completions ("--" ++ k))) by (rewrite Ec; now left).
    unfold completions in Hin. apply filter_In in Hin as [Hl Hp]. cbn [fst] in Hp.
    destruct (long_flags_In _ _ Hl) as (Ho & Hf & Hd).
    split; [split; [exact Hd|left; now exists o]|]. split; [exact Hp|].
    intros g [Gd Gl] Gp.
    assert (Hg : exists x, In (g, x) (completions ("--" ++ k))).
    { destruct Gl as [(og & Og & Fg)|Fg].
      - exists (Some og). apply filter_In. split; [|exact Gp]. unfold long_flags. apply in_or_app. left.
        apply in_flat_map. exists og. split; [exact Og|]. apply in_map_iff. exists g. split; [reflexivity|].
        apply filter_In. now split.
      - exists None. apply filter_In. split; [|exact Gp]. unfold long_flags. apply in_or_app. right.
        destruct Fg as [<-|[<-|[]]]; [now left|now right; left]. }
    destruct Hg as (x & Hg). rewrite Ec in Hg. destruct Hg as [Hg|[]]. now injection Hg as ->.
Qed.

Lemma names_names : forall o k, In o options -> names o k = true -> names_flag k.
Proof.
  intros o k Ho Hn. unfold names in Hn. apply existsb_exists in Hn as (f & Hf & E).
  apply andb_true_iff in E as [El E]. apply orb_true_iff in E as [E|E]; apply String.eqb_eq in E; subst f.
  - left. split; [now destruct k|]. left. now exists o.
  - right; left. split; [exact El|]. left. now exists o.
Qed.

Lemma accepted_named : forall ys e k y, read_keys ys = Ok e -> In (k, y) ys ->
  ~ In "="%char (list_ascii_of_string k) -> y <> YNull -> y <> YSeq [] -> names_flag k.
Proof.
  intros ys e k y H Hin Hk Hn Hs. destruct (read_keys_In ys e k y H Hin) as (e1 & e2 & Hr).
  unfold Options.read_key in Hr. destruct (known k) as [o|] eqn:E.
  - apply known_In in E as [Ho E]. eapply names_names; eauto.
  - destruct y as [|s|[|s l]]; [congruence| |congruence|].
    + eapply unknown_names; eauto.
    + cbn in Hr. destruct (unknown_arg k s e1) eqn:Eu; [|discriminate]. eapply unknown_names; eauto.
Qed.

(** A written entry whose line cannot be read makes the file unreadable. *)
Lemma yaml_In : forall f ys k t, yaml f = Ok ys -> In (k, t) f -> exists y, yaml_value t = Some y /\ In (k, y) ys.
Proof.
  induction f as [|[k0 t0] f IH]; intros ys k t H Hin; [now destruct Hin|].
  cbn [yaml] in H. destruct (yaml_value t0) as [y0|] eqn:E; [|discriminate].
  destruct (yaml f) as [ys'|]; [|discriminate]. injection H as <-.
  destruct Hin as [Hi|Hi].
  - injection Hi as <- <-. exists y0. split; [exact E|now left].
  - destruct (IH ys' k t eq_refl Hi) as (y & Ey & Iy). exists y. split; [exact Ey|now right].
Qed.

Lemma unreadable : forall cfg k v line,
  In (k, v) cfg -> In line (write_line (k, v)) ->
  (forall y e e', yaml_value (snd line) = Some y -> read_key e (fst line, y) <> Ok e') ->
  forall e, read_config (write_config cfg) <> Ok e.
Proof.
  intros cfg k v [lk lt] Hin Hl Hbad e H. unfold Options.read_config in H.
  destruct (yaml (write_config cfg)) as [ys|] eqn:Ey; [|discriminate]. cbn [bind] in H.
  destruct (yaml_In _ _ lk lt Ey) as (y & Ev & Iy).
  - apply in_flat_map. exists (k, v). now split.
  - destruct (read_keys_In ys e lk y H Iy) as (e1 & e2 & Hr). eapply Hbad; eauto.
Qed.
End Options.
