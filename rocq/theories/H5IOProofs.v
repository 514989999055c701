(** Proofs about save and load. *)
From Coq Require Import String Ascii.
From Verif Require Import Base H5IO H5IOSpec.
Import ListNotations.
Open Scope nat_scope.
Ltac Zify.zify_post_hook ::= idtac.

Section ValueInd.
  Variable P : value -> Prop.
  Hypothesis HD : forall l, Forall (fun kx => P (snd kx)) l -> P (VDict l).
  Hypothesis HA : forall s e, P (VArr s e).
  Hypothesis HL : forall s e, P (VList s e).
  Hypothesis HS : forall s, P (VScalar s).
  Hypothesis HP : forall t, P (VPath t).
  Hypothesis HN : P VNone.
  Fixpoint value_ind' (v : value) : P v :=
    match v with
    | VDict l => HD l ((fix go l : Forall (fun kx => P (snd kx)) l :=
        match l with [] => Forall_nil _ | kx :: r => Forall_cons _ (value_ind' (snd kx)) (go r) end) l)
    | VArr s e => HA s e | VList s e => HL s e | VScalar s => HS s | VPath t => HP t | VNone => HN
    end.
End ValueInd.

Lemma lookup_app {A} k (l1 l2 : list (string * A)) :
  lookup k (l1 ++ l2) = match lookup k l1 with Some x => Some x | None => lookup k l2 end.
Proof. induction l1 as [|[k' x] l1 IH]; cbn [lookup app]; auto. now destruct (String.eqb k k'). Qed.
Lemma lookup_none {A} k (l : list (string * A)) : ~ In k (map fst l) -> lookup k l = None.
Proof.
  induction l as [|[k' x] l IH]; cbn [lookup map fst In]; auto. intros H. destruct (String.eqb_spec k k'); [exfalso; auto|auto].
Qed.
Lemma lookup_some {A} k x (l : list (string * A)) : NoDup (map fst l) -> In (k, x) l -> lookup k l = Some x.
Proof.
  induction l as [|[k' y] l IH]; cbn [lookup map fst In]; intros Nd H; [destruct H|]. destruct H as [E|H].
  - injection E as -> ->. now rewrite String.eqb_refl.
  - inversion_clear Nd as [|? ? N1 N2]. destruct (String.eqb_spec k k') as [->|]; [|auto].
    exfalso. apply N1. change k' with (fst (k', x)). now apply in_map.
Qed.

(** ** Arrays *)
Lemma forallb_ascii l : (forall t c, In t l -> In c t -> (c < 128)%N) -> forallb ascii_text l = true.
Proof.
  intros H. apply forallb_forall. intros t Ht. apply forallb_forall. intros c Hc. apply N.ltb_lt. eauto.
Qed.
Lemma decode_ascii lib l : forallb ascii_text l = true ->
  map_res_opt (fun t => if ascii_text t then Some t else utf8 lib t) l = Some l.
Proof.
  induction l as [|t l IH]; cbn [forallb map_res_opt]; auto. intros H. apply andb_true_iff in H as [-> H]. now rewrite IH.
Qed.
Lemma array_ok lib shape e : shape <> [] -> plain_elems e ->
  exists n w, array_node lib shape shape e = Ok n /\ (forall a, load_node lib a n = match a with
    None => Err KeyError | Some true => Ok VNone | Some false => Ok w end) /\ same (VArr shape e) w
  /\ (exists e', n = NArr shape e' /\ match e with EStr l => e' = EBytes l | _ => w = VArr shape e' end).
Proof.
  intros Hs He. destruct shape as [|d sh]; [congruence|]. unfold array_node. rewrite Nat.eqb_refl.
  destruct e as [l|b l|b l|l|l|l|l|l|l]; cbn [plain_elems] in He; try contradiction; cbn [format_array to_dtype bind].
  - do 2 eexists. split; [reflexivity|]. split; [intros [[|]|]; reflexivity|]. split; [|eauto]. split; auto.
    cbn [same_elems]. symmetry. transitivity (map (fun z => z) l); [|apply map_id]. apply map_ext_in. intros z Hz.
    specialize (He z Hz). unfold in_i64. destruct He. now rewrite (proj2 (Z.leb_le _ _)), (proj2 (Z.ltb_lt _ _)).
  - subst b. do 2 eexists. split; [reflexivity|]. split; [intros [[|]|]; reflexivity|]. split; [|eauto]. split; reflexivity.
  - subst b. do 2 eexists. split; [reflexivity|]. split; [intros [[|]|]; reflexivity|]. split; [|eauto]. split; reflexivity.
  - do 2 eexists. split; [reflexivity|]. split; [intros [[|]|]; reflexivity|]. split; [|eauto]. split; reflexivity.
  - destruct He as [Ne He]. apply forallb_ascii in He. unfold encode_ascii. rewrite He. cbn [bind to_dtype].
    eexists. exists (VArr (d :: sh) (EStr l)). split; [reflexivity|]. split.
    + intros [[|]|]; try reflexivity. cbn [load_node load_data]. destruct l as [|t l]; [congruence|].
      now rewrite decode_ascii.
    + split; [split; reflexivity|eauto].
Qed.

(** ** Dictionaries *)
Lemma build_dict lib chunk key l :
  build lib chunk key (VDict l) = (g <- run (save_steps lib chunk l) empty_root ;; Ok (NGroup (fst g) (snd g))).
Proof.
  cbn [build]. match goal with |- bind (?F _ _) _ = _ => assert (G : forall l g, F l g = run (save_steps lib chunk l) g) end.
  { clear l. induction l as [|[k x] l IH]; intros g; [reflexivity|].
    unfold save_steps. cbn [flat_map app fst snd run fold_res]. destruct (create k x (build lib chunk k x) g) as [g'|]; [|reflexivity].
    cbn [bind]. destruct (mark k x g') as [g''|]; [|reflexivity]. cbn [bind]. apply IH. }
  now rewrite G.
Qed.
Lemma steps_cons lib chunk k x l : save_steps lib chunk ((k, x) :: l)
  = create k x (build lib chunk k x) :: mark k x :: save_steps lib chunk l.
Proof. reflexivity. Qed.
Lemma steps_length lib chunk l : List.length (save_steps lib chunk l) = 2 * List.length l.
Proof. induction l as [|[k x] l IH]; [reflexivity|]. rewrite steps_cons. cbn [List.length]. lia. Qed.
Lemma steps_app lib chunk l1 l2 : save_steps lib chunk (l1 ++ l2) = save_steps lib chunk l1 ++ save_steps lib chunk l2.
Proof. apply flat_map_app. Qed.

Definition good (lib : h5lib) (chunk : list (string * list nat)) (k : string) (x : value) : Prop :=
  exists n w, build lib chunk k x = Ok n /\ load_node lib (Some (is_none x)) n = Ok w /\ same x w.
Definition entry (lib : h5lib) (kx : string * value) (kn : string * node) : Prop :=
  fst kx = fst kn /\ exists w, load_node lib (Some (is_none (snd kx))) (snd kn) = Ok w /\ same (snd kx) w.
Definition marks (l : list (string * value)) : list (string * bool) := map (fun kx => (fst kx, is_none (snd kx))) l.

Lemma create_ok lib chunk k x n items attrs : plain_key k -> build lib chunk k x = Ok n -> ~ In k (map fst items) ->
  create k x (build lib chunk k x) (items, attrs) = Ok (items ++ [(k, n)], attrs).
Proof.
  intros Hp E H. unfold create. rewrite E, Hp. cbn [put fst snd]. rewrite lookup_none by auto. reflexivity.
Qed.
Lemma run_good lib chunk l : NoDup (map fst l) -> (forall k x, In (k, x) l -> plain_key k /\ good lib chunk k x) ->
  forall items attrs, (forall k, In k (map fst l) -> ~ In k (map fst items)) ->
  exists nl, run (save_steps lib chunk l) (items, attrs) = Ok (items ++ nl, attrs ++ marks l) /\ Forall2 (entry lib) l nl.
Proof.
  induction l as [|[k x] l IH]; intros Nd G items attrs D.
  - exists []. rewrite !app_nil_r. split; [reflexivity|constructor].
  - inversion_clear Nd as [|? ? N1 N2]. destruct (G k x (or_introl eq_refl)) as [Hp (n & w & E & El & Hs)].
    rewrite steps_cons. unfold run. cbn [fold_res]. rewrite (create_ok lib chunk k x n) by (auto; apply D; now left).
    cbn [bind]. unfold mark. cbn [fst snd bind].
    destruct (IH N2) with (items := items ++ [(k, n)]) (attrs := attrs ++ [(k, is_none x)]) as (nl & Er & F).
    { intros k' x' H. apply G. now right. }
    { intros k' H X. rewrite map_app in X. apply in_app_iff in X as [X|[<-|[]]]; [|now apply N1]. apply (D k'); auto. now right. }
    exists ((k, n) :: nl). split.
    + unfold run in Er. rewrite Er. rewrite <- !app_assoc. reflexivity.
    + constructor; auto. split; [reflexivity|]. exists w. auto.
Qed.
Lemma marks_fst l : map fst (marks l) = map fst l.
Proof. unfold marks. rewrite map_map. reflexivity. Qed.
Lemma load_group lib attrs : forall l nl, Forall2 (entry lib) l nl ->
  (forall k x, In (k, x) l -> lookup k attrs = Some (is_none x)) ->
  exists wl, load_node lib None (NGroup nl attrs) = Ok (VDict wl)
    /\ Forall2 (fun kx kw => fst kx = fst kw /\ same (snd kx) (snd kw)) l wl.
Proof.
  intros l nl F. cbn [load_node].
  match goal with |- context [bind (?G nl) _] => set (go := G) end.
  assert (X : (forall k x, In (k, x) l -> lookup k attrs = Some (is_none x)) ->
    exists wl, go nl = Ok wl /\ Forall2 (fun kx kw => fst kx = fst kw /\ same (snd kx) (snd kw)) l wl).
  { induction F as [|[k x] [k' n] l nl (Ek & w & El & Hs) F IH]; intros A; [exists []; split; [reflexivity|constructor]|].
    cbn [fst snd] in *. subst k'. destruct IH as (wl & Eg & Fw); [intros; apply A; now right|].
    exists ((k, w) :: wl). split; [|constructor; auto]. cbn. rewrite (A k x) by now left. rewrite El. cbn [bind].
    change (fix go (items : list (string * node)) : result (list (string * value)) := _) with go. rewrite Eg. reflexivity. }
  intros A. destruct (X A) as (wl & Eg & Fw). exists wl. rewrite Eg. split; [reflexivity|auto].
Qed.
Lemma load_group_attr lib a items attrs : load_node lib a (NGroup items attrs) = load_node lib None (NGroup items attrs).
Proof. reflexivity. Qed.
Lemma Forall2_fst {A B} (P : A -> B -> Prop) (l : list (string * A)) (l' : list (string * B)) :
  Forall2 (fun x y => fst x = fst y /\ P (snd x) (snd y)) l l' -> map fst l = map fst l'.
Proof. induction 1 as [|x y l l' [E _] _ IH]; cbn [map]; congruence. Qed.
Lemma same_dict l wl : NoDup (map fst l) -> Forall2 (fun kx kw => fst kx = fst kw /\ same (snd kx) (snd kw)) l wl ->
  same (VDict l) (VDict wl).
Proof.
  intros Nd F. cbn [same]. pose proof (Forall2_fst _ _ _ F) as Ef. split; [now rewrite <- Ef|].
  split; [rewrite <- (map_length fst l), Ef; apply map_length|].
  clear Nd Ef. assert (G : forall wl', (forall kw, In kw wl -> In kw wl') ->
    (fix all l := match l with [] => True | (k, x) :: r => (exists y, In (k, y) wl' /\ same x y) /\ all r end) l).
  { induction F as [|[k x] [k' w] l wl [Ek Es] F IH]; intros wl' H; [exact I|]. cbn [fst snd] in *. subst k'.
    split; [exists w; split; auto; apply H; now left|]. apply IH. intros kw Hk. apply H. now right. }
  apply G. auto.
Qed.
Lemma plain_dict lib chunk key l : plain lib chunk key (VDict l) <->
  NoDup (map fst l) /\ forall k x, In (k, x) l -> plain_key k /\ plain lib chunk k x.
Proof.
  cbn [plain]. apply and_iff_compat_l. induction l as [|[k x] l IH]; [split; [intros _ k x []|auto]|]. rewrite IH. split.
  - intros [H1 H2] k' x' [E|H]; [injection E as <- <-; auto|auto].
  - intros H. split; [apply H; now left|]. intros k' x' H'. apply H. now right.
Qed.
Lemma plain_good lib chunk : forall v k, plain lib chunk k v -> good lib chunk k v.
Proof.
  intros v. induction v as [l IH|s e|s e|s|t|] using value_ind'; intros k H.
  - apply (proj1 (plain_dict _ _ _ _)) in H as [Nd H].
    assert (G : forall k x, In (k, x) l -> plain_key k /\ good lib chunk k x).
    { intros k' x Hx. destruct (H k' x Hx) as [H1 H2]. split; [exact H1|]. rewrite Forall_forall in IH. exact (IH (k', x) Hx k' H2). }
    destruct (run_good lib chunk l Nd G [] [] ltac:(intros ? _ [])) as (nl & Er & F). cbn [app] in Er.
    destruct (load_group lib (marks l) l nl F) as (wl & El & Fw).
    { intros k' x Hx. apply lookup_some; [now rewrite marks_fst|]. change (k', is_none x) with ((fun kx : string * value => (fst kx, is_none (snd kx))) (k', x)).
      now apply in_map. }
    exists (NGroup nl (marks l)), (VDict wl). rewrite build_dict. unfold empty_root. rewrite Er. cbn [bind fst snd].
    split; [reflexivity|]. rewrite load_group_attr. split; auto. now apply same_dict.
  - destruct H as (Hs & He & Hc). destruct (array_ok lib s e Hs He) as (n & w & E & El & Hsm & _).
    exists n, w. split; [|split; [rewrite El; reflexivity|auto]].
    cbn [build]. destruct (lookup k chunk) as [s'|] eqn:Ek; [rewrite (Hc s' eq_refl)|]; auto.
  - destruct H.
  - cbn [plain] in H. exists (NScalar s), (VScalar s). cbn [build is_none load_node load_data].
    destruct s as [z|f|re im|b|t]; cbn [plain_scalar scalar_node load_data] in *; try (repeat split; reflexivity).
    + rewrite (proj2 (Z.leb_le _ _)), (proj2 (Z.ltb_lt _ _)) by lia. repeat split; reflexivity.
    + destruct H as [-> H]. assert (V : vlen_text t = true).
      { apply forallb_forall. intros c Hc. destruct (H c Hc) as [H1 H2]. apply negb_true_iff, orb_false_iff. split; [now apply N.eqb_neq|].
        apply andb_false_iff. destruct (N.leb_spec 55296 c); [right; apply N.ltb_ge; lia|now left]. }
      rewrite V. repeat split; reflexivity.
  - destruct H.
  - exists NNull, VNone. repeat split; reflexivity.
Qed.

(** Writing the first entries of a dictionary of plain values. *)
Lemma run_plain lib chunk l : plain lib chunk ""%string (VDict l) ->
  exists nl, run (save_steps lib chunk l) empty_root = Ok (nl, marks l) /\ Forall2 (entry lib) l nl.
Proof.
  intros H. apply (proj1 (plain_dict _ _ _ _)) in H as [Nd H].
  destruct (run_good lib chunk l Nd) with (items := @nil (string * node)) (attrs := @nil (string * bool)) as (nl & Er & F).
  - intros k x Hx. destruct (H k x Hx). split; auto. now apply plain_good.
  - intros k _ [].
  - exists nl. auto.
Qed.
Lemma Forall2_len {A B} (P : A -> B -> Prop) l l' : Forall2 P l l' -> List.length l = List.length l'.
Proof. induction 1; cbn; congruence. Qed.
Lemma load_many lib l nl attrs : Forall2 (entry lib) l nl -> List.length l <> 1 ->
  load lib (nl, attrs) = load_node lib None (NGroup nl attrs).
Proof.
  intros F H. apply Forall2_len in F. unfold load. cbn [fst snd]. destruct nl as [|[k n] [|b nl]]; auto. cbn in F. congruence.
Qed.
Lemma marks_lookup l k x : NoDup (map fst l) -> In (k, x) l -> lookup k (marks l) = Some (is_none x).
Proof.
  intros Nd H. apply lookup_some; [now rewrite marks_fst|].
  change (k, is_none x) with ((fun kx : string * value => (fst kx, is_none (snd kx))) (k, x)). now apply in_map.
Qed.
Lemma save_load_dict lib chunk name l : plain lib chunk ""%string (VDict l) -> List.length l <> 1 ->
  exists f w, save lib chunk name (VDict l) = Ok f /\ load lib f = Ok w /\ same (VDict l) w.
Proof.
  intros H Hl. destruct (run_plain lib chunk l H) as (nl & Er & F). exists (nl, marks l).
  apply (proj1 (plain_dict _ _ _ _)) in H as [Nd _].
  destruct (load_group lib (marks l) l nl F) as (wl & El & Fw); [intros; now apply marks_lookup|].
  exists (VDict wl). split; [exact Er|]. rewrite (load_many lib l) by auto. split; auto. now apply same_dict.
Qed.

(** A loaded file with fewer than [n] entries is not a dictionary with [n] keys. *)
Lemma load_length lib items attrs w : load lib (items, attrs) = Ok w ->
  match w with VDict l => List.length l = List.length items | _ => True end.
Proof.
  unfold load. cbn [fst snd]. intros E.
  assert (G : forall items l, (fix go items := match items with
          | [] => Ok []
          | (k, x) :: r => v <- load_node lib (lookup k attrs) x ;; rest <- go r ;; Ok ((k, v) :: rest)
          end) items = Ok l -> List.length l = List.length items).
  { clear. induction items as [|[k x] items IH]; intros l E; [injection E as <-; reflexivity|].
    destruct (load_node lib (lookup k attrs) x) as [v|]; [|discriminate]. cbn [bind] in E.
    match type of E with bind ?B _ = _ => destruct B as [rest|] eqn:Er; [|discriminate] end.
    injection E as <-. cbn [List.length]. f_equal. now apply IH. }
  assert (X : load_node lib None (NGroup items attrs) = Ok w -> match w with VDict l => List.length l = List.length items | _ => True end).
  { cbn [load_node]. match goal with |- bind ?B _ = _ -> _ => destruct B as [l|] eqn:El; [|discriminate] end.
    intros E'. injection E' as <-. now apply G. }
  destruct items as [|[k n] [|b items]]; [exact (X E)| |exact (X E)].
  destruct n; try discriminate. injection E as <-. exact I.
Qed.

(** The state after the first [m] entries, and after the object of entry [m] was created. *)
Lemma plain_firstn lib chunk l m : plain lib chunk ""%string (VDict l) -> plain lib chunk ""%string (VDict (firstn m l)).
Proof.
  rewrite !plain_dict. intros [Nd H]. split.
  - rewrite <- (firstn_skipn m l), map_app in Nd. clear - Nd. induction (map fst (firstn m l)) as [|a x IH]; [constructor|].
    cbn [app] in Nd. inversion_clear Nd as [|? ? N1 N2]. constructor; auto. intros X. apply N1. apply in_app_iff. now left.
  - intros k x Hx. apply H. rewrite <- (firstn_skipn m l). apply in_app_iff. now left.
Qed.
Lemma crash_even lib chunk l m : plain lib chunk ""%string (VDict l) -> m <= List.length l ->
  exists nl, run (firstn (2 * m) (save_steps lib chunk l)) empty_root = Ok (nl, marks (firstn m l)) /\ Forall2 (entry lib) (firstn m l) nl.
Proof.
  intros H Hm. assert (E : firstn (2 * m) (save_steps lib chunk l) = save_steps lib chunk (firstn m l)).
  { rewrite <- (firstn_skipn m l) at 1. rewrite steps_app, firstn_app.
    assert (L : List.length (save_steps lib chunk (firstn m l)) = 2 * m) by (rewrite steps_length, firstn_length; lia).
    rewrite L, Nat.sub_diag. cbn [firstn]. rewrite app_nil_r. apply firstn_all2. lia. }
  rewrite E. apply run_plain. now apply plain_firstn.
Qed.
Lemma run_app s1 s2 g : run (s1 ++ s2) g = (g <- run s1 g ;; run s2 g).
Proof. unfold run. revert g. induction s1 as [|s s1 IH]; intros g; [reflexivity|]. cbn [app fold_res]. destruct (s g); cbn [bind]; auto. Qed.
Lemma crash_odd lib chunk l m : plain lib chunk ""%string (VDict l) -> m < List.length l ->
  exists nl, run (firstn (2 * m + 1) (save_steps lib chunk l)) empty_root = Ok (nl, marks (firstn m l))
    /\ Forall2 (entry lib) (firstn (m + 1) l) nl.
Proof.
  intros H Hm. destruct (crash_even lib chunk l m H ltac:(lia)) as (nl & Er & F).
  destruct (skipn m l) as [|[k x] r] eqn:Es.
  { apply (f_equal (@List.length _)) in Es. rewrite skipn_length in Es. cbn in Es. lia. }
  assert (El : l = firstn m l ++ (k, x) :: r) by (rewrite <- Es; symmetry; apply firstn_skipn).
  assert (L : List.length (firstn m l) = m) by (rewrite firstn_length; lia).
  assert (L2 : List.length (save_steps lib chunk (firstn m l)) = 2 * m) by (rewrite steps_length; lia).
  pose proof H as H'. apply (proj1 (plain_dict _ _ _ _)) in H' as [Nd Hp].
  destruct (Hp k x ltac:(rewrite El; apply in_app_iff; right; now left)) as [Pk Px].
  destruct (plain_good lib chunk x k Px) as (n & w & Eb & Ew & Hs).
  assert (E1 : firstn (2 * m + 1) (save_steps lib chunk l) = firstn (2 * m) (save_steps lib chunk l) ++ [create k x (build lib chunk k x)]).
  { rewrite El. rewrite steps_app, steps_cons, !firstn_app, L2, Nat.sub_diag. replace (2 * m + 1 - 2 * m) with 1 by lia. cbn [firstn].
    rewrite (firstn_all2 (n := 2 * m + 1)) by lia. rewrite (firstn_all2 (n := 2 * m)) by lia. now rewrite app_nil_r. }
  assert (E2 : firstn (m + 1) l = firstn m l ++ [(k, x)]).
  { rewrite El at 1. rewrite firstn_app, L. replace (m + 1 - m) with 1 by lia. cbn [firstn]. rewrite firstn_all2 by lia. reflexivity. }
  exists (nl ++ [(k, n)]). rewrite E1, run_app, Er, E2. cbn [bind run fold_res].
  assert (N : ~ In k (map fst nl)).
  { assert (Ef : map fst nl = map fst (firstn m l)) by (symmetry; clear - F; induction F as [|? ? ? ? [E0 _] _ IH]; cbn [map]; congruence).
    rewrite Ef. rewrite El, map_app in Nd. cbn [map fst] in Nd. apply NoDup_remove_2 in Nd. intros X. apply Nd. apply in_app_iff. now left. }
  rewrite (create_ok lib chunk k x n) by auto. cbn [bind]. split; [reflexivity|].
  apply Forall2_app; auto. constructor; [|constructor]. split; [reflexivity|]. exists w. auto.
Qed.

(** ** What a save that returned has written *)
Lemma lookup_replace k (n : node) items : (exists m, lookup k items = Some m) ->
  lookup k (map (fun kx => if String.eqb k (fst kx) then (k, n) else kx) items) = Some n.
Proof.
  intros [m H]. induction items as [|[k' x] l IH]; [discriminate H|]. cbn [map fst lookup] in *.
  destruct (String.eqb k k') eqn:E; cbn [lookup]; [now rewrite String.eqb_refl|]. rewrite E. now apply IH.
Qed.
Lemma lookup_replace_other k q (n : node) items : q <> k ->
  lookup q (map (fun kx => if String.eqb k (fst kx) then (k, n) else kx) items) = lookup q items.
Proof.
  intros N. induction items as [|[k' x] l IH]; [reflexivity|]. cbn [map fst lookup].
  destruct (String.eqb k k') eqn:E; cbn [lookup].
  - apply String.eqb_eq in E. subst k'. apply String.eqb_neq in N. rewrite N. apply IH.
  - destruct (String.eqb q k'); [reflexivity|apply IH].
Qed.
Lemma put_get : forall p n items items', put p n items = Some items' -> at_path p items' = Some n.
Proof.
  induction p as [|k rest IH]; intros n items items' H; [discriminate H|]. cbn [put] in H. destruct rest as [|r rest].
  - destruct (lookup k items) eqn:E; [discriminate H|]. injection H as <-. cbn [at_path]. rewrite lookup_app, E. cbn [lookup].
    now rewrite String.eqb_refl.
  - destruct (lookup k items) as [[sub ats|s e|s|]|] eqn:E; try discriminate H.
    + destruct (put (r :: rest) n sub) as [sub'|] eqn:P; [|discriminate H]. injection H as <-. apply IH in P.
      cbn [at_path]. rewrite lookup_replace by eauto. exact P.
    + destruct (put (r :: rest) n []) as [sub'|] eqn:P; [|discriminate H]. injection H as <-. apply IH in P.
      cbn [at_path]. rewrite lookup_app, E. cbn [lookup]. rewrite String.eqb_refl. exact P.
Qed.
Definition leaf (n : node) : Prop := match n with NGroup _ _ => False | _ => True end.
Lemma put_keep : forall p n items items' q m, put p n items = Some items' -> at_path q items = Some m -> leaf m ->
  at_path q items' = Some m.
Proof.
  induction p as [|k rest IH]; intros n items items' q m H Q L; [discriminate H|]. cbn [put] in H.
  destruct q as [|q qs]; [discriminate Q|]. destruct rest as [|r rest].
  - destruct (lookup k items) eqn:E; [discriminate H|]. injection H as <-. cbn [at_path] in *. rewrite lookup_app.
    destruct qs; destruct (lookup q items); try exact Q; discriminate Q.
  - destruct (lookup k items) as [[sub ats|s e|s|]|] eqn:E; try discriminate H.
    + destruct (put (r :: rest) n sub) as [sub'|] eqn:P; [|discriminate H]. injection H as <-.
      cbn [at_path] in *. destruct (string_dec q k) as [->|N].
      * rewrite lookup_replace by eauto. rewrite E in Q. destruct qs as [|q' qs].
        -- injection Q as <-. destruct L.
        -- exact (IH n sub sub' (q' :: qs) m P Q L).
      * rewrite lookup_replace_other by exact N. exact Q.
    + destruct (put (r :: rest) n []) as [sub'|] eqn:P; [|discriminate H]. injection H as <-.
      cbn [at_path] in *. rewrite lookup_app. destruct qs; destruct (lookup q items); try exact Q; discriminate Q.
Qed.
Lemma run_keep lib chunk : forall l g file q m, run (save_steps lib chunk l) g = Ok file -> at_path q (fst g) = Some m -> leaf m ->
  at_path q (fst file) = Some m.
Proof.
  induction l as [|[k x] l IH]; intros g file q m H Q L; [injection H as <-; exact Q|].
  rewrite steps_cons in H. unfold run in H. cbn [fold_res] in H.
  destruct (create k x (build lib chunk k x) g) as [g1|e] eqn:C; [|discriminate H]. cbn [bind mark] in H.
  apply (IH _ _ q m H); [|exact L]. cbn [fst]. unfold create in C.
  assert (K : g1 = g \/ exists n items, put (path k) n (fst g) = Some items /\ g1 = (items, snd g)).
  { destruct (build lib chunk k x) as [n|[]]; try discriminate C;
      repeat match type of C with context [match ?b with _ => _ end] => destruct b eqn:?; try discriminate C end;
      injection C as <-; auto; right; eauto. }
  destruct K as [->|(n & items & P & ->)]; [exact Q|]. exact (put_keep _ _ _ _ _ _ P Q L).
Qed.
Lemma numeric_node lib chunk k shape e n : numeric e -> (forall s, lookup k chunk = Some s -> s = shape) ->
  build lib chunk k (VArr shape e) = Ok n -> n = NArr shape e.
Proof.
  intros [N NS] Ch H. cbn [build] in H.
  assert (Es : (match lookup k chunk with Some s => s | None => shape end) = shape).
  { destruct (lookup k chunk) eqn:E; [now apply Ch|reflexivity]. }
  rewrite Es in H. unfold array_node in H.
  assert (F : format_array e = Ok e) by (destruct e; try reflexivity; try (now destruct N); exfalso; eapply NS; reflexivity).
  assert (T : to_dtype lib e = Ok e).
  { destruct e as [l|[] l|[] l| | | | | |]; cbn [plain_elems] in N; try discriminate N; try reflexivity; try (now destruct N).
    cbn [to_dtype]. do 2 f_equal. rewrite <- (map_id l) at 2. apply map_ext_in. intros z Hz. specialize (N z Hz).
    unfold in_i64. replace ((- 2 ^ 63 <=? z) && (z <? 2 ^ 63))%Z with true by lia. reflexivity. }
  rewrite F in H. cbn [bind] in H. rewrite T in H. cbn [bind] in H. destruct shape as [|d sh]; [discriminate H|].
  rewrite Nat.eqb_refl in H. injection H as <-. reflexivity.
Qed.
Lemma run_stored lib chunk : forall l g file k shape e, run (save_steps lib chunk l) g = Ok file ->
  In (k, VArr shape e) l -> numeric e -> (forall s, lookup k chunk = Some s -> s = shape) ->
  at_path (path k) (fst file) = Some (NArr shape e).
Proof.
  induction l as [|[k0 x] l IH]; intros g file k shape e H I N Ch; [destruct I|].
  rewrite steps_cons in H. unfold run in H. cbn [fold_res] in H.
  destruct (create k0 x (build lib chunk k0 x) g) as [g1|er] eqn:C; [|discriminate H]. cbn [bind mark] in H.
  destruct I as [I|I]; [|exact (IH _ _ _ _ _ H I N Ch)]. injection I as -> ->.
  apply (run_keep lib chunk l _ _ _ _ H); [|exact Logic.I]. cbn [fst]. unfold create in C. cbn [swallows] in C.
  destruct (build lib chunk k (VArr shape e)) as [n|[]] eqn:B; try discriminate C.
  apply numeric_node in B; [|exact N|exact Ch]. subst n.
  destruct (put (path k) (NArr shape e) (fst g)) as [items|] eqn:P; [|discriminate C]. injection C as <-. cbn [fst].
  exact (put_get _ _ _ _ P).
Qed.

(** ** Arrays of objects *)
Lemma Forall2_map_r {A B} (f : A -> B) (P : A -> B -> Prop) l : (forall a, P a (f a)) -> Forall2 P l (map f l).
Proof. intros H. induction l; cbn [map]; constructor; auto. Qed.
Lemma objects_node lib chunk k shape e n : objects e -> (forall s, lookup k chunk = Some s -> s = shape) ->
  build lib chunk k (VArr shape e) = Ok n -> exists e', n = NArr shape e' /\ cleaned e e'.
Proof.
  intros N Ch H. cbn [build] in H.
  assert (Es : (match lookup k chunk with Some s => s | None => shape end) = shape).
  { destruct (lookup k chunk) eqn:E; [now apply Ch|reflexivity]. }
  rewrite Es in H. unfold array_node in H.
  destruct e as [ | | | | | |[|x l]|[|x l]|[|x l]]; try destruct N; try discriminate H;
    cbn [format_array] in H; try (unfold encode_ascii in H; destruct (forallb _ _); [|discriminate H]);
    cbn [bind to_dtype] in H; destruct shape as [|d sh]; try discriminate H; rewrite Nat.eqb_refl in H;
    injection H as <-; eexists; (split; [reflexivity|]); cbn [cleaned];
    refine (Forall2_map_r _ _ (x :: l) _).
  - intros [t|]; reflexivity.
  - intros [t|]; reflexivity.
  - intros [[[] im]|]; reflexivity.
Qed.
Lemma run_stored_objects lib chunk : forall l g file k shape e, run (save_steps lib chunk l) g = Ok file ->
  In (k, VArr shape e) l -> objects e -> (forall s, lookup k chunk = Some s -> s = shape) ->
  exists e', at_path (path k) (fst file) = Some (NArr shape e') /\ cleaned e e'.
Proof.
  induction l as [|[k0 x] l IH]; intros g file k shape e H I N Ch; [destruct I|].
  rewrite steps_cons in H. unfold run in H. cbn [fold_res] in H.
  destruct (create k0 x (build lib chunk k0 x) g) as [g1|er] eqn:C; [|discriminate H]. cbn [bind mark] in H.
  destruct I as [I|I]; [|exact (IH _ _ _ _ _ H I N Ch)]. injection I as -> ->.
  unfold create in C. cbn [swallows] in C.
  destruct (build lib chunk k (VArr shape e)) as [n|[]] eqn:B; try discriminate C.
  apply objects_node in B; [|exact N|exact Ch]. destruct B as (e' & -> & Ce).
  destruct (put (path k) (NArr shape e') (fst g)) as [items|] eqn:P; [|discriminate C]. injection C as <-.
  exists e'. split; [|exact Ce].
  apply (run_keep lib chunk l _ _ _ _ H); [|exact Logic.I]. exact (put_get _ _ _ _ P).
Qed.
Lemma run_integer lib chunk : forall l g file k z, run (save_steps lib chunk l) g = Ok file ->
  In (k, VScalar (SInt z)) l -> (- 2 ^ 63 <= z < 2 ^ 64)%Z.
Proof.
  induction l as [|[k0 x] l IH]; intros g file k z H I; [destruct I|].
  rewrite steps_cons in H. unfold run in H. cbn [fold_res] in H.
  destruct (create k0 x (build lib chunk k0 x) g) as [g1|er] eqn:C; [|discriminate H]. cbn [bind mark] in H.
  destruct I as [I|I]; [|exact (IH _ _ _ _ H I)]. injection I as -> ->.
  unfold create in C. cbn [build scalar_node] in C. destruct (_ && _)%Z eqn:E; [lia|discriminate C].
Qed.
Lemma caller_filled e : filled e (format_array_caller e).
Proof. destruct e; cbn [filled format_array_caller]; try reflexivity; apply Forall2_map_r; intros [a|]; reflexivity. Qed.
