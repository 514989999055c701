(** C34, C36, C60: property theorems about save and load. *)
From Coq Require Import String Ascii.
From Verif Require Import Base H5IO H5IOSpec H5IOProofs.
Import ListNotations.
Open Scope string_scope.
Open Scope list_scope.
Open Scope nat_scope.
Ltac Zify.zify_post_hook ::= idtac.

(** C34. A nested dictionary of arrays, numbers, booleans, None, and - where h5py's scalar strings have a dtype -
    strings, with any number of keys but one, is read back as it was saved. *)
Theorem C34_dict_partial : forall lib chunk name l, plain lib chunk "" (VDict l) -> length l <> 1 ->
  exists file w, save lib chunk name (VDict l) = Ok file /\ load lib file = Ok w /\ same (VDict l) w.
Proof. exact save_load_dict. Qed.
Print Assumptions C34_dict_partial.

Theorem C34_array_partial : forall lib chunk name shape e, plain_key name -> plain lib chunk name (VArr shape e) ->
  (forall l, e <> EStr l) ->
  exists file w, save lib chunk name (VArr shape e) = Ok file /\ load lib file = Ok w /\ same (VArr shape e) w.
Proof.
  intros lib chunk name shape e Hk H Hn. destruct H as (Hs & He & Hc).
  destruct (array_ok lib shape e Hs He) as (n & w & E & El & Hsm & e' & -> & Hw).
  assert (Eb : build lib chunk name (VArr shape e) = Ok (NArr shape e')).
  { cbn [build]. destruct (lookup name chunk) as [s'|] eqn:Ek; [rewrite (Hc s' eq_refl)|]; auto. }
  exists ([(name, NArr shape e')], [(name, false)]), w. split; [|split; auto].
  - unfold save. rewrite steps_cons. unfold run, empty_root. cbn [fold_res].
    rewrite (create_ok lib chunk name _ _ [] [] Hk Eb) by (intros []). reflexivity.
  - unfold load. cbn [fst]. destruct e; try (now subst w). exfalso. eapply Hn. reflexivity.
Qed.
Print Assumptions C34_array_partial.

(** Whatever else a dictionary holds, even keys with "/" and strings that are dropped: when save returns, every array of
    numbers of the dictionary is in the file, complete. *)
Theorem C34_stored : forall lib chunk name l file k shape e, save lib chunk name (VDict l) = Ok file ->
  In (k, VArr shape e) l -> numeric e -> (forall s, lookup k chunk = Some s -> s = shape) ->
  at_path (path k) (fst file) = Some (NArr shape e).
Proof. intros lib chunk name l file k shape e H. exact (run_stored lib chunk l _ _ k shape e H). Qed.
Print Assumptions C34_stored.
Example C34_stored_case : exists file,
  save {| cast_i64 := fun z => z; cast_f64 := fun x => x; bytes_dtype := true; utf8 := fun _ => None |} [] "d"
    (VDict [("vis/re", VArr [2] (EInt [1; 2]%Z)); ("s", VScalar (SStr [0]%N)); ("vis/im", VArr [1] (EInt [3]%Z))]) = Ok file
  /\ at_path (path "vis/re") (fst file) = Some (NArr [2] (EInt [1; 2]%Z))
  /\ at_path (path "vis/im") (fst file) = Some (NArr [1] (EInt [3]%Z)) /\ at_path (path "s") (fst file) = None.
Proof. eexists. split; [vm_compute; reflexivity|]. repeat split. Qed.

(** C34. An array of objects is stored with its missing entries replaced as [cleaned] says, whatever else is saved. *)
Theorem C34_objects : forall lib chunk name l file k shape e, save lib chunk name (VDict l) = Ok file ->
  In (k, VArr shape e) l -> objects e -> (forall s, lookup k chunk = Some s -> s = shape) ->
  exists e', at_path (path k) (fst file) = Some (NArr shape e') /\ cleaned e e'.
Proof. intros lib chunk name l file k shape e H. exact (run_stored_objects lib chunk l _ _ k shape e H). Qed.
Print Assumptions C34_objects.
Example C34_objects_case : exists file,
  save {| cast_i64 := fun z => z; cast_f64 := fun x => x; bytes_dtype := true; utf8 := fun _ => None |} [] "d"
    (VDict [("n", VScalar (SInt 1)); ("c", VArr [3] (EObjComplex [Some (FNum 1, FNum 2); None; Some (FNaN, FNum 4)]))]) = Ok file
  /\ at_path (path "c") (fst file) = Some (NArr [3] (EComplex false [(FNum 1, FNum 2); (FNaN, FNaN); (FNaN, FNaN)])).
Proof. eexists. split; reflexivity. Qed.

Definition lib_with_dtype : h5lib := {| cast_i64 := fun z => z; cast_f64 := fun x => x; bytes_dtype := true; utf8 := fun _ => None |}.
(** C34. No dictionary holding an integer outside -2^63 .. 2^64 - 1 can be saved. *)
Theorem C34_integers : forall lib chunk name l file k z, save lib chunk name (VDict l) = Ok file ->
  In (k, VScalar (SInt z)) l -> (- 2 ^ 63 <= z < 2 ^ 64)%Z.
Proof. intros lib chunk name l file k z H. exact (run_integer lib chunk l _ _ k z H). Qed.
Print Assumptions C34_integers.
Example C34_integers_case : save lib_with_dtype [] "d" (VDict [("a", VScalar (SInt (2 ^ 64)))]) = Err TypeError
  /\ exists f, save lib_with_dtype [] "d" (VDict [("a", VScalar (SInt (2 ^ 64 - 1)))]) = Ok f.
Proof. split; [vm_compute; reflexivity|eexists; vm_compute; reflexivity]. Qed.


(** A dictionary with a single key never comes back as a dictionary: an array comes back bare, anything else raises. *)
Theorem C34_single_refuted : forall lib chunk name k v, plain lib chunk "" (VDict [(k, v)]) ->
  exists file, save lib chunk name (VDict [(k, v)]) = Ok file
  /\ match v with
     | VArr shape _ => exists e, load lib file = Ok (VArr shape e)
     | VDict _ => load lib file = Err TypeError
     | _ => load lib file = Err ValueError
     end.
Proof.
  intros lib chunk name k v H. apply (proj1 (plain_dict _ _ _ _)) in H as [_ H]. destruct (H k v (or_introl eq_refl)) as [Hk Hv].
  destruct (plain_good lib chunk v k Hv) as (n & w & E & _ & _).
  exists ([(k, n)], [(k, is_none v)]). split.
  - unfold save. rewrite steps_cons. unfold run, empty_root. cbn [fold_res]. rewrite (create_ok lib chunk k v n [] [] Hk E) by (intros []). reflexivity.
  - unfold load. cbn [fst]. destruct v as [l|shape e|shape e|s|t|].
    + rewrite build_dict in E. destruct (run (save_steps lib chunk l) empty_root); [|discriminate]. injection E as <-. reflexivity.
    + destruct Hv as (Hs & He & Hc). destruct (array_ok lib shape e Hs He) as (n' & w' & E' & _ & _ & e' & -> & _).
      exists e'. assert (X : build lib chunk k (VArr shape e) = Ok (NArr shape e')).
      { cbn [build]. destruct (lookup k chunk) as [s'|] eqn:Ek; [rewrite (Hc s' eq_refl)|]; auto. }
      rewrite X in E. injection E as <-. reflexivity.
    + destruct Hv.
    + cbn [build] in E. unfold scalar_node in E. destruct s; try (injection E as <-; reflexivity);
        match type of E with (if ?c then _ else _) = _ => destruct c; [|discriminate] end; injection E as <-; reflexivity.
    + destruct Hv.
    + injection E as <-. reflexivity.
Qed.
Print Assumptions C34_single_refuted.

(** Where h5py returns plain bytes for a scalar string, every dictionary with a string value among its keys fails to load. *)
Theorem C34_string_refuted : forall lib name (t : text), bytes_dtype lib = false ->
  (forall c, In c t -> c <> 0%N /\ ~ (55296 <= c < 57344)%N) ->
  exists file, save lib [] name (VDict [("instrument"%string, VScalar (SStr t)); ("n_pol"%string, VScalar (SInt 2))]) = Ok file
  /\ load lib file = Err AttributeError.
Proof.
  intros lib name t Hb Ht.
  assert (V : vlen_text t = true).
  { apply forallb_forall. intros c Hc. destruct (Ht c Hc) as [H1 H2]. apply negb_true_iff, orb_false_iff. split; [now apply N.eqb_neq|].
    apply andb_false_iff. destruct (N.leb_spec 55296 c); [right; apply N.ltb_ge; lia|now left]. }
  eexists. split.
  - cbn. rewrite V. reflexivity.
  - cbn. rewrite Hb. reflexivity.
Qed.
Print Assumptions C34_string_refuted.

(** Further values that do not come back: strings with a zero character are dropped without an error; keys with a slash
    and arrays without dimensions raise; None inside an array becomes NaN or the empty string; a string array saved on its own
    comes back as bytes. *)
Theorem C34_others_refuted :
  let one := VScalar (SInt 1) in
  let roundtrip v := f <- save lib_with_dtype [] "data" v ;; load lib_with_dtype f in
  roundtrip (VDict [("a", VScalar (SStr [104; 0; 105]%N)); ("b", one); ("c", one)]) = Ok (VDict [("b", one); ("c", one)])
  /\ roundtrip (VDict [("m/s", one); ("c", one)]) = Err KeyError
  /\ roundtrip (VDict [("a", VArr [] (EFloat false [FNum 1])); ("b", one)]) = Err TypeError
  /\ roundtrip (VDict [("a", VArr [2] (EObjFloat [Some (FNum 1); None])); ("b", one)])
     = Ok (VDict [("a", VArr [2] (EFloat false [FNum 1; FNaN])); ("b", one)])
  /\ roundtrip (VDict [("a", VArr [2] (EObjStr [Some [120]%N; None])); ("b", one)])
     = Ok (VDict [("a", VArr [2] (EStr [[120]; []]%N)); ("b", one)])
  /\ roundtrip (VDict [("a", VArr [1] (EStr [[233]]%N)); ("b", one)]) = Err ValueError
  /\ roundtrip (VArr [1] (EStr [[120]]%N)) = Ok (VArr [1] (EBytes [[120]]%N)).
Proof. vm_compute. repeat split. Qed.
Print Assumptions C34_others_refuted.

Definition demo_dict : list (string * value) :=
  [("n_pol"%string, VScalar (SInt 2)); ("name"%string, VScalar (SStr [109; 119; 97]%N)); ("none"%string, VNone);
   ("vis"%string, VArr [2; 2] (EComplex false [(FNum 1, FNaN); (FNum 0, FInf true); (FNum 2, FNum 3); (FNum 4, FNum 5)]));
   ("info"%string, VDict [("names"%string, VArr [2] (EStr [[88; 88]; [89; 89]]%N)); ("deep"%string, VDict [("ok"%string, VScalar (SBool true))])])].
Lemma demo_plain : plain lib_with_dtype [] "" (VDict demo_dict).
Proof.
  cbn. repeat (split; try reflexivity; try congruence); try (repeat constructor; cbn; intuition congruence).
  all: intros; cbn in *; intuition (subst; try lia; try congruence); try discriminate.
  all: repeat match goal with H : _ \/ _ |- _ => destruct H end; subst; cbn in *; try contradiction; try (intuition (subst; lia)).
Qed.
Example C34_case : plain lib_with_dtype [] "" (VDict demo_dict) /\ length demo_dict <> 1
  /\ (f <- save lib_with_dtype [] "data" (VDict demo_dict) ;; load lib_with_dtype f) = Ok (VDict demo_dict).
Proof. split; [exact demo_plain|]. split; [cbn; lia|vm_compute; reflexivity]. Qed.

(** C36. Dying after the file was opened and before the last entry was created leaves a file that is neither: whatever
    was stored under that name before is gone, and what can be loaded, if anything, is not the dictionary being saved. *)
Theorem C36_refuted : forall lib chunk l j, plain lib chunk "" (VDict l) -> j + 1 < 2 * length l ->
  exists g, (forall old, crash_disk lib chunk old l (S j) = Ok (Some g))
  /\ forall w, load lib g = Ok w -> ~ same (VDict l) w.
Proof.
  intros lib chunk l j H Hj.
  assert (X : exists nl attrs m, run (firstn j (save_steps lib chunk l)) empty_root = Ok (nl, attrs) /\ length nl = m /\ m < length l).
  { destruct (Nat.Even_or_Odd j) as [[m ->]|[m ->]].
    - destruct (crash_even lib chunk l m H ltac:(lia)) as (nl & E & F). exists nl, (marks (firstn m l)), m. split; auto.
      apply Forall2_len in F. rewrite firstn_length in F. lia.
    - destruct (crash_odd lib chunk l m H ltac:(lia)) as (nl & E & F). exists nl, (marks (firstn m l)), (m + 1). split; auto.
      apply Forall2_len in F. rewrite firstn_length in F. lia. }
  destruct X as (nl & attrs & m & E & L & Hm). exists (nl, attrs). split; [intros old; unfold crash_disk; rewrite E; reflexivity|].
  intros w Ew Hs. apply load_length in Ew. destruct w as [l'| | | | |]; try (exact Hs). destruct Hs as (_ & Hl & _). lia.
Qed.
Print Assumptions C36_refuted.

(** Between two entries the truncated file even loads without an error, as a smaller dictionary. *)
Theorem C36_silent_refuted : forall lib chunk l m old, plain lib chunk "" (VDict l) -> m < length l -> m <> 1 ->
  exists g w, crash_disk lib chunk old l (S (2 * m)) = Ok (Some g) /\ load lib g = Ok w /\ same (VDict (firstn m l)) w.
Proof.
  intros lib chunk l m old H Hm H1. destruct (crash_even lib chunk l m H ltac:(lia)) as (nl & E & F).
  pose proof (plain_firstn lib chunk l m H) as Hp. apply (proj1 (plain_dict _ _ _ _)) in Hp as [Nd _].
  destruct (load_group lib (marks (firstn m l)) (firstn m l) nl F) as (wl & El & Fw); [intros; now apply marks_lookup|].
  exists (nl, marks (firstn m l)), (VDict wl). split; [unfold crash_disk; rewrite E; reflexivity|].
  rewrite (load_many lib (firstn m l)) by (auto; rewrite firstn_length; lia). split; auto. now apply same_dict.
Qed.
Print Assumptions C36_silent_refuted.

(** Before the file is opened and after the last step the state is usable. *)
Theorem C36_ends_partial : forall lib chunk old l, plain lib chunk "" (VDict l) -> length l <> 1 ->
  crash_disk lib chunk old l 0 = Ok old
  /\ exists g w, crash_disk lib chunk old l (S (2 * length l)) = Ok (Some g) /\ load lib g = Ok w /\ same (VDict l) w.
Proof.
  intros lib chunk old l H Hl. split; [reflexivity|].
  destruct (save_load_dict lib chunk ""%string l H Hl) as (f & w & E & El & Hs). exists f, w. split; auto.
  unfold crash_disk. rewrite firstn_all2 by (rewrite steps_length; lia). unfold save in E. rewrite E. reflexivity.
Qed.
Print Assumptions C36_ends_partial.
Example C36_case : plain lib_with_dtype [] "" (VDict demo_dict) /\ 5 + 1 < 2 * length demo_dict
  /\ (g <- crash_disk lib_with_dtype [] None demo_dict 7 ;; match g with Some g => load lib_with_dtype g | None => Err FileMissing end)
     = Ok (VDict (firstn 3 demo_dict)).
Proof. split; [exact demo_plain|]. split; [cbn; lia|vm_compute; reflexivity]. Qed.

(** C60. save leaves the caller's data as they were, unless an array in them is an object array holding None. *)
Lemma elems_unchanged e : elems_full e -> format_array_caller e = e.
Proof.
  assert (G : forall A (d : A) l, ~ In None l -> map (fun o => match o with Some t => Some t | None => Some d end) l = l).
  { intros A d l H. transitivity (map (fun o => o) l); [|apply map_id]. apply map_ext_in. intros [a|] Ha; auto. contradiction. }
  destruct e as [ | | | | | |l|l|l]; intros H; cbn [format_array_caller]; auto; now rewrite G.
Qed.
Theorem C60_unchanged_partial : forall v, full v -> save_caller v = v.
Proof.
  intros v. induction v as [l IH|s e|s e|s|t|] using value_ind'; intros H; try reflexivity.
  - cbn [save_caller]. f_equal. cbn [full] in H. induction l as [|[k x] l IHl]; [reflexivity|]. destruct H as [Hx Hl].
    inversion_clear IH as [|? ? I1 I2]. cbn [map fst snd]. cbn [snd] in I1. rewrite I1 by auto. f_equal. auto.
  - cbn [save_caller]. f_equal. now apply elems_unchanged.
Qed.
Print Assumptions C60_unchanged_partial.
Theorem C60_unchanged_refuted : forall (l : list (option fval)) shape k, In None l ->
  save_caller (VDict [(k, VArr shape (EObjFloat l))]) <> VDict [(k, VArr shape (EObjFloat l))].
Proof.
  intros l shape k H E. cbn in E. injection E as E.
  assert (N : ~ In None (map (fun o : option fval => match o with Some f => Some f | None => Some FNaN end) l)).
  { intros X. apply in_map_iff in X as ([f|] & E' & _); discriminate. }
  apply N. now rewrite E.
Qed.
Print Assumptions C60_unchanged_refuted.
(** C60. What saving does to an array of objects: exactly the entries that are None change. *)
Theorem C60_objects : forall shape e, exists e', save_caller (VArr shape e) = VArr shape e' /\ filled e e'.
Proof. intros shape e. exists (format_array_caller e). split; [reflexivity|apply caller_filled]. Qed.
Print Assumptions C60_objects.
Example C60_case : full (VDict demo_dict)
  /\ save_caller (VArr [2] (EObjFloat [Some (FNum 1); None])) = VArr [2] (EObjFloat [Some (FNum 1); Some FNaN]).
Proof. split; [cbn; intuition auto|reflexivity]. Qed.
