(** Lemmas for ModelReadProps. *)
From Coq Require Import String.
From Verif Require Import Base PyIndex Cplx Obs UvHeader TransferBp TransferBpProofs ModelRead ModelReadSpec.
Import ListNotations.
Open Scope nat_scope.
Open Scope list_scope.

Lemma fits_same s : fits s s = true.
Proof. induction s as [|a s IH]; cbn [fits]; [reflexivity|]. now rewrite Nat.eqb_refl, IH. Qed.
Lemma spread_same s idx : Forall2 lt idx s -> spread s idx = idx.
Proof.
  induction 1 as [|i a idx s L _ IH]; cbn [spread]; [reflexivity|].
  rewrite IH. destruct (Nat.eqb_spec a 1) as [->|]; [|reflexivity]. f_equal. lia.
Qed.
Lemma within_rev shape idx : within shape idx -> within (rev shape) (rev idx).
Proof.
  unfold within. induction 1 as [|i a idx s L _ IH]; cbn [rev]; [constructor|].
  apply Forall2_app; [exact IH|]. constructor; [exact L|constructor].
Qed.
Lemma fill_same {A} (a : ndarr A) : exists b, nd_fill (nd_shape a) a = Ok b
  /\ nd_shape b = nd_shape a /\ forall idx, within (nd_shape a) idx -> nd_at b idx = nd_at a idx.
Proof.
  unfold nd_fill. rewrite fits_same. eexists. split; [reflexivity|]. cbn [nd_shape nd_at]. split; [reflexivity|].
  intros idx W. rewrite spread_same by (apply within_rev; exact W). now rewrite rev_involutive.
Qed.
Lemma map_res_total {A B} (f : A -> result B) (R : A -> B -> Prop) l : (forall a, In a l -> exists b, f a = Ok b /\ R a b) ->
  exists bs, map_res f l = Ok bs /\ Forall2 R l bs.
Proof.
  induction l as [|a l IH]; intros H.
  - exists []. split; [reflexivity|constructor].
  - destruct (H a (or_introl eq_refl)) as (b & E & RB). destruct IH as (bs & E' & F); [intros x I; apply H; right; exact I|].
    exists (b :: bs). cbn [map_res]. rewrite E. cbn [bind]. rewrite E'. cbn [bind]. split; [reflexivity|constructor; assumption].
Qed.
Lemma map_res_stops {A B} (f : A -> result B) l a e : In a l -> f a = Err e ->
  (forall x, In x l -> (exists b, f x = Ok b) \/ f x = Err e) -> map_res f l = Err e.
Proof.
  induction l as [|x l IH]; intros I E H; [destruct I|].
  cbn [map_res]. destruct (H x (or_introl eq_refl)) as [[b Eb]|Ee].
  - rewrite Eb. cbn [bind]. rewrite IH; [reflexivity| |exact E|intros y Iy; apply H; right; exact Iy].
    destruct I as [->|I]; [congruence|exact I].
  - rewrite Ee. reflexivity.
Qed.
Lemma map_res_same {A B} (f g : A -> result B) l : (forall a, In a l -> f a = g a) -> map_res f l = map_res g l.
Proof.
  induction l as [|x l IH]; intros H; [reflexivity|]. cbn [map_res]. rewrite (H x) by (left; reflexivity).
  rewrite IH by (intros a I; apply H; right; exact I). reflexivity.
Qed.

Lemma nth_res_ok (l : list string) p : p < List.length l -> nth_res l p = Ok (nth p l ""%string).
Proof.
  intros L. unfold nth_res. destruct (nth_error l p) eqn:E.
  - rewrite (nth_error_nth _ _ _ E). reflexivity.
  - apply nth_error_None in E. lia.
Qed.
Lemma read_file {P} (dir : savdir P) obs_id pols p a : p < List.length pols ->
  model_file dir obs_id (nth p pols ""%string) a -> read_pol dir obs_id pols p = Ok (transpose a).
Proof.
  intros L F. unfold read_pol. rewrite (nth_res_ok _ _ L). cbn [bind]. unfold readsav, file_of.
  destruct F as [E|[E N]]; rewrite E; cbn [bind unpack]; [reflexivity|].
  unfold nd_size. rewrite (proj2 (Nat.eqb_neq _ _) N). reflexivity.
Qed.
Lemma read_missing {P} (dir : savdir P) obs_id pols p : p < List.length pols ->
  s_vis dir (obs_id ++ "_vis_model_" ++ nth p pols "" ++ ".sav")%string = None -> read_pol dir obs_id pols p = Err SystemExit.
Proof.
  intros L E. unfold read_pol. rewrite (nth_res_ok _ _ L). cbn [bind]. unfold readsav, file_of. now rewrite E.
Qed.
Lemma forall2_nth {A B} (R : A -> B -> Prop) l bs d d' : Forall2 R l bs -> forall i, i < List.length l -> R (nth i l d) (nth i bs d').
Proof.
  induction 1 as [|a b l bs H _ IH]; intros i L; cbn [List.length] in L; [lia|].
  destruct i; cbn [nth]; [exact H|apply IH; lia].
Qed.
