From Coq Require Import String.
From Verif Require Import Base PyIndex Obs UvHeader UvHeaderSpec.
Import ListNotations.
Open Scope nat_scope.
Open Scope list_scope.
Open Scope string_scope.

Lemma bind_ok : forall A B (x : result A) (k : A -> result B) b, (a <- x ;; k a) = Ok b -> exists a, x = Ok a /\ k a = Ok b.
Proof. intros A B [a|e] k b H; [exists a; split; [reflexivity|exact H]|discriminate H]. Qed.
Lemma card_some : forall A (h : string -> option A) k, h k <> None -> exists v, card h k = Ok v.
Proof. intros A h k N. unfold card. destruct (h k); [eexists; reflexivity|congruence]. Qed.
Lemma card_or_some : forall A (h : string -> option A) k k', h k <> None \/ h k' <> None -> exists v, card_or h k k' = Ok v.
Proof.
  intros A h k k' N. unfold card_or, card. destruct (h k); [eexists; reflexivity|].
  destruct N as [N|N]; [congruence|]. destruct (h k'); [eexists; reflexivity|congruence].
Qed.
Lemma card_or_given : forall f k k' v, card_or (f_num f) k k' = Ok v -> given f k k' v.
Proof.
  intros f k k' v. unfold card_or, card, given. destruct (f_num f k); intro H.
  - injection H as ->. left; reflexivity.
  - destruct (f_num f k'); [|discriminate H]. injection H as ->. right; split; reflexivity.
Qed.
Lemma map_res_all : forall A B (g : A -> result B) (h : A -> B) l, (forall x, In x l -> g x = Ok (h x)) -> map_res g l = Ok (map h l).
Proof.
  intros A B g h l. induction l as [|a l IH]; intro H; [reflexivity|]. cbn [map_res map].
  rewrite (H a (or_introl eq_refl)). rewrite IH; [reflexivity|]. intros x Hx. apply H. right; exact Hx.
Qed.
Lemma map_nth_id : forall A (l : list A) d, map (fun i => nth i l d) (seq 0 (List.length l)) = l.
Proof.
  intros A l d. apply nth_ext with (d := d) (d' := d); [rewrite map_length, seq_length; reflexivity|].
  intros n Hn. rewrite map_length, seq_length in Hn.
  rewrite nth_indep with (d' := nth 0 l d) by (rewrite map_length, seq_length; exact Hn).
  rewrite map_nth with (f := fun i => nth i l d). rewrite seq_nth by exact Hn. reflexivity.
Qed.
Lemma ptypes_ok : forall f names, parameters f names -> ptypes f (List.length names) = Ok names.
Proof.
  intros f names [_ P]. unfold ptypes. rewrite map_res_all with (h := fun i => nth i names "").
  - rewrite map_nth_id. reflexivity.
  - intros i Hi. apply in_seq in Hi. rewrite P by lia. reflexivity.
Qed.
Lemma has_iff : forall n l, has n l = true <-> In n l.
Proof.
  intros n l. unfold has. rewrite existsb_exists. split.
  - intros (x & Hx & E). apply String.eqb_eq in E. subst; exact Hx.
  - intro H. exists n. split; [exact H|apply String.eqb_refl].
Qed.
Lemma has_false : forall n l, has n l = false <-> ~ In n l.
Proof. intros n l. rewrite <- has_iff. destruct (has n l); split; congruence. Qed.
Lemma find_seq_first : forall (P : nat -> bool) n i, i < n -> P i = true -> (forall j, j < i -> P j = false) ->
  find P (seq 0 n) = Some i.
Proof.
  intros P n i.
  assert (G : forall m s, s <= i -> i < s + m -> P i = true -> (forall j, s <= j < i -> P j = false) -> find P (seq s m) = Some i).
  { induction m; intros s L R Pi B; [lia|]. cbn [seq find]. destruct (Nat.eq_dec s i) as [->|N].
    - rewrite Pi. reflexivity.
    - rewrite (B s) by lia. apply IHm; [lia|lia|exact Pi|]. intros j Hj. apply B; lia. }
  intros Hi Pi B. apply G; [lia|lia|exact Pi|]. intros j Hj. apply B; lia.
Qed.
Lemma find_seq_inv : forall (P : nat -> bool) n i, find P (seq 0 n) = Some i -> i < n /\ P i = true /\ forall j, j < i -> P j = false.
Proof.
  intros P n i.
  assert (G : forall m s, find P (seq s m) = Some i -> s <= i < s + m /\ P i = true /\ forall j, s <= j < i -> P j = false).
  { induction m; intros s H; [discriminate H|]. cbn [seq find] in H. destruct (P s) eqn:E.
    - injection H as <-. split; [lia|]. split; [exact E|]. intros; lia.
    - apply IHm in H. destruct H as (H1 & H2 & H3). split; [lia|]. split; [exact H2|]. intros j Hj.
      destruct (Nat.eq_dec j s) as [->|N]; [exact E|apply H3; lia]. }
  intro H. apply G in H. destruct H as (H1 & H2 & H3). split; [lia|]. split; [exact H2|]. intros; apply H3; lia.
Qed.
Lemma index_of_ok : forall name l i, index_of name l = Ok i <-> first_at l name i.
Proof.
  intros name l i. unfold index_of, first_at. split.
  - destruct (find _ _) as [k|] eqn:E; intro H; [|discriminate H]. injection H as ->. apply find_seq_inv in E.
    destruct E as (E1 & E2 & E3). apply String.eqb_eq in E2. split; [exact E1|]. split; [exact E2|].
    intros j Hj. specialize (E3 j Hj). apply String.eqb_neq in E3. exact E3.
  - intros (H1 & H2 & H3). rewrite find_seq_first with (i := i); [reflexivity|exact H1|apply String.eqb_eq; exact H2|].
    intros j Hj. apply String.eqb_neq. apply H3; exact Hj.
Qed.
Lemma first_exists : forall l name, In name l -> exists i, first_at l name i.
Proof.
  intros l name. induction l as [|a l IH]; intro H; [destruct H|].
  destruct (string_dec a name) as [E|N].
  - exists 0. split; [cbn; lia|]. split; [exact E|]. intros; lia.
  - destruct H as [E|H]; [congruence|]. destruct (IH H) as (i & I1 & I2 & I3). exists (S i). split; [cbn; lia|]. split; [exact I2|].
    intros [|j] Hj; [exact N|]. apply I3. lia.
Qed.
Lemma first_in : forall l name i, first_at l name i -> In name l.
Proof. intros l name i (H1 & <- & _). apply nth_In. exact H1. Qed.
Lemma index_of_none : forall name l, ~ In name l -> index_of name l = Err ValueError.
Proof.
  intros name l N. unfold index_of. destruct (find _ _) as [k|] eqn:E; [|reflexivity]. apply find_seq_inv in E.
  destruct E as (E1 & E2 & _). apply String.eqb_eq in E2. contradict N. rewrite <- E2. apply nth_In; exact E1.
Qed.
Lemma first_column_at : forall f names name i, parameters f names -> first_at names name i ->
  first_column f (List.length names) name = Some (f_column f i).
Proof.
  intros f names name i [_ P] (H1 & H2 & H3). unfold first_column. rewrite find_seq_first with (i := i); [reflexivity|exact H1| |].
  - rewrite P by exact H1. rewrite H2. apply String.eqb_refl.
  - intros j Hj. rewrite P by lia. apply String.eqb_neq. apply H3; exact Hj.
Qed.

(** The header once the keywords are read: only the checks of the group parameters remain. *)
Definition rest (f : uvfile) (names : list string) : result (option nat * nat * Q) :=
  let valid := has "UU" names && has "VV" names && has "WW" names in
  ' (baseline_i, valid) <- (if negb (has "ANTENNA1" names) || negb (has "ANTENNA2" names)
                           then i <- index_of "BASELINE" names ;; Ok (Some i, valid && negb (i =? 0)%nat)
                           else Ok (None, valid)) ;;
  date_i <- index_of "DATE" names ;;
  let valid := valid && negb (date_i =? 0)%nat in
  if negb valid then Err KeyError else
  pzero <- (match f_pzero f date_i with Some z => Ok z | None => Err KeyError end) ;;
  jd0 <- (if (1 <? count "DATE" names)%nat then
            match f_column f date_i with
            | [] => Err IndexError
            | d :: _ => Ok (pzero + d - f_bzero f date_i)%Q
            end
          else Ok pzero) ;;
  Ok (baseline_i, date_i, jd0).

Lemma extract_rest : forall f names l, described f -> parameters f names ->
  match rest f names with
  | Err e => extract_header f (Some l) = Err e
  | Ok (bi, di, jd) => exists h, extract_header f (Some l) = Ok h /\ h_baseline_i h = bi /\ h_date_i h = di /\ h_jd0 h = jd
  end.
Proof.
  intros f names [[lon lat] alt] (DI & DN & DD & DR & DC) P.
  assert (G : forall A (K : nat -> result A), (n <- card (f_int f) "PCOUNT" ;; K n) = K (List.length names)).
  { intros A K. unfold card. rewrite (proj1 P). reflexivity. }
  unfold extract_header.
  destruct (card_some _ (f_int f) "NAXIS") as [v1 ->]; [apply DI; cbn; tauto|]. cbn [bind]. rewrite G.
  destruct (card_some _ (f_int f) "GCOUNT") as [v2 ->]; [apply DI; cbn; tauto|]. cbn [bind].
  destruct (card_some _ (f_int f) "NAXIS2") as [v3 ->]; [apply DI; cbn; tauto|]. cbn [bind].
  destruct (card_some _ (f_int f) "NAXIS3") as [v4 ->]; [apply DI; cbn; tauto|]. cbn [bind].
  destruct (card_some _ (f_int f) "NAXIS4") as [v5 ->]; [apply DI; cbn; tauto|]. cbn [bind].
  destruct (card_some _ (f_num f) "CRVAL4") as [v6 ->]; [apply DN; cbn; tauto|]. cbn [bind].
  destruct (card_some _ (f_num f) "CDELT4") as [v7 ->]; [apply DN; cbn; tauto|]. cbn [bind].
  rewrite DD. cbn [negb].
  destruct (card_some _ (f_num f) "CRPIX4") as [v8 ->]; [apply DN; cbn; tauto|]. cbn [bind].
  destruct (card_or_some _ (f_num f) "OBSRA" "RA" DR) as [v9 ->]. cbn [bind].
  destruct (card_or_some _ (f_num f) "OBSDEC" "DEC" DC) as [v10 ->]. cbn [bind].
  rewrite (ptypes_ok f names P). cbn [bind].
  unfold rest.
  match goal with |- context [if negb ?a || negb ?b then ?x else ?y] => destruct (if negb a || negb b then x else y) as [[bi va]|e] end; [|reflexivity].
  cbn [bind]. destruct (index_of "DATE" names) as [di|e]; [|reflexivity]. cbn [bind].
  destruct (negb (va && negb (di =? 0)%nat)); [reflexivity|].
  destruct (f_pzero f di) as [z|]; [|reflexivity]. cbn [bind].
  destruct (1 <? count "DATE" names)%nat; [destruct (f_column f di); [reflexivity|]|]; cbn [bind]; eexists; (split; [reflexivity|]); repeat split.
Qed.
