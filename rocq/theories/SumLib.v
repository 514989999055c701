(** Sums over lists in a commutative monoid: permutations, filters, partition into classes. *)
From Coq Require Import Permutation.
From Verif Require Import Base.
Open Scope nat_scope.

Section MSum.
  Context {A : Type} (op : A -> A -> A) (e : A).
  Hypothesis op_comm : forall x y, op x y = op y x.
  Hypothesis op_assoc : forall x y z, op x (op y z) = op (op x y) z.
  Hypothesis op_e : forall x, op e x = x.

  Definition msum (l : list A) : A := fold_right op e l.

  Lemma msum_app l1 l2 : msum (l1 ++ l2) = op (msum l1) (msum l2).
  Proof. induction l1 as [|a l IH]; cbn [app msum fold_right]; [now rewrite op_e|].
    fold (msum (l ++ l2)) (msum l). now rewrite IH, op_assoc. Qed.

  Lemma msum_perm l1 l2 : Permutation l1 l2 -> msum l1 = msum l2.
  Proof.
    induction 1 as [|x l1 l2 HP IH|x y l|l1 l2 l3 H1 IH1 H2 IH2]; cbn [msum fold_right]; auto.
    - fold (msum l1) (msum l2). now rewrite IH.
    - now rewrite !op_assoc, (op_comm y x).
    - congruence.
  Qed.

  Lemma msum_map_op {B} (f g : B -> A) l :
    msum (map (fun x => op (f x) (g x)) l) = op (msum (map f l)) (msum (map g l)).
  Proof.
    induction l as [|b l IH]; cbn [map msum fold_right]; [now rewrite op_e|].
    fold (msum (map (fun x => op (f x) (g x)) l)) (msum (map f l)) (msum (map g l)). rewrite IH.
    rewrite <- !op_assoc. f_equal. rewrite !op_assoc. f_equal. apply op_comm.
  Qed.

  Lemma msum_e {B} (f : B -> A) l : (forall b, In b l -> f b = e) -> msum (map f l) = e.
  Proof.
    induction l as [|b l IH]; intros H; cbn [map msum fold_right]; auto.
    fold (msum (map f l)). rewrite IH, (H b) by (intros; try apply H; simpl; auto). apply op_e.
  Qed.

  Lemma msum_filter {B} (f : B -> A) (p : B -> bool) l :
    msum (map f (filter p l)) = msum (map (fun b => if p b then f b else e) l).
  Proof.
    induction l as [|b l IH]; cbn [filter map msum fold_right]; auto.
    fold (msum (map (fun b => if p b then f b else e) l)). rewrite <- IH.
    destruct (p b); cbn [map msum fold_right]; [reflexivity|symmetry; apply op_e].
  Qed.

  (** exactly one class gets x *)
  Lemma msum_one (x : A) (c : nat) bs : NoDup bs -> In c bs ->
    msum (map (fun b => if c =? b then x else e) bs) = x.
  Proof.
    intros Hnd. induction Hnd as [|b bs Hni Hnd IH]; intros Hin; [destruct Hin|].
    cbn [map msum fold_right]. fold (msum (map (fun b => if c =? b then x else e) bs)).
    destruct Hin as [->|Hin].
    - rewrite Nat.eqb_refl, msum_e; [rewrite op_comm; apply op_e|].
      intros b Hb. destruct (Nat.eqb_spec c b); [subst; tauto|auto].
    - destruct (Nat.eqb_spec c b); [subst; tauto|]. now rewrite IH, op_e.
  Qed.

  (** Summing class by class. *)
  Lemma msum_classes {B} (f : B -> A) (class : B -> nat) ks bs : NoDup bs ->
    (forall k, In k ks -> In (class k) bs) ->
    msum (map (fun b => msum (map f (filter (fun k => class k =? b) ks))) bs) = msum (map f ks).
  Proof.
    intros Hnd. induction ks as [|k ks IH]; intros H.
    - cbn [filter map]. apply msum_e. auto.
    - transitivity (msum (map (fun b => op (if class k =? b then f k else e)
          (msum (map f (filter (fun k => class k =? b) ks)))) bs)).
      + f_equal. apply map_ext. intros b. cbn [filter]. destruct (class k =? b).
        * reflexivity.
        * symmetry. apply op_e.
      + rewrite msum_map_op, msum_one by (auto; apply H; now left).
        rewrite IH by (intros; apply H; now right). reflexivity.
  Qed.

  Lemma msum_swap {B D} (f : B -> D -> A) l1 l2 :
    msum (map (fun b => msum (map (fun d => f b d) l2)) l1)
    = msum (map (fun d => msum (map (fun b => f b d) l1)) l2).
  Proof.
    induction l1 as [|b l1 IH]; cbn [map msum fold_right].
    - symmetry. apply msum_e. auto.
    - fold (msum (map (fun b => msum (map (fun d => f b d) l2)) l1)). rewrite IH. symmetry.
      rewrite <- msum_map_op. reflexivity.
  Qed.
End MSum.
