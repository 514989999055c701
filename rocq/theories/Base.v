(** Shared vocabulary of the model: Python exceptions as values, and NumPy 1-D
    arrays as lists.  Nothing in this file models PyFHD code; it models the few
    Python/NumPy constructs the other files need. *)
From Coq Require Export List Arith ZArith QArith Qround Bool Lia.
From Coq Require Import ZifyBool ZifyNat.
Export ListNotations.
Open Scope nat_scope.

(** Ways in which a call can fail.  [OutOfBounds] stands for an unchecked
    out-of-range access in a numba kernel (undefined behaviour, no exception). *)
Inductive pyerr :=
| ValueError | TypeError | KeyError | IndexError | AttributeError
| UnboundLocal | ZeroDivision | OutOfBounds | SystemExit | FileMissing | IOError.

Inductive result (A : Type) :=
| Ok (a : A)
| Err (e : pyerr).
Arguments Ok {A} a.
Arguments Err {A} e.

Definition bind {A B} (x : result A) (f : A -> result B) : result B :=
  match x with Ok a => f a | Err e => Err e end.
Notation "x <- e ;; f" := (bind e (fun x => f))
  (at level 61, e at next level, right associativity).
Notation "' p <- e ;; f" := (bind e (fun p => f))
  (at level 61, p pattern, e at next level, right associativity).

(** [a[i] = v] on an array whose bounds are known to hold; an index outside the
    array leaves it unchanged (the models check the bound first). *)
Fixpoint upd {A} (l : list A) (i : nat) (v : A) : list A :=
  match l, i with
  | [], _ => []
  | _ :: t, O => v :: t
  | h :: t, S j => h :: upd t j v
  end.

(** [a[lo:hi]] for non-negative bounds. *)
Definition slice {A} (l : list A) (lo hi : nat) : list A :=
  firstn (hi - lo) (skipn lo l).

(** Positions of the elements satisfying [p]: [np.where(p(l))[0]]. *)
Definition where_ {A} (p : A -> bool) (l : list A) : list nat :=
  map fst (filter (fun kv => p (snd kv)) (combine (seq 0 (length l)) l)).

(** [np.sum] of an integer array. *)
Definition sum_nat (l : list nat) : nat := fold_right Nat.add 0 l.
Definition sum_Z (l : list Z) : Z := fold_right Z.add 0%Z l.

(** [int(x)] on a float: truncation towards zero. *)
Definition Qtrunc (q : Q) : Z :=
  if Qle_bool 0 q then Qfloor q else Qceiling q.

(** A left-to-right loop whose body may fail. *)
Fixpoint fold_res {A S} (f : S -> A -> result S) (l : list A) (s : S) : result S :=
  match l with
  | [] => Ok s
  | a :: t => bind (f s a) (fold_res f t)
  end.

Ltac Zify.zify_post_hook ::= Z.div_mod_to_equations.

(** ** Facts about these constructs *)

Lemma upd_length {A} (l : list A) i v : length (upd l i v) = length l.
Proof. revert i; induction l as [|h t IH]; intros [|i]; simpl; auto. Qed.

Lemma upd_same {A} (l : list A) i v d : i < length l -> nth i (upd l i v) d = v.
Proof.
  revert i; induction l as [|h t IH]; intros [|i] H; simpl in *; try lia; auto.
  apply IH; lia.
Qed.

Lemma upd_other {A} (l : list A) i j v d : i <> j -> nth j (upd l i v) d = nth j l d.
Proof.
  revert i j; induction l as [|h t IH]; intros [|i] [|j] H; simpl; auto; try lia.
Qed.

Lemma nth_upd {A} (l : list A) i j v d :
  nth j (upd l i v) d = if (i =? j) && (j <? length l) then v else nth j l d.
Proof.
  destruct (Nat.eqb_spec i j) as [->|H]; simpl.
  - destruct (Nat.ltb_spec j (length l)); [now apply upd_same|].
    rewrite !nth_overflow; auto; rewrite ?upd_length; lia.
  - now apply upd_other.
Qed.

Lemma slice_length {A} (l : list A) lo hi :
  lo <= hi -> hi <= length l -> length (slice l lo hi) = hi - lo.
Proof. intros. unfold slice. rewrite firstn_length, skipn_length. lia. Qed.

Lemma nth_skipn {A} (l : list A) n k d : nth k (skipn n l) d = nth (n + k) l d.
Proof.
  revert l; induction n as [|n IH]; intros l; simpl; auto.
  destruct l; simpl; auto. now destruct k.
Qed.

Lemma nth_firstn {A} (l : list A) n k d : k < n -> nth k (firstn n l) d = nth k l d.
Proof.
  revert l k; induction n as [|n IH]; intros l k H; [lia|].
  destruct l; simpl; auto. destruct k; auto. apply IH; lia.
Qed.

Lemma nth_slice {A} (l : list A) lo hi k d :
  k < hi - lo -> nth k (slice l lo hi) d = nth (lo + k) l d.
Proof. intros. unfold slice. rewrite nth_firstn by lia. apply nth_skipn. Qed.

Lemma list_ext {A} (d : A) (l1 l2 : list A) :
  length l1 = length l2 -> (forall k, k < length l1 -> nth k l1 d = nth k l2 d) -> l1 = l2.
Proof.
  intros HL H. apply (nth_ext l1 l2 d d); auto.
Qed.

Lemma nth_map_seq {A} (f : nat -> A) n k d : k < n -> nth k (map f (seq 0 n)) d = f k.
Proof.
  intros H. rewrite nth_indep with (d' := f 0) by (rewrite map_length, seq_length; lia).
  rewrite map_nth. rewrite seq_nth by lia. reflexivity.
Qed.

Lemma nth_repeat_lt {A} (x : A) n k d : k < n -> nth k (repeat x n) d = x.
Proof. revert k; induction n; intros [|k] H; simpl; auto; try lia. apply IHn; lia. Qed.

Lemma fold_res_app {A S} (f : S -> A -> result S) l1 l2 s :
  fold_res f (l1 ++ l2) s = bind (fold_res f l1 s) (fold_res f l2).
Proof.
  revert s; induction l1 as [|a t IH]; intros s; simpl; auto.
  destruct (f s a); simpl; auto.
Qed.

Lemma where_aux {A} (p : A -> bool) (l : list A) d n :
  map fst (filter (fun kv => p (snd kv)) (combine (seq n (length l)) l)) =
  filter (fun k => p (nth (k - n) l d)) (seq n (length l)).
Proof.
  revert n; induction l as [|a t IH]; intros n; simpl; auto.
  rewrite Nat.sub_diag. rewrite (filter_ext_in _ (fun k => p (nth (k - S n) t d))).
  - destruct (p a); simpl; now rewrite IH.
  - intros k Hk%in_seq. replace (k - n) with (S (k - S n)) by lia. reflexivity.
Qed.

Lemma where_spec {A} (p : A -> bool) (l : list A) d :
  where_ p l = filter (fun k => p (nth k l d)) (seq 0 (length l)).
Proof.
  unfold where_. rewrite (where_aux p l d 0). apply filter_ext; intros k.
  now rewrite Nat.sub_0_r.
Qed.

Lemma In_where {A} (p : A -> bool) (l : list A) d k :
  In k (where_ p l) <-> k < length l /\ p (nth k l d) = true.
Proof. rewrite (where_spec p l d), filter_In, in_seq. intuition lia. Qed.

Lemma sum_nat_app l1 l2 : sum_nat (l1 ++ l2) = sum_nat l1 + sum_nat l2.
Proof. induction l1; simpl; lia. Qed.

Lemma sum_Z_app l1 l2 : sum_Z (l1 ++ l2) = (sum_Z l1 + sum_Z l2)%Z.
Proof. induction l1 as [|a l IH]; simpl sum_Z; [lia|]. simpl. rewrite IH; lia. Qed.

Lemma filter_length_le {A} (p : A -> bool) l : length (filter p l) <= length l.
Proof. induction l as [|a l IH]; simpl; auto. destruct (p a); simpl; lia. Qed.

Lemma filter_all {A} (p : A -> bool) l : (forall x, In x l -> p x = true) -> filter p l = l.
Proof.
  induction l as [|a l IH]; intros H; simpl; auto.
  rewrite (H a) by (now left). f_equal. apply IH. intros; apply H; now right.
Qed.

Lemma filter_none {A} (p : A -> bool) l : (forall x, In x l -> p x = false) -> filter p l = [].
Proof.
  induction l as [|a l IH]; intros H; simpl; auto.
  rewrite (H a) by (now left). apply IH. intros; apply H; now right.
Qed.

Lemma Qtrunc_nonneg q : (0 <= q)%Q -> Qtrunc q = Qfloor q.
Proof. intros H. unfold Qtrunc. now rewrite (proj2 (Qle_bool_iff 0 q) H). Qed.

Lemma Qfloor_unique q z : (inject_Z z <= q)%Q -> (q < inject_Z (z + 1))%Q -> Qfloor q = z.
Proof.
  intros H1 H2.
  assert (A : (z <= Qfloor q)%Z).
  { rewrite <- (Qfloor_Z z). now apply Qfloor_resp_le. }
  assert (B : (Qfloor q < z + 1)%Z).
  { rewrite Zlt_Qlt. eapply Qle_lt_trans; [apply Qfloor_le|exact H2]. }
  lia.
Qed.

Lemma nth_map_lt {A B} (f : A -> B) l k d d' : k < length l -> nth k (map f l) d' = f (nth k l d).
Proof.
  intros H. rewrite nth_indep with (d' := f d) by (rewrite map_length; lia). apply map_nth.
Qed.
