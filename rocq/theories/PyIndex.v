(** NumPy integer (fancy) indexing, masks and flat views used by the gridding models. *)
From Verif Require Import Base NpArr.
Open Scope nat_scope.

(** A Python index into an axis of length [n]: negative indices count from the end. *)
Definition norm_index (n : nat) (i : Z) : result nat :=
  if (0 <=? i)%Z && (i <? Z.of_nat n)%Z then Ok (Z.to_nat i)
  else if (i <? 0)%Z && (- Z.of_nat n <=? i)%Z then Ok (Z.to_nat (i + Z.of_nat n))
  else Err IndexError.

Fixpoint map_res {A B} (f : A -> result B) (l : list A) : result (list B) :=
  match l with
  | [] => Ok []
  | a :: t => b <- f a ;; bs <- map_res f t ;; Ok (b :: bs)
  end.

(** [a[idx]] for an integer index array. *)
Definition take {A} (d : A) (l : list A) (idx : list Z) : result (list A) :=
  map_res (fun i => k <- norm_index (length l) i ;; Ok (nth k l d)) idx.

(** [rows, cols = np.meshgrid(fi, bi); a[rows, cols].T]: the (len fi, len bi) sub-array. *)
Definition take2 {A} (a : arr2 A) (fi bi : list Z) : result (arr2 A) :=
  r <- map_res (norm_index (rows a)) fi ;;
  c <- map_res (norm_index (cols a)) bi ;;
  Ok (Arr2 (length fi) (length bi) (fun i j => at2 a (nth i r 0) (nth j c 0))).

(** [a[mask] = v] *)
Definition mask_set {A} (m : nat -> nat -> bool) (v : A) (a : arr2 A) : arr2 A :=
  Arr2 (rows a) (cols a) (fun i j => if m i j then v else at2 a i j).

(** Row-major flattening and [a.flat[k]]. *)
Definition flatten {A} (a : arr2 A) : list A :=
  map (fun k => at2 a (k / cols a) (k mod cols a)) (seq 0 (rows a * cols a)).
Definition flat_at {A} (a : arr2 A) (k : nat) : A := at2 a (k / cols a) (k mod cols a).

(** [np.nonzero(l)[0]] for booleans. *)
Definition nonzero_b (l : list bool) : list Z := map Z.of_nat (where_ (fun b => b) l).

(** ** Facts *)
Lemma map_res_spec {A B} (f : A -> result B) l r :
  map_res f l = Ok r <-> Forall2 (fun a b => f a = Ok b) l r.
Proof.
  revert r; induction l as [|a l IH]; intros r; cbn [map_res].
  - split; [intros [= <-]; constructor | intros H; inversion H; reflexivity].
  - destruct (f a) as [b|e] eqn:Ef; cbn [bind].
    + destruct (map_res f l) as [bs|e] eqn:El; cbn [bind].
      * split.
        -- intros [= <-]. constructor; auto. now apply IH.
        -- intros H. inversion H as [|? b' ? bs' Hb Hl]; subst.
           rewrite Ef in Hb. injection Hb as <-. apply IH in Hl. congruence.
      * split; [discriminate|]. intros H. inversion H as [|? ? ? bs' ? Hl]; subst.
        apply IH in Hl. congruence.
    + split; [discriminate|]. intros H. inversion H; subst. congruence.
Qed.

Lemma norm_index_nat n k : k < n -> norm_index n (Z.of_nat k) = Ok k.
Proof.
  intros H. unfold norm_index.
  replace ((0 <=? Z.of_nat k)%Z && (Z.of_nat k <? Z.of_nat n)%Z) with true; [now rewrite Nat2Z.id|].
  symmetry. apply andb_true_intro. split; [apply Z.leb_le|apply Z.ltb_lt]; lia.
Qed.

Lemma map_res_length {A B} (f : A -> result B) l r : map_res f l = Ok r -> length r = length l.
Proof. intros H%map_res_spec. induction H; cbn [length]; congruence. Qed.

Lemma map_res_nth {A B} (f : A -> result B) l r k da db : map_res f l = Ok r -> k < length l ->
  f (nth k l da) = Ok (nth k r db).
Proof.
  intros H%map_res_spec. revert k. induction H as [|a b l r Hab HF IH]; intros k Hk; cbn [length] in Hk; [lia|].
  destruct k; cbn [nth]; auto. apply IH. lia.
Qed.

Lemma map_res_ok {A B} (f : A -> result B) (g : A -> B) l :
  (forall a, In a l -> f a = Ok (g a)) -> map_res f l = Ok (map g l).
Proof.
  intros H. apply map_res_spec. induction l as [|a l IH]; cbn [map]; constructor.
  - apply H. now left.
  - apply IH. intros; apply H; now right.
Qed.

Lemma flatten_length {A} (a : arr2 A) : length (flatten a) = rows a * cols a.
Proof. unfold flatten. now rewrite map_length, seq_length. Qed.

Lemma flatten_nth {A} (a : arr2 A) k d : k < rows a * cols a -> nth k (flatten a) d = flat_at a k.
Proof. intros H. unfold flatten, flat_at. now rewrite nth_map_seq. Qed.

Lemma flat_split n m k : k < n * m -> k / m < n /\ k mod m < m /\ k = k / m * m + k mod m.
Proof.
  intros H. assert (m <> 0) by lia. repeat split.
  - apply Nat.div_lt_upper_bound; lia.
  - now apply Nat.mod_upper_bound.
  - rewrite Nat.mul_comm. now apply Nat.div_mod.
Qed.
