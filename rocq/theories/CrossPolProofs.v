(** Lemmas for CrossPolProps. *)
From Coq Require Import Permutation.
From Verif Require Import Base Cplx NpArr GridLoc GridSpec GridLocProofs CrossPol CrossPolSpec.
Open Scope nat_scope.

Lemma neg_opposite n i : i < n -> neg_mod n i = opposite n i.
Proof.
  intros L. unfold neg_mod, opposite. rewrite (Nat.mod_small i) by lia. destruct (Nat.eqb_spec i 0) as [->|N].
  - rewrite Nat.sub_0_r. apply Nat.mod_same. lia.
  - apply Nat.mod_small. lia.
Qed.
Lemma opposite_lt n i : i < n -> opposite n i < n.
Proof. unfold opposite. destruct (Nat.eqb_spec i 0); lia. Qed.
Lemma opposite_opposite n i : i < n -> opposite n (opposite n i) = i.
Proof. intros L. unfold opposite. destruct (Nat.eqb_spec i 0) as [->|N]; [reflexivity|]. destruct (Nat.eqb_spec (n - i) 0); lia. Qed.
Lemma mirror_conjugates a : conjugates a (conjugate_mirror a).
Proof.
  split; [reflexivity|]. split; [reflexivity|]. intros i j Hi Hj. rewrite conj_mirror_at by auto.
  now rewrite !neg_opposite.
Qed.

Lemma csum_app a b : csum (a ++ b) = (csum a + csum b)%C.
Proof. induction a as [|x a IH]; cbn [app]; [|change (csum (x :: a ++ b)) with (x + csum (a ++ b))%C; change (csum (x :: a)) with (x + csum a)%C; rewrite IH];
  apply C_ext; cbn; ring. Qed.
Lemma csum_perm a b : Permutation a b -> csum a = csum b.
Proof.
  induction 1 as [|x a b _ IH|x y a|a b c _ IH _ IH']; cbn [csum fold_right].
  - reflexivity.
  - fold (csum a) (csum b). now rewrite IH.
  - apply C_ext; cbn [re im Cadd]; ring.
  - congruence.
Qed.
Lemma csum_conj {A} (f : A -> C) l : csum (map (fun x => Cconj (f x)) l) = Cconj (csum (map f l)).
Proof.
  induction l as [|x l IH]; cbn [map csum fold_right]; [apply C_ext; reflexivity|].
  fold (csum (map (fun x => Cconj (f x)) l)) (csum (map f l)). rewrite IH. symmetry. apply Cconj_add.
Qed.
Lemma csum_half {A} (f g : A -> C) l :
  csum (map (fun x => Cscale (Q2Qc (1 # 2)) (f x - g x)%C) l) = Cscale (Q2Qc (1 # 2)) (csum (map f l) - csum (map g l))%C.
Proof.
  induction l as [|x l IH]; cbn [map csum fold_right].
  - apply C_ext; cbn; ring.
  - fold (csum (map (fun x => Cscale (Q2Qc (1 # 2)) (f x - g x)%C) l)) (csum (map f l)) (csum (map g l)). rewrite IH.
    apply C_ext; cbn [re im Cadd Csub Cscale]; ring.
Qed.
Lemma csum_ext {A} (f g : A -> C) l : (forall x, In x l -> f x = g x) -> csum (map f l) = csum (map g l).
Proof. intros E. f_equal. now apply map_ext_in. Qed.
Lemma nodup_map_in {A B} (f : A -> B) l : (forall x y, In x l -> In y l -> f x = f y -> x = y) -> NoDup l -> NoDup (map f l).
Proof.
  induction l as [|a l IH]; intros I N; cbn [map]; [constructor|]. inversion N as [|? ? NI N']; subst. constructor.
  - intros M. apply in_map_iff in M as (y & E & Iy). apply NI. rewrite (I a y); [exact Iy|now left|now right|congruence].
  - apply IH; [|exact N']. intros x y Ix Iy. apply I; now right.
Qed.
Lemma opposite_perm n : Permutation (map (opposite n) (seq 0 n)) (seq 0 n).
Proof.
  assert (ND : NoDup (map (opposite n) (seq 0 n))).
  { apply nodup_map_in; [|apply seq_NoDup].
    intros x y Hx Hy E. apply in_seq in Hx, Hy. rewrite <- (opposite_opposite n x), <- (opposite_opposite n y) by lia. now rewrite E. }
  apply NoDup_Permutation; [exact ND|apply seq_NoDup|]. intros x. split; intros I.
  - apply in_map_iff in I as (y & <- & Iy). apply in_seq in Iy. apply in_seq. pose proof (opposite_lt n y). lia.
  - apply in_seq in I. apply in_map_iff. exists (opposite n x). split; [apply opposite_opposite; lia|].
    apply in_seq. pose proof (opposite_lt n x). lia.
Qed.
Lemma csum_opposite (f : nat -> C) n : csum (map (fun i => f (opposite n i)) (seq 0 n)) = csum (map f (seq 0 n)).
Proof. rewrite <- map_map. apply csum_perm, Permutation_map, opposite_perm. Qed.
Lemma total_conjugates a b : conjugates a b -> total b = Cconj (total a).
Proof.
  intros (Er & Ec & H). unfold total. rewrite Er, Ec.
  rewrite (csum_ext _ (fun i => Cconj (csum (map (at2 a (opposite (rows a) i)) (seq 0 (cols a)))))).
  - rewrite csum_conj. f_equal.
    apply (csum_opposite (fun i => csum (map (at2 a i) (seq 0 (cols a))))).
  - intros i Ii. apply in_seq in Ii. rewrite <- (csum_opposite (at2 a (opposite (rows a) i))).
    rewrite <- csum_conj. apply csum_ext. intros j Ij. apply in_seq in Ij. apply H; lia.
Qed.

(** What the function returns, for at least four planes. *)
Definition crossed (p2 p3 : arr2 C) : arr2 C :=
  Arr2 (rows p2) (cols p2) (fun i j => Cscale (Q2Qc (1 # 2)) (at2 p2 i j - at2 (conjugate_mirror p3) i j)%C).
Lemma reformat_four p0 p1 p2 p3 rest :
  crosspol_reformat (p0 :: p1 :: p2 :: p3 :: rest)
  = Ok (p0 :: p1 :: crossed p2 p3 :: conjugate_mirror (crossed p2 p3) :: rest).
Proof. reflexivity. Qed.
Lemma total_crossed p2 p3 : rows p3 = rows p2 -> cols p3 = cols p2 ->
  total (crossed p2 p3) = Cscale (Q2Qc (1 # 2)) (total p2 - Cconj (total p3))%C.
Proof.
  intros Er Ec. rewrite <- (total_conjugates p3 (conjugate_mirror p3) (mirror_conjugates p3)).
  unfold total. change (rows (conjugate_mirror p3)) with (rows p3). change (cols (conjugate_mirror p3)) with (cols p3).
  rewrite Er, Ec. cbn [crossed rows cols at2]. rewrite <- csum_half. apply csum_ext. intros i _. apply csum_half.
Qed.
