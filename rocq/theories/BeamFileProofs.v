(** Proofs about the beam file. *)
From Coq Require Import String Ascii.
From Verif Require Import Base H5IO H5IOSpec H5IOProofs BeamFile BeamFileSpec.
Import ListNotations.
Open Scope nat_scope.
Open Scope list_scope.

Lemma rfind_none s : no_dot s = true -> rfind_dot s = None.
Proof.
  induction s as [|c s IH]; [reflexivity|]. cbn [no_dot rfind_dot]. intros H. apply andb_true_iff in H as [H1 H2].
  rewrite (IH H2). now destruct (Ascii.eqb c ".").
Qed.
Lemma rfind_app a ext : no_dot ext = true -> rfind_dot (a ++ "." ++ ext) = Some (String.length a).
Proof.
  intros H. induction a as [|c a IH]; cbn [append rfind_dot String.length].
  - now rewrite (rfind_none ext H).
  - cbn [append] in IH. now rewrite IH.
Qed.
Lemma substring_all s : substring 0 (String.length s) s = s.
Proof. induction s as [|c s IH]; cbn; [reflexivity|now rewrite IH]. Qed.
Lemma substring_pre a b : substring 0 (String.length a) (a ++ b) = a.
Proof. induction a as [|c a IH]; cbn; [now destruct b|now rewrite IH]. Qed.
Lemma substring_post a b : substring (String.length a) (String.length b) (a ++ b) = b.
Proof. induction a as [|c a IH]; cbn; [apply substring_all|exact IH]. Qed.
Lemma length_app a b : String.length (a ++ b) = String.length a + String.length b.
Proof. induction a; cbn; [reflexivity|now rewrite IHa]. Qed.

Lemma split_named s st ext : named s st ext -> split_name s = (st, ("." ++ ext)%string).
Proof.
  intros (-> & Hs & He & Hd). unfold split_name. rewrite (rfind_app st ext Hd).
  destruct (Nat.ltb_spec 0 (String.length st)) as [H|H]; [|destruct st; [congruence|cbn in H; lia]].
  assert (L : String.length (st ++ "." ++ ext) = String.length st + S (String.length ext)) by (rewrite length_app; reflexivity).
  rewrite L. destruct (Nat.ltb_spec (String.length st) (String.length st + S (String.length ext) - 1)) as [H2|H2].
  2: { destruct ext; [congruence|cbn [String.length] in H2; lia]. }
  cbn [andb]. f_equal; [apply substring_pre|].
  replace (String.length st + S (String.length ext) - String.length st) with (String.length ("." ++ ext)) by (cbn; lia).
  apply substring_post.
Qed.
Lemma suffix_named s st ext : named s st ext -> suffix s = ("." ++ ext)%string.
Proof. intros H. unfold suffix. now rewrite (split_named s st ext H). Qed.
Lemma stem_named s st ext : named s st ext -> stem s = st.
Proof. intros H. unfold stem. now rewrite (split_named s st ext H). Qed.
Lemma fpath_eqb_spec a b : fpath_eqb a b = true <-> a = b.
Proof.
  destruct a as [a a'], b as [b b']. unfold fpath_eqb. cbn. rewrite andb_true_iff, !String.eqb_eq. split; [intros [-> ->]; reflexivity|].
  intros H. injection H. auto.
Qed.

(** Transposition. *)
Lemma nth_map_in {A B} (f : A -> B) l i x y : i < length l -> nth i (map f l) y = f (nth i l x).
Proof. intros H. rewrite (nth_indep _ y (f x)) by (now rewrite map_length). apply map_nth. Qed.
Lemma nth_seq0 n i d : i < n -> nth i (seq 0 n) d = i.
Proof. intros H. now rewrite seq_nth. Qed.

Section Box.
Context {A : Type} (x : A) (nb nf np : nat) (a : list (list (list A))).
Hypothesis Hbox : box (S nb) (S nf) (S np) a.
Lemma box_row b : b <= nb -> In (nth b a []) a.
Proof. intros H. apply nth_In. destruct Hbox as [L _]. lia. Qed.
Lemma box_len1 b : b <= nb -> length (nth b a []) = S nf.
Proof. intros H. apply (proj2 Hbox), box_row, H. Qed.
Lemma box_len2 b f : b <= nb -> f <= nf -> length (nth f (nth b a []) []) = S np.
Proof.
  intros H H2. apply (proj2 (proj2 Hbox (nth b a []) (box_row b H))). apply nth_In. rewrite box_len1; lia.
Qed.
Lemma transpose3_eq : transpose3 x a
  = map (fun k => map (fun j => map (fun row => nth k (nth j row []) x) a) (seq 0 (S nf))) (seq 0 (S np)).
Proof. unfold transpose3. rewrite box_len1, box_len2 by lia. reflexivity. Qed.
End Box.

(** Pieces of equal length put together. *)
Lemma piece_concat {A} m (l : list (list A)) i : (forall y, In y l -> length y = m) -> i < length l ->
  firstn m (skipn (i * m) (concat l)) = nth i l [].
Proof.
  revert i. induction l as [|y l IH]; intros i H Hi; [cbn in Hi; lia|]. cbn [concat].
  assert (Hy : length y = m) by (apply H; now left). destruct i as [|i]; cbn [nth].
  - cbn [Nat.mul skipn]. rewrite firstn_app, Hy, Nat.sub_diag, firstn_O, app_nil_r. apply firstn_all2. lia.
  - replace (S i * m) with (m + i * m) by lia. rewrite skipn_app, skipn_all2 by lia. cbn [app].
    replace (m + i * m - length y) with (i * m) by lia. apply IH; [intros; apply H; now right|cbn in Hi; lia].
Qed.
Lemma length_concat_eq {A} m (l : list (list A)) : (forall y, In y l -> length y = m) -> length (concat l) = length l * m.
Proof.
  induction l as [|y l IH]; intros H; [reflexivity|]. cbn [concat length]. rewrite app_length, IH by (intros; apply H; now right).
  rewrite (H y) by now left. lia.
Qed.
Lemma nth_concat {A} m (l : list (list A)) i j d : (forall y, In y l -> length y = m) -> i < length l -> j < m ->
  nth (i * m + j) (concat l) d = nth j (nth i l []) d.
Proof.
  intros H Hi Hj. rewrite <- (piece_concat m l i H Hi).
  assert (E : forall (z : list A) k, j < m -> nth j (firstn m (skipn k z)) d = nth (k + j) z d).
  { intros z k _. transitivity (nth j (skipn k z) d).
    - rewrite <- (firstn_skipn m (skipn k z)) at 2. destruct (Nat.lt_ge_cases j (length (firstn m (skipn k z)))) as [L|L].
      + now rewrite app_nth1.
      + rewrite (nth_overflow _ d L), app_nth2 by exact L. rewrite firstn_length in L.
        rewrite nth_overflow; [reflexivity|]. rewrite skipn_length. lia.
    - clear. revert k. induction z as [|a z IH]; intros k; [rewrite skipn_nil; destruct j, (k + 0), k; reflexivity|].
      destruct k; [reflexivity|]. cbn [skipn Nat.add nth]. apply IH. }
  now rewrite E.
Qed.

Lemma shape_eqb_refl s : shape_eqb s s = true.
Proof. unfold shape_eqb. destruct (list_eq_dec Nat.eq_dec s s); congruence. Qed.

(** The beam array holds the entries of the first baseline. *)
Definition table (beam : list (list (list entry))) (nf np : nat) : list (list entry) :=
  map (fun p => map (fun f => nth p (nth f (nth 0 beam []) []) ([], [])) (seq 0 (S nf))) (seq 0 (S np)).

Lemma beam_array_ok beam nb nf np shape : box (S nb) (S nf) (S np) beam -> entries_of shape beam ->
  beam_array beam = Ok (S np :: S nf :: shape, concat (map snd (concat (table beam nf np)))).
Proof.
  intros Hb He. unfold beam_array. rewrite (transpose3_eq _ nb nf np _ Hb).
  assert (Hbox := Hb). destruct Hb as [L _]. destruct beam as [|x0 beam]; [discriminate L|]. cbn [bind]. set (a := x0 :: beam) in *.
  assert (T : map (map (fun row : list entry => nth 0 row ([], [])))
      (map (fun k => map (fun j => map (fun row : list (list entry) => @nth entry k (nth j row []) ([], [])) a) (seq 0 (S nf))) (seq 0 (S np)))
    = table a nf np).
  { unfold table. rewrite map_map. apply map_ext. intros p. rewrite map_map. apply map_ext. intros f. reflexivity. }
  unfold entry in T |- *. rewrite T. fold entry in *. assert (Hin : forall e, In e (concat (table a nf np)) -> fst e = shape).
  { intros e H. apply in_concat in H as (row & Hr & He'). apply in_map_iff in Hr as (p & <- & Hp). apply in_map_iff in He' as (f & <- & Hf).
    apply in_seq in Hp. apply in_seq in Hf. apply (He (nth 0 a []) (nth f (nth 0 a []) [])).
    - apply (box_row nb nf np a Hbox). lia.
    - apply nth_In. rewrite (box_len1 nb nf np a Hbox); lia.
    - apply nth_In. rewrite (box_len2 nb nf np a Hbox); lia. }
  destruct (concat (table a nf np)) as [|e l] eqn:E.
  { exfalso. unfold table in E. cbn [seq map concat app] in E. discriminate E. }
  assert (Es : fst e = shape) by (apply Hin; now left). rewrite Es.
  assert (Hf : forallb (fun x => shape_eqb (fst x) shape) (e :: l) = true).
  { apply forallb_forall. intros y Hy. rewrite (Hin y Hy). apply shape_eqb_refl. }
  assert (L1 : length (table a nf np) = S np) by (unfold table; now rewrite map_length, seq_length).
  assert (L2 : length (nth 0 (table a nf np) []) = S nf) by (unfold table; cbn [seq map nth length]; now rewrite map_length, seq_length).
  unfold entry in L1, L2, Hf |- *. rewrite Hf, L1, L2. reflexivity.
Qed.

Lemma table_len beam nf np : length (concat (table beam nf np)) = S np * S nf.
Proof.
  rewrite (length_concat_eq (S nf)).
  - unfold table. now rewrite map_length, seq_length.
  - intros y H. apply in_map_iff in H as (p & <- & _). now rewrite map_length, seq_length.
Qed.
Lemma table_nth beam nf np p f : p <= np -> f <= nf ->
  nth (p * S nf + f) (concat (table beam nf np)) ([], []) = nth p (nth f (nth 0 beam []) []) ([], []).
Proof.
  intros Hp Hf. rewrite (nth_concat (S nf)).
  - unfold table. rewrite (nth_map_in _ _ _ 0) by (rewrite seq_length; lia). rewrite nth_seq0 by lia.
    rewrite (nth_map_in _ _ _ 0) by (rewrite seq_length; lia). now rewrite nth_seq0 by lia.
  - intros y H. apply in_map_iff in H as (p' & <- & _). now rewrite map_length, seq_length.
  - unfold table. rewrite map_length, seq_length. lia.
  - lia.
Qed.
Lemma table_entry beam nb nf np shape e : box (S nb) (S nf) (S np) beam -> entries_of shape beam ->
  In e (concat (table beam nf np)) -> length (snd e) = prod_nat shape.
Proof.
  intros Hb He H. apply in_concat in H as (row & Hr & He'). apply in_map_iff in Hr as (p & <- & Hp). apply in_map_iff in He' as (f & <- & Hf).
  apply in_seq in Hp. apply in_seq in Hf. apply (He (nth 0 beam []) (nth f (nth 0 beam []) [])).
  - apply (box_row nb nf np beam Hb). lia.
  - apply nth_In. rewrite (box_len1 nb nf np beam Hb); lia.
  - apply nth_In. rewrite (box_len2 nb nf np beam Hb); lia.
Qed.
Lemma beam_piece beam nb nf np shape p f : box (S nb) (S nf) (S np) beam -> entries_of shape beam -> p <= np -> f <= nf ->
  piece (S nf) (prod_nat shape) (concat (map snd (concat (table beam nf np)))) p f = sav_entry beam 0 f p.
Proof.
  intros Hb He Hp Hf. unfold piece, sav_entry. rewrite piece_concat.
  - rewrite (nth_map_in _ _ _ ([], [])); [now rewrite table_nth|]. rewrite table_len. nia.
  - intros y H. apply in_map_iff in H as (e & <- & H). now apply (table_entry beam nb nf np shape e Hb He).
  - rewrite map_length, table_len. nia.
Qed.

(** The group array. *)
Lemma id_array_ok ids nb nf np : box (S nb) (S nf) (S np) ids -> exists l,
  id_array ids = VArr [S np; S nf; S nb] (EInt l)
  /\ (forall p f b, p <= np -> f <= nf -> b <= nb -> nth ((p * S nf + f) * S nb + b) l 0%Z = id_entry ids b f p)
  /\ (forall z, In z l -> exists x y, In x ids /\ In y x /\ In z y).
Proof.
  intros Hb. assert (La := proj1 Hb). unfold id_array. rewrite (transpose3_eq _ nb nf np _ Hb).
  set (t := map _ (seq 0 (S np))).
  assert (H0 : nth 0 t [] = map (fun j => map (fun row => nth 0 (nth j row []) 0%Z) ids) (seq 0 (S nf))) by reflexivity.
  assert (H1 : nth 0 (nth 0 t []) [] = map (fun row => nth 0 (nth 0 row []) 0%Z) ids) by reflexivity.
  assert (Lt : length t = S np) by (unfold t; now rewrite map_length, seq_length).
  rewrite H1, H0, Lt, !map_length, seq_length, La. exists (concat (concat t)). split; [reflexivity|]. split.
  - intros p f b Hp Hf Hbb.
    assert (Ht : forall y, In y t -> length y = S nf).
    { intros y H. unfold t in H. apply in_map_iff in H as (k & <- & _). now rewrite map_length, seq_length. }
    rewrite (nth_concat (S nb)).
    + rewrite (nth_concat (S nf)); [|exact Ht|lia|lia]. unfold t. rewrite (nth_map_in _ _ _ 0) by (rewrite seq_length; lia).
      rewrite nth_seq0 by lia. rewrite (nth_map_in _ _ _ 0) by (rewrite seq_length; lia). rewrite nth_seq0 by lia.
      rewrite (nth_map_in _ _ _ []) by (rewrite La; lia). reflexivity.
    + intros y H. apply in_concat in H as (z & Hz & H). unfold t in Hz. apply in_map_iff in Hz as (k & <- & _).
      apply in_map_iff in H as (j & <- & _). now rewrite map_length.
    + rewrite (length_concat_eq (S nf) t Ht), Lt. nia.
    + lia.
  - intros z H. apply in_concat in H as (y & Hy & H). apply in_concat in Hy as (w & Hw & Hy). unfold t in Hw.
    apply in_map_iff in Hw as (k & <- & Hk). apply in_map_iff in Hy as (j & <- & Hj). apply in_map_iff in H as (row & <- & Hr).
    apply in_seq in Hk. apply in_seq in Hj. destruct (proj2 Hb row Hr) as [L1 L2]. exists row, (nth j row []).
    assert (Hin : In (nth j row []) row) by (apply nth_In; lia). repeat split; auto. apply nth_In. rewrite (L2 _ Hin). lia.
Qed.

(** Values that HDF5 holds as they are have no missing entries. *)
Lemma plain_full lib chunk : forall v k, plain lib chunk k v -> full v.
Proof.
  intros v. induction v as [l IH|s e|s e|s|t|] using value_ind'; intros k H; try exact I.
  - cbn [plain] in H. destruct H as [_ H]. cbn [full]. induction l as [|[k' x] l IHl]; [exact I|]. destruct H as [[_ Hx] Hl].
    inversion_clear IH as [|? ? I1 I2]. split; [exact (I1 k' Hx)|]. exact (IHl I2 Hl).
  - cbn [plain] in H. destruct H as (_ & He & _). cbn [full]. destruct e; cbn in *; auto.
Qed.
