From Coq Require Import Permutation Lqa.
From Coq Require Import ZifyBool ZifyNat.
From Verif Require Import Base SortLib Cplx Utils1 Utils1Spec.
Open Scope nat_scope.

(** ** idl_argunique *)
Lemma filter_map_comm {A B} (p : B -> bool) (f : A -> B) l :
  filter p (map f l) = map f (filter (fun x => p (f x)) l).
Proof. induction l as [|a l IH]; simpl; auto. destruct (p (f a)); simpl; now rewrite IH. Qed.

Lemma dedup_runs l : dedup l = map (fun p => nth p l 0%Z) (filter (ends_run l) (seq 0 (length l))).
Proof.
  induction l as [|x t IH]; auto.
  cbn [length seq]. cbn [filter]. rewrite <- seq_shift, filter_map_comm.
  rewrite (filter_ext (fun p => ends_run (x :: t) (S p)) (ends_run t)) by (intros p; reflexivity).
  assert (E : map (fun p => nth p (x :: t) 0%Z) (map S (filter (ends_run t) (seq 0 (length t)))) = dedup t).
  { rewrite map_map. rewrite IH. reflexivity. }
  destruct t as [|y t']; [reflexivity|].
  change (ends_run (x :: y :: t') 0) with (negb (x =? y)%Z).
  cbn [dedup]. destruct (Z.eqb_spec x y); cbn [negb]; cbn [map].
  - exact (eq_sym E).
  - f_equal. exact (eq_sym E).
Qed.

Lemma searchsorted_run_end arr p : sortedZ arr -> p < length arr -> ends_run arr p = true ->
  searchsorted_right arr (nth p arr 0%Z) = S p.
Proof.
  intros Hs Hp He. destruct (searchsorted_right_spec arr (nth p arr 0%Z) Hs) as (R1 & R2 & R3).
  set (r := searchsorted_right arr (nth p arr 0%Z)) in *.
  destruct (Nat.lt_total r (S p)) as [H|[H|H]]; auto; exfalso.
  - specialize (R3 p ltac:(lia) Hp). lia.
  - unfold ends_run in He. apply orb_true_iff in He. destruct He as [He|He].
    + apply Nat.eqb_eq in He. lia.
    + specialize (R2 (S p) ltac:(lia)). specialize (Hs p (S p) ltac:(lia) ltac:(lia)). lia.
Qed.

Lemma argunique_exact arr : nondecreasing arr ->
  idl_argunique arr = filter (ends_run arr) (seq 0 (length arr)).
Proof.
  intros Hs. unfold idl_argunique, np_unique. rewrite np_sort_id by exact Hs.
  rewrite dedup_runs, map_map. rewrite <- (map_id (filter _ _)) at 2.
  apply map_ext_in. intros p Hp%filter_In. destruct Hp as [Hp%in_seq He].
  rewrite searchsorted_run_end by (auto; lia). lia.
Qed.

(** One position per distinct value. *)
Lemma argunique_values arr : nondecreasing arr ->
  forall v, In v arr -> exists p, (In p (idl_argunique arr) /\ nth p arr 0%Z = v)
    /\ forall q, q < length arr -> nth q arr 0%Z = v -> q <= p.
Proof.
  intros Hs v Hv. rewrite argunique_exact by auto.
  destruct (searchsorted_right_spec arr v Hs) as (R1 & R2 & R3).
  set (r := searchsorted_right arr v) in *.
  destruct (In_nth _ _ 0%Z Hv) as (k & Hk & Ek).
  assert (Hkr : k < r) by (destruct (Nat.lt_ge_cases k r) as [|Hge]; auto; specialize (R3 k Hge Hk); lia).
  assert (Hval : nth (r - 1) arr 0%Z = v).
  { specialize (R2 (r - 1) ltac:(lia)).
    destruct (Nat.eq_dec k (r - 1)) as [<-|Hn]; auto.
    specialize (Hs k (r - 1) ltac:(lia) ltac:(lia)). lia. }
  exists (r - 1). split; [split|].
  - apply filter_In. split; [apply in_seq; lia|]. unfold ends_run.
    destruct (Nat.eqb_spec (S (r - 1)) (length arr)) as [|Hn]; auto. simpl.
    replace (S (r - 1)) with r in * by lia.
    specialize (R3 r ltac:(lia) ltac:(lia)). rewrite Hval. lia.
  - exact Hval.
  - intros q Hq Eq. destruct (Nat.lt_ge_cases q r) as [|Hge]; [lia|].
    specialize (R3 q Hge Hq). lia.
Qed.

(** ** deriv_coefficients *)
Lemma deriv_update_length c m : 1 <= m -> m < length c -> length (deriv_update c m) = length c.
Proof.
  intros H1 H2. unfold deriv_update.
  rewrite !app_length, map_length, combine_length, map_length, !slice_length, skipn_length, firstn_length by lia.
  lia.
Qed.

Lemma deriv_update_nth c m j : 1 <= m -> m < length c ->
  (nth j (deriv_update c m) 0 ==
   if (1 <=? j) && (j <=? m)
   then nth j c 0 - inject_Z (Z.of_nat m) * nth (j - 1) c 0 else nth j c 0)%Q.
Proof.
  intros H1 H2. unfold deriv_update.
  assert (Hc : c <> []) by (destruct c; simpl in *; [lia|discriminate]).
  destruct j as [|j].
  - destruct c as [|x c]; [congruence|]. simpl. apply Qeq_refl.
  - rewrite app_nth2 by (rewrite firstn_length; lia).
    rewrite firstn_length. replace (S j - Nat.min 1 (length c)) with j by lia.
    destruct (Nat.leb_spec (S j) m) as [Hj|Hj].
    + rewrite app_nth1 by (rewrite map_length, combine_length, map_length, !slice_length by lia; lia).
      rewrite (nth_map_lt _ _ _ (0%Q, 0%Q))
        by (rewrite combine_length, map_length, !slice_length by lia; lia).
      rewrite combine_nth by (rewrite map_length, !slice_length by lia; lia).
      rewrite (nth_map_lt _ _ _ 0%Q) by (rewrite slice_length by lia; lia).
      rewrite !nth_slice by lia. cbn [fst snd].
      replace (S j - 1) with (0 + j) by lia. replace (1 + j) with (S j) by lia.
      rewrite inject_Z_opp. simpl. ring.
    + rewrite app_nth2 by (rewrite map_length, combine_length, map_length, !slice_length by lia; lia).
      rewrite map_length, combine_length, map_length, !slice_length by lia.
      rewrite nth_skipn. simpl andb.
      replace (m + 1 + (j - Nat.min (m + 1 - 1) (m - 0))) with (S j) by lia. apply Qeq_refl.
Qed.

Lemma qsum_ext n f g : (forall k, k < n -> (f k == g k)%Q) -> (qsum n f == qsum n g)%Q.
Proof.
  induction n as [|n IH]; intros H; simpl; [reflexivity|].
  rewrite IH by (intros; apply H; lia). rewrite (H n) by lia. reflexivity.
Qed.
Lemma qsum_plus n f g : (qsum n (fun k => f k + g k) == qsum n f + qsum n g)%Q.
Proof. induction n as [|n IH]; simpl; [ring|]. rewrite IH. ring. Qed.
Lemma qsum_scale n c f : (qsum n (fun k => c * f k) == c * qsum n f)%Q.
Proof. induction n as [|n IH]; simpl; [ring|]. rewrite IH. ring. Qed.
Lemma qsum_shift n f : (qsum (S n) f == f 0%nat + qsum n (fun k => f (S k)))%Q.
Proof. induction n as [|n IH]; [simpl; ring|]. cbn [qsum] in *. rewrite IH. ring. Qed.

Definition deriv_inv (n m : nat) (c : list Q) : Prop :=
  length c = n /\ (forall k, m < k -> (nth k c 0 == 0)%Q)
  /\ forall a, (qsum (S m) (fun k => nth k c 0 * qpow a (S m - k)) == falling a (S m))%Q.

Lemma deriv_step_inv n m c : deriv_inv n m c -> S m < n -> deriv_inv n (S m) (deriv_update c (S m)).
Proof.
  intros (L & Hz & HF) Hm. split; [|split].
  - rewrite deriv_update_length; lia.
  - intros k Hk. rewrite deriv_update_nth by lia.
    replace ((1 <=? k) && (k <=? S m)) with false by lia. apply Hz. lia.
  - intros a.
    rewrite (qsum_ext _ _ (fun k => nth k c 0 * qpow a (S (S m) - k)
        + (if k =? 0 then 0 else - inject_Z (Z.of_nat (S m)) * (nth (k - 1) c 0 * qpow a (S (S m) - k))))%Q).
    2:{ intros k Hk. rewrite deriv_update_nth by lia.
        destruct (Nat.eqb_spec k 0) as [->|Hk0].
        - simpl. ring.
        - replace ((1 <=? k) && (k <=? S m)) with true by lia. ring. }
    rewrite qsum_plus. rewrite (qsum_shift _ (fun k => if k =? 0 then _ else _)). cbn [Nat.eqb].
    rewrite (qsum_ext (S m) (fun k => - inject_Z (Z.of_nat (S m)) * (nth (S k - 1) c 0 * qpow a (S (S m) - S k)))%Q
                     (fun k => - inject_Z (Z.of_nat (S m)) * (nth k c 0 * qpow a (S m - k)))%Q).
    2:{ intros k Hk. replace (S k - 1) with k by lia. replace (S (S m) - S k) with (S m - k) by lia.
        reflexivity. }
    rewrite qsum_scale, HF.
    change (qsum (S (S m)) ?f) with (qsum (S m) f + f (S m))%Q. cbv beta.
    rewrite (Hz (S m)) by lia.
    rewrite (qsum_ext (S m) _ (fun k => a * (nth k c 0 * qpow a (S m - k)))%Q).
    2:{ intros k Hk. replace (S (S m) - k) with (S (S m - k)) by lia. simpl. ring. }
    rewrite qsum_scale, HF. cbn [falling].
    set (F := falling a m). ring.
Qed.

Lemma deriv_loop_inv n k : k < n ->
  deriv_inv n k (fold_left deriv_update (seq 1 k) (1%Q :: repeat 0%Q (n - 1))).
Proof.
  induction k as [|k IH]; intros Hk.
  - simpl. split; [simpl; rewrite repeat_length; lia|]. split.
    + intros j Hj. destruct j; [lia|]. simpl.
      destruct (Nat.lt_ge_cases j (n - 1)).
      * rewrite nth_repeat_lt by auto. reflexivity.
      * rewrite nth_overflow by (rewrite repeat_length; lia). reflexivity.
    + intros a. simpl. ring.
  - rewrite seq_S, fold_left_app. simpl. apply deriv_step_inv; auto. apply IH. lia.
Qed.

Lemma deriv_plain n : (1 <= n)%Z ->
  exists c, deriv_coefficients n false = Coeffs c /\ length c = Z.to_nat n
    /\ forall a, (qsum (Z.to_nat n) (fun k => nth k c 0 * qpow a (Z.to_nat n - k)) == falling a (Z.to_nat n))%Q.
Proof.
  intros Hn. unfold deriv_coefficients. rewrite (proj2 (Z.leb_gt n 0)) by lia.
  eexists. split; [reflexivity|].
  destruct (deriv_loop_inv (Z.to_nat n) (Z.to_nat n - 1) ltac:(lia)) as (L & _ & HF).
  fold (deriv_loop (Z.to_nat n)) in *. split; [exact L|].
  replace (S (Z.to_nat n - 1)) with (Z.to_nat n) in HF by lia. exact HF.
Qed.

Lemma deriv_divided n : (1 <= n)%Z ->
  exists c d, deriv_coefficients n false = Coeffs c /\ deriv_coefficients n true = Coeffs d
    /\ length d = length c
    /\ forall m, m < length c -> (nth m d 0 * inject_Z (fact_Z (m + 1)) == nth m c 0)%Q.
Proof.
  intros Hn. destruct (deriv_plain n Hn) as (c & Hc & L & _).
  exists c. unfold deriv_coefficients in *. rewrite (proj2 (Z.leb_gt n 0)) in * by lia.
  injection Hc as Hc. rewrite Hc. eexists. split; [reflexivity|]. split; [reflexivity|].
  assert (HL : length (combine (seq 0 (Z.to_nat n)) c) = length c).
  { rewrite combine_length, seq_length. lia. }
  split; [now rewrite map_length|]. intros m Hm.
  rewrite (nth_map_lt _ _ _ (0%nat, 0%Q)) by lia.
  rewrite combine_nth by (rewrite seq_length; lia).
  rewrite seq_nth by lia. cbn [fst snd plus].
  assert (Hf : forall k, (0 < fact_Z k)%Z).
  { induction k as [|k IH]; cbn [fact_Z]; lia. }
  field. intros E. specialize (Hf (m + 1)). change 0%Q with (inject_Z 0) in E.
  apply (proj1 (inject_Z_injective (fact_Z (m + 1)) 0)) in E. lia.
Qed.

Lemma deriv_nonpos n d : (n <= 0)%Z -> deriv_coefficients n d = Scalar0.
Proof. intros H. unfold deriv_coefficients. now rewrite (proj2 (Z.leb_le n 0) H). Qed.

(** ** reshape and meshgrid *)
Lemma reshape2_spec {A} (l : list A) r c d : length l = r * c ->
  exists m, reshape2 l r c = Ok m /\ shape2 m r c
    /\ forall i j, i < r -> j < c -> nth2 d m i j = nth (i * c + j) l d.
Proof.
  intros HL. unfold reshape2. rewrite (proj2 (Nat.eqb_eq _ _) HL).
  eexists. split; [reflexivity|].
  assert (Hb : forall i, i < r -> i * c + c <= length l).
  { intros i Hi. rewrite HL. nia. }
  split.
  - split; [now rewrite map_length, seq_length|]. intros i Hi.
    rewrite nth_map_seq by auto. rewrite slice_length by (try lia; auto). lia.
  - intros i j Hi Hj. unfold nth2. rewrite nth_map_seq by auto.
    rewrite nth_slice by lia. reflexivity.
Qed.

Lemma meshgrid_axis dim el axis : 0 < dim ->
  exists m, meshgrid dim el (Some axis) = Ok m /\ shape2 m el dim
    /\ forall r c, r < el -> c < dim -> nth2 0 m r c = if axis =? 2 then r else c.
Proof.
  intros Hd. unfold meshgrid. destruct (axis =? 2).
  - destruct (reshape2_spec (map (fun k => k / dim) (seq 0 (el * dim))) el dim 0) as (m & E & S & H).
    { now rewrite map_length, seq_length. }
    exists m. split; auto. split; auto. intros r c Hr Hc. rewrite H by auto.
    rewrite nth_map_seq by nia. rewrite Nat.div_add_l by lia. rewrite Nat.div_small by lia. lia.
  - destruct (reshape2_spec (map (fun k => k mod dim) (seq 0 (el * dim))) el dim 0) as (m & E & S & H).
    { now rewrite map_length, seq_length. }
    exists m. split; auto. split; auto. intros r c Hr Hc. rewrite H by auto.
    rewrite nth_map_seq by nia. rewrite Nat.add_comm, Nat.mod_add by lia. now apply Nat.mod_small.
Qed.

Lemma meshgrid_square n axis : meshgrid n axis None = meshgrid n n (Some axis).
Proof. reflexivity. Qed.

(** ** Medians *)
Lemma count_perm (p : Z -> bool) l1 l2 : Permutation l1 l2 -> length (filter p l1) = length (filter p l2).
Proof.
  induction 1 as [|x l1 l2 HP IH|x y l|l1 l2 l3 H1 IH1 H2 IH2]; simpl; auto.
  - destruct (p x); simpl; auto.
  - destruct (p x), (p y); simpl; auto.
  - congruence.
Qed.

Lemma count_prefix (p : Z -> bool) l k : k <= length l -> (forall i, i < k -> p (nth i l 0%Z) = true) ->
  k <= length (filter p l).
Proof.
  intros Hk H. rewrite <- (firstn_skipn k l), filter_app, app_length.
  rewrite (filter_all p (firstn k l)).
  - rewrite firstn_length. lia.
  - intros x Hx. destruct (In_nth _ _ 0%Z Hx) as (i & Hi & <-).
    rewrite firstn_length in Hi. rewrite nth_firstn by lia. apply H. lia.
Qed.
Lemma count_suffix (p : Z -> bool) l k : k <= length l ->
  (forall i, k <= i -> i < length l -> p (nth i l 0%Z) = true) ->
  length l - k <= length (filter p l).
Proof.
  intros Hk H. rewrite <- (firstn_skipn k l) at 2. rewrite filter_app, app_length.
  rewrite (filter_all p (skipn k l)).
  - rewrite skipn_length. lia.
  - intros x Hx. destruct (In_nth _ _ 0%Z Hx) as (i & Hi & <-).
    rewrite skipn_length in Hi. rewrite nth_skipn. apply H; lia.
Qed.

Lemma rank_counts x i : i < length x ->
  let v := nth i (np_sort x) 0%Z in
  In v x /\ i + 1 <= count_le x v /\ length x - i <= count_ge x v.
Proof.
  intros Hi v. pose proof (np_sort_sorted x) as Hs.
  assert (HL : length (np_sort x) = length x) by apply isort_length.
  split; [|split].
  - apply (isort_In Z.leb). apply nth_In. unfold np_sort in HL. unfold v, np_sort. lia.
  - unfold count_le. rewrite (count_perm _ x (np_sort x)) by apply isort_perm.
    apply count_prefix; [lia|]. intros j Hj. apply Z.leb_le.
    destruct (Nat.eq_dec j i) as [->|]; [unfold v; lia|]. apply Hs; lia.
  - unfold count_ge. rewrite (count_perm _ x (np_sort x)) by apply isort_perm.
    rewrite <- HL. apply count_suffix; [lia|]. intros j Hj1 Hj2. apply Z.leb_le.
    destruct (Nat.eq_dec j i) as [->|]; [unfold v; lia|]. apply Hs; lia.
Qed.

Lemma idl_median_rank x : 2 <= length x ->
  idl_median_point x = Ok (nth ((length x + 1) / 2) (np_sort x) 0%Z).
Proof.
  intros H. unfold idl_median_point.
  assert (HL : length (np_sort x) = length x) by apply isort_length.
  rewrite (nth_error_nth' _ 0%Z); auto. lia.
Qed.

Lemma idl_median_small x : length x <= 1 -> idl_median_point x = Err IndexError.
Proof.
  destruct x as [|a [|b x]]; simpl; intros H; try lia; reflexivity.
Qed.

Lemma idl_median_even x : Nat.even (length x) = true -> x <> [] ->
  exists v, idl_median_point x = Ok v /\ is_median x v.
Proof.
  intros He Hne. apply Nat.even_spec in He. destruct He as [k Hk].
  assert (1 <= k) by (destruct x; simpl in *; [congruence|lia]).
  rewrite idl_median_rank by lia. eexists; split; [reflexivity|].
  replace ((length x + 1) / 2) with k by lia.
  destruct (rank_counts x k ltac:(lia)) as (H1 & H2 & H3).
  split; auto. lia.
Qed.

Lemma idl_median_odd_wrong x : Nat.even (length x) = false -> 3 <= length x ->
  NoDup x -> exists v, idl_median_point x = Ok v /\ 2 * count_ge x v < length x.
Proof.
  intros Ho H3 Hnd. rewrite idl_median_rank by lia. eexists; split; [reflexivity|].
  assert (HL : length (np_sort x) = length x) by apply isort_length.
  set (i := (length x + 1) / 2).
  assert (Hi : 2 * i = length x + 1).
  { assert (Hodd : Nat.odd (length x) = true) by (unfold Nat.odd; now rewrite Ho).
    apply Nat.odd_spec in Hodd. destruct Hodd as [k Hk].
    unfold i. rewrite Hk. replace (2 * k + 1 + 1) with ((k + 1) * 2) by lia.
    rewrite Nat.div_mul by lia. lia. }
  unfold count_ge. rewrite (count_perm _ x (np_sort x)) by apply isort_perm.
  pose proof (np_sort_sorted x) as Hs.
  assert (Hn : NoDup (np_sort x)) by (eapply Permutation_NoDup; [apply isort_perm|auto]).
  set (v := nth i (np_sort x) 0%Z).
  rewrite <- (firstn_skipn i (np_sort x)).
  rewrite filter_app, app_length, filter_none.
  - pose proof (filter_length_le (fun x0 => v <=? x0)%Z (skipn i (np_sort x))) as Hf.
    rewrite skipn_length in Hf. simpl. lia.
  - intros y Hy. destruct (In_nth _ _ 0%Z Hy) as (j & Hj & <-).
    rewrite firstn_length in Hj. rewrite nth_firstn by lia.
    apply Z.leb_gt. unfold v. pose proof (Hs j i ltac:(lia) ltac:(lia)) as Hle.
    assert (nth j (np_sort x) 0%Z <> nth i (np_sort x) 0%Z); [|lia].
    intros E. apply (proj1 (NoDup_nth (np_sort x) 0%Z) Hn) in E; lia.
Qed.

Lemma idl_filter_length x w : length (idl_median_filter x w) = length x.
Proof. unfold idl_median_filter. now rewrite map_length, seq_length. Qed.

Lemma idl_filter_edges x w k : k < length x -> k < w / 2 \/ length x <= k + w / 2 ->
  nth k (idl_median_filter x w) 0%Z = nth k x 0%Z.
Proof.
  intros Hk H. unfold idl_median_filter. rewrite nth_map_seq by auto.
  replace ((0 <? w / 2) && (w / 2 <=? k) && (k + w / 2 <? length x)) with false by lia. reflexivity.
Qed.

Lemma is_median_rank x i : i < length x -> length x <= 2 * (i + 1) -> length x <= 2 * (length x - i) ->
  is_median x (nth i (np_sort x) 0%Z).
Proof.
  intros Hi H1 H2. destruct (rank_counts x i Hi) as (A & B & D). split; auto. lia.
Qed.

Lemma idl_filter_interior x w k : 2 <= w -> w / 2 <= k -> k + w / 2 < length x ->
  is_median (slice x (k - w / 2) (k - w / 2 + w)) (nth k (idl_median_filter x w) 0%Z)
  /\ length (slice x (k - w / 2) (k - w / 2 + w)) = w.
Proof.
  intros Hw H1 H2. unfold idl_median_filter. rewrite nth_map_seq by lia.
  replace ((0 <? w / 2) && (w / 2 <=? k) && (k + w / 2 <? length x)) with true by lia.
  assert (HL : length (slice x (k - w / 2) (k - w / 2 + w)) = w) by (rewrite slice_length; lia).
  split; auto. unfold window_median. apply is_median_rank; rewrite HL; lia.
Qed.

(** ** Time averaging *)
Lemma concat_rows_nth {A} (m : list (list A)) rows cols d : shape2 m rows cols ->
  length (concat m) = rows * cols
  /\ forall r c, r < rows -> c < cols -> nth (r * cols + c) (concat m) d = nth2 d m r c.
Proof.
  revert rows; induction m as [|row m IH]; intros rows [H1 H2]; simpl in *.
  - subst. split; auto. intros; lia.
  - destruct rows as [|rows]; [lia|]. injection H1 as H1.
    assert (Hrow : length row = cols) by (apply (H2 0); lia).
    destruct (IH rows) as [L N].
    { split; auto. intros r Hr. apply (H2 (S r)). lia. }
    split; [rewrite app_length; lia|].
    intros r c Hr Hc. destruct r as [|r].
    + rewrite app_nth1 by lia. reflexivity.
    + rewrite app_nth2 by lia.
      replace (S r * cols + c - length row) with (r * cols + c) by lia.
      rewrite N by lia. reflexivity.
Qed.

Lemma time_average vis nf nt nbl w : shape2 vis nf (nt * nbl) ->
  exists out, reshape_and_average_in_time vis nf nt nbl (nf, nt, nbl) w = Ok out
    /\ shape2 out nf nbl
    /\ forall f b, f < nf -> b < nbl ->
         nth2 C0 out f b = Csum (map (fun t => Cscale (w f t b) (nth2 C0 vis f (t * nbl + b))) (seq 0 nt)).
Proof.
  intros HS. destruct (concat_rows_nth vis nf (nt * nbl) C0 HS) as [L N].
  unfold reshape_and_average_in_time. rewrite !Nat.eqb_refl. cbn [andb negb].
  rewrite L. replace (nf * (nt * nbl) =? nf * nt * nbl) with true by lia. cbn [negb].
  eexists; split; [reflexivity|]. split.
  - split; [now rewrite map_length, seq_length|]. intros r Hr. rewrite nth_map_seq by auto.
    now rewrite map_length, seq_length.
  - intros f b Hf Hb. unfold nth2 at 1. rewrite nth_map_seq, nth_map_seq by auto.
    f_equal. apply map_ext_in. intros t Ht%in_seq. f_equal.
    rewrite <- Nat.add_assoc. apply N; auto. nia.
Qed.

Lemma time_average_shape vis nf nt nbl ws w : ws <> (nf, nt, nbl) ->
  reshape_and_average_in_time vis nf nt nbl ws w = Err SystemExit.
Proof.
  intros H. unfold reshape_and_average_in_time. destruct ws as [[a b] c].
  destruct ((a =? nf) && (b =? nt) && (c =? nbl)) eqn:E; auto.
  exfalso. apply H. f_equal; [f_equal|]; lia.
Qed.

(** ** Further facts for the property statements *)
Lemma filter_seq_increasing p n : let l := filter p (seq 0 n) in
  forall i j, i < j -> j < length l -> nth i l 0 < nth j l 0.
Proof.
  simpl. assert (G : forall a, let l := filter p (seq a n) in
     (forall x, In x l -> a <= x) /\ forall i j, i < j -> j < length l -> nth i l 0 < nth j l 0).
  { induction n as [|n IH]; intros a; simpl.
    - split; [tauto|intros; lia].
    - destruct (IH (S a)) as [H1 H2]. destruct (p a); simpl.
      + split; [intros x [<-|Hx]; [lia|specialize (H1 x Hx); lia]|].
        intros [|i] [|j] Hij Hj; try lia.
        * specialize (H1 (nth j (filter p (seq (S a) n)) 0) ltac:(apply nth_In; lia)). lia.
        * apply H2; lia.
      + split; [intros x Hx; specialize (H1 x Hx); lia|exact H2]. }
  apply (G 0).
Qed.

Lemma fact_Z_fact n : fact_Z n = Z.of_nat (fact n).
Proof. induction n as [|n IH]; auto. cbn [fact_Z]. rewrite IH. simpl fact. lia. Qed.

Lemma deriv_divided_fact n : (1 <= n)%Z ->
  exists c d, deriv_coefficients n false = Coeffs c /\ deriv_coefficients n true = Coeffs d
    /\ length d = length c
    /\ forall m, m < length c -> (nth m d 0 * inject_Z (Z.of_nat (fact (m + 1))) == nth m c 0)%Q.
Proof.
  intros H. destruct (deriv_divided n H) as (c & d & A & B & D & E).
  exists c, d. split; auto. split; auto. split; auto. intros m Hm.
  rewrite <- fact_Z_fact. auto.
Qed.

Lemma argunique_runs arr : nondecreasing arr ->
  let u := idl_argunique arr in
  (arr <> [] -> u <> [] /\ nth (length u - 1) u 0 = length arr - 1)
  /\ (forall i j, i < j -> j < length u -> nth i u 0 < nth j u 0)
  /\ (forall i q, i < length u -> (if i =? 0 then 0 else S (nth (i - 1) u 0)) <= q -> q <= nth i u 0 ->
        nth q arr 0%Z = nth (nth i u 0) arr 0%Z).
Proof.
  intros Hs u. assert (Eu : u = filter (ends_run arr) (seq 0 (length arr))) by now apply argunique_exact.
  assert (Inc : forall i j, i < j -> j < length u -> nth i u 0 < nth j u 0).
  { rewrite Eu. apply filter_seq_increasing. }
  assert (Mem : forall p, In p u <-> p < length arr /\ ends_run arr p = true).
  { intros p. rewrite Eu, filter_In, in_seq. intuition lia. }
  split; [|split]; auto.
  - intros Hne. assert (HL : length arr <> 0) by (destruct arr; simpl; congruence).
    assert (Hin : In (length arr - 1) u).
    { apply Mem. split; [lia|]. unfold ends_run. replace (S (length arr - 1)) with (length arr) by lia.
      now rewrite Nat.eqb_refl. }
    split; [intros E; now rewrite E in Hin|].
    destruct (In_nth _ _ 0 Hin) as (k & Hk & Ek).
    destruct (Nat.eq_dec k (length u - 1)) as [<-|Hn]; auto.
    specialize (Inc k (length u - 1) ltac:(lia) ltac:(lia)).
    destruct (proj1 (Mem (nth (length u - 1) u 0)) ltac:(apply nth_In; lia)). lia.
  - intros i q Hi H1 H2.
    assert (Hp : nth i u 0 < length arr) by (apply Mem, nth_In; auto).
    (* no run ends in [q, p) *)
    assert (Hno : forall r, q <= r -> r < nth i u 0 -> ends_run arr r = false).
    { intros r Hr1 Hr2. destruct (ends_run arr r) eqn:E; auto. exfalso.
      assert (Hin : In r u) by (apply Mem; split; auto; lia).
      destruct (In_nth _ _ 0 Hin) as (k & Hk & Ek).
      destruct (Nat.lt_total k i) as [Hki|[Hki|Hki]].
      - destruct (Nat.eqb_spec i 0); [lia|].
        destruct (Nat.eq_dec k (i - 1)) as [->|]; [lia|].
        specialize (Inc k (i - 1) ltac:(lia) ltac:(lia)). lia.
      - subst k. lia.
      - specialize (Inc i k Hki Hk). lia. }
    remember (nth i u 0 - q) as d eqn:Ed. revert q H1 H2 Hno Ed.
    induction d as [|d IH]; intros q H1 H2 Hno Ed.
    + f_equal. lia.
    + rewrite <- (IH (S q)); try lia.
      * specialize (Hno q ltac:(lia) ltac:(lia)). unfold ends_run in Hno.
        apply orb_false_iff in Hno. destruct Hno as [_ Hno]. lia.
      * intros r Hr1 Hr2. apply Hno; lia.
Qed.
