From Coq Require Import String.
From Verif Require Import Base PyIndex Cplx NpArr VisWeights Obs TransferBp TransferBpSpec.
Import ListNotations.
Open Scope nat_scope.
Open Scope list_scope.

Lemma fill_shape {A} shape (a b : ndarr A) : nd_fill shape a = Ok b -> nd_shape b = shape.
Proof. unfold nd_fill. destruct (fits _ _); intros E; inversion E; reflexivity. Qed.
Lemma gains_shape o i a g : gains o i a = Ok g -> nd_shape g = [Nat.min (b_pol o) 2; b_tile o; b_freq o].
Proof.
  unfold gains. destruct (negb _); [discriminate|]. unfold bind.
  destruct (nd_take 4 0 a) as [x|]; [|discriminate]. destruct (nd_take 2 0 x) as [y|]; [|discriminate].
  destruct (nd_take 4 1 a) as [x'|]; [|discriminate]. destruct (nd_take 2 0 x') as [y'|]; [|discriminate].
  apply fill_shape.
Qed.
Lemma bind_some {A B} (x : result (option A)) (f : A -> result (option B)) r :
  (s <- x ;; match s with None => Ok None | Some a => f a end) = Ok (Some r) ->
  exists a, x = Ok (Some a) /\ f a = Ok (Some r).
Proof. destruct x as [[a|]|e]; cbn; intros E; try discriminate. now exists a. Qed.
Lemma bind_inv {A B} (x : result A) (f : A -> result B) r : (a <- x ;; f a) = Ok r -> exists a, x = Ok a /\ f a = Ok r.
Proof. destruct x as [a|e]; cbn; intros E; [now exists a|discriminate]. Qed.

Section Read.
  Variable finer : ndarr Q -> result (ndarr Q).
  Variable pointing : Q -> option nat.

  Lemma read_shape f o i g : read_bandpass finer pointing f o i = Ok (Some g) ->
    nd_shape g = [Nat.min (b_pol o) 2; b_tile o; b_freq o].
  Proof.
    unfold read_bandpass. intros E.
    apply bind_inv in E as (? & _ & E). apply bind_inv in E as (? & _ & E). apply bind_inv in E as (? & _ & E).
    destruct (contains _ _); [discriminate|].
    apply bind_inv in E as (? & _ & E). apply bind_inv in E as (? & _ & E). apply bind_inv in E as (? & _ & E).
    apply bind_inv in E as (? & _ & E). apply bind_inv in E as (? & _ & E). apply bind_inv in E as ([a|] & _ & E); [|discriminate].
    do 8 (apply bind_inv in E as (? & _ & E)). destruct (_ <? _); [discriminate|].
    apply bind_inv in E as (? & _ & E). apply bind_inv in E as ([?|] & _ & E); [|discriminate].
    apply bind_inv in E as ([?|] & _ & E); [|discriminate]. destruct (negb _); [discriminate|].
    apply bind_inv in E as (g' & G & E). inversion E; subst. now apply gains_shape in G.
  Qed.

  (** ** Reading a standard file *)
  Definition sliced (o : bp_obs) (pols : nat) (a : ndarr Q) := if b_pol o <? pols then nd_slice 3 (b_pol o) a else a.
  Definition turned (o : bp_obs) (orient : string) (a : ndarr Q) : result (ndarr Q) :=
    if (String.eqb orient "north" || String.eqb orient "south")%string then
            (a <- swap 0 1 a ;; if 2 <? b_pol o then swap 2 3 a else Ok a) else Ok a.
  Definition finish f o i n_time int_time time_delt time_start (n_ant : nat) (a : ndarr Q) : result (option (ndarr Q)) :=
    s <- match_time pointing f o n_time int_time time_delt time_start a ;;
    match s with None => Ok None | Some a =>
    if negb (n_ant =? b_tile o) then Ok None else g <- gains o i a ;; Ok (Some g) end.

  Lemma read_standard f o i tiles channels times pols n_data : calibration f tiles channels times pols n_data ->
    exists int_time width orient start time_delt time_start,
      c_num f "inttime" = Some int_time /\ c_num f "chwidth" = Some width /\ c_str f "xorient" = Some orient
      /\ c_num f "crval4" = Some start /\ read_bandpass finer pointing f o i =
         if pols <? b_pol o then Ok None else
         a <- turned o orient (sliced o pols (c_data f)) ;;
         s <- match_channels finer f o width start a ;;
         match s with None => Ok None | Some a => finish f o i times int_time time_delt time_start tiles a end.
  Proof.
    intros (((nj & J) & (it & I) & (w & W) & (or & O) & C) & (ct & CT & ND) & (NA & AX & SH)). cbn [List.length] in NA.
    destruct (C "crval2"%string) as (v2 & V2); [cbn; tauto|]. destruct (C "crval3"%string) as (v3 & V3); [cbn; tauto|].
    destruct (C "crval4"%string) as (v4 & V4); [cbn; tauto|]. destruct (C "cdelt2"%string) as (d2 & D2); [cbn; tauto|].
    destruct (C "cdelt3"%string) as (d3 & D3); [cbn; tauto|].
    exists it, w, or, v4, d3, v3. repeat (split; [assumption|]).
    destruct (AX 0 _ _ eq_refl) as (T0 & N0). destruct (AX 1 _ _ eq_refl) as (T1 & N1). destruct (AX 2 _ _ eq_refl) as (T2 & N2).
    destruct (AX 3 _ _ eq_refl) as (T3 & N3). destruct (AX 4 _ _ eq_refl) as (T4 & N4).
    unfold read_bandpass. unfold need at 1 2 3. rewrite NA, J, CT. cbn [bind]. rewrite ND.
    unfold need at 1 2 3. rewrite I, W, O. cbn [bind].
    cbn [seq map_res bind]. unfold need at 1 2 3 4 5. rewrite N0, N1, N2, N3, N4. cbn [bind].
    unfold need at 1 2 3 4 5. rewrite T0, T1, T2, T3, T4. cbn [bind].
    unfold standard. change (first_axis "narrays" _) with (@Ok nat 0). change (first_axis "antaxis" _) with (@Ok nat 4).
    change (first_axis "freqs" _) with (@Ok nat 3). change (first_axis "time" _) with (@Ok nat 2).
    change (first_axis "jones" _) with (@Ok nat 1). cbn [bind Nat.eqb andb].
    unfold need. rewrite V2, V3, V4, D2, D3. cbn [bind].
    rewrite SH. cbn [map snd rev app nth_res nth_error bind nth]. reflexivity.
  Qed.

  Lemma channels_same f o w start a : (w == b_freq_res o)%Q -> match_channels finer f o w start a = Ok (Some a).
  Proof. intros E. unfold match_channels. apply Qeq_bool_iff in E. now rewrite E. Qed.

  Lemma take_rank {A} k i (a b : ndarr A) : nd_take k i a = Ok b -> S (List.length (nd_shape b)) = List.length (nd_shape a).
  Proof.
    unfold nd_take. destruct (skipn k (nd_shape a)) as [|n s] eqn:E; [discriminate|]. destruct (i <? n); [|discriminate].
    intros H; inversion H; subst; cbn. rewrite app_length. rewrite <- (firstn_skipn k (nd_shape a)) at 2. rewrite app_length, E. cbn. lia.
  Qed.
  Lemma slice_rank {A} k h (a : ndarr A) : List.length (nd_shape (nd_slice k h a)) = List.length (nd_shape a).
  Proof.
    unfold nd_slice. cbn. pose proof (f_equal (@List.length nat) (firstn_skipn k (nd_shape a))) as E. rewrite app_length in *.
    destruct (skipn k (nd_shape a)); exact E.
  Qed.
  Lemma sliced_rank o p a : List.length (nd_shape (sliced o p a)) = List.length (nd_shape a).
  Proof. unfold sliced. destruct (_ <? _); [apply slice_rank|reflexivity]. Qed.
  Lemma swap_shape i j a b : swap i j a = Ok b -> nd_shape b = nd_shape a.
  Proof. unfold swap. destruct (skipn 3 (nd_shape a)); [discriminate|]. destruct (_ && _); intros E; inversion E; reflexivity. Qed.
  Lemma turned_shape o s a b : turned o s a = Ok b -> nd_shape b = nd_shape a.
  Proof.
    unfold turned. destruct (_ || _)%bool; [|intros E; inversion E; reflexivity].
    intros E. apply bind_inv in E as (x & X & E). apply swap_shape in X. rewrite <- X.
    destruct (2 <? b_pol o); [now apply swap_shape in E|inversion E; reflexivity].
  Qed.
  (** Several times leave too few axes. *)
  Lemma finish_times f o i n it td ts ta a : List.length (nd_shape a) = 5 -> n <> 1 ->
    forall g, finish f o i n it td ts ta a <> Ok (Some g).
  Proof.
    intros L N g E. unfold finish in E. apply bind_some in E as (b & M & E). unfold match_time in M.
    apply Nat.eqb_neq in N. rewrite N in M.
    assert (R : exists k, nd_take 2 k a = Ok b).
    { destruct (_ || _)%bool.
      - destruct (pointing ts) as [k|]; [|discriminate]. exists k. apply bind_inv in M as (r & T & M). inversion M; subst; exact T.
      - destruct (_ =? _)%Z; [discriminate|]. destruct (n =? 0); [discriminate|]. destruct (_ || _)%bool; [discriminate|].
        exists 0. apply bind_inv in M as (r & T & M). inversion M; subst; exact T. }
    destruct R as (k & R). apply take_rank in R. rewrite L in R. destruct (negb (ta =? b_tile o)); [discriminate|].
    unfold gains in E. replace (List.length (nd_shape b)) with 4 in E by lia. cbn in E. discriminate.
  Qed.
  Lemma finish_one f o i it td ts ta a :
    finish f o i 1 it td ts ta a = if ta =? b_tile o then (g <- gains o i a ;; Ok (Some g)) else Ok None.
  Proof. unfold finish, match_time. cbn [Nat.eqb bind]. now destruct (ta =? b_tile o). Qed.
End Read.

(** ** The gains of a five-dimensional array *)
Lemma gains_five o i a n0 n1 n3 n4 : nd_shape a = [n0; n1; 1; n3; n4] -> 2 <= n4 ->
  exists h, gains o i a = nd_fill [Nat.min (b_pol o) 2; b_tile o; b_freq o] (squeeze (NdArr [n0; n1; Nat.min (b_pol o) n3] h))
    /\ forall x y z, h [x; y; z] = stored i (nd_at a [x; y; 0; z; 0]) (nd_at a [x; y; 0; z; 1]).
Proof.
  intros SH D. unfold gains. rewrite SH. cbn [List.length Nat.eqb negb].
  unfold nd_take. rewrite SH. cbn [skipn firstn app bind].
  destruct (Nat.ltb_spec 0 n4); [|lia]. destruct (Nat.ltb_spec 1 n4); [|lia].
  cbn [bind nd_shape skipn Nat.ltb Nat.leb firstn app]. unfold nd_slice, squeeze. cbn [nd_shape firstn skipn app nd_at].
  exists (fun idx => let j := firstn 2 idx ++ 0 :: skipn 2 idx in
                     stored i (nd_at a (firstn 4 j ++ 0 :: skipn 4 j)) (nd_at a (firstn 4 j ++ 1 :: skipn 4 j))).
  split; [reflexivity|]. intros. reflexivity.
Qed.

(** ** The axes of any file *)
Lemma cards_list {A} (h : string -> option A) (name : string) (l : list A) : forall from,
  (forall k x, nth_error l k = Some x -> h (numbered name (from + k)) = Some x) ->
  map_res (fun k => need h (numbered name k)) (seq from (List.length l)) = Ok l.
Proof.
  induction l as [|a l IH]; intros from H; [reflexivity|]. cbn [List.length seq map_res].
  unfold need at 1. pose proof (H 0 a eq_refl) as H0. rewrite Nat.add_0_r in H0. rewrite H0. cbn [bind].
  rewrite IH; [reflexivity|]. intros k x K. specialize (H (S k) x K). now rewrite Nat.add_succ_r in H.
Qed.
Lemma axes_read f l : axes f l ->
  map_res (fun k => need (c_int f) (numbered "naxis" k)) (seq 1 (List.length l)) = Ok (map snd l)
  /\ map_res (fun k => need (c_str f) (numbered "ctype" k)) (seq 1 (List.length l)) = Ok (map fst l).
Proof.
  intros (_ & AX & _). split.
  - rewrite <- (map_length snd l). apply cards_list. intros k x K. rewrite nth_error_map in K.
    destruct (nth_error l k) as [[a n]|] eqn:E; [|discriminate]. inversion K; subst. now destruct (AX k a x E).
  - rewrite <- (map_length fst l). apply cards_list. intros k x K. rewrite nth_error_map in K.
    destruct (nth_error l k) as [[a n]|] eqn:E; [|discriminate]. inversion K; subst. now destruct (AX k x n E).
Qed.
Lemma where_head {A} (p : A -> bool) l : forall from i t,
  map fst (filter (fun kv => p (snd kv)) (combine (seq from (List.length l)) l)) = i :: t ->
  exists a, nth_error l (i - from) = Some a /\ p a = true /\ from <= i.
Proof.
  induction l as [|a l IH]; intros from i t E; [discriminate|]. cbn [List.length seq combine filter snd] in E.
  destruct (p a) eqn:P.
  - cbn [map fst] in E. inversion E; subst. exists a. rewrite Nat.sub_diag. auto.
  - apply IH in E as (b & N & PB & L). exists b. replace (i - from) with (S (i - S from)) by lia. split; [exact N|]. split; [exact PB|lia].
Qed.
Lemma where_some {A} (p : A -> bool) l a : In a l -> p a = true -> where_ p l <> [].
Proof.
  intros I P E. unfold where_ in E. apply map_eq_nil in E. apply In_nth_error in I as (k & K).
  assert (X : In (k, a) (filter (fun kv => p (snd kv)) (combine (seq 0 (List.length l)) l))); [|now rewrite E in X].
  apply filter_In. split; [|exact P]. assert (L : k < List.length l) by (apply nth_error_Some; congruence).
  replace (k, a) with (nth k (combine (seq 0 (List.length l)) l) (0, a)).
  - apply nth_In. now rewrite combine_length, seq_length, Nat.min_id.
  - rewrite combine_nth by apply seq_length. rewrite seq_nth by exact L. f_equal. now apply nth_error_nth.
Qed.
Lemma axis_found name types : In name types -> exists i, first_axis name types = Ok i /\ nth_error types i = Some name.
Proof.
  intros I. unfold first_axis, axes_named. destruct (where_ (String.eqb name) types) as [|i t] eqn:E.
  - exfalso. exact (where_some (String.eqb name) types name I (String.eqb_refl name) E).
  - exists i. split; [reflexivity|]. apply where_head in E as (a & N & P & _). rewrite Nat.sub_0_r in N.
    apply String.eqb_eq in P. now subst a.
Qed.
Lemma axis_absent name types : ~ In name types -> axes_named name types = [].
Proof.
  intros N. unfold axes_named. destruct (where_ (String.eqb name) types) as [|i t] eqn:E; [reflexivity|exfalso].
  apply where_head in E as (a & H & P & _). rewrite Nat.sub_0_r in H. apply String.eqb_eq in P. subst a. apply N. now apply nth_error_In in H.
Qed.
Lemma not_standard f types :
  (forall name, In name ["narrays"; "jones"; "time"; "freqs"; "antaxis"]%string -> In name types) -> ~ In "if"%string types ->
  firstn 5 types <> ["narrays"; "jones"; "time"; "freqs"; "antaxis"]%string -> standard f types = Ok None.
Proof.
  intros A I N. unfold standard.
  destruct (axis_found "narrays" types) as (a & -> & NA); [apply A; cbn; tauto|].
  destruct (axis_found "antaxis" types) as (b & -> & NB); [apply A; cbn; tauto|].
  destruct (axis_found "freqs" types) as (c & -> & NC); [apply A; cbn; tauto|].
  destruct (axis_found "time" types) as (d & -> & ND); [apply A; cbn; tauto|].
  destruct (axis_found "jones" types) as (e & -> & NE); [apply A; cbn; tauto|]. cbn [bind].
  rewrite axis_absent by exact I.
  destruct (Nat.eqb_spec a 0) as [->|]; [|reflexivity]. destruct (Nat.eqb_spec b 4) as [->|]; [|cbn [andb]; destruct (_ && _)%bool; reflexivity].
  destruct (Nat.eqb_spec c 3) as [->|]; [|reflexivity]. destruct (Nat.eqb_spec d 2) as [->|]; [|reflexivity].
  destruct (Nat.eqb_spec e 1) as [->|]; [|reflexivity]. exfalso. apply N.
  destruct types as [|t0 [|t1 [|t2 [|t3 [|t4 types]]]]]; try discriminate. cbn in *. congruence.
Qed.
Lemma other_width finer f o w start a : ~ (w == b_freq_res o)%Q ->
  (forall k, ~ b_freq_res o / w == inject_Z k)%Q -> (forall k, ~ / (b_freq_res o / w) == inject_Z k)%Q ->
  match_channels finer f o w start a = Ok None.
Proof.
  intros N A B. unfold match_channels.
  destruct (Qeq_bool w (b_freq_res o)) eqn:E; [apply Qeq_bool_iff in E; contradiction|].
  cbn zeta.
  destruct (Qle_bool 1 (b_freq_res o / w)).
  - destruct (Qeq_bool (b_freq_res o / w) _) eqn:E1; [apply Qeq_bool_iff in E1; now apply A in E1|reflexivity].
  - destruct (Qeq_bool (/ (b_freq_res o / w)) _) eqn:E1; [apply Qeq_bool_iff in E1; now apply B in E1|reflexivity].
Qed.
Lemma other_start finer f o w start a : ~ (w == b_freq_res o)%Q -> ~ (start == b_freq0 o)%Q ->
  match_channels finer f o w start a = Ok None.
Proof.
  intros N A. unfold match_channels.
  destruct (Qeq_bool w (b_freq_res o)) eqn:E; [apply Qeq_bool_iff in E; contradiction|]. cbn zeta.
  match goal with |- (if ?b then _ else _) = _ => destruct b; [reflexivity|] end.
  destruct (Qeq_bool start (b_freq0 o)) eqn:E1; [apply Qeq_bool_iff in E1; contradiction|reflexivity].
Qed.
