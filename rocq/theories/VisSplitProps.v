(** C23 without flags, and C48. *)
From Coq Require Import ZifyBool ZifyNat Lqa.
From Verif Require Import Base NpArr GridLoc GridLocProofs VisWeights VisWeightsSpec VisWeightsProofs SplitWeightsProofs.
Open Scope nat_scope.
(* quotients are kept opaque for lia here *)
Ltac Zify.zify_post_hook ::= idtac.

Lemma half_bounds n : 2 * (n / 2) <= n < 2 * (n / 2) + 2.
Proof. pose proof (Nat.div_mod n 2 ltac:(lia)). pose proof (Nat.mod_upper_bound n 2 ltac:(lia)). lia. Qed.

Lemma quot_spec b m t : 0 < m -> (t * m <= b < S t * m <-> b / m = t).
Proof.
  intros Hm. pose proof (Nat.div_mod b m ltac:(lia)) as D. pose proof (Nat.mod_upper_bound b m ltac:(lia)) as M.
  split.
  - intros [A B]. set (q := b / m) in *. set (r := b mod m) in *. clearbody q r.
    destruct (Nat.lt_trichotomy q t) as [L|[L|L]]; auto; exfalso.
    + assert (S q * m <= t * m) by (apply Nat.mul_le_mono_r; lia). lia.
    + assert (S t * m <= q * m) by (apply Nat.mul_le_mono_r; lia). lia.
  - intros <-. lia.
Qed.

Lemma block_dm m a r : 0 < m -> r < m -> (a * m + r) / m = a /\ (a * m + r) mod m = r.
Proof.
  intros Hm Hr. split.
  - rewrite Nat.div_add_l, Nat.div_small by lia. lia.
  - rewrite Nat.add_comm, Nat.mod_add, Nat.mod_small by lia. reflexivity.
Qed.

Lemma block_incr m k i j : 0 < m -> i < j ->
  (2 * (i / m) + k) * m + i mod m < (2 * (j / m) + k) * m + j mod m.
Proof.
  intros Hm Hij.
  pose proof (Nat.div_mod i m ltac:(lia)) as Di. pose proof (Nat.div_mod j m ltac:(lia)) as Dj.
  pose proof (Nat.mod_upper_bound i m ltac:(lia)). pose proof (Nat.mod_upper_bound j m ltac:(lia)).
  assert (L : i / m <= j / m) by (apply Nat.div_le_mono; lia).
  set (qi := i / m) in *. set (qj := j / m) in *. set (ri := i mod m) in *. set (rj := j mod m) in *.
  clearbody qi qj ri rj.
  destruct (Nat.eq_dec qi qj) as [e|]; [subst qj; lia|].
  assert (S (2 * qi + k) * m <= (2 * qj + k) * m) by (apply Nat.mul_le_mono_r; lia). lia.
Qed.

Lemma mul_lt_block m a r n : r < m -> a < n -> a * m + r < n * m.
Proof. intros Hr Ha. assert (S a * m <= n * m) by (apply Nat.mul_le_mono_r; lia). lia. Qed.

(** Without flags, m baselines per time: the i-th pair is baseline i mod m at the times 2(i/m) and
    2(i/m)+1. Only the times below n_time/2 (rounded up to an even number) are used. *)
Theorem C23_unflagged : forall n_time n_pol m w,
  2 <= n_time -> 0 < m -> d_bl w = n_time * m -> n_pol <= d_pol w ->
  let pairs := m * ((n_time / 2 + 1) / 2) in
  exists w',
    split_vis_weights n_time n_pol (map (fun t => t * m) (seq 0 n_time)) (repeat 1%Z n_time) w
    = Ok (w', Some (map (fun i => (2 * (i / m)) * m + i mod m) (seq 0 pairs),
                    map (fun i => (2 * (i / m) + 1) * m + i mod m) (seq 0 pairs))).
Proof.
  intros n_time n_pol m w HT Hm Hbl HP pairs.
  set (offs := map (fun t => t * m) (seq 0 n_time)).
  assert (Lo : length offs = n_time) by (unfold offs; now rewrite map_length, seq_length).
  assert (No : forall t, t < n_time -> nth t offs 0 = t * m) by (intros; unfold offs; now rewrite nth_map_seq).
  assert (G : good_offsets offs (d_bl w)).
  { split; [rewrite No by lia; reflexivity|]. split; [intros E; rewrite E in Lo; simpl in Lo; lia|]. split.
    - intros i j Hij Hj. rewrite !No by lia. apply Nat.mul_le_mono_r. lia.
    - intros i Hi. rewrite No, Hbl by lia. apply Nat.mul_le_mono_r. lia. }
  assert (Hs : exists t, t < n_time /\ nth t (repeat 1%Z n_time) 0%Z <> 0%Z).
  { exists 0. split; [lia|]. rewrite nth_repeat_lt by lia. lia. }
  destruct (split_ok n_time n_pol offs (repeat 1%Z n_time) w HT Lo (repeat_length _ _) G HP Hs)
    as (start & even & odd & w' & Hst & Hsu & Hmin & E & (HE & HO) & _).
  exists w'. rewrite E. clear E.
  assert (start = 0).
  { destruct start as [|s]; auto. specialize (Hmin 0 ltac:(lia)). rewrite nth_repeat_lt in Hmin by lia. lia. }
  subst start.
  set (h := n_time / 2) in *. set (c := (h + 1) / 2) in *.
  assert (Hh : h <= n_time /\ 2 * h <= n_time < 2 * h + 2) by (pose proof (half_bounds n_time); unfold h; lia).
  assert (Hc : h <= 2 * c <= h + 1) by (pose proof (half_bounds (h + 1)); unfold c; lia).
  assert (Hk : forall t, t < h -> kept n_time 0 (repeat 1%Z n_time) t = true).
  { intros t Ht. unfold kept, paired_use. rewrite nth_map_seq by (rewrite repeat_length; lia).
    rewrite Nat.sub_0_r. fold h.
    replace ((0 <=? t) && (t <? 0 + h * 2)) with true by (symmetry; apply andb_true_iff; rewrite Nat.leb_le, Nat.ltb_lt; lia).
    rewrite !nth_repeat_lt by lia. reflexivity. }
  assert (Hold : forall t b, t < n_time -> b < d_bl w ->
     (nth t offs 0 <=? b) && (b <? nth (S t) (offs ++ [d_bl w]) 0) = (b / m =? t)).
  { intros t b Ht Hb.
    assert (NS : nth (S t) (offs ++ [d_bl w]) 0 = S t * m).
    { destruct (Nat.eq_dec (S t) n_time) as [e|].
      - rewrite app_nth2 by lia. rewrite Lo, e, Nat.sub_diag. simpl. lia.
      - rewrite app_nth1 by lia. apply No. lia. }
    rewrite No, NS by auto. apply eq_true_iff_eq. rewrite andb_true_iff, Nat.leb_le, Nat.ltb_lt, Nat.eqb_eq.
    apply quot_spec; auto. }
  assert (Qn : forall b, b < d_bl w -> b / m < n_time) by (intros b Hb; apply Nat.div_lt_upper_bound; lia).
  set (E0 := filter _ _) in HE, HO. set (O0 := filter _ (seq 0 (d_bl w))) in HE, HO.
  assert (HinE : forall b, In b E0 <-> b < d_bl w /\ b / m < h /\ Nat.Even (b / m)).
  { intros b. unfold E0. rewrite filter_In, in_seq, existsb_exists. split.
    - intros [Hb (t & Ht & K)]. cbv beta in K. rewrite in_seq in Ht. rewrite Hold in K by lia.
      rewrite !andb_true_iff, Nat.eqb_eq in K. destruct K as [[<- K2] K3]. rewrite Nat.even_spec in K2. split; [lia|]. split; [lia|auto].
    - intros (Hb & Ht & He). split; [lia|]. exists (b / m). rewrite in_seq. split; [split; [apply Nat.le_0_l|exact Ht]|].
      rewrite Hold by lia. rewrite Nat.eqb_refl, Hk by auto. apply Nat.even_spec in He. now rewrite He. }
  assert (HinO : forall b, In b O0 <-> b < d_bl w /\ ~ (b / m < h /\ Nat.Even (b / m))).
  { intros b. unfold O0. rewrite filter_In, in_seq, existsb_exists. split.
    - intros [Hb (t & Ht & K)]. cbv beta in K. rewrite in_seq in Ht. rewrite Hold in K by lia.
      rewrite andb_true_iff, Nat.eqb_eq in K. destruct K as [<- K2]. split; [lia|]. intros [A B].
      apply Nat.even_spec in B. rewrite B, Hk, (proj2 (Nat.ltb_lt _ _) A) in K2 by auto. discriminate.
    - intros (Hb & Hn). split; [lia|]. exists (b / m). rewrite in_seq. 
      pose proof (Qn b ltac:(lia)).
      split; [split; [apply Nat.le_0_l|assumption]|]. rewrite Hold by lia. rewrite Nat.eqb_refl. cbn [andb]. apply negb_true_iff.
      destruct (Nat.even (b / m)) eqn:Ee; auto. destruct (b / m <? h) eqn:El; auto. exfalso.
      apply Hn. split; [now apply Nat.ltb_lt|now apply Nat.even_spec]. }
  assert (RM : forall i, i mod m < m) by (intros; apply Nat.mod_upper_bound; lia).
  assert (IM : forall k, incr (map (fun i => (2 * (i / m) + k) * m + i mod m) (seq 0 pairs))).
  { intros k. apply incr_map_seq. intros i j Hij _. now apply block_incr. }
  assert (Pd : forall i, i < pairs -> i / m < c).
  { intros i Hi. apply Nat.div_lt_upper_bound; unfold pairs in Hi; fold c in Hi; lia. }
  assert (Back : forall b k, k <= 1 -> b / m < 2 * c -> (b / m) mod 2 = k ->
     exists i, (2 * (i / m) + k) * m + i mod m = b /\ i < pairs).
  { intros b k Hk1 Hb Hmod. exists ((b / m / 2) * m + b mod m).
    destruct (block_dm m (b / m / 2) (b mod m) Hm (RM b)) as [D1 D2]. rewrite D1, D2.
    pose proof (Nat.div_mod (b / m) 2 ltac:(lia)) as D3. pose proof (half_bounds (b / m)) as D4. split.
    - replace (2 * (b / m / 2) + k) with (b / m) by lia. pose proof (Nat.div_mod b m ltac:(lia)). lia.
    - unfold pairs. fold c. rewrite (Nat.mul_comm m c). apply mul_lt_block; auto. lia. }
  assert (EE : E0 = map (fun i => (2 * (i / m)) * m + i mod m) (seq 0 pairs)).
  { apply incr_ext.
    - apply incr_filter_seq.
    - rewrite (map_ext _ (fun i => (2 * (i / m) + 0) * m + i mod m)) by (intros; f_equal; f_equal; lia). apply IM.
    - intros b. rewrite HinE, in_map_iff. split.
      + intros (H1 & H2 & (q & Hq)). destruct (Back b 0) as (i & Hi & Hp); [lia|lia| |].
        { rewrite Hq, Nat.mul_comm. apply Nat.mod_mul. lia. }
        exists i. rewrite in_seq. split; [|lia]. rewrite <- Hi. f_equal. f_equal. lia.
      + intros (i & <- & Hi). rewrite in_seq in Hi. destruct (block_dm m (2 * (i / m)) (i mod m) Hm (RM i)) as [D1 D2]. rewrite D1.
        pose proof (Pd i ltac:(lia)).
        split; [|split; [lia|exists (i / m); lia]].
        rewrite Hbl. apply mul_lt_block; auto. lia. }
  assert (H2c : 2 * c * m <= d_bl w) by (rewrite Hbl; apply Nat.mul_le_mono_r; lia).
  assert (Hsplit : d_bl w = 2 * c * m + (d_bl w - 2 * c * m)) by lia.
  assert (EO : exists rest, O0 = map (fun i => (2 * (i / m) + 1) * m + i mod m) (seq 0 pairs) ++ rest).
  { unfold O0. replace (seq 0 (d_bl w)) with (seq 0 (2 * c * m + (d_bl w - 2 * c * m))) by (f_equal; lia). rewrite seq_app, filter_app. eexists. f_equal.
    apply incr_ext; [apply incr_filter_seq|apply IM|]. intros b.
    assert (HIn : In b (filter (fun b0 : nat => existsb
         (fun t : nat => (nth t offs 0 <=? b0) && (b0 <? nth (S t) (offs ++ [d_bl w]) 0)
            && negb (Nat.even t && (t <? h) && kept n_time 0 (repeat 1%Z n_time) t)) (seq 0 n_time)) (seq 0 (2 * c * m)))
       <-> b < 2 * c * m /\ In b O0).
    { unfold O0. rewrite !filter_In, !in_seq. split; intros; intuition lia. }
    rewrite HIn, HinO, in_map_iff. split.
    - intros (H0 & H1 & H2). assert (b / m < 2 * c) by (apply Nat.div_lt_upper_bound; lia).
      assert (Ho : (b / m) mod 2 = 1).
      { destruct (Nat.Even_or_Odd (b / m)) as [Ev|(q & Hq)].
        2:{ rewrite Hq, Nat.add_comm, Nat.mul_comm, Nat.mod_add by lia. reflexivity. }
        assert (h <= b / m) by (destruct (Nat.lt_ge_cases (b / m) h); [exfalso; apply H2; auto|auto]).
        destruct Ev as (q & Hq). lia. }
      destruct (Back b 1) as (i & Hi & Hp); auto. exists i. rewrite in_seq. split; [auto|lia].
    - intros (i & <- & Hi). rewrite in_seq in Hi. destruct (block_dm m (2 * (i / m) + 1) (i mod m) Hm (RM i)) as [D1 D2]. rewrite D1.
      pose proof (Pd i ltac:(lia)).
      assert ((2 * (i / m) + 1) * m + i mod m < 2 * c * m) by (apply mul_lt_block; auto; lia).
      split; [auto|]. split; [lia|]. intros [_ (q & Hq)]. lia. }
  destruct EO as (rest & EO). rewrite EE, EO in HE, HO.
  assert (Hl : Nat.min (length (map (fun i => 2 * (i / m) * m + i mod m) (seq 0 pairs)))
                       (length (map (fun i => (2 * (i / m) + 1) * m + i mod m) (seq 0 pairs) ++ rest)) = pairs).
  { rewrite app_length, !map_length, seq_length. lia. }
  rewrite Hl in HE, HO. subst even odd. do 4 f_equal.
  - apply firstn_all2. now rewrite map_length, seq_length.
  - rewrite firstn_app, map_length, seq_length, Nat.sub_diag, firstn_O, app_nil_r.
    apply firstn_all2. now rewrite map_length, seq_length.
Qed.
Print Assumptions C23_unflagged.

Example C23_case : exists w',
  split_vis_weights 4 1 [0; 2; 4; 6] [1; 1; 1; 1]%Z (Arr3 1 1 8 (fun _ _ b => if b =? 2 then 0%Q else 1%Q))
  = Ok (w', Some ([0; 1], [2; 3]))
  /\ map (at3 w' 0 0) (seq 0 8) = [0; 1; 0; 1; 0; 0; 0; 0]%Q.
Proof. eexists. split; [vm_compute; reflexivity|]. vm_compute. reflexivity. Qed.

(** ** C48 *)

(** The variance through pairwise differences: 2 n^2 var = sum over i, j of (x_i - x_j)^2. *)
Definition pair_spread (l : list Q) : Q :=
  Qsum (map (fun x => Qsum (map (fun y => (x - y) * (x - y))%Q l)) l).

Lemma Qsum_ext (f g : Q -> Q) l : (forall x, f x == g x)%Q -> (Qsum (map f l) == Qsum (map g l))%Q.
Proof. intros H. induction l as [|a l IH]; cbn [map Qsum fold_right]; [reflexivity|]. unfold Qsum in IH. rewrite H, IH. reflexivity. Qed.
Lemma Qsum_lin (f g : Q -> Q) a b l :
  (Qsum (map (fun x => a * f x + b * g x) l) == a * Qsum (map f l) + b * Qsum (map g l))%Q.
Proof.
  induction l as [|x l IH]; cbn [map Qsum fold_right]; [ring|]. unfold Qsum in IH. rewrite IH. ring.
Qed.
Lemma Qsum_const c (l : list Q) : (Qsum (map (fun _ => c) l) == inject_Z (Z.of_nat (length l)) * c)%Q.
Proof.
  induction l as [|x l IH]; [cbn; ring|]. cbn [map length]. unfold Qsum in *. cbn [fold_right]. rewrite IH.
  rewrite Nat2Z.inj_succ. unfold Z.succ. rewrite inject_Z_plus. change (inject_Z 1) with 1%Q. ring.
Qed.

Lemma spread_moments l : let n := inject_Z (Z.of_nat (length l)) in
  (pair_spread l == 2 * n * Qsum (map (fun x => x * x) l) - 2 * Qsum l * Qsum l)%Q.
Proof.
  intros n. unfold pair_spread.
  assert (E : forall x, (Qsum (map (fun y => (x - y) * (x - y)) l)
     == n * (x * x) + (-2 * Qsum l) * x + Qsum (map (fun x => x * x) l))%Q).
  { intros x.
    rewrite (Qsum_ext _ (fun y => 1 * (y * y) + 1 * ((x * x) * 1 + (- (2) * x) * y))%Q) by (intros; ring).
    rewrite (Qsum_lin (fun y => y * y)%Q (fun y => (x * x) * 1 + (- (2) * x) * y)%Q).
    rewrite (Qsum_lin (fun _ => 1%Q) (fun y => y)). rewrite Qsum_const, map_id. fold n. ring. }
  rewrite (Qsum_ext _ (fun x => 1 * (n * (x * x) + (-2 * Qsum l) * x) + 1 * Qsum (map (fun x => x * x) l))%Q)
    by (intros x; rewrite E; ring).
  rewrite (Qsum_lin (fun x => n * (x * x) + (-2 * Qsum l) * x)%Q (fun _ => Qsum (map (fun x => x * x) l))%Q).
  rewrite (Qsum_lin (fun x => x * x)%Q (fun x => x)). rewrite Qsum_const, map_id. fold n. ring.
Qed.

Lemma var_spread l : l <> [] -> let n := inject_Z (Z.of_nat (length l)) in
  (2 * n * n * Qvar l == pair_spread l)%Q.
Proof.
  intros Hne n. rewrite spread_moments. fold n.
  assert (Hn : ~ (n == 0)%Q).
  { unfold n. change 0%Q with (inject_Z 0). rewrite inject_Z_injective. destruct l; [congruence|]. cbn [length]. lia. }
  unfold Qvar. set (mu := Qmean l). unfold Qmean at 1. rewrite map_length. fold n.
  rewrite (Qsum_ext _ (fun x => 1 * (x * x) + 1 * ((-2 * mu) * x + (mu * mu) * 1))%Q) by (intros; ring).
  rewrite (Qsum_lin (fun x => x * x)%Q (fun x => (-2 * mu) * x + (mu * mu) * 1)%Q).
  rewrite (Qsum_lin (fun x => x) (fun _ => 1%Q)). rewrite Qsum_const, map_id. fold n.
  unfold mu, Qmean. fold n. field. exact Hn.
Qed.

Lemma Qmax0_pos x : (0 < Qmax0 x)%Q <-> (0 < x)%Q.
Proof.
  unfold Qmax0. destruct (Qle_bool 0 x) eqn:E; [reflexivity|]. apply Qle_bool_false in E. split; intros; lra.
Qed.
Lemma Qmax0_nonneg x : (0 <= Qmax0 x)%Q.
Proof. unfold Qmax0. destruct (Qle_bool 0 x) eqn:E; [now apply Qle_bool_iff|lra]. Qed.

Lemma pair_good a b : negb (Qeq_bool (Qmax0 a * Qmax0 b) 0) = true <-> (0 < a /\ 0 < b)%Q.
Proof.
  rewrite negb_true_iff, <- not_true_iff_false, Qeq_bool_iff, <- (Qmax0_pos a), <- (Qmax0_pos b).
  pose proof (Qmax0_nonneg a). pose proof (Qmax0_nonneg b). split.
  - intros Hn. split; apply Qnot_le_lt; intros Hl; apply Hn.
    + assert (E : (Qmax0 a == 0)%Q) by lra. rewrite E. ring.
    + assert (E : (Qmax0 b == 0)%Q) by lra. rewrite E. ring.
  - intros [H1 H2] E. assert (0 < Qmax0 a * Qmax0 b)%Q by (apply Qmult_lt_0_compat; auto). lra.
Qed.

(** C48: the noise of (p, f) comes from the even/odd pairs whose two weights are positive and only
    from them: with d_i the difference of the imaginary parts of pair i of n such pairs,
    4 n^2 noise^2 is the sum over all i, j of (d_i - d_j)^2; without such pairs it is 0. *)
Theorem C48_noise : forall n_time n_pol n_freq offs tu imag w even odd,
  2 <= n_time -> length even = length odd ->
  exists a, vis_noise_sq n_time n_pol n_freq offs tu imag w (Some (even, odd)) = Ok a
    /\ rows a = n_pol /\ cols a = n_freq
    /\ forall p f good,
        (forall eo, good eo = true <-> (0 < at3 w p f (fst eo) /\ 0 < at3 w p f (snd eo))%Q) ->
        let used := filter good (combine even odd) in
        let d := map (fun eo => at3 imag p f (fst eo) - at3 imag p f (snd eo))%Q used in
        let n := inject_Z (Z.of_nat (length used)) in
        (used = [] -> at2 a p f = 0%Q)
        /\ (4 * n * n * at2 a p f == pair_spread d)%Q.
Proof.
  intros n_time n_pol n_freq offs tu imag w even odd HT HL.
  eexists. split.
  { unfold vis_noise_sq. rewrite (proj2 (Nat.ltb_ge n_time 2)) by lia. cbn [bind].
    rewrite (proj2 (Nat.eqb_eq _ _) HL). cbn [negb]. reflexivity. }
  split; [reflexivity|]. split; [reflexivity|].
  intros p f good Hg used d n. cbn [at2].
  rewrite (filter_ext _ good).
  2:{ intros eo. apply eq_true_iff_eq. now rewrite pair_good, Hg. }
  fold used. split; [intros ->; reflexivity|].
  destruct used as [|eo l] eqn:E; [unfold d, n; cbn; ring|].
  rewrite <- var_spread by discriminate.
  fold d.
  replace (inject_Z (Z.of_nat (length d))) with n by (unfold n, d; now rewrite map_length). field.
Qed.
Print Assumptions C48_noise.

(** Visibilities outside the usable pairs do not matter, and neither does a constant added to all. *)
Theorem C48_locality : forall n_time n_pol n_freq offs tu imag imag' w even odd p f,
  2 <= n_time -> length even = length odd ->
  (exists c, forall i, i < length even ->
     (0 < at3 w p f (nth i even 0%nat))%Q -> (0 < at3 w p f (nth i odd 0%nat))%Q ->
     (at3 imag' p f (nth i even 0%nat) == at3 imag p f (nth i even 0%nat) + c)%Q
     /\ (at3 imag' p f (nth i odd 0%nat) == at3 imag p f (nth i odd 0%nat) + c)%Q) ->
  exists a a',
    vis_noise_sq n_time n_pol n_freq offs tu imag w (Some (even, odd)) = Ok a
    /\ vis_noise_sq n_time n_pol n_freq offs tu imag' w (Some (even, odd)) = Ok a'
    /\ (at2 a' p f == at2 a p f)%Q.
Proof.
  intros n_time n_pol n_freq offs tu imag imag' w even odd p f HT HL (c & Hc).
  unfold vis_noise_sq. rewrite (proj2 (Nat.ltb_ge n_time 2)) by lia. cbn [bind].
  rewrite (proj2 (Nat.eqb_eq _ _) HL). cbn [negb].
  eexists _, _. split; [reflexivity|]. split; [reflexivity|]. cbn [at2].
  set (used := filter _ _).
  assert (Hu : forall eo, In eo used ->
    (at3 imag' p f (fst eo) - at3 imag' p f (snd eo) == at3 imag p f (fst eo) - at3 imag p f (snd eo))%Q).
  { intros eo Hin. apply filter_In in Hin. destruct Hin as [Hin Hp]. apply pair_good in Hp.
    destruct (In_nth _ _ (0, 0) Hin) as (i & Hi & Ei). rewrite combine_length in Hi.
    rewrite combine_nth in Ei by auto. subst eo. cbn [fst snd] in *. destruct (Hc i) as [H1 H2]; try tauto; [lia|].
    rewrite H1, H2. ring. }
  clearbody used.
  assert (K : forall l, (forall eo, In eo l -> In eo used) ->
     Forall2 Qeq (map (fun eo => at3 imag' p f (fst eo) - at3 imag' p f (snd eo))%Q l)
                 (map (fun eo => at3 imag p f (fst eo) - at3 imag p f (snd eo))%Q l)).
  { induction l as [|eo l IH]; intros Hl; constructor; [apply Hu, Hl; now left|apply IH; intros; apply Hl; now right]. }
  specialize (K used (fun _ H => H)).
  assert (V : forall l l', Forall2 Qeq l l' -> length l = length l' /\ (Qsum l == Qsum l')%Q).
  { induction 1 as [|x y l l' Hxy H [IH1 IH2]]; [split; reflexivity|]. cbn [length Qsum fold_right].
    unfold Qsum in IH2. split; [lia|]. now rewrite Hxy, IH2. }
  destruct used as [|eo l]; [reflexivity|].
  set (l1 := map _ _) in K. set (l2 := map _ _) in K. fold l1. fold l2.
  assert (Em : (Qmean l1 == Qmean l2)%Q) by (unfold Qmean; destruct (V _ _ K) as [-> ->]; reflexivity).
  assert (K2 : Forall2 Qeq (map (fun x => (x - Qmean l1) * (x - Qmean l1))%Q l1) (map (fun x => (x - Qmean l2) * (x - Qmean l2))%Q l2)).
  { clear V. revert Em. generalize (Qmean l1) (Qmean l2). intros m1 m2 Em.
    induction K as [|x y a b Hxy HK IH]; constructor; auto. now rewrite Hxy, Em. }
  unfold Qvar. revert K2. generalize (map (fun x => (x - Qmean l1) * (x - Qmean l1))%Q l1)
    (map (fun x => (x - Qmean l2) * (x - Qmean l2))%Q l2). intros a b K2. unfold Qmean.
  destruct (V _ _ K2) as [-> ->]. reflexivity.
Qed.
Print Assumptions C48_locality.

(** Without bi_use the pairs and weights are those of split_vis_weights; below two times all is 0. *)
Theorem C48_default : forall n_time n_pol n_freq offs tu imag w w' bi,
  split_vis_weights n_time n_pol offs tu w = Ok (w', Some bi) ->
  vis_noise_sq n_time n_pol n_freq offs tu imag w None
  = vis_noise_sq n_time n_pol n_freq offs tu imag w' (Some bi).
Proof.
  intros n_time n_pol n_freq offs tu imag w w' bi E. unfold vis_noise_sq. rewrite E. cbn [bind].
  destruct (n_time <? 2); reflexivity.
Qed.
Print Assumptions C48_default.

Theorem C48_short : forall n_time n_pol n_freq offs tu imag w bi, n_time < 2 ->
  vis_noise_sq n_time n_pol n_freq offs tu imag w bi = Ok (Arr2 n_pol n_freq (fun _ _ => 0%Q)).
Proof. intros. unfold vis_noise_sq. now rewrite (proj2 (Nat.ltb_lt n_time 2)). Qed.
Print Assumptions C48_short.

Definition demo_imag : arr3 Q := Arr3 1 1 6 (fun _ _ b => inject_Z (Z.of_nat (b * b))).
Definition demo_wt : arr3 Q := Arr3 1 1 6 (fun _ _ b => if b =? 4 then 0%Q else 1%Q).
Example C48_case : exists a,
  vis_noise_sq 2 1 1 [0; 3] [1; 1]%Z demo_imag demo_wt (Some ([0; 1; 2], [3; 4; 5])) = Ok a
  /\ (at2 a 0 0 == 18)%Q.
Proof. eexists. split; [reflexivity|]. vm_compute. reflexivity. Qed.
