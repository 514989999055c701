(** C73: the image geometry of an observation. C74: its metadata. *)
From Coq Require Import String Qabs Sorted ZifyBool ZifyNat.
From Verif Require Import Base SortLib Histogram HistogramSpec HistogramFinal Utils1 Utils1Spec PyIndex Obs ObsSpec ObsProofs ObsProps ObsFull ObsFullSpec ObsFullProofs.
Import ListNotations.
Open Scope nat_scope.
Open Scope list_scope.
Ltac Zify.zify_post_hook ::= idtac.

(** C73. What an observation says about its image: the dimensions and pixel size asked for; pixels of the size that makes the
    image the Fourier dual of the uv grid along the first axis; the extreme lengths of the baselines. *)
Theorem C73_geometry_partial : forall s tick c h p ants file o, create_obs s tick c h p ants file = Ok o ->
  List.length (u_uu p) = List.length (u_vv p) ->
  c_dimension c = Some (o_dimension o)
  /\ o_elements o = (match c_elements c with Some e => e | None => o_dimension o end)
  /\ o_kpix o = (match c_kbinsize c with Some k => k | None => 1 # 2 end)
  /\ (o_degpix o * (o_kpix o * inject_Z (o_dimension o)) == deg s)%Q
  /\ (exists x y, sample h p x y /\ on_grid (o_kpix o) (o_dimension o) (o_elements o) x y /\ o_max_baseline o = Qabs (hyp s x y))
  /\ (forall x y, sample h p x y -> on_grid (o_kpix o) (o_dimension o) (o_elements o) x y -> (Qabs (hyp s x y) <= o_max_baseline o)%Q)
  /\ (exists x y, sample h p x y /\ ~ (hyp s x y == 0)%Q
        /\ (forall x' y', sample h p x' y' -> ~ (hyp s x' y' == 0)%Q -> (hyp s x y <= hyp s x' y')%Q)
        /\ match c_min_baseline c with
           | None => o_min_baseline o = hyp s x y
           | Some b => (b <= o_min_baseline o /\ hyp s x y <= o_min_baseline o)%Q /\ (o_min_baseline o = b \/ o_min_baseline o = hyp s x y)
           end)
  /\ o_n_vis o = List.length (u_time p) * List.length (d_freq h).
Proof.
  intros s tick c h p ants file o H L. apply create_parts in H as (nt & offs & nb & [mx mn] & _ & _ & _ & EK & ED & EP & EX & M1 & M2 & _ & _ & _ & _ & _ & NV & _).
  cbn [fst snd] in M1, M2. apply extent_spec in EX as ((x & y & I & G & Q0) & A & (m & x' & y' & I' & -> & N & B & EM)).
  unfold degpix in EP. destruct (c_dimension c) as [d|] eqn:D; [|discriminate EP].
  assert (DE : d = o_dimension o /\ o_elements o = match c_elements c with Some e => e | None => o_dimension o end).
  { unfold dimensions in ED. rewrite D in ED. destruct (c_elements c); injection ED as E1 E2; split; congruence. }
  destruct DE as [-> DE]. split; [reflexivity|]. split; [exact DE|]. split; [|split; [|split; [|split; [|split]]]].
  - unfold kpix in EK. apply bind_ok in EK as (_ & _ & EK). injection EK as <-. destruct (c_kbinsize c); reflexivity.
  - destruct (Qeq_bool (o_kpix o * inject_Z (o_dimension o)) 0) eqn:Z; [discriminate EP|]. injection EP as <-.
    field. apply Qeq_bool_neq in Z. split; intros X; apply Z; rewrite X; ring.
  - exists x, y. split; [now apply samples_in|]. split; [exact G|congruence].
  - intros a b S0 G0. rewrite M1. apply A; [now apply samples_in|exact G0].
  - exists x', y'. split; [now apply samples_in|]. split; [exact N|]. split.
    + intros a b S0 N0. apply B; [now apply samples_in|exact N0].
    + rewrite M2, EM. destruct (c_min_baseline c) as [b|]; [|reflexivity].
      destruct (Qlt_le_dec b (hyp s x' y')) as [X|X]; (split; [split|]); auto using Qle_refl, Qlt_le_weak.
  - exact NV.
Qed.
Print Assumptions C73_geometry_partial.

(** The counts, and the middle of evenly spaced channels. *)
Lemma isort_stable l : StronglySorted Qle l -> isort Qle_bool l = l.
Proof.
  induction l as [|x l IH]; intros H; [reflexivity|]. inversion H as [|? ? H1 H2]; subst. cbn [isort]. rewrite IH by exact H1.
  destruct l as [|y l]; [reflexivity|]. cbn [insert]. inversion H2; subst. now rewrite (proj2 (Qle_bool_iff x y)).
Qed.
Lemma nth_sorted (l : list Q) : (forall i, S i < List.length l -> (nth i l 0 <= nth (S i) l 0)%Q) -> StronglySorted Qle l.
Proof.
  intros H. apply Sorted_StronglySorted; [intros a b c; apply Qle_trans|].
  induction l as [|x l IH]; [constructor|]. constructor.
  - apply IH. intros i I. apply (H (S i)). cbn [List.length]. lia.
  - destruct l as [|y l]; constructor. apply (H 0). cbn [List.length]. lia.
Qed.
Lemma cut_length n res l : forall l' u use, fold_res (cut_one n res l) l' u = Ok use -> List.length use = List.length u.
Proof.
  induction l' as [|x l' IH]; intros u use H; cbn [fold_res] in H; [congruence|].
  apply bind_ok in H as (u1 & E & H). apply IH in H. rewrite H. unfold cut_one in E. apply bind_ok in E as (v & _ & E).
  destruct (cut_range n res v) as [a b]. match type of E with (if ?b then _ else _) = _ => destruct b end; [congruence|].
  destruct a, b; try discriminate E. injection E as <-. now rewrite map_length, seq_length.
Qed.
Theorem C73_counts : forall s tick c h p ants file o, create_obs s tick c h p ants file = Ok o ->
  o_n_pol o = (if c_n_pol c =? 0 then d_n_pol h else c_n_pol c)
  /\ (nondecreasing (u_time p) -> (exists x y, In x (u_time p) /\ In y (u_time p) /\ x <> y) -> distinct_count (u_time p) (o_n_time o))
  /\ List.length (o_time_use o) = o_n_time o /\ o_n_time_flag o = List.length (filter negb (o_time_use o))
  /\ (forall f0 step, (0 <= step)%Q -> d_freq h <> [] -> (forall i, i < List.length (d_freq h) -> (nth i (d_freq h) 0 == f0 + inject_Z (Z.of_nat i) * step)%Q) ->
      (o_freq_center o == (nth 0 (d_freq h) 0 + last (d_freq h) 0) / 2)%Q).
Proof.
  intros s tick c h p ants file o H.
  assert (NP : o_n_pol o = (if c_n_pol c =? 0 then d_n_pol h else c_n_pol c) /\ o_freq_center o = median (d_freq h)).
  { unfold create_obs in H. apply bind_ok in H as ([[n_time offsets] nb] & E1 & H). do 8 apply bind_ok in H as (? & _ & H). injection H as <-. split; reflexivity. }
  destruct NP as [NP FC]. split; [exact NP|].
  apply create_parts in H as (nt & offs & nb & ext & ET & _ & _ & _ & _ & _ & _ & _ & _ & _ & TU & NT & _ & _ & _ & _ & _ & NF).
  split; [|split; [|split]].
  - intros S0 D0. destruct (obs_times_spec _ S0 D0) as (n' & o' & b' & E' & C & _). rewrite E' in ET. congruence.
  - rewrite NT. unfold time_use in TU. destruct (c_time_cut c); [apply cut_length in TU; now rewrite TU, repeat_length|].
    injection TU as <-. apply repeat_length.
  - rewrite NF. assert (L : List.length (o_time_use o) = nt).
    { unfold time_use in TU. destruct (c_time_cut c); [apply cut_length in TU; now rewrite TU, repeat_length|].
      injection TU as <-. apply repeat_length. }
    rewrite <- L. generalize (o_time_use o). clear. intros l. induction l as [|b l IH]; [reflexivity|].
    pose proof (filter_length_le (fun b => b) l). destruct b; cbn [filter List.length negb]; lia.
  - intros f0 step P NE EV. rewrite FC. unfold median.
    assert (SS : isort Qle_bool (d_freq h) = d_freq h).
    { apply isort_stable, nth_sorted. intros i I. rewrite !EV by lia. apply Qplus_le_r. apply Qmult_le_compat_r; [|exact P]. rewrite <- Zle_Qle. lia. }
    rewrite SS. set (n := List.length (d_freq h)) in *. assert (N : 0 < n) by (subst n; destruct (d_freq h); [congruence|cbn; lia]).
    assert (LA : last (d_freq h) 0%Q = nth (n - 1) (d_freq h) 0%Q).
    { subst n. clear. induction (d_freq h) as [|x [|y l] IH]; [reflexivity|reflexivity|]. 
      change (last (x :: y :: l) 0%Q) with (last (y :: l) 0%Q). rewrite IH. cbn [List.length]. replace (S (S (List.length l)) - 1) with (S (S (List.length l) - 1)) by lia. reflexivity. }
    rewrite LA.
    destruct (Nat.even n) eqn:EE.
    + apply Nat.even_spec in EE as [m M]. assert (n / 2 = m) as -> by (rewrite M, Nat.mul_comm; apply Nat.div_mul; lia).
      rewrite !EV by lia. replace (n - 1) with (m - 1 + m) by lia. rewrite !Nat2Z.inj_add, inject_Z_plus. cbn [Z.of_nat]. field.
    + assert (OD : Nat.odd n = true) by (unfold Nat.odd; now rewrite EE). apply Nat.odd_spec in OD as [m M].
      assert (n / 2 = m) as -> by (rewrite M; symmetry; apply (Nat.div_unique _ 2 m 1); lia).
      rewrite !EV by lia. replace (n - 1) with (m + m) by lia. rewrite !Nat2Z.inj_add, inject_Z_plus. cbn [Z.of_nat]. field.
Qed.
Print Assumptions C73_counts.

(** Pixels are square, so that on a grid that is not square they are wrong along the second axis. *)
Theorem C73_non_square_refuted : forall s tick c h p ants f o, create_obs s tick c h p ants (Some f) = Ok o ->
  o_elements o <> o_dimension o -> ~ (deg s == 0)%Q ->
  a_cdelt (m_astr (o_meta o)) = (o_degpix o, o_degpix o)
  /\ ~ (snd (a_cdelt (m_astr (o_meta o))) * (o_kpix o * inject_Z (o_elements o)) == deg s)%Q.
Proof.
  intros s tick c h p ants f o H NE DZ. apply create_parts in H as (nt & offs & nb & ext & _ & _ & _ & EK & ED & EP & _ & _ & _ & EM & _).
  apply read_parts in EM as (sel & ra & dec & pra & pdec & res & delays & _ & _ & _ & _ & _ & _ & _ & _ & _ & _ & _ & _ & _ & _ & _ & _ & _ & _ & AS & _).
  rewrite AS. cbn [project a_cdelt snd]. split; [reflexivity|]. intros X.
  unfold degpix in EP. destruct (c_dimension c) as [d|] eqn:D; [|discriminate EP].
  assert (d = o_dimension o) as -> by (unfold dimensions in ED; rewrite D in ED; destruct (c_elements c); injection ED as E1 E2; congruence).
  destruct (Qeq_bool (o_kpix o * inject_Z (o_dimension o)) 0) eqn:Z; [discriminate EP|]. injection EP as E. rewrite <- E in X.
  apply Qeq_bool_neq in Z.
  assert (K : ~ (o_kpix o == 0)%Q) by (intros K; apply Z; rewrite K; ring).
  assert (DD : ~ (inject_Z (o_dimension o) == 0)%Q) by (intros K'; apply Z; rewrite K'; ring).
  assert (Y : (deg s * inject_Z (o_elements o) == deg s * inject_Z (o_dimension o))%Q).
  { rewrite <- X at 2. field. split; assumption. }
  apply NE. apply (proj1 (Qmult_inj_l _ _ _ DZ)) in Y. apply (proj1 (inject_Z_injective _ _)). exact Y.
Qed.
Print Assumptions C73_non_square_refuted.

(** The field of view changes nothing; 0, documented as "use kbinsize", is an error. *)
Lemma with_fov_parts c f : c_nfreq_avg (with_fov c f) = c_nfreq_avg c /\ dimensions (with_fov c f) = dimensions c
  /\ (forall dg k, degpix (with_fov c f) dg k = degpix c dg k) /\ (forall s k d e xy, extent s (with_fov c f) k d e xy = extent s c k d e xy)
  /\ (forall s tick h p n d e dp file, read_metafits s tick (with_fov c f) h p n d e dp file = read_metafits s tick c h p n d e dp file)
  /\ (forall n r, time_use n r (with_fov c f) = time_use n r c).
Proof. repeat split. Qed.
Theorem C73_fov_refuted : forall s tick c h p ants file o fov, create_obs s tick (with_fov c None) h p ants file = Ok o ->
  create_obs s tick (with_fov c (Some fov)) h p ants file = if Qeq_bool fov 0 then Err ZeroDivision else Ok o.
Proof.
  intros s tick c h p ants file o fov H.
  assert (K : kpix (with_fov c (Some fov)) (deg s) = if Qeq_bool fov 0 then Err ZeroDivision else kpix (with_fov c None) (deg s)).
  { unfold kpix. cbn [c_fov with_fov]. destruct (Qeq_bool fov 0); reflexivity. }
  unfold create_obs in *.
  change (c_nfreq_avg (with_fov c (Some fov))) with (c_nfreq_avg (with_fov c None)).
  change (c_n_pol (with_fov c (Some fov))) with (c_n_pol (with_fov c None)).
  change (dimensions (with_fov c (Some fov))) with (dimensions (with_fov c None)).
  change (degpix (with_fov c (Some fov))) with (degpix (with_fov c None)).
  change (fun s => extent s (with_fov c (Some fov))) with (fun s => extent s (with_fov c None)).
  apply bind_ok in H as ([[n_time offsets] nb] & E1 & H). rewrite E1. cbn [bind].
  apply bind_ok in H as (fbin & E2 & H). rewrite E2. cbn [bind].
  apply bind_ok in H as (ab & E3 & H). rewrite E3. cbn [bind]. rewrite K.
  apply bind_ok in H as (k & E4 & H). rewrite E4. destruct (Qeq_bool fov 0); [reflexivity|]. cbn [bind] in *. exact H.
Qed.
Print Assumptions C73_fov_refuted.

(** The dimensions cannot be left to the program, nor only the first. *)
Theorem C73_dimension_refuted : forall s tick c h p ants file o elements, create_obs s tick c h p ants file = Ok o ->
  create_obs s tick (with_dimensions c None elements) h p ants file = Err (match elements with None => KeyError | Some _ => TypeError end).
Proof.
  intros s tick c h p ants file o e H. unfold create_obs in *.
  apply bind_ok in H as ([[n_time offsets] nb] & E1 & H). rewrite E1. cbn [bind].
  apply bind_ok in H as (fbin & E2 & H). change (c_nfreq_avg (with_dimensions c None e)) with (c_nfreq_avg c). rewrite E2. cbn [bind].
  apply bind_ok in H as (ab & E3 & H). rewrite E3. cbn [bind].
  apply bind_ok in H as (k & E4 & H). change (kpix (with_dimensions c None e)) with (kpix c). rewrite E4. cbn [bind].
  unfold dimensions. cbn [c_dimension c_elements with_dimensions]. destruct e; reflexivity.
Qed.
Print Assumptions C73_dimension_refuted.

(** Both tiles of every baseline are the places of its antennas in the table, for antenna numbers increasing from 1 or more. *)
Theorem C73_tiles_partial : forall s tick c h p ants file o, create_obs s tick c h p ants file = Ok o -> d_n_tile h = List.length ants ->
  (exists a, In a (u_ant1 p) /\ (0 < a)%Z) -> (exists a, In a (u_ant2 p) /\ (0 < a)%Z) ->
  (forall i j, i < j -> j < List.length ants -> (nth i ants 0 < nth j ants 0)%Z) -> (forall a, In a ants -> (1 <= a)%Z) ->
  List.length (o_tile_a o) = List.length (u_ant1 p) /\ List.length (o_tile_b o) = List.length (u_ant2 p)
  /\ (forall k, k < List.length (u_ant1 p) -> tile_of ants (nth k (u_ant1 p) 0%Z) (nth k (o_tile_a o) 0%Z))
  /\ (forall k, k < List.length (u_ant2 p) -> tile_of ants (nth k (u_ant2 p) 0%Z) (nth k (o_tile_b o) 0%Z)).
Proof.
  intros s tick c h p ants file o H N A1 A2 I1 I2. apply create_parts in H as (nt & offs & nb & ext & _ & _ & ET & _).
  assert (MX : forall l, (exists a, In a l /\ (0 < a)%Z) -> exists m, zmax l = Ok m /\ (0 < m)%Z).
  { intros l (a & I & P). destruct l as [|x l]; [destruct I|]. cbn [zmax]. eexists. split; [reflexivity|].
    assert (G : forall l x, (x <= fold_left Z.max l x)%Z /\ forall y, In y l -> (y <= fold_left Z.max l x)%Z).
    { clear. induction l as [|b l IH]; intros x; cbn [fold_left]; [split; [lia|intros y []]|].
      destruct (IH (Z.max x b)) as [J1 J2]. split; [lia|]. intros y [<-|Y]; [lia|auto]. }
    destruct (G l x) as [G1 G2]. destruct I as [<-|I]; [lia|]. specialize (G2 a I). lia. }
  destruct (MX _ A1) as (m1 & M1 & P1). destruct (MX _ A2) as (m2 & M2 & P2).
  unfold tiles in ET. rewrite M1 in ET. cbn [bind] in ET. rewrite (proj2 (Z.ltb_lt _ _) P1) in ET. rewrite M2 in ET. cbn [bind] in ET. rewrite (proj2 (Z.ltb_lt _ _) P2) in ET.
  cbn [andb bind fst snd] in ET. rewrite N in ET.
  destruct (C40_increasing ants (u_ant1 p) I1 I2) as (ta & RA & LA & VA). destruct (C40_increasing ants (u_ant2 p) I1 I2) as (tb & RB & LB & VB).
  rewrite RA, RB in ET. cbn [bind] in ET. assert (o_tile_a o = ta) as -> by congruence. assert (o_tile_b o = tb) as -> by congruence. auto.
Qed.
Print Assumptions C73_tiles_partial.

(** The header always says 128 tiles, so that arrays with fewer antennas are rejected. *)
Theorem C73_small_array_refuted : forall s tick c h p ants file, d_n_tile h = 128 -> List.length ants < 128 ->
  (exists a, In a (u_ant1 p) /\ (0 < a)%Z) -> (exists a, In a (u_ant2 p) /\ (0 < a)%Z) ->
  nondecreasing (u_time p) -> (exists x y, In x (u_time p) /\ In y (u_time p) /\ x <> y) ->
  (0 < (match c_nfreq_avg c with Some a => a | None => 1%Q end) * d_freq_res h)%Q -> d_freq h <> [] ->
  create_obs s tick c h p ants file = Err IndexError.
Proof.
  intros s tick c h p ants file N L A1 A2 T1 T2 F1 F2. unfold create_obs.
  destruct (obs_times_spec _ T1 T2) as (n & offs & nb & E & _). rewrite E. cbn [bind].
  destruct (C39_create _ _ F1 F2) as (fb & lo & EF & _). rewrite EF. cbn [bind].
  assert (MX : forall l, (exists a, In a l /\ (0 < a)%Z) -> exists m, zmax l = Ok m /\ (0 < m)%Z).
  { intros l (a & I & P). destruct l as [|x l]; [destruct I|]. cbn [zmax]. eexists. split; [reflexivity|].
    assert (G : forall l x, (x <= fold_left Z.max l x)%Z /\ forall y, In y l -> (y <= fold_left Z.max l x)%Z).
    { clear. induction l as [|b l IH]; intros x; cbn [fold_left]; [split; [lia|intros y []]|].
      destruct (IH (Z.max x b)) as [I1 I2]. split; [lia|]. intros y [<-|Y]; [lia|auto]. }
    destruct (G l x) as [G1 G2]. destruct I as [<-|I]; [lia|]. specialize (G2 a I). lia. }
  destruct (MX _ A1) as (m1 & M1 & P1). destruct (MX _ A2) as (m2 & M2 & P2).
  unfold tiles. rewrite M1. cbn [bind]. rewrite (proj2 (Z.ltb_lt _ _) P1). rewrite M2. cbn [bind]. rewrite (proj2 (Z.ltb_lt _ _) P2).
  cbn [andb bind fst]. rewrite N, renumber_short by exact L. reflexivity.
Qed.
Print Assumptions C73_small_array_refuted.

(** Otherwise an observation with at least two times, all dimensions, a metafits file and data on the grid is accepted. *)
Theorem C73_completes_partial : forall s tick c h p ants f d k,
  nondecreasing (u_time p) -> (exists x y, In x (u_time p) /\ In y (u_time p) /\ x <> y) ->
  (0 < (match c_nfreq_avg c with Some a => a | None => 1%Q end) * d_freq_res h)%Q -> d_freq h <> [] ->
  (exists a, In a (u_ant1 p) /\ (0 < a)%Z) -> (exists a, In a (u_ant2 p) /\ (0 < a)%Z) -> d_n_tile h <= List.length ants ->
  (forall q, c_fov c = Some q -> ~ (q == 0)%Q) -> c_dimension c = Some d -> d <> 0%Z ->
  k = (match c_kbinsize c with Some k => k | None => 1 # 2 end) -> ~ (k == 0)%Q ->
  List.length (u_uu p) = List.length (u_vv p) ->
  (exists x y, sample h p x y /\ on_grid k d (match c_elements c with Some e => e | None => d end) x y) ->
  (exists x y, sample h p x y /\ ~ (hyp s x y == 0)%Q) ->
  mf_rows f <> [] -> has_cards f ->
  (forall sel, single (sort_rows (mf_rows f)) = Ok sel -> all_flagged (map r_flag sel) = true -> c_simulation c = true) ->
  c_time_cut c = None ->
  exists o, create_obs s tick c h p ants (Some f) = Ok o.
Proof.
  intros s tick c h p ants f d k T1 T2 F1 F2 A1 A2 NT FV D DZ EK KZ L (x & y & S1 & G) (x' & y' & S2 & HZ) R C AF TC.
  destruct (obs_times_spec _ T1 T2) as (n & offs & nb & E & _).
  destruct (C39_create _ _ F1 F2) as (fb & lo & EF & _).
  assert (MX : forall l, (exists a, In a l /\ (0 < a)%Z) -> exists m, zmax l = Ok m /\ (0 < m)%Z).
  { intros l (a & I & P). destruct l as [|z l]; [destruct I|]. cbn [zmax]. eexists. split; [reflexivity|].
    assert (G0 : forall l x, (x <= fold_left Z.max l x)%Z /\ forall y, In y l -> (y <= fold_left Z.max l x)%Z).
    { clear. induction l as [|b l IH]; intros x; cbn [fold_left]; [split; [lia|intros y []]|].
      destruct (IH (Z.max x b)) as [I1 I2]. split; [lia|]. intros y [<-|Y]; [lia|auto]. }
    destruct (G0 l z) as [G1 G2]. destruct I as [<-|I]; [lia|]. specialize (G2 a I). lia. }
  destruct (MX _ A1) as (m1 & M1 & P1). destruct (MX _ A2) as (m2 & M2 & P2).
  assert (ET : exists ab, tiles h p ants = Ok ab).
  { unfold tiles. rewrite M1. cbn [bind]. rewrite (proj2 (Z.ltb_lt _ _) P1). rewrite M2. cbn [bind]. rewrite (proj2 (Z.ltb_lt _ _) P2).
    cbn [andb bind fst snd]. unfold renumber. rewrite !renumber_map by lia. cbn [bind]. eauto. }
  destruct ET as [ab ET].
  assert (E4 : kpix c (deg s) = Ok k).
  { unfold kpix. destruct (c_fov c) as [q|] eqn:FQ; cbn [bind].
    - destruct (Qeq_bool q 0) eqn:Z; [apply Qeq_bool_iff in Z; now apply FV in Z|]. cbn [bind]. rewrite EK. now destruct (c_kbinsize c).
    - rewrite EK. now destruct (c_kbinsize c). }
  assert (E5 : dimensions c = Ok (d, match c_elements c with Some e => e | None => d end)).
  { unfold dimensions. rewrite D. destruct (c_elements c); reflexivity. }
  assert (E6 : exists dp, degpix c (deg s) k = Ok dp).
  { unfold degpix. rewrite D. destruct (Qeq_bool (k * inject_Z d) 0) eqn:Z; [|eauto]. exfalso. apply Qeq_bool_iff in Z.
    apply Qmult_integral in Z as [Z|Z]; [contradiction|]. apply DZ. unfold Qeq in Z. cbn in Z. lia. }
  destruct E6 as [dp E6].
  destruct (extent_ok s c k d (match c_elements c with Some e => e | None => d end) (samples (d_freq h) (u_uu p) (u_vv p))) as [ext EX].
  { exists x, y. split; [now apply samples_in|exact G]. }
  { exists x', y'. split; [now apply samples_in|exact HZ]. }
  assert (TN : idl_argunique (u_time (par' p ab)) <> []).
  { cbn [par' u_time]. intros Z. unfold obs_times in E. rewrite Z in E. discriminate E. }
  destruct (read_ok s tick c h (par' p ab) (d_n_tile h) d (match c_elements c with Some e => e | None => d end) dp f TN R C AF) as [m EM].
  eapply create_run with (de := (d, _)); eauto.
  unfold time_use. rewrite TC. reflexivity.
Qed.
Print Assumptions C73_completes_partial.

(** C74. Names, heights and flags are those of one row for each antenna, in the order of the antennas; pointing, phase
    centre and time resolution are those of the file, the centre of the image is its middle pixel at the phase centre. *)
Theorem C74_metadata : forall s tick c h p ants f o, create_obs s tick c h p ants (Some f) = Ok o -> complete_table (mf_rows f) ->
  exists sel, one_per_antenna (mf_rows f) sel
  /\ m_tile_names (o_meta o) = map r_tile sel /\ m_tile_height (o_meta o) = map (fun r => (r_height r - d_alt h)%Q) sel
  /\ m_tile_flag (o_meta o) = map r_flag sel /\ o_tile_use o = map (fun r => (1 - r_flag r)%Z) sel
  /\ o_n_tile_flag o = List.length (filter (fun r => (r_flag r =? 1)%Z) sel)
  /\ mf_num f "RA"%string = Some (m_obsra (o_meta o)) /\ mf_num f "DEC"%string = Some (m_obsdec (o_meta o))
  /\ mf_num f "RAPHASE"%string = Some (m_phasera (o_meta o)) /\ mf_num f "DECPHASE"%string = Some (m_phasedec (o_meta o))
  /\ mf_num f "INTTIME"%string = Some (m_time_res (o_meta o))
  /\ m_orig_phasera (o_meta o) = (match c_phasera c with Some x => x | None => m_phasera (o_meta o) end)
  /\ m_orig_phasedec (o_meta o) = (match c_phasedec c with Some x => x | None => m_phasedec (o_meta o) end)
  /\ a_crval (m_astr (o_meta o)) = (m_phasera (o_meta o), m_phasedec (o_meta o))
  /\ a_naxis (m_astr (o_meta o)) = (o_dimension o, o_elements o)
  /\ a_crpix (m_astr (o_meta o)) = (o_dimension o / 2 + 1, o_elements o / 2 + 1)%Z.
Proof.
  intros s tick c h p ants f o H CT. apply create_parts in H as (nt & offs & nb & ext & _ & _ & _ & _ & _ & _ & _ & _ & _ & EM & _ & _ & _ & _ & _ & TU & NT & _).
  apply read_parts in EM as (sel & ra & dec & pra & pdec & res & delays & ES & _ & E1 & E2 & E3 & E4 & E5 & _ & M1 & M2 & M3 & M4 & M5 & M6 & M7 & M8 & M9 & M10 & AS & _).
  exists sel. split; [now apply single_spec|]. rewrite AS, M1, M2, M3, M4, M5, M6, M7, M8, M9, M10. cbn [project a_crval a_naxis a_crpix].
  repeat split; auto.
  - rewrite TU, M3, map_map. reflexivity.
  - rewrite NT, TU, M3, map_map. clear. induction sel as [|r sel IH]; [reflexivity|]. cbn [map filter].
    destruct (Z.eqb_spec (1 - r_flag r) 0) as [X|X], (Z.eqb_spec (r_flag r) 1) as [Y|Y]; try lia; cbn [List.length]; congruence.
Qed.
Print Assumptions C74_metadata.

(** The longitude offset used for the projection is that of the phase centre from the zenith. *)
Theorem C74_offset : forall phasera zenra, same_direction (lon_offset phasera zenra) (phasera - zenra)%Q.
Proof. exact lon_offset_spec. Qed.
Print Assumptions C74_offset.

(** The check that some tile is unflagged is off by one: with exactly one unflagged tile the program ends, and with none it
    goes on. *)
Theorem C74_one_tile_refuted : forall s tick c h p n d e dp f sel, idl_argunique (u_time p) <> [] ->
  c_simulation c = false -> single (sort_rows (mf_rows f)) = Ok sel -> (forall r, In r sel -> r_flag r = 0 \/ r_flag r = 1)%Z ->
  List.length (filter (fun r => (r_flag r =? 0)%Z) sel) = 1 ->
  read_metafits s tick c h p n d e dp (Some f) = Err SystemExit.
Proof.
  intros s tick c h p n d e dp f sel T SI ES FL ONE. unfold read_metafits.
  destruct (zmin_ok (map (fun i => nth i (u_time p) 0%Z) (idl_argunique (u_time p)))) as [jd0 ->].
  { destruct (idl_argunique (u_time p)); [congruence|discriminate]. }
  cbn [bind]. unfold from_file. rewrite ES. cbn [bind].
  assert (A : all_flagged (map r_flag sel) = true).
  { apply all_flagged_iff; [intros z Z; apply in_map_iff in Z as (r & <- & R); now apply FL|].
    rewrite <- ONE. clear. induction sel as [|r sel IH]; [reflexivity|]. cbn [map filter]. destruct (r_flag r =? 0)%Z; cbn [List.length]; congruence. }
  rewrite A, SI. reflexivity.
Qed.
Print Assumptions C74_one_tile_refuted.
Theorem C74_all_flagged_refuted : forall s tick c h p n d e dp f sel, idl_argunique (u_time p) <> [] -> has_cards f ->
  single (sort_rows (mf_rows f)) = Ok sel -> (forall r, In r sel -> r_flag r = 1%Z) ->
  exists m, read_metafits s tick c h p n d e dp (Some f) = Ok m /\ forall x, In x (m_tile_flag m) -> x = 1%Z.
Proof.
  intros s tick c h p n d e dp f sel T C ES FL.
  destruct (read_ok s tick c h p n d e dp f T) as [m EM]; auto.
  - intros Z. rewrite Z in ES. discriminate ES.
  - intros sel' ES' A. rewrite ES in ES'. injection ES' as <-. exfalso.
    apply all_flagged_iff in A; [|intros z Z; apply in_map_iff in Z as (r & <- & R); right; now apply FL].
    assert (E : filter (fun z => (z =? 0)%Z) (map r_flag sel) = []).
    { clear -FL. induction sel as [|r sel IH]; [reflexivity|]. cbn [map filter]. rewrite (FL r (or_introl eq_refl)). cbn [Z.eqb].
      apply IH. intros; apply FL; now right. }
    rewrite E in A. discriminate A.
  - exists m. split; [exact EM|].
    apply read_parts in EM as (sel' & ra & dec & pra & pdec & res & delays & ES' & _ & _ & _ & _ & _ & _ & _ & _ & _ & M3 & _).
    rewrite ES in ES'. injection ES' as <-. rewrite M3. intros x X. apply in_map_iff in X as (r & <- & R). now apply FL.
Qed.
Print Assumptions C74_all_flagged_refuted.

(** Without a metafits file the announced fallback always fails. *)
Theorem C74_no_file_refuted : forall s tick c h p n d e dp, idl_argunique (u_time p) <> [] -> 1 <= n ->
  read_metafits s tick c h p n d e dp None = Err UnboundLocal.
Proof.
  intros s tick c h p n d e dp T N. unfold read_metafits.
  destruct (zmin_ok (map (fun i => nth i (u_time p) 0%Z) (idl_argunique (u_time p)))) as [jd0 ->].
  { destruct (idl_argunique (u_time p)); [congruence|discriminate]. }
  cbn [bind]. unfold from_header.
  assert (LE : (1 <= inject_Z (Z.of_nat n))%Q) by (change 1%Q with (inject_Z 1); rewrite <- Zle_Qle; lia).
  assert (HH : forall l, exists a bins ri, histogram l 1 None (Some 1%Q) (Some (inject_Z (Z.of_nat n))) = Ok (a, bins, ri) /\ List.length a = n).
  { intros l. destruct (histogram_counts l 1%Q 1%Q (inject_Z (Z.of_nat n)) eq_refl LE) as (a & bins & ri & E & LB & _ & IB & _ & PW & _).
    exists a, bins, ri. split; [exact E|]. rewrite LB. destruct IB as [I1 I2]. rewrite Qmult_1_r in I1. 
    rewrite ?Qmult_1_r in I2. change 1%Q with (inject_Z 1) in I1, I2. rewrite <- ?inject_Z_plus in I1, I2. rewrite <- ?inject_Z_mult in I1, I2.
    rewrite <- ?inject_Z_plus in I1, I2. rewrite <- Zle_Qle in I1. rewrite <- Zlt_Qlt in I2. destruct (PW 1%Q (conj (Qle_refl _) LE)) as (i0 & (I0 & _) & _). lia. }
  destruct (HH (map inject_Z (u_ant1 p))) as (a & b1 & r1 & E1 & L1). destruct (HH (map inject_Z (u_ant2 p))) as (b & b2 & r2 & E2 & L2).
  rewrite E1. cbn [bind]. rewrite E2. cbn [bind]. rewrite L1, L2, Nat.eqb_refl. cbn [negb].
  rewrite (proj2 (Nat.leb_le n n) (le_n n)). cbn [negb bind].
  destruct (zenith s (d_lat h) (d_lon h) (d_alt h) jd0). reflexivity.
Qed.
Print Assumptions C74_no_file_refuted.

(** No cut of some but not all times ever happens; for a single time to cut every value but 0 is an error. *)
Theorem C74_time_cut_refuted : forall s tick c h p ants file o, create_obs s tick c h p ants file = Ok o ->
  (0 < m_time_res (o_meta o))%Q -> o_time_use o = repeat true (o_n_time o) \/ o_time_use o = repeat false (o_n_time o).
Proof.
  intros s tick c h p ants file o H R. apply create_parts in H as (nt & offs & nb & ext & _ & _ & _ & _ & _ & _ & _ & _ & _ & _ & TU & NT & _).
  rewrite NT. exact (time_use_spec _ _ _ _ R TU).
Qed.
Print Assumptions C74_time_cut_refuted.
Theorem C74_one_cut_refuted : forall s tick c h p ants file o v, create_obs s tick (with_time_cut c None) h p ants file = Ok o ->
  (0 < m_time_res (o_meta o))%Q -> v <> 0%Z ->
  create_obs s tick (with_time_cut c (Some [CInt v])) h p ants file = Err (if (v =? -1)%Z then TypeError else IndexError).
Proof.
  intros s tick c h p ants file o v H R N. unfold create_obs in *.
  apply bind_ok in H as ([[n_time offsets] nb] & E1 & H). rewrite E1. cbn [bind].
  apply bind_ok in H as (fbin & E2 & H). change (c_nfreq_avg (with_time_cut c (Some [CInt v]))) with (c_nfreq_avg (with_time_cut c None)). rewrite E2. cbn [bind].
  apply bind_ok in H as (ab & E3 & H). rewrite E3. cbn [bind].
  apply bind_ok in H as (k & E4 & H). change (kpix (with_time_cut c (Some [CInt v]))) with (kpix (with_time_cut c None)). rewrite E4. cbn [bind].
  apply bind_ok in H as (de & E5 & H). change (dimensions (with_time_cut c (Some [CInt v]))) with (dimensions (with_time_cut c None)). rewrite E5. cbn [bind].
  apply bind_ok in H as (dp & E6 & H). change (degpix (with_time_cut c (Some [CInt v]))) with (degpix (with_time_cut c None)). rewrite E6. cbn [bind].
  apply bind_ok in H as (ext & E7 & H). change (extent s (with_time_cut c (Some [CInt v]))) with (extent s (with_time_cut c None)). rewrite E7. cbn [bind].
  apply bind_ok in H as (m & E8 & H). change (read_metafits s tick (with_time_cut c (Some [CInt v]))) with (read_metafits s tick (with_time_cut c None)). rewrite E8. cbn [bind].
  apply bind_ok in H as (use & E9 & H). injection H as <-. cbn [o_meta] in R.
  rewrite (time_use_one n_time (m_time_res m) (with_time_cut c (Some [CInt v])) v R eq_refl N). reflexivity.
Qed.
Print Assumptions C74_one_cut_refuted.
Theorem C74_no_file_create_refuted : forall s tick c h p ants o, 1 <= d_n_tile h -> create_obs s tick c h p ants None <> Ok o.
Proof.
  intros s tick c h p ants o N H. apply create_parts in H as (nt & offs & nb & ext & ET & _ & _ & _ & _ & _ & _ & _ & _ & EM & _).
  rewrite C74_no_file_refuted in EM; [discriminate EM| |exact N]. cbn [par' u_time]. intros Z. unfold obs_times in ET. rewrite Z in ET. discriminate ET.
Qed.
Print Assumptions C74_no_file_create_refuted.

(** Two antennas, two polarisations, two times, two frequencies; the rows are not in order. *)
Definition demo_sky : sky := {| zenith := fun _ _ _ _ => (10%Q, (-27)%Q); slant := fun _ _ _ _ _ => (0%Q, 0%Q);
  to_altaz := fun _ _ _ _ _ _ => (80%Q, 0%Q); hyp := fun x y => (Qabs x + Qabs y)%Q; deg := 57 # 1 |}.
Definition demo_config : config := {| c_n_pol := 2; c_nfreq_avg := None; c_fov := None; c_kbinsize := None; c_dimension := Some 16%Z;
  c_elements := None; c_min_baseline := Some 1%Q; c_time_cut := None; c_simulation := false; c_phasera := None; c_phasedec := None |}.
Definition demo_header : header := {| d_n_tile := 2; d_n_pol := 2; d_freq_res := 1; d_freq := [10; 11]%Q; d_lon := 116; d_lat := -27;
  d_alt := 300; d_ra := 0; d_dec := -27 |}.
Definition demo_params : uvpar := {| u_time := [100; 100; 102; 102]%Z; u_ant1 := [1; 1; 1; 1]%Z; u_ant2 := [1; 2; 1; 2]%Z;
  u_baseline := None; u_uu := [0; 1 # 10; 0; 1 # 5]%Q; u_vv := [0; 0; 0; 9]%Q |}.
Definition demo_file : metafits := {|
  mf_num := fun k => if String.eqb k "INTTIME" then Some 2%Q else Some 5%Q; mf_delays := Some ["0"%string];
  mf_rows := [ {| r_antenna := 1; r_pol := "Y"; r_tile := 12; r_height := 302; r_flag := 0 |};
               {| r_antenna := 0; r_pol := "Y"; r_tile := 11; r_height := 301; r_flag := 0 |};
               {| r_antenna := 1; r_pol := "X"; r_tile := 12; r_height := 302; r_flag := 0 |};
               {| r_antenna := 0; r_pol := "X"; r_tile := 11; r_height := 301; r_flag := 0 |} ] |}.
Example C73_demo : complete_table (mf_rows demo_file) /\ has_cards demo_file /\
  match create_obs demo_sky 1 demo_config demo_header demo_params [1; 2]%Z (Some demo_file) with
  | Ok o => o_degpix o == 57 # 8 /\ o_max_baseline o == 11 # 10 /\ o_min_baseline o == 1 /\ o_n_time o = 2
            /\ m_tile_names (o_meta o) = [11; 12]%Z /\ o_tile_use o = [1; 1]%Z /\ o_time_use o = [true; true]
  | Err _ => False
  end.
Proof.
  split; [|split].
  - split.
    + cbn. repeat constructor; cbn; intuition congruence.
    + cbn. intros r r' [<-|[<-|[<-|[<-|[]]]]] [<-|[<-|[<-|[<-|[]]]]]; cbn; eauto 12.
  - split; [|discriminate]. intros k _. cbn. destruct (String.eqb k "INTTIME"); discriminate.
  - vm_compute. repeat split.
Qed.
