(** C81: the kernels made for each baseline. C82: clipping of their floor. C83: the integrals of the beam. C84: the window. Model: Kernel.v;
    vocabulary: KernelSpec.v. *)
From Coq Require Import String Reals Lra.
From Verif Require Import Base NpArr PyIndex Sky DirtyImage DirtyImageSpec DirtyImageProofs Quickview ExportSize ExportSizeSpec ExportSizeProofs Kernel KernelSpec KernelProofs.
Import ListNotations.
Open Scope R_scope.
Ltac Zify.zify_post_hook ::= idtac.

(** ** C81 *)
(** Every visibility has its own kernel, whatever the others are: in every uv pixel the sum of the values of the transform of the
    beam, with the phases of the visibility, that fall in the pixel. *)
Theorem C81_kernel : forall uniform rebin p c mo xmin ymin pol bot vis beam n,
  nth_error (k_image p) pol = Some beam -> has_shape beam n n -> (0 < n)%nat -> Nat.Even n ->
  has_shape (m_l mo) n n -> has_shape (m_m mo) n n -> has_shape (m_n mo) n n ->
  (0 < k_res p)%nat -> (bot + k_dim p * k_res p <= n)%nat ->
  (forall bt fi, In (bt, fi) vis -> exists v, reads p c xmin ymin bt fi v) ->
  exists box, grid_beam_per_baseline uniform rebin false p c mo xmin ymin pol (Z.of_nat bot) (Z.of_nat (bot + k_dim p * k_res p) - 1) vis None = Ok (box, None)
  /\ length box = length vis
  /\ forall k bt fi v, nth_error vis k = Some (bt, fi) -> reads p c xmin ymin bt fi v ->
     let phase i j := at2 (m_l mo) i j * (v_u v * v_f v - v_x v) + at2 (m_m mo) i j * (v_v v * v_f v - v_y v) - at2 (m_n mo) i j * (v_w v * v_f v) in
     exists row, nth_error box k = Some row /\ length row = (k_dim p * k_dim p)%nat
     /\ forall Y X, (Y < k_dim p)%nat -> (X < k_dim p)%nat ->
        nth (Y * k_dim p + X) row (0, 0) = block_sum (k_res p) (fun a b => fourier (phased beam phase) (bot + a) (bot + b)) Y X.
Proof.
  intros uniform rebin p c mo xmin ymin pol bot vis beam n EB SB N EV SL SM SN RP BT RD. unfold grid_beam_per_baseline.
  assert (AL : exists box, kernels uniform rebin p c mo xmin ymin pol (Z.of_nat bot) (Z.of_nat (bot + k_dim p * k_res p) - 1) vis = Ok box).
  { unfold kernels. induction vis as [|(bt, fi) vis IH]; [exists []; reflexivity|]. cbn [map_res fst snd]. destruct (RD bt fi (or_introl eq_refl)) as (v & RV).
    rewrite (kernel_ok uniform rebin p c mo xmin ymin pol bot bt fi beam n v RV EB SB N EV SL SM SN RP BT). cbn [bind].
    destruct IH as (bs & ->); [intros; apply RD; now right|]. cbn [bind]. eauto. }
  destruct AL as (box & EK). rewrite EK. cbn [bind]. exists box. split; [reflexivity|]. destruct (map_res_nth _ _ _ EK) as (L & NT). split; [exact L|].
  intros k bt fi v K RV. cbv zeta. destruct (NT k _ K) as (row & ER & NR). cbn [fst snd] in ER.
  rewrite (kernel_ok uniform rebin p c mo xmin ymin pol bot bt fi beam n v RV EB SB N EV SL SM SN RP BT) in ER. injection ER as <-. eexists. split; [exact NR|].
  split; [rewrite map_length, seq_length; reflexivity|]. intros Y X HY HX.
  assert (B : (Y * k_dim p + X < k_dim p * k_dim p)%nat) by nia.
  match goal with |- nth _ (map ?f _) _ = _ => rewrite (nth_indep _ (0, 0) (f 0%nat)) by (rewrite map_length, seq_length; exact B); rewrite (map_nth f), seq_nth by exact B end.
  cbn [Nat.add]. replace (Y * k_dim p + X)%nat with (X + Y * k_dim p)%nat by lia. rewrite Nat.div_add, Nat.mod_add, Nat.div_small, Nat.mod_small by lia. reflexivity.
Qed.
Print Assumptions C81_kernel.

(** As visibility_grid calls it, with direction cosines that are linear in the pixels of the beam and pixels of the beam's
    transform 1/resolution of a uv pixel: the kernel is the transform of the beam moved by the distance of the visibility from
    the middle of the box, and w does not matter. U, V: the place of the visibility in uv pixels. *)
Theorem C81_position : forall uniform rebin p l m nt dimension kpix uu vv ww freq bi c xmin ymin pol bot vis beam n k,
  nth_error (k_image p) pol = Some beam -> has_shape beam n n -> (0 < n)%nat -> Nat.Even n ->
  linear_modes k n (grid_modes l m nt) -> 0 < kpix -> k * INR n * kpix = INR (k_res p) ->
  (0 < k_res p)%nat -> (bot + k_dim p * k_res p <= n)%nat ->
  grid_coords dimension kpix uu vv ww freq bi = Ok c -> (xmin + k_dim p / 2 < dimension)%nat -> (ymin + k_dim p / 2 < dimension)%nat ->
  (forall bt fi, In (bt, fi) vis -> (bt < length bi)%nat /\ (fi < length freq)%nat) ->
  exists box, grid_beam_per_baseline uniform rebin false p c (grid_modes l m nt) xmin ymin pol (Z.of_nat bot) (Z.of_nat (bot + k_dim p * k_res p) - 1) vis None = Ok (box, None)
  /\ length box = length vis
  /\ forall i bt fi b u v f, nth_error vis i = Some (bt, fi) -> nth_error bi bt = Some b -> nth_error uu b = Some u -> nth_error vv b = Some v -> nth_error freq fi = Some f ->
     let U := flip v u * f / kpix + half dimension in let V := flip v v * f / kpix + half dimension in
     exists row, nth_error box i = Some row /\ length row = (k_dim p * k_dim p)%nat
     /\ forall Y X, (Y < k_dim p)%nat -> (X < k_dim p)%nat ->
        nth (Y * k_dim p + X) row (0, 0) =
        block_sum (k_res p) (fun a b => fourier_at beam (INR (bot + a) - INR (k_res p) * (V - INR (ymin + k_dim p / 2)))
                                                        (INR (bot + b) - INR (k_res p) * (U - INR (xmin + k_dim p / 2)))) Y X.
Proof.
  intros uniform rebin p l m nt dimension kpix uu vv ww freq bi c xmin ymin pol bot vis beam n k EB SB N EV (SL & SM & SN & LV) KP KE RP BT GC XB YB RD.
  unfold grid_coords in GC. apply bind_ok in GC as (us & EU & GC). apply bind_ok in GC as (vs & EVV & GC). apply bind_ok in GC as (ws & EW & GC). injection GC as <-.
  destruct (map_res_nth _ _ _ EU) as (LU & NU). destruct (map_res_nth _ _ _ EVV) as (LVV & NV). destruct (map_res_nth _ _ _ EW) as (LW & NW).
  set (turn := fun q : list R => map (fun vr => flip (fst vr) (snd vr)) (combine vs q)).
  assert (TN : forall q bt b0 v0, length q = length bi -> nth_error bi bt = Some b0 -> nth_error vv b0 = Some v0 -> forall r, nth_error q bt = Some r -> nth_error (turn q) bt = Some (flip v0 r)).
  { intros q bt b0 v0 LQ B0 V0 r QR. destruct (NV bt b0 B0) as (v1 & EV1 & NV1). unfold get in EV1. rewrite V0 in EV1. injection EV1 as ->.
    assert (NC : nth_error (combine vs q) bt = Some (v1, r)).
    { clear - NV1 QR. revert q bt NV1 QR. induction vs as [|a vs IH]; intros [|r0 q] [|bt] H1 H2; try discriminate; cbn in *; [congruence|auto]. }
    unfold turn. rewrite (map_nth_error _ _ _ NC). reflexivity. }
  assert (AX : forall j, (j < dimension)%nat -> nth_error (grid_axis dimension kpix) j = Some ((INR j - half dimension) * kpix)).
  { intros j J. unfold grid_axis. apply (map_nth_error (fun k0 => (INR k0 - half dimension) * kpix)). rewrite (nth_error_nth' _ 0%nat) by (rewrite seq_length; exact J). now rewrite seq_nth. }
  assert (RR : forall bt fi, In (bt, fi) vis -> exists b u v w f, nth_error bi bt = Some b /\ nth_error uu b = Some u /\ nth_error vv b = Some v /\ nth_error ww b = Some w /\ nth_error freq fi = Some f
     /\ reads p {| c_uu := turn us; c_vv := turn vs; c_ww := turn ws; c_freq := freq; c_x := grid_axis dimension kpix; c_y := grid_axis dimension kpix |} xmin ymin bt fi
        {| v_u := flip v u; v_v := flip v v; v_w := flip v w; v_f := f; v_x := (INR (xmin + k_dim p / 2) - half dimension) * kpix; v_y := (INR (ymin + k_dim p / 2) - half dimension) * kpix |}).
  { intros bt fi IV. destruct (RD bt fi IV) as (B1 & F1). destruct (nth_error bi bt) as [b|] eqn:EBI; [|apply nth_error_None in EBI; lia].
    destruct (nth_error freq fi) as [f|] eqn:EF; [|apply nth_error_None in EF; lia].
    destruct (NU bt b EBI) as (u & GU & US). destruct (NV bt b EBI) as (v & GV & VS). destruct (NW bt b EBI) as (w & GW & WS). unfold get in GU, GV, GW.
    destruct (nth_error uu b) eqn:E1; [|discriminate]. destruct (nth_error vv b) eqn:E2; [|discriminate]. destruct (nth_error ww b) eqn:E3; [|discriminate].
    injection GU as ->. injection GV as ->. injection GW as ->. exists b, u, v, w, f. repeat split; auto.
    - cbn [c_uu]. eapply TN; eauto.
    - cbn [c_vv]. eapply TN; eauto.
    - cbn [c_ww]. eapply TN; eauto.
    - cbn [c_x v_x]. apply AX. exact XB.
    - cbn [c_y v_y]. apply AX. exact YB. }
  destruct (C81_kernel uniform rebin p {| c_uu := turn us; c_vv := turn vs; c_ww := turn ws; c_freq := freq; c_x := grid_axis dimension kpix; c_y := grid_axis dimension kpix |} (grid_modes l m nt) xmin ymin pol bot vis beam n EB SB N EV SL SM SN RP BT) as (box & E & LB & V).
  { intros bt fi IV. destruct (RR bt fi IV) as (b & u & v & w & f & _ & _ & _ & _ & _ & RV). eauto. }
  exists box. split; [exact E|]. split; [exact LB|]. intros i bt fi b u v f IV B0 U0 V0 F0. cbv zeta.
  destruct (RR bt fi (nth_error_In _ _ IV)) as (b1 & u1 & v1 & w1 & f1 & B1 & U1 & V1 & W1 & F1 & RV). rewrite B0 in B1. injection B1 as <-. rewrite U0 in U1. rewrite V0 in V1. rewrite F0 in F1. injection U1 as <-. injection V1 as <-. injection F1 as <-.
  destruct (V i bt fi _ IV RV) as (row & NR & LR & VR). exists row. split; [exact NR|]. split; [exact LR|]. intros Y X HY HX. rewrite (VR Y X HY HX). unfold block_sum. apply csum_ext. intros r HR. apply csum_ext. intros s HS.
  cbv zeta. cbn [v_u v_v v_w v_f v_x v_y]. set (ph := fun i0 j0 => _). destruct SB as (RB & CB).
  change (fourier (phased beam ph) (bot + (Y * k_res p + r)) (bot + (X * k_res p + s))) with (fourier_at (phased beam ph) (INR (bot + (Y * k_res p + r))) (INR (bot + (X * k_res p + s)))).
  apply shift_ok; cbn [phased rows cols]; try reflexivity; [lia|lia|]. intros i0 j0 I0 J0. rewrite RB in I0. rewrite CB in J0. rewrite RB, CB. destruct (LV i0 j0 I0 J0) as (L1 & L2 & L3). cbn [phased at2]. f_equal. f_equal. f_equal. unfold ph.
  rewrite L1, L2, L3. assert (NN : INR n <> 0) by (apply not_0_INR; lia). rewrite <- KE. field. split; [lra|exact NN].
Qed.
Print Assumptions C81_position.

(** ** C84 *)
(** The window visibility_grid takes has dim*resolution values a side. For resolutions 1 and 2 the middle of the transform is the
    first value of the uv pixel dim/2, which the phases refer to. *)
Theorem C84_centre_partial : forall d res h, (0 < d)%nat -> (0 < res <= 2)%nat -> (d * res <= h)%nat ->
  exists bot, window_bounds (2 * d) res (2 * h) = (Z.of_nat bot, Z.of_nat (bot + 2 * d * res) - 1)%Z /\ (bot + d * res)%nat = h.
Proof.
  intros d res h D RP B. rewrite <- (intermediate_small res RP) in B at 1. exists (h - d * intermediate res)%nat. rewrite window_bounds_ok by lia.
  split; [reflexivity|]. rewrite (intermediate_small res RP) in *. lia.
Qed.
Print Assumptions C84_centre_partial.
(** For larger resolutions the middle is in a uv pixel before that one. *)
Theorem C84_centre_refuted : forall d res h, (0 < d)%nat -> (3 <= res)%nat -> (d * res <= h)%nat ->
  exists bot r, window_bounds (2 * d) res (2 * h) = (Z.of_nat bot, Z.of_nat (bot + 2 * d * res) - 1)%Z /\ (bot + r)%nat = h /\ (r / res < d)%nat.
Proof.
  intros d res h D RP B. pose proof (intermediate_large res RP) as IL. exists (h - d * intermediate res)%nat, (d * intermediate res)%nat.
  rewrite window_bounds_ok by nia. split; [reflexivity|]. split; [nia|]. apply Nat.div_lt_upper_bound; nia.
Qed.
Print Assumptions C84_centre_refuted.

(** ** C82 *)
(** After clipping, the kernel of every visibility has the sum it had, and values up to the floor have become 0. *)
Theorem C82_clip : forall threshold box out, clip threshold box = Ok out ->
  length out = length box
  /\ forall k row, nth_error box k = Some row -> exists row', nth_error out k = Some row' /\ length row' = length row /\ total row' = total row
     /\ forall m i, is_peak box m -> (i < length row)%nat -> cabs (nth i row (0, 0)) <= m / threshold -> nth i row' (0, 0) = (0, 0).
Proof.
  intros threshold box out H. unfold clip in H. destruct (map_res_nth _ _ _ H) as (L & N). split; [exact L|]. intros k row K. destruct (N k row K) as (row' & E & NR).
  exists row'. split; [exact NR|]. set (t := peak box / threshold) in *. assert (NZ : total (map (lowered t) row) <> (0, 0)).
  { intros Z. unfold clip_row in E. rewrite Z, cdiv_zero in E. discriminate E. }
  destruct (clip_row_ok t row NZ) as (r0 & E0 & L0 & T0 & (ratio & _ & R0)). assert (row' = r0) as -> by congruence. split; [exact L0|]. split; [exact T0|].
  intros m i PK I C0. assert (PE : peak box = m) by (apply peak_unique; [exists row, (nth i row (0, 0)); split; [eapply nth_error_In; exact K|now apply nth_In]|exact PK]).
  rewrite <- PE in C0. fold t in C0. rewrite R0. rewrite (nth_indep _ (0, 0) (cmul (lowered t (0, 0)) ratio)) by (rewrite map_length; exact I).
  rewrite (map_nth (fun z => cmul (lowered t z) ratio)). rewrite lowered_zero by exact C0. apply cx_eq; unfold cmul; cbn [fst snd]; ring.
Qed.
Print Assumptions C82_clip.
(** One visibility whose values are all below the floor set by the others makes the division fail (NaN in its kernel). *)
Theorem C82_weak_refuted : forall threshold box row m, In row box -> row <> [] -> is_peak box m -> (forall z, In z row -> cabs z <= m / threshold) ->
  forall out, clip threshold box <> Ok out.
Proof.
  intros threshold box row m I RN PK B out H. assert (PE : peak box = m) by (apply peak_unique; [destruct row as [|z row]; [congruence|]; exists (z :: row), z; split; [exact I|now left]|exact PK]).
  rewrite <- PE in B. destruct (In_nth_error _ _ I) as (k & K). unfold clip in H. destruct (map_res_nth _ _ _ H) as (_ & N). destruct (N k row K) as (row' & E & _).
  unfold clip_row in E. cbv zeta in E. rewrite (total_zero (map _ row)), cdiv_zero in E; [discriminate E|]. intros z Z. apply in_map_iff in Z as (y & <- & Y). apply lowered_zero. now apply B.
Qed.
Print Assumptions C82_weak_refuted.
(** The kernel of a visibility depends on which others share its box. *)
Theorem C82_alone_refuted : exists threshold row other out out' row' row'',
  clip threshold [row] = Ok out /\ clip threshold [row; other] = Ok out' /\ nth_error out 0 = Some row' /\ nth_error out' 0 = Some row'' /\ row' <> row''.
Proof.
  assert (CA : forall r, 0 <= r -> cabs (r, 0) = r) by (intros r P; rewrite cabs_real; now apply Rabs_right, Rle_ge).
  assert (LW : forall t r, 0 < r -> lowered t (r, 0) = (Rmax (r - t) 0, 0)).
  { intros t r P. unfold lowered, direction. rewrite CA by lra. destruct (Req_EM_T r 0); [lra|]. apply cx_eq; unfold cscale; cbn [fst snd]; field; lra. }
  assert (DV : forall a b, b <> 0 -> cdiv (a, 0) (b, 0) = Ok (a / b, 0)).
  { intros a b B. unfold cdiv. cbn [fst snd]. destruct (Req_EM_T (b ^ 2 + 0 ^ 2) 0) as [E|_]; [exfalso; apply B; nra|]. f_equal. apply cx_eq; unfold cscale, cmul; cbn [fst snd]; field; try exact B. }
  assert (ROW : forall t a b, 0 < a -> 0 < b -> Rmax (a - t) 0 + Rmax (b - t) 0 <> 0 ->
     clip_row t [(a, 0); (b, 0)] = Ok [(Rmax (a - t) 0 * ((a + b) / (Rmax (a - t) 0 + Rmax (b - t) 0)), 0); (Rmax (b - t) 0 * ((a + b) / (Rmax (a - t) 0 + Rmax (b - t) 0)), 0)]).
  { intros t a b A B N. unfold clip_row. cbn [map]. rewrite !LW by assumption. unfold total. cbn [fold_right].
    replace (cadd (a, 0) (cadd (b, 0) (0, 0))) with ((a + b, 0) : cx) by (apply cx_eq; unfold cadd; cbn [fst snd]; ring).
    set (x := Rmax (a - t) 0) in *. set (y := Rmax (b - t) 0) in *.
    replace (cadd (x, 0) (cadd (y, 0) (0, 0))) with ((x + y, 0) : cx) by (apply cx_eq; unfold cadd; cbn [fst snd]; ring).
    rewrite DV by exact N. cbn [bind]. f_equal. f_equal; [|f_equal]; apply cx_eq; unfold cmul; cbn [fst snd]; ring. }
  exists 4, [(4, 0); (2, 0)], [(8, 0); (6, 0)].
  assert (P1 : peak [[(4, 0); (2, 0)]] = 4). { unfold peak. cbn [concat app map fold_right]. rewrite !CA by lra. unfold Rmax. repeat destruct (Rle_dec _ _); lra. }
  assert (P2 : peak [[(4, 0); (2, 0)]; [(8, 0); (6, 0)]] = 8). { unfold peak. cbn [concat app map fold_right]. rewrite !CA by lra. unfold Rmax. repeat destruct (Rle_dec _ _); lra. }
  assert (M : forall x, 0 <= x -> Rmax x 0 = x) by (intros x X; apply Rmax_left; exact X).
  assert (E1 : clip 4 [[(4, 0); (2, 0)]] = Ok [[(3 * (6 / 4), 0); (1 * (6 / 4), 0)]]).
  { unfold clip. cbv zeta. rewrite P1. replace (4 / 4) with 1 by field. cbn [map_res]. rewrite ROW by (try lra; rewrite !M by lra; lra). rewrite !M by lra. cbn [bind]. repeat f_equal; lra. }
  assert (E2 : clip 4 [[(4, 0); (2, 0)]; [(8, 0); (6, 0)]] = Ok [[(2 * (6 / 2), 0); (0 * (6 / 2), 0)]; [(6 * (14 / 10), 0); (4 * (14 / 10), 0)]]).
  { unfold clip. cbv zeta. rewrite P2. replace (8 / 4) with 2 by field. cbn [map_res]. rewrite !ROW by (try lra; rewrite !M by lra; lra). rewrite !M by lra. cbn [bind]. repeat f_equal; lra. }
  eexists _, _, _, _. split; [exact E1|]. split; [exact E2|]. split; [reflexivity|]. split; [reflexivity|]. intros H. injection H as H1 H2. lra.
Qed.
Print Assumptions C82_alone_refuted.

(** ** C83 *)
(** The integral of the kernel of one visibility is taken to be its first value; the visibilities are counted. *)
Theorem C83_refuted : forall res k ks f b1 b2 n, (f < length b1)%nat -> (f < length b2)%nat -> (f < length n)%nat ->
  let per := / (INR res * INR res) in
  integrals res [k :: ks] [f] (b1, b2, n) =
  Ok (upd b1 f (cadd (nth f b1 (0, 0)) (cscale per k)), upd b2 f (cadd (nth f b2 (0, 0)) (cscale per (cabs k ^ 2, 0))), upd n f (S (nth f n 0%nat))).
Proof.
  intros res k ks f b1 b2 n B1 B2 N. cbv zeta. unfold integrals. cbn [length combine seq fold_res row_length].
  change (0 <? S (Datatypes.length ks))%nat with true. cbv iota beta.
  unfold add_at, get. rewrite (nth_error_nth' b1 (0, 0) B1), (nth_error_nth' b2 (0, 0) B2), (nth_error_nth' n 0%nat N). cbn [bind]. unfold column. cbn [map nth]. unfold total. cbn [fold_right].
  assert (PR : forall z w r, cadd w (cscale (r * 1) (cadd z (0, 0))) = cadd w (cscale r z)) by (intros z w r; apply cx_eq; unfold cscale, cadd; cbn [fst snd]; ring).
  rewrite !PR. reflexivity.
Qed.
Print Assumptions C83_refuted.
(** The visibilities of every channel are counted, and nothing is added for channels without any. *)
Theorem C83_channels_partial : forall uniform rebin clip_floor p c mo xmin ymin pol bot top vis b1 b2 n box b1' b2' n',
  grid_beam_per_baseline uniform rebin clip_floor p c mo xmin ymin pol bot top vis (Some (b1, b2, n)) = Ok (box, Some (b1', b2', n')) ->
  length b1' = length b1 /\ length b2' = length b2 /\ length n' = length n
  /\ forall f, (f < length n)%nat ->
       nth f n' 0%nat = (nth f n 0 + length (filter (fun bf => snd bf =? f) vis))%nat
       /\ ((forall bt, ~ In (bt, f) vis) -> nth f b1' (0, 0) = nth f b1 (0, 0) /\ nth f b2' (0, 0) = nth f b2 (0, 0)).
Proof.
  intros uniform rebin cf p c mo xmin ymin pol bot top vis b1 b2 n box b1' b2' n' H. unfold grid_beam_per_baseline in H.
  apply bind_ok in H as (k0 & _ & H). apply bind_ok in H as (k1 & _ & H). apply bind_ok in H as (s & E & H). injection H as -> ->.
  unfold integrals in E. cbv zeta in E. rewrite map_length in E.
  match type of E with fold_res ?g _ _ = _ => set (step := g) in E end.
  assert (G : forall l a b1 b2 n b1' b2' n', fold_res step (combine (seq a (length l)) (map snd l)) (b1, b2, n) = Ok (b1', b2', n') ->
    length b1' = length b1 /\ length b2' = length b2 /\ length n' = length n
    /\ forall f, (f < length n)%nat ->
       nth f n' 0%nat = (nth f n 0 + length (filter (fun bf : nat * nat => snd bf =? f) l))%nat
       /\ ((forall bt, ~ In (bt, f) l) -> nth f b1' (0, 0) = nth f b1 (0, 0) /\ nth f b2' (0, 0) = nth f b2 (0, 0))).
  { clear. induction l as [|(bt, g) l IH]; intros a b1 b2 n b1' b2' n' E.
    { cbn in E. injection E as <- <- <-. repeat split; auto. }
    cbn [length seq map snd combine fold_res] in E. apply bind_ok in E as ([[c1 c2] m] & E1 & E2).
    unfold step in E1. destruct (a <? row_length box)%nat; [|discriminate E1]. unfold add_at, get in E1.
    destruct (nth_error b1 g) as [x1|]; [|discriminate E1]. cbn [bind] in E1. destruct (nth_error b2 g) as [x2|]; [|discriminate E1]. cbn [bind] in E1.
    destruct (nth_error n g) as [k|] eqn:EK; [|discriminate E1]. cbn [bind] in E1. injection E1 as <- <- <-.
    destruct (IH _ _ _ _ _ _ _ E2) as (L1 & L2 & L3 & V). rewrite !upd_length in *. split; [exact L1|]. split; [exact L2|]. split; [exact L3|].
    intros f Hf. destruct (V f Hf) as [V1 V2]. cbn [filter snd]. destruct (Nat.eqb_spec g f) as [->|Ng].
    - split; [|intros Nf; exfalso; apply (Nf bt); now left]. rewrite V1, upd_same by exact Hf. rewrite (nth_error_nth n f 0%nat EK). cbn [length]. lia.
    - split; [rewrite V1, upd_other by congruence; reflexivity|]. intros Nf. destruct V2 as [V3 V4]; [intros bt' Ib; apply (Nf bt'); now right|].
      rewrite V3, V4, !upd_other by congruence. auto. }
  exact (G vis 0%nat b1 b2 n b1' b2' n' E).
Qed.
Print Assumptions C83_channels_partial.
(** More visibilities than uv pixels in a kernel: an error. *)
Theorem C83_many_refuted : forall res box freq_i s, (row_length box < length freq_i)%nat -> forall out, integrals res box freq_i s <> Ok out.
Proof.
  intros res box freq_i s L. unfold integrals.
  match goal with |- forall out, fold_res ?g _ _ <> Ok out => set (step := g) end.
  assert (G : forall l st, (exists ii f, In (ii, f) l /\ (row_length box <= ii)%nat) -> forall out, fold_res step l st <> Ok out).
  { induction l as [|(i0, f0) l IH]; intros st (ii & f & I & B) out H; [contradiction|]. cbn [fold_res] in H. apply bind_ok in H as (st' & E & H). destruct I as [I|I].
    - injection I as -> ->. unfold step in E. destruct st as [[b1 b2] n]. destruct (Nat.ltb_spec ii (row_length box)); [lia|discriminate E].
    - eapply IH; [|exact H]. eauto. }
  intros out. apply G. exists (row_length box). destruct (nth_error freq_i (row_length box)) as [f|] eqn:E; [|apply nth_error_None in E; lia]. exists f. split; [|lia].
  assert (NC : nth_error (combine (seq 0 (length freq_i)) freq_i) (row_length box) = Some (row_length box, f)).
  { assert (GC : forall (l : list nat) a k x, nth_error l k = Some x -> nth_error (combine (seq a (length l)) l) k = Some ((a + k)%nat, x)).
    { induction l as [|y l IH]; intros a [|k] x K; try discriminate; cbn [length seq combine nth_error] in *; [injection K as ->; f_equal; f_equal; lia|].
      rewrite (IH (S a) k x K). f_equal. f_equal. lia. }
    exact (GC freq_i 0%nat _ _ E). }
  now apply nth_error_In in NC.
Qed.
Print Assumptions C83_many_refuted.

(** ** A concrete case: a beam of 2 by 2 values, kernels of 2 by 2 uv pixels of half a wavelength, one visibility at u = 1, v = -1 *)
Definition ex_beam : arr2 cx := Arr2 2 2 (fun i j => (INR (1 + i + 2 * j), 0)).
Definition ex_psf : kpsf := {| k_dim := 2; k_res := 1; k_image := [ex_beam]; k_threshold := 100 |}.
Definition ex_l : arr2 R := Arr2 2 2 (fun i j => 1 * (INR j - half 2)).
Definition ex_m : arr2 R := Arr2 2 2 (fun i j => 1 * (INR i - half 2)).
Definition ex_none (w : arr2 cx) : result (arr2 cx * arr2 R) := Err TypeError.
Definition ex_rebin (a : arr2 R) (s : nat * nat) : result (arr2 R) := Err TypeError.
Example C81_demo : exists box row, (window_bounds 2 1 2 = (0, 1)%Z)
  /\ (c <- grid_coords 4 (1 / 2) [1] [-1] [7] [1] [0%nat] ;;
      grid_beam_per_baseline ex_none ex_rebin false ex_psf c (grid_modes ex_l ex_m ex_l) 2 0 0 0 1 [(0, 0)%nat] None) = Ok (box, None)
  /\ nth_error box 0 = Some row
  /\ nth 3 row (0, 0) = cadd (cadd (fourier_at ex_beam (1 - (0 - 1)) (1 - (4 - 3))) (0, 0)) (0, 0).
Proof.
  assert (LM : linear_modes 1 2 (grid_modes ex_l ex_m ex_l)) by (repeat split).
  assert (WB : window_bounds 2 1 2 = (0, 1)%Z) by (destruct (C84_centre_partial 1 1 1 ltac:(lia) ltac:(lia) ltac:(lia)) as (b & W & B); assert (b = 0%nat) as -> by lia; exact W).
  assert (FL : forall r, flip (-1) r = r) by (intros r; unfold flip; destruct (Rlt_dec 0 (-1)); [lra|reflexivity]).
  assert (GC : exists c, grid_coords 4 (1 / 2) [1] [-1] [7] [1] [0%nat] = Ok c) by (unfold grid_coords; cbn [map_res get nth_error bind]; eauto).
  destruct GC as (c & GC). assert (EV : Nat.Even 2) by (exists 1%nat; reflexivity).
  destruct (C81_position ex_none ex_rebin ex_psf ex_l ex_m ex_l 4 (1 / 2) [1] [-1] [7] [1] [0%nat] c 2 0 0 0 [(0, 0)%nat] ex_beam 2 1 eq_refl (conj eq_refl eq_refl)
    ltac:(lia) EV LM ltac:(lra) ltac:(cbn [INR ex_psf k_res]; lra) ltac:(cbn; lia) ltac:(cbn; lia) GC ltac:(cbn; lia) ltac:(cbn; lia)) as (box & E & L & V).
  { intros bt fi [H|[]]. injection H as <- <-. cbn; lia. }
  destruct (V 0%nat 0%nat 0%nat 0%nat 1 (-1) 1 eq_refl eq_refl eq_refl eq_refl eq_refl) as (row & NR & LR & VR).
  exists box, row. split; [exact WB|]. rewrite GC. cbn [bind]. split; [exact E|]. split; [exact NR|].
  specialize (VR 1%nat 1%nat ltac:(cbn; lia) ltac:(cbn; lia)). refine (eq_trans VR _). cbn [ex_psf k_res k_dim]. unfold block_sum, csum. cbn [seq map fold_right]. rewrite !FL.
  replace (INR 1 * (-1 * 1 / (1 / 2) + half 4 - INR (0 + 2 / 2))) with (0 - 1) by (unfold half; cbn; lra).
  replace (INR 1 * (1 * 1 / (1 / 2) + half 4 - INR (2 + 2 / 2))) with (4 - 3) by (unfold half; cbn; lra).
  reflexivity.
Qed.
