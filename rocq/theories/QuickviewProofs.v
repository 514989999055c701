(** Lemmas about quickview. *)
From Coq Require Import String Reals Lra.
From Verif Require Import Base NpArr PyIndex Obs Sky DirtyImage DirtyImageSpec DirtyImageProofs Quickview QuickviewSpec.
Import ListNotations.
Open Scope R_scope.
Ltac Zify.zify_post_hook ::= idtac.

Lemma py_int_floor q : (0 <= q)%Q -> py_int q = Qround.Qfloor q.
Proof. intros H. unfold py_int. destruct (Qlt_le_dec q 0) as [L|L]; [|reflexivity]. exfalso. apply (Qlt_not_le _ _ L H). Qed.
Lemma floor_pos q z : Qround.Qfloor q = z -> (0 <= z)%Z -> (0 <= q)%Q.
Proof.
  intros E L. apply Qle_trans with (inject_Z z); [change 0%Q with (inject_Z 0); rewrite <- Zle_Qle; exact L|]. rewrite <- E. apply Qround.Qfloor_le.
Qed.
Lemma assign_same {A} n (a : arr2 A) : sized n a -> exists p, assign n n a = Ok p /\ arr_eq p a.
Proof.
  intros (R0 & C0). unfold assign, axis_ok. rewrite R0, C0, Nat.eqb_refl. cbn [orb andb]. eexists. split; [reflexivity|].
  split; [cbn; congruence|]. split; [cbn; congruence|]. cbn [at2 rows cols]. intros i j I J. unfold bidx.
  destruct (Nat.eqb_spec n 1); [|reflexivity]. f_equal; lia.
Qed.
Lemma azip_same {A B D} n (f : A -> B -> D) a b : sized n a -> sized n b ->
  exists p, azip f a b = Ok p /\ sized n p /\ forall i j, (i < n)%nat -> (j < n)%nat -> at2 p i j = f (at2 a i j) (at2 b i j).
Proof.
  intros (R0 & C0) (R1 & C1). unfold azip, bdim. rewrite R0, C0, R1, C1, Nat.eqb_refl. eexists. split; [reflexivity|].
  split; [split; reflexivity|]. intros i j I J. cbn [at2]. unfold bidx. destruct (Nat.eqb_spec n 1); [|reflexivity].
  replace i with 0%nat by lia. replace j with 0%nat by lia. reflexivity.
Qed.
Lemma sized_ext {A} n (a b : arr2 A) : arr_eq a b -> sized n b -> sized n a.
Proof. intros (R0 & C0 & _) (R1 & C1). split; congruence. Qed.
Lemma sized_even n a : (0 < n)%nat -> Nat.Even n -> sized n a -> even_sizes a.
Proof. intros N E (R0 & C0). unfold even_sizes. rewrite R0, C0. auto. Qed.
Lemma kernel_sized n (a : arr2 cx) : (0 < n)%nat -> sized n a -> (kernel_width (rows a) (cols a) None <= rows a)%nat.
Proof. intros N (R0 & C0). rewrite R0, C0. now apply kernel_default. Qed.

(** ** One call of dirty_image_generate without padding *)
Definition scale_of (cfg : config) (degpix : R) : R := per_steradian (Some degpix) * Q2R (c_pad cfg) ^ 2.
Definition call_value (cfg : config) (degpix : R) (b : arr2 R) (nr : bool) (z : cx) (y x : nat) : cx :=
  let v := cscale (scale_of cfg degpix) z in
  let v := if nr then v else (fst v, 0) in
  if c_optimal cfg then cscale (at2 b y x) v else v.
Lemma image_beam cfg d f nr b w n : (0 < n)%nat -> Nat.Even n -> sized n (plane w) -> sized n b ->
  exists img, step_image (call_options cfg d f nr b) w = Ok img /\ sized n img
  /\ forall y x, (y < n)%nat -> (x < n)%nat ->
     at2 img y x = let v := fourier (plane w) y x in let v := if nr then v else (fst v, 0) in if c_optimal cfg then cscale (at2 b y x) v else v.
Proof.
  intros N E SZ SB. unfold step_image. pose proof (sized_even _ _ N E SZ) as EV.
  destruct (fft_ok (plane w)) as (g & G); [apply EV|apply EV|]. rewrite G. cbn [bind].
  cbn [call_options o_not_real o_beam o_norm o_optimal andb]. destruct (shifted_fft _ _ EV G) as (R0 & C0 & V).
  destruct SZ as (R1 & C1). rewrite R1 in *. rewrite C1 in *. destruct (c_optimal cfg).
  - set (img := if nr then fftshift g else real_part (fftshift g)).
    assert (SI : rows img = n /\ cols img = n) by (unfold img; destruct nr; cbn [real_part amap rows cols]; auto).
    destruct SI as (RI & CI). destruct SB as (RB & CB). unfold mul_into, axis_ok. cbn [amap rows cols]. rewrite RI, CI, RB, CB, Nat.eqb_refl.
    cbn [orb andb bind]. eexists. split; [reflexivity|]. split; [split; reflexivity|].
    intros y x Y X. cbn [at2 amap]. assert (BI : bidx n y = y /\ bidx n x = x) by (unfold bidx; destruct (Nat.eqb_spec n 1); lia).
    destruct BI as (-> & ->). unfold img. destruct nr; cbn [real_part amap at2]; rewrite V by lia; apply cx_eq; cbn [fst snd cmul cscale]; ring.
  - cbn [bind]. destruct nr.
    + eexists. split; [reflexivity|]. split; [split; assumption|]. intros y x Y X. now rewrite V.
    + eexists. split; [reflexivity|]. split; [split; assumption|]. intros y x Y X. cbn [real_part amap at2]. now rewrite V.
Qed.
(** From the padding on, for a plane [p] that is the caller's own or a copy. *)
Lemma tail_ok cfg d f nr b w n u : (0 < n)%nat -> Nat.Even n -> arr_eq (plane w) u -> sized n u -> sized n b -> py_int (c_pad cfg) = 1%Z ->
  exists img, (w <- step_pad (call_options cfg d f nr b) w (n, n) ;;
               let w := step_degpix (call_options cfg d f nr b) w in
               image <- step_image (call_options cfg d f nr b) w ;; Ok (image, caller w)) = Ok (img, caller w)
  /\ sized n img /\ forall y x, (y < n)%nat -> (x < n)%nat -> at2 img y x = call_value cfg d b nr (fourier u y x) y x.
Proof.
  intros N E EQ SU SB PD. pose proof (sized_ext _ _ _ EQ SU) as (R0 & C0).
  unfold step_pad. cbn [call_options o_pad]. rewrite PD. replace (Z.of_nat (Nat.max (fst (n, n)) (snd (n, n)) / 2) * (1 - 1))%Z with 0%Z by lia.
  unfold np_pad. cbn [Z.ltb Z.compare Z.to_nat bind].
  match goal with |- context [copied w ?p] => set (q := p) end.
  unfold step_degpix. cbn [call_options o_degpix]. unfold in_place, copied. cbn [current caller plane].
  match goal with |- context [step_image _ ?w] => set (w' := w) end.
  assert (EP : arr_eq (plane w') (amap (cscale (scale_of cfg d)) u)).
  { unfold w'. cbn [plane current]. unfold q. split; [cbn; rewrite R0; destruct SU; lia|]. split; [cbn; rewrite C0; destruct SU; lia|].
    cbn [amap rows cols at2]. intros i j I J. replace (i - 0)%nat with i by lia. replace (j - 0)%nat with j by lia.
    destruct (Nat.leb_spec 0 i), (Nat.ltb_spec i (0 + rows (plane w))), (Nat.leb_spec 0 j), (Nat.ltb_spec j (0 + cols (plane w))); try lia.
    cbn [andb]. destruct EQ as (_ & _ & V). rewrite V by lia. rewrite cscale_scale. reflexivity. }
  destruct (image_beam cfg d f nr b w' n N E) as (img & I & SI & V); [eapply sized_ext; [exact EP|exact SU]|exact SB|].
  change (step_image _ w') with (step_image (call_options cfg d f nr b) w'). rewrite I. cbn [bind]. exists img. split; [reflexivity|]. split; [exact SI|].
  intros y x Y X. rewrite V by assumption. rewrite (fourier_ext _ _ y x EP), fourier_scale. reflexivity.
Qed.
(** With a filter of the size of the plane. *)
Lemma call_same uniform cfg d f nr b uv n : (0 < n)%nat -> Nat.Even n -> sized n uv -> sized n f -> sized n b -> py_int (c_pad cfg) = 1%Z ->
  exists img after, dirty_image_generate uniform no_rebin (call_options cfg d f nr b) uv = Ok (img, Some f, after)
  /\ arr_eq after (weighted (at2 f) uv) /\ sized n img
  /\ forall y x, (y < n)%nat -> (x < n)%nat -> at2 img y x = call_value cfg d b nr (fourier (weighted (at2 f) uv) y x) y x.
Proof.
  intros N E SU SF SB PD. pose proof (sized_even _ _ N E SU) as EV.
  destruct (simple_front uniform no_rebin (call_options cfg d f nr b) uv EV) as (w & CN & EW & ->).
  - right. split; [reflexivity|]. destruct SU as (R0 & C0). split; [congruence|]. apply (kernel_sized n); [exact N|]. split; assumption.
  - discriminate.
  - intros g X. cbn in X. assert (g = f) as -> by congruence. destruct SU, SF. split; congruence.
  - reflexivity.
  - assert (EQ : arr_eq (plane w) (weighted (at2 f) uv)).
    { eapply arr_eq_trans; [exact EW|]. apply weighted_ext; [apply arr_eq_refl|]. intros i j I J. cbn [call_options o_filter o_mask factor]. ring. }
    destruct (tail_ok cfg d f nr b w n (weighted (at2 f) uv) N E EQ) as (img & T & SI & V); [destruct SU; split; assumption|exact SB|exact PD|].
    replace (rows uv, cols uv) with (n, n) by (destruct SU; congruence).
    exists img, (caller w). repeat split; try apply SI; try exact V.
    + apply bind_ok in T as (w1 & T1 & T). rewrite T1. cbn [bind]. cbv zeta in T |- *. apply bind_ok in T as (i & T2 & T). rewrite T2. cbn [bind].
      assert (i = img) as -> by congruence. assert (CE : caller (step_degpix (call_options cfg d f nr b) w1) = caller w) by congruence.
      rewrite CE. reflexivity.
    + replace (caller w) with (plane w) by (unfold plane; now rewrite CN). apply EQ.
    + replace (caller w) with (plane w) by (unfold plane; now rewrite CN). apply EQ.
    + replace (caller w) with (plane w) by (unfold plane; now rewrite CN). apply EQ.
Qed.
(** With an empty filter. *)
Lemma call_front uniform cfg d nr b uv n f p : (0 < n)%nat -> sized n uv ->
  (forall u, sized n u -> arr_eq u uv -> uniform u = Ok (p u, f) /\ arr_eq (p u) (weighted (at2 f) u)) ->
  exists w v, caller w = v /\ arr_eq v uv /\ (exists a, current w = Some a) /\ arr_eq (plane w) (weighted (at2 f) uv)
  /\ dirty_image_generate uniform no_rebin (call_options cfg d (Arr2 0 0 (fun _ _ => 0)) nr b) uv =
     (w <- step_pad (call_options cfg d (Arr2 0 0 (fun _ _ => 0)) nr b) w (n, n) ;;
      let w := step_degpix (call_options cfg d (Arr2 0 0 (fun _ _ => 0)) nr b) w in
      image <- step_image (call_options cfg d (Arr2 0 0 (fun _ _ => 0)) nr b) w ;; Ok (image, Some f, caller w)).
Proof.
  intros N SU U. set (o := call_options cfg d (Arr2 0 0 (fun _ _ => 0)) nr b). unfold dirty_image_generate.
  destruct (threshold_none o {| caller := uv; current := None |}) as (w1 & -> & CN & EW).
  - right. split; [reflexivity|]. cbn [plane current caller]. destruct SU as (R0 & C0). split; [congruence|]. apply (kernel_sized n); [exact N|]. split; assumption.
  - cbn [plane current caller]. destruct SU; lia.
  - reflexivity.
  - cbn [bind]. unfold step_mask. cbn [call_options o_mask o bind]. change (plane {| caller := uv; current := None |}) with uv in EW.
    pose proof (sized_ext _ _ _ EW SU) as SW. unfold step_filter. cbn [call_options o_filter o rows cols].
    destruct SW as (R1 & C1). rewrite R1, C1. destruct (Nat.eqb_spec (0 * 0) (n * n)) as [Z|_]; [nia|].
    destruct (U (plane w1)) as (-> & EP); [split; assumption|exact EW|]. cbn [bind fst snd]. unfold step_resize. cbn [call_options o_resize o bind].
    eexists (copied w1 (p (plane w1))), (caller w1). split; [reflexivity|]. split; [unfold plane in EW; rewrite CN in EW; exact EW|].
    split; [eexists; reflexivity|]. split; [eapply arr_eq_trans; [exact EP|]; apply weighted_ext; [exact EW|reflexivity]|].
    replace (rows uv, cols uv) with (n, n) by (destruct SU; congruence). reflexivity.
Qed.
Lemma call_uniform uniform cfg d nr b uv n f : (0 < n)%nat -> Nat.Even n -> sized n uv -> sized n b -> py_int (c_pad cfg) = 1%Z ->
  (forall u, sized n u -> exists p, uniform u = Ok (p, f) /\ arr_eq p (weighted (at2 f) u)) ->
  exists img after, dirty_image_generate uniform no_rebin (call_options cfg d (Arr2 0 0 (fun _ _ => 0)) nr b) uv = Ok (img, Some f, after)
  /\ arr_eq after uv /\ sized n img
  /\ forall y x, (y < n)%nat -> (x < n)%nat -> at2 img y x = call_value cfg d b nr (fourier (weighted (at2 f) uv) y x) y x.
Proof.
  intros N E SU SB PD U.
  destruct (call_front uniform cfg d nr b uv n f (fun u => match uniform u with Ok q => fst q | Err _ => u end) N SU) as (w & v & CV & EV & _ & EQ & ->).
  { intros u HS _. destruct (U u HS) as (p & -> & EP). cbn [fst]. auto. }
  destruct (tail_ok cfg d (Arr2 0 0 (fun _ _ => 0)) nr b w n (weighted (at2 f) uv) N E EQ) as (img & T & SI & V); [destruct SU; split; assumption|exact SB|exact PD|].
  exists img, (caller w). split; [|split; [rewrite CV; exact EV|split; assumption]].
  apply bind_ok in T as (w1 & T1 & T). rewrite T1. cbn [bind]. cbv zeta in T |- *. apply bind_ok in T as (i & T2 & T). rewrite T2. cbn [bind].
  assert (i = img) as -> by congruence.
  assert (CE : caller (step_degpix (call_options cfg d (Arr2 0 0 (fun _ _ => 0)) nr b) w1) = caller w) by congruence. now rewrite CE.
Qed.

(** ** The whole run *)
Lemma map_res_build {B} (f : nat -> result B) (P : nat -> B -> Prop) n : (forall k, (k < n)%nat -> exists y, f k = Ok y /\ P k y) ->
  exists r, map_res f (seq 0 n) = Ok r /\ List.length r = n /\ forall k, (k < n)%nat -> exists y, nth_error r k = Some y /\ P k y.
Proof.
  intros H. assert (G : forall m s, (s + m <= n)%nat -> exists r, map_res f (seq s m) = Ok r /\ List.length r = m
     /\ forall k, (k < m)%nat -> exists y, nth_error r k = Some y /\ P (s + k)%nat y).
  { induction m as [|m IH]; intros s L; [exists []; repeat split; intros; lia|].
    cbn [seq map_res]. destruct (H s ltac:(lia)) as (y & -> & PY). cbn [bind]. destruct (IH (S s) ltac:(lia)) as (r & -> & LR & V). cbn [bind].
    exists (y :: r). split; [reflexivity|]. split; [cbn; lia|]. intros [|k] K; [exists y; rewrite Nat.add_0_r; auto|].
    destruct (V k ltac:(lia)) as (z & Z & PZ). exists z. split; [exact Z|]. replace (s + S k)%nat with (S s + k)%nat by lia. exact PZ. }
  destruct (G n 0%nat ltac:(lia)) as (r & E & L & V). eauto.
Qed.
Lemma get_plane_some {A} (l : list A) k a : nth_error l k = Some a -> get_plane l k = Ok a.
Proof. intros E. unfold get_plane. now rewrite E. Qed.
Lemma planes_nth n k l pol : planes n k l -> (pol < k)%nat -> nth_error l pol = Some (plane_of l pol) /\ sized n (plane_of l pol).
Proof.
  intros (L & F) P. split; [apply nth_error_nth'; lia|]. rewrite Forall_forall in F. apply F. apply nth_In. lia.
Qed.

Section Run.
  Variable uniform : arr2 cx -> arr2 cx -> result (arr2 cx * arr2 R).
  Variables (cfg : config) (n : nat) (f : arr2 cx -> arr2 R).
  Hypothesis N : (0 < n)%nat.
  Hypothesis E : Nat.Even n.
  Hypothesis PD : py_int (c_pad cfg) = 1%Z.
  Hypothesis FI : filters uniform n f.

  Definition raw (degpix : R) (b : arr2 R) (g : arr2 R) (uv : arr2 cx) (y x : nat) : R :=
    (if c_optimal cfg then at2 b y x else 1) * (scale_of cfg degpix * fst (fourier (weighted (at2 g) uv) y x)).
  Lemma raw_value degpix b g nr uv y x : fst (call_value cfg degpix b nr (fourier (weighted (at2 g) uv) y x) y x) = raw degpix b g uv y x.
  Proof. unfold call_value, raw. destruct (c_optimal cfg), nr; cbn [fst cscale]; ring. Qed.
  Lemma weighted_filter g h (uv : arr2 cx) : arr_eq g h -> sized n h -> sized n uv -> arr_eq (weighted (at2 g) uv) (weighted (at2 h) uv).
  Proof. intros (R0 & C0 & V) (R1 & C1) (R2 & C2). apply weighted_ext; [apply arr_eq_refl|]. intros i j I J. apply V; lia. Qed.

  Definition pol_result (degpix : R) (b : arr2 R) (image model weights : arr2 cx) (r : arr2 R * arr2 R * arr2 R * arr2 cx * arr2 cx) : Prop :=
    let '(d, m, fa, i, mo) := r in
    sized n d /\ (forall y x, (y < n)%nat -> (x < n)%nat -> at2 d y x = raw degpix b (f weights) image y x)
    /\ sized n m /\ (forall y x, (y < n)%nat -> (x < n)%nat -> at2 m y x = raw degpix b (f weights) model y x)
    /\ arr_eq fa (f weights) /\ arr_eq i image /\ arr_eq mo (weighted (at2 (f weights)) model).
  Lemma pol_images_ok o pol b image model weights : q_dimension o = n -> q_elements o = n -> sized n b -> sized n image -> sized n model -> sized n weights ->
    exists r, pol_images uniform cfg o pol b image model weights = Ok r /\ pol_result (q_degpix o) b image model weights r.
  Proof.
    intros D EL SB SI SM SW. unfold pol_images, generate.
    destruct (FI weights image SW SI) as (SF & _).
    destruct (call_uniform (uniform weights) cfg (q_degpix o) (1 <? pol)%nat b image n (f weights) N E SI SB PD) as (d & i' & -> & EI & SD & VD).
    { intros u HU. destruct (FI weights u SW HU) as (_ & p & P & EP). eauto. }
    cbn [bind]. rewrite D, EL.
    destruct (assign_same n (amap fst d)) as (d' & -> & ED); [destruct SD; split; assumption|]. cbn [bind].
    destruct (assign_same n (f weights) SF) as (fa & -> & EF). cbn [bind].
    destruct (call_same (uniform weights) cfg (q_degpix o) (f weights) (1 <? pol)%nat b model n N E SM SF SB PD) as (m & m' & -> & EM & SMM & VM).
    cbn [bind]. destruct (assign_same n (amap fst m)) as (mm & -> & EMM); [destruct SMM; split; assumption|]. cbn [bind].
    eexists. split; [reflexivity|]. unfold pol_result.
    assert (S1 : sized n d') by (eapply sized_ext; [exact ED|]; destruct SD; split; assumption).
    assert (S2 : sized n mm) by (eapply sized_ext; [exact EMM|]; destruct SMM; split; assumption).
    split; [exact S1|]. split.
    { intros y x Y X. destruct ED as (R0 & C0 & V). destruct S1 as (R1 & C1). rewrite V by lia. cbn [amap at2]. rewrite VD by assumption. apply raw_value. }
    split; [exact S2|]. split.
    { intros y x Y X. destruct EMM as (R0 & C0 & V). destruct S2 as (R1 & C1). rewrite V by lia. cbn [amap at2]. rewrite VM by assumption. apply raw_value. }
    split; [exact EF|]. split; [exact EI|exact EM].
  Qed.
  Lemma renormalization_ok o b fa weights : q_dimension o = n -> q_elements o = n -> q_obsx o = (natQ n / 2)%Q -> q_obsy o = (natQ n / 2)%Q ->
    sized n b -> sized n weights -> arr_eq fa (f weights) ->
    exists after, renormalization uniform cfg o b fa weights =
        Ok (1 / raw (q_degpix o) b (f weights) weights (n / 2) (n / 2) * at2 b (n / 2) (n / 2) ^ 2 / solid_angle (q_degpix o), after)
      /\ arr_eq after (weighted (at2 (f weights)) weights).
  Proof.
    intros D EL OX OY SB SW EF. unfold renormalization, generate.
    destruct (FI weights weights SW SW) as (SF & _). pose proof (sized_ext _ _ _ EF SF) as SFA.
    destruct (call_same (uniform weights) cfg (q_degpix o) fa false b weights n N E SW SFA SB PD) as (d & after & -> & EA & SD & VD).
    cbn [bind]. unfold entry. destruct SD as (R0 & C0). rewrite R0, C0, D, EL, OX, OY.
    assert (L : (n / 2 < n)%nat) by (apply Nat.div_lt; lia). destruct (Nat.ltb_spec (n / 2) n); [|lia]. cbn [andb bind].
    assert (HF : Z.to_nat (py_int (natQ n / 2)) = (n / 2)%nat).
    { rewrite py_int_floor.
      - unfold natQ. assert (FQ : Qround.Qfloor (inject_Z (Z.of_nat n) / 2) = (Z.of_nat n / 2)%Z).
        { change 2%Q with (inject_Z 2). rewrite <- Qround.Zdiv_Qdiv. reflexivity. }
        rewrite FQ. change 2%Z with (Z.of_nat 2). rewrite <- Nat2Z.inj_div. apply Nat2Z.id.
      - apply Qle_shift_div_l; [reflexivity|]. rewrite Qmult_0_l. unfold natQ. change 0%Q with (inject_Z 0). rewrite <- Zle_Qle. lia. }
    rewrite HF. destruct SB as (RB & CB). rewrite RB, CB. destruct (Nat.ltb_spec (n / 2) n); [|lia]. cbn [andb bind].
    exists after. split.
    - rewrite VD by assumption. rewrite raw_value. unfold raw.
      rewrite (fourier_ext _ _ _ _ (weighted_filter fa (f weights) weights EF SF SW)). reflexivity.
    - eapply arr_eq_trans; [exact EA|]. apply weighted_filter; assumption.
  Qed.
End Run.

(** ** Splitting *)
Lemma put_spec {A} (l : list A) k x : (k < List.length l)%nat ->
  exists l', put l k x = Ok l' /\ List.length l' = List.length l /\ nth_error l' k = Some x /\ forall j, j <> k -> nth_error l' j = nth_error l j.
Proof.
  intros K. unfold put. destruct (Nat.ltb_spec k (List.length l)); [|lia]. eexists. split; [reflexivity|].
  assert (LF : List.length (firstn k l) = k) by (apply firstn_length_le; lia).
  split; [rewrite app_length, LF; cbn [List.length]; rewrite skipn_length; lia|]. split.
  - rewrite nth_error_app2 by lia. rewrite LF, Nat.sub_diag. reflexivity.
  - intros j J. destruct (Nat.lt_ge_cases j k).
    + rewrite nth_error_app1 by lia. rewrite <- (firstn_skipn k l) at 2. now rewrite nth_error_app1 by lia.
    + rewrite nth_error_app2 by lia. rewrite LF. replace (j - k)%nat with (S (j - S k)) by lia. cbn [nth_error].
      rewrite <- (firstn_skipn (S k) l) at 2. rewrite nth_error_app2 by (rewrite firstn_length_le; lia). rewrite firstn_length_le by lia. reflexivity.
Qed.
Lemma split_planes_ok {A} (re im : A -> A) l : (4 <= List.length l)%nat ->
  exists l' p, split_planes re im l = Ok l' /\ nth_error l 2 = Some p /\ List.length l' = List.length l
  /\ nth_error l' 2 = Some (amap re p) /\ nth_error l' 3 = Some (amap im (amap re p))
  /\ forall k, k <> 2%nat -> k <> 3%nat -> nth_error l' k = nth_error l k.
Proof.
  intros L. unfold split_planes. destruct (nth_error l 2) as [p|] eqn:P; [|apply nth_error_None in P; lia].
  rewrite (get_plane_some _ _ _ P). cbn [bind]. destruct (put_spec l 2 (amap re p)) as (l1 & -> & L1 & P1 & O1); [lia|]. cbn [bind].
  rewrite (get_plane_some _ _ _ P1). cbn [bind]. destruct (put_spec l1 3 (amap im (amap re p))) as (l2 & -> & L2 & P2 & O2); [lia|].
  exists l2, p. split; [reflexivity|]. split; [reflexivity|]. split; [lia|]. split; [rewrite O2 by lia; exact P1|]. split; [exact P2|].
  intros k K2 K3. rewrite O2 by assumption. now apply O1.
Qed.
Lemma split_names_ok l : (4 <= List.length l)%nat ->
  exists l' p, split_names l = Ok l' /\ nth_error l 2 = Some p /\ List.length l' = List.length l
  /\ nth_error l' 2 = Some (p ++ "_real")%string /\ nth_error l' 3 = Some (p ++ "_imag")%string
  /\ forall k, k <> 2%nat -> k <> 3%nat -> nth_error l' k = nth_error l k.
Proof.
  intros L. unfold split_names. destruct (nth_error l 2) as [p|] eqn:P; [|apply nth_error_None in P; lia].
  rewrite (get_plane_some _ _ _ P). cbn [bind]. destruct (put_spec l 2 (p ++ "_real")%string) as (l1 & -> & L1 & P1 & O1); [lia|]. cbn [bind].
  destruct (put_spec l1 3 (p ++ "_imag")%string) as (l2 & -> & L2 & P2 & O2); [lia|].
  exists l2, p. split; [reflexivity|]. split; [reflexivity|]. split; [lia|]. split; [rewrite O2 by lia; exact P1|]. split; [exact P2|].
  intros k K2 K3. rewrite O2 by assumption. now apply O1.
Qed.

(** ** Files *)
Lemma kind_eqb_eq a b : kind_eqb a b = true <-> a = b.
Proof. destruct a, b; cbn; split; congruence. Qed.
Lemma on_disk_unique fs k p d : In {| f_kind := k; f_pol := p; f_data := d |} fs ->
  (forall g, In g fs -> f_kind g = k -> f_pol g = p -> f_data g = d) -> on_disk fs k p = Some d.
Proof.
  intros I U. unfold on_disk. destruct (find _ (rev fs)) as [g|] eqn:F.
  - apply find_some in F as (G & T). apply in_rev in G. apply andb_true_iff in T as (T1 & T2). apply kind_eqb_eq in T1. apply String.eqb_eq in T2.
    cbn [option_map]. now rewrite (U g G T1 T2).
  - exfalso. apply in_rev in I. apply (find_none _ _ F) in I.
    cbn [f_kind f_pol] in I. rewrite String.eqb_refl, andb_true_r in I. destruct k; discriminate I.
Qed.
(** The five files of a polarisation. *)
Definition five (n : string) (b d m r : arr2 R) (w : list (arr2 R)) : list file :=
  [ {| f_kind := KDirty; f_pol := n; f_data := [d] |}; {| f_kind := KModel; f_pol := n; f_data := [m] |};
    {| f_kind := KResidual; f_pol := n; f_data := [r] |}; {| f_kind := KBeam; f_pol := n; f_data := [b] |};
    {| f_kind := KWeights; f_pol := n; f_data := w |} ].
Lemma five_on_disk (names : list string) (files : list (list file)) npol pol n b d m r w :
  List.length files = npol -> (npol <= List.length names)%nat ->
  (forall k, (k < npol)%nat -> exists x b d m r w, nth_error names k = Some x /\ nth_error files k = Some (five x b d m r w)) ->
  NoDup (firstn npol names) -> nth_error names pol = Some n -> nth_error files pol = Some (five n b d m r w) -> (pol < npol)%nat ->
  on_disk (List.concat files) KDirty n = Some [d] /\ on_disk (List.concat files) KModel n = Some [m] /\ on_disk (List.concat files) KResidual n = Some [r]
  /\ on_disk (List.concat files) KBeam n = Some [b] /\ on_disk (List.concat files) KWeights n = Some w.
Proof.
  intros LF LN H ND NP FP P.
  assert (U : forall g, In g (List.concat files) -> f_pol g = n -> In g (five n b d m r w)).
  { intros g G GN. apply in_concat in G as (l & IL & IG). apply In_nth_error in IL as (k & K).
    assert (KL : (k < npol)%nat) by (rewrite <- LF; apply nth_error_Some; congruence).
    destruct (H k KL) as (x & b' & d' & m' & r' & w' & X & FX). rewrite K in FX. assert (l = five x b' d' m' r' w') by congruence. subst l.
    assert (x = n) as ->. { unfold five in IG. cbn [In] in IG. repeat (destruct IG as [IG|IG]; [subst g; exact GN|]). destruct IG. }
    assert (k = pol).
    { rewrite NoDup_nth_error in ND. apply ND.
      - rewrite firstn_length_le by exact LN. exact KL.
      - assert (FN : forall j, (j < npol)%nat -> nth_error (firstn npol names) j = nth_error names j).
        { intros j J. rewrite <- (firstn_skipn npol names) at 2. now rewrite nth_error_app1 by (rewrite firstn_length_le; lia). }
        rewrite !FN by assumption. congruence. }
    subst k. assert (FE : five n b d m r w = five n b' d' m' r' w') by congruence. rewrite FE. exact IG. }
  assert (I : forall g, In g (five n b d m r w) -> In g (List.concat files)).
  { intros g G. apply in_concat. exists (five n b d m r w). split; [apply nth_error_In in FP; exact FP|exact G]. }
  repeat split; (apply on_disk_unique; [apply I; unfold five; cbn [In]; tauto|]);
    intros g G K GP; apply (fun X => U g X GP) in G;
    unfold five in G; cbn [In] in G; repeat (destruct G as [G|G]; [subst g; cbn in K |- *; try discriminate K; reflexivity|]); destruct G.
Qed.

(** ** Everything together *)
Definition shown (cfg : config) (n : nat) (degpix : R) (b g : arr2 R) (w uv : arr2 cx) (y x : nat) : R :=
  1 / raw cfg degpix b g w (n / 2) (n / 2) * at2 b (n / 2) (n / 2) ^ 2 / solid_angle degpix * raw cfg degpix b g uv y x.
Definition lost (npol pol : nat) : bool := (4 <=? npol)%nat && (pol =? 3)%nat.
Definition split_weight (npol pol : nat) (z : cx) : cx :=
  if (4 <=? npol)%nat then if (pol =? 2)%nat then (fst z, 0) else if (pol =? 3)%nat then (0, 0) else z else z.
Lemma update_fields o d k o' : update_obs o d k None None = Ok o' ->
  q_npol o' = q_npol o /\ q_dimension o' = d /\ q_elements o' = d /\ q_obsx o' = (natQ d / 2)%Q /\ q_obsy o' = (natQ d / 2)%Q /\ q_kpix o' = k
  /\ q_degpix o' = 180 / PI / (k * INR d) /\ q_max o' = Rmin (q_max o) (INR d * k / sqrt 2) /\ q_nvis o' = q_nvis o /\ q_names o' = q_names o
  /\ q_naxis o' = (d, d) /\ q_cdelt o' = (q_degpix o', q_degpix o') /\ q_crpix o' = (natQ d / 2 + 1, natQ d / 2 + 1)%Q /\ q_cd o' = q_cd o
  /\ q_nfreq o' = q_nfreq o /\ q_freq o' = q_freq o /\ q_freq_res o' = q_freq_res o.
Proof.
  intros H. unfold update_obs in H. apply bind_ok in H as (avg & _ & H). apply bind_ok in H as (fb & _ & H).
  match type of H with Ok ?v = Ok _ => assert (EB : o' = v) by congruence end. rewrite EB. cbn. repeat split.
Qed.
Lemma nth_combine {A B} (l : list A) (m : list B) k a b : nth_error l k = Some a -> nth_error m k = Some b -> nth_error (combine l m) k = Some (a, b).
Proof.
  revert m k. induction l as [|x l IH]; intros [|y m] [|k]; cbn; try congruence; try discriminate. intros HA HB. apply IH; assumption.
Qed.
Lemma real_split l npol : List.length l = npol ->
  exists l', (if (4 <=? npol)%nat then split_planes (fun r : R => r) (fun _ => 0) l else Ok l) = Ok l' /\ List.length l' = npol
  /\ forall k p, nth_error l k = Some p -> exists q, nth_error l' k = Some q
     /\ (lost npol k = false -> arr_eq q p) /\ (lost npol k = true -> forall p2, nth_error l 2 = Some p2 -> rows q = rows p2 /\ cols q = cols p2 /\ forall i j, at2 q i j = 0).
Proof.
  intros L. unfold lost. destruct (Nat.leb_spec 4 npol) as [H|H].
  - destruct (split_planes_ok (fun r : R => r) (fun _ : R => 0) l) as (l' & p & -> & P & LL & P2 & P3 & O); [lia|].
    exists l'. split; [reflexivity|]. split; [lia|]. intros k q K. cbn [andb]. destruct (Nat.eqb_spec k 3) as [->|K3].
    + eexists. split; [exact P3|]. split; [discriminate|]. intros _ p2 X. assert (p2 = p) as -> by congruence. repeat split.
    + destruct (Nat.eq_dec k 2) as [->|K2].
      * assert (q = p) as -> by congruence. eexists. split; [exact P2|]. split; [intros _; repeat split|discriminate].
      * exists q. split; [rewrite O by assumption; exact K|]. split; [intros _; apply arr_eq_refl|discriminate].
  - exists l. split; [reflexivity|]. split; [exact L|]. intros k p K. exists p. split; [exact K|]. cbn [andb]. split; [intros _; apply arr_eq_refl|discriminate].
Qed.
Lemma weights_split (l : list (arr2 cx)) n npol : List.length l = npol -> (forall p, In p l -> sized n p) ->
  exists l', (if (4 <=? npol)%nat then split_planes cx_re cx_im l else Ok l) = Ok l' /\ List.length l' = npol
  /\ forall k p, nth_error l k = Some p -> exists q, nth_error l' k = Some q /\ sized n q
     /\ forall i j, at2 q i j = split_weight npol k (at2 p i j).
Proof.
  intros L SZ. unfold split_weight. destruct (Nat.leb_spec 4 npol) as [H|H].
  - destruct (split_planes_ok cx_re cx_im l) as (l' & p & -> & P & LL & P2 & P3 & O); [lia|].
    exists l'. split; [reflexivity|]. split; [lia|]. intros k q K. destruct (Nat.eqb_spec k 2) as [->|K2].
    + assert (q = p) as -> by congruence. eexists. split; [exact P2|]. split; [apply (SZ p); eapply nth_error_In; exact P|reflexivity].
    + destruct (Nat.eqb_spec k 3) as [->|K3].
      * eexists. split; [exact P3|]. split; [apply (SZ p); eapply nth_error_In; exact P|]. reflexivity.
      * exists q. split; [rewrite O by assumption; exact K|]. split; [apply SZ; eapply nth_error_In; exact K|reflexivity].
  - exists l. split; [reflexivity|]. split; [exact L|]. intros k p K. exists p. split; [exact K|]. split; [apply SZ; eapply nth_error_In; exact K|reflexivity].
Qed.
Lemma names_split l npol : (npol <= List.length l)%nat ->
  exists l', (if (4 <=? npol)%nat then split_names l else Ok l) = Ok l' /\ List.length l' = List.length l
  /\ (forall k, (k < npol)%nat -> exists x, nth_error l' k = Some x)
  /\ (forall k, (npol < 4)%nat \/ (k <> 2 /\ k <> 3)%nat -> nth_error l' k = nth_error l k)
  /\ ((4 <= npol)%nat -> exists p, nth_error l 2 = Some p /\ nth_error l' 2 = Some (p ++ "_real")%string /\ nth_error l' 3 = Some (p ++ "_imag")%string).
Proof.
  intros L. assert (G : forall l' : list string, List.length l' = List.length l -> forall k, (k < npol)%nat -> exists x, nth_error l' k = Some x).
  { intros l' LL k K. destruct (nth_error l' k) eqn:X; [eauto|]. apply nth_error_None in X. lia. }
  destruct (Nat.leb_spec 4 npol) as [H|H].
  - destruct (split_names_ok l) as (l' & p & -> & P & LL & P2 & P3 & O); [lia|].
    exists l'. split; [reflexivity|]. split; [exact LL|]. split; [apply G; exact LL|]. split; [intros k [K|[K2 K3]]; [lia|now apply O]|].
    intros _. exists p. auto.
  - exists l. split; [reflexivity|]. split; [reflexivity|]. split; [apply G; reflexivity|]. split; [reflexivity|lia].
Qed.
Section Whole.
  Variable uniform : arr2 cx -> arr2 cx -> result (arr2 cx * arr2 R).
  Variable beam_image : qobs -> nat -> result (arr2 R).
  Variable horizon : qobs -> arr2 R.

  Lemma quickview_ok cfg o o' n f image weights model : (0 < n)%nat -> Nat.Even n -> unpadded cfg n -> filters uniform n f ->
    q_dimension o = n -> update_obs o n (q_kpix o) None None = Ok o' ->
    planes n (q_npol o) image -> planes n (q_npol o) weights -> planes n (q_npol o) model -> (q_npol o <= List.length (q_names o))%nat ->
    (forall pol, (pol < q_npol o)%nat -> exists bi, beam_image o' pol = Ok bi /\ sized n bi) -> sized n (horizon o') ->
    exists out files, quickview uniform beam_image horizon cfg o image weights model = Ok out
    /\ out_files out = List.concat files /\ List.length files = q_npol o
    /\ List.length (out_image out) = q_npol o /\ List.length (out_model out) = q_npol o /\ List.length (out_weights out) = q_npol o
    /\ (exists names c, (if (4 <=? q_npol o)%nat then split_names (q_names o) else Ok (q_names o)) = Ok names
        /\ out_obs out = {| q_npol := q_npol o'; q_dimension := q_dimension o'; q_elements := q_elements o'; q_obsx := q_obsx o'; q_obsy := q_obsy o';
             q_kpix := q_kpix o'; q_degpix := q_degpix o'; q_max := q_max o'; q_nvis := q_nvis o'; q_names := names;
             q_naxis := q_naxis o'; q_cdelt := q_cdelt o'; q_crpix := q_crpix o'; q_cd := c;
             q_nfreq := q_nfreq o'; q_freq := q_freq o'; q_freq_res := q_freq_res o'; q_fbin := q_fbin o' |}
        /\ out_header out = {| h_cd := c; h_crpix := (py_int (fst (q_crpix o')), py_int (snd (q_crpix o'))) |}
        /\ c = let '((c11, c12), (c21, c22)) := q_cd o in let t := q_degpix o' in ((c11 * t, c12 * t), (c21 * t, c22 * t)))
    /\ forall pol, (pol < q_npol o)%nat ->
       exists bi b x d m r i' m' w', beam_image o' pol = Ok bi /\ sized n b
       /\ (forall y x, (y < n)%nat -> (x < n)%nat -> at2 b y x = at2 bi y x * at2 (horizon o') y x)
       /\ nth_error (q_names (out_obs out)) pol = Some x
       /\ nth_error files pol = Some (five x b d m r (map (amap (fun z => cx_abs z * q_nvis o)) (out_weights out)))
       /\ sized n d /\ sized n m /\ sized n r
       /\ (forall y x, (y < n)%nat -> (x < n)%nat ->
             let zero v := if lost (q_npol o) pol then 0 else v in
             let sh := shown cfg n (q_degpix o') b (f (plane_of weights pol)) (plane_of weights pol) in
             at2 d y x = zero (sh (plane_of image pol) y x) * inverse (at2 b y x)
             /\ at2 m y x = zero (sh (plane_of model pol) y x) * inverse (at2 b y x)
             /\ at2 r y x = zero (sh (plane_of image pol) y x - sh (plane_of model pol) y x) * inverse (at2 b y x))
       /\ nth_error (out_image out) pol = Some i' /\ arr_eq i' (plane_of image pol)
       /\ nth_error (out_model out) pol = Some m' /\ arr_eq m' (weighted (at2 (f (plane_of weights pol))) (plane_of model pol))
       /\ nth_error (out_weights out) pol = Some w' /\ sized n w'
       /\ (forall y x, (y < n)%nat -> (x < n)%nat ->
             at2 w' y x = split_weight (q_npol o) pol (cscale (at2 (f (plane_of weights pol)) y x) (at2 (plane_of weights pol) y x))).
  Proof.
    intros N E (P1 & P2) FI D U PI PW PM LN BI HZ.
    assert (PD : py_int (c_pad cfg) = 1%Z) by (rewrite py_int_floor; [exact P1|]; eapply floor_pos; [exact P1|lia]).
    assert (DIM : Z.to_nat (py_int (natQ n * c_pad cfg)) = n) by (rewrite py_int_floor; [rewrite P2; apply Nat2Z.id|]; eapply floor_pos; [exact P2|lia]).
    unfold quickview. rewrite D, DIM, U. cbn [bind].
    destruct (update_fields _ _ _ _ U) as (EN & ED & EE & EX & EY & EK & EDG & EMX & EV & ENM & ENA & ECD & ECR & ECM & _).
    set (np := q_npol o) in *. rewrite EN, ENM.
    destruct (map_res_build (beam_base beam_image horizon o') (fun pol b => exists bi, beam_image o' pol = Ok bi /\ sized n b
       /\ forall y x, (y < n)%nat -> (x < n)%nat -> at2 b y x = at2 bi y x * at2 (horizon o') y x) np) as (beams & -> & LB & VB).
    { intros pol HP. destruct (BI pol HP) as (bi & EB & SB). unfold beam_base. rewrite EB. cbn [bind].
      destruct (azip_same n Rmult bi (horizon o') SB HZ) as (p & -> & SP & VP). cbn [bind]. rewrite ED, EE.
      destruct (assign_same n p SP) as (q & -> & EQ). exists q. split; [reflexivity|]. exists bi. split; [reflexivity|].
      split; [eapply sized_ext; eassumption|]. intros y x Y X. destruct EQ as (RQ & CQ & VQ). destruct SP as (RP & CP). rewrite VQ by lia. now apply VP. }
    cbn [bind].
    destruct (map_res_build (fun pol => b <- get_plane beams pol ;; i <- get_plane image pol ;; m <- get_plane model pol ;; w <- get_plane weights pol ;;
              pol_images uniform cfg o' pol b i m w)
       (fun pol r => exists b, nth_error beams pol = Some b /\ pol_result cfg n f (q_degpix o') b (plane_of image pol) (plane_of model pol) (plane_of weights pol) r) np)
       as (runs & -> & LR & VR).
    { intros pol HP. destruct (VB pol HP) as (b & NB & bi & EB & SB & VBB). rewrite (get_plane_some _ _ _ NB). cbn [bind].
      destruct (planes_nth _ _ _ _ PI HP) as (NI & SI). destruct (planes_nth _ _ _ _ PM HP) as (NM & SM). destruct (planes_nth _ _ _ _ PW HP) as (NW & SW).
      rewrite (get_plane_some _ _ _ NI), (get_plane_some _ _ _ NM), (get_plane_some _ _ _ NW). cbn [bind].
      destruct (pol_images_ok uniform cfg n f N E PD FI o' pol b _ _ _ ED EE SB SI SM SW) as (r & R & PR). exists r. split; [exact R|]. exists b. auto. }
    cbn [bind].
    destruct (map_res_build (fun pol => b <- get_plane beams pol ;; w <- get_plane weights pol ;; ' (_, _, fa, _, _) <- get_plane runs pol ;;
              renormalization uniform cfg o' b fa w)
       (fun pol r => exists b, nth_error beams pol = Some b
          /\ fst r = 1 / raw cfg (q_degpix o') b (f (plane_of weights pol)) (plane_of weights pol) (n / 2) (n / 2) * at2 b (n / 2) (n / 2) ^ 2 / solid_angle (q_degpix o')
          /\ arr_eq (snd r) (weighted (at2 (f (plane_of weights pol))) (plane_of weights pol))) np) as (norms & -> & LNM & VN).
    { intros pol HP. destruct (VB pol HP) as (b & NB & bi & EB & SB & VBB). rewrite (get_plane_some _ _ _ NB). cbn [bind].
      destruct (planes_nth _ _ _ _ PW HP) as (NW & SW). rewrite (get_plane_some _ _ _ NW). cbn [bind].
      destruct (VR pol HP) as ([[[[d m] fa] i'] m'] & NR & b' & NB' & PR). rewrite (get_plane_some _ _ _ NR). cbn [bind].
      destruct PR as (_ & _ & _ & _ & EF & _).
      destruct (renormalization_ok uniform cfg n f N E PD FI o' b fa _ ED EE EX EY SB SW EF) as (after & -> & EA).
      eexists. split; [reflexivity|]. exists b. split; [exact NB|]. split; [reflexivity|exact EA]. }
    cbn [bind]. cbv zeta.
    match goal with |- context [combine (map ?g1 (combine runs norms)) (map ?g2 (combine runs norms))] =>
      set (dirty := map g1 (combine runs norms)); set (mods := map g2 (combine runs norms)) end.
    match goal with |- context [map ?g (combine dirty mods)] => set (resid := map g (combine dirty mods)) end.
    set (wts := map snd norms).
    assert (CL : List.length (combine runs norms) = np) by (rewrite combine_length; lia).
    assert (LD : List.length dirty = np) by (unfold dirty; now rewrite map_length).
    assert (LM : List.length mods = np) by (unfold mods; now rewrite map_length).
    assert (LRS : List.length resid = np) by (unfold resid; rewrite map_length, combine_length; lia).
    assert (LW : List.length wts = np) by (unfold wts; rewrite map_length; lia).
    destruct (real_split dirty np LD) as (dirty' & SD & LD' & VD).
    destruct (real_split mods np LM) as (mods' & SM & LM' & VM).
    destruct (real_split resid np LRS) as (resid' & SR & LR' & VRS).
    destruct (weights_split wts n np LW) as (wts' & SW & LW' & VW).
    { intros p I. apply In_nth_error in I as (k & K). assert (KL : (k < np)%nat) by (rewrite <- LW; apply nth_error_Some; congruence).
      unfold wts in K. rewrite nth_error_map in K. destruct (VN k KL) as (r & NR & b & _ & _ & EA). rewrite NR in K. cbn in K.
      assert (p = snd r) as -> by congruence. eapply sized_ext; [exact EA|]. apply (planes_nth _ _ _ _ PW KL). }
    destruct (names_split (q_names o) np LN) as (names & SN & LN' & VNM & _).
    assert (SPLIT : (if (4 <=? np)%nat
       then d <- split_planes (fun r : R => r) (fun _ => 0) dirty ;; n0 <- split_names (q_names o) ;; m <- split_planes (fun r : R => r) (fun _ => 0) mods ;;
            r <- split_planes (fun r0 : R => r0) (fun _ => 0) resid ;; w <- split_planes cx_re cx_im wts ;; Ok (d, m, r, w, n0)
       else Ok (dirty, mods, resid, wts, q_names o)) = Ok (dirty', mods', resid', wts', names)).
    { destruct (4 <=? np)%nat.
      - rewrite SD, SN, SM, SR, SW. reflexivity.
      - congruence. }
    rewrite SPLIT. cbn [bind]. clear SPLIT. rewrite ECM. destruct (q_cd o) as [[c11 c12] [c21 c22]]. cbv zeta.
    match goal with |- context [write_pol ?oo _ _ _ _ _ _] => set (ob := oo) end.
    (* the planes before the split *)
    assert (PRE : forall pol, (pol < np)%nat -> exists bi b d m r, beam_image o' pol = Ok bi /\ nth_error beams pol = Some b /\ sized n b
       /\ (forall y x, (y < n)%nat -> (x < n)%nat -> at2 b y x = at2 bi y x * at2 (horizon o') y x)
       /\ nth_error dirty pol = Some d /\ nth_error mods pol = Some m /\ nth_error resid pol = Some r /\ sized n d /\ sized n m /\ sized n r
       /\ forall y x, (y < n)%nat -> (x < n)%nat ->
            let sh := shown cfg n (q_degpix o') b (f (plane_of weights pol)) (plane_of weights pol) in
            at2 d y x = sh (plane_of image pol) y x /\ at2 m y x = sh (plane_of model pol) y x
            /\ at2 r y x = sh (plane_of image pol) y x - sh (plane_of model pol) y x).
    { intros pol HP. destruct (VB pol HP) as (b & NB & bi & EB & SB & VBB).
      destruct (VR pol HP) as ([[[[d m] fa] i'] m'] & NR & b1 & NB1 & PR). assert (b1 = b) as -> by congruence.
      destruct (VN pol HP) as ([fac after] & NN & b2 & NB2 & FE & EA). assert (b2 = b) as -> by congruence. cbn [fst snd] in FE, EA.
      destruct PR as (S1 & V1 & S2 & V2 & _). pose proof (nth_combine _ _ _ _ _ NR NN) as NC.
      assert (ND : nth_error dirty pol = Some (amap (Rmult fac) d)) by (unfold dirty; rewrite nth_error_map, NC; reflexivity).
      assert (NM : nth_error mods pol = Some (amap (Rmult fac) m)) by (unfold mods; rewrite nth_error_map, NC; reflexivity).
      exists bi, b. eexists _, _, _. split; [exact EB|]. split; [exact NB|]. split; [exact SB|]. split; [exact VBB|]. split; [exact ND|]. split; [exact NM|].
      split; [unfold resid; rewrite nth_error_map, (nth_combine _ _ _ _ _ ND NM); reflexivity|].
      split; [destruct S1; split; assumption|]. split; [destruct S2; split; assumption|]. split; [destruct S1; split; assumption|].
      intros y x Y X. cbv zeta. cbn [fst snd amap at2]. rewrite V1, V2 by assumption. rewrite FE. unfold shown. repeat split. }
    destruct (map_res_build (write_pol ob names beams dirty' mods' resid' wts')
       (fun pol fl => exists bi b x d m r, beam_image o' pol = Ok bi /\ sized n b
       /\ (forall y x, (y < n)%nat -> (x < n)%nat -> at2 b y x = at2 bi y x * at2 (horizon o') y x)
       /\ nth_error names pol = Some x /\ fl = five x b d m r (map (amap (fun z => cx_abs z * q_nvis o)) wts')
       /\ sized n d /\ sized n m /\ sized n r
       /\ (forall y x, (y < n)%nat -> (x < n)%nat ->
             let zero v := if lost np pol then 0 else v in
             let sh := shown cfg n (q_degpix o') b (f (plane_of weights pol)) (plane_of weights pol) in
             at2 d y x = zero (sh (plane_of image pol) y x) * inverse (at2 b y x)
             /\ at2 m y x = zero (sh (plane_of model pol) y x) * inverse (at2 b y x)
             /\ at2 r y x = zero (sh (plane_of image pol) y x - sh (plane_of model pol) y x) * inverse (at2 b y x))) np) as (files & EFL & LF & VF).
    { intros pol HP. destruct (PRE pol HP) as (bi & b & d & m & r & EB & NB & SB & VBB & ND & NM & NR & S1 & S2 & S3 & VV).
      destruct (VD pol d ND) as (d' & ND' & KD & ZD). destruct (VM pol m NM) as (m' & NM' & KM & ZM). destruct (VRS pol r NR) as (r' & NR' & KR & ZR).
      destruct (VNM pol HP) as (x & NX).
      assert (Z3 : lost np pol = true -> (2 < np)%nat) by (unfold lost; intros Z; apply andb_true_iff in Z as (Z & _); apply Nat.leb_le in Z; lia).
      assert (S1' : sized n d' /\ forall i j, (i < n)%nat -> (j < n)%nat -> at2 d' i j = if lost np pol then 0 else at2 d i j).
      { destruct (lost np pol).
        - destruct (PRE 2%nat (Z3 eq_refl)) as (_ & _ & p2 & _ & _ & _ & _ & _ & _ & N2 & _ & _ & (RA & RB) & _).
          destruct (ZD eq_refl p2 N2) as (A1 & A2 & A3). split; [split; congruence|]. intros; apply A3.
        - specialize (KD eq_refl). split; [eapply sized_ext; eassumption|]. intros i j I J. destruct KD as (A1 & A2 & A3). destruct S1. apply A3; lia. }
      assert (S2' : sized n m' /\ forall i j, (i < n)%nat -> (j < n)%nat -> at2 m' i j = if lost np pol then 0 else at2 m i j).
      { destruct (lost np pol).
        - destruct (PRE 2%nat (Z3 eq_refl)) as (_ & _ & _ & p2 & _ & _ & _ & _ & _ & _ & N2 & _ & _ & (RA & RB) & _).
          destruct (ZM eq_refl p2 N2) as (A1 & A2 & A3). split; [split; congruence|]. intros; apply A3.
        - specialize (KM eq_refl). split; [eapply sized_ext; eassumption|]. intros i j I J. destruct KM as (A1 & A2 & A3). destruct S2. apply A3; lia. }
      assert (S3' : sized n r' /\ forall i j, (i < n)%nat -> (j < n)%nat -> at2 r' i j = if lost np pol then 0 else at2 r i j).
      { destruct (lost np pol).
        - destruct (PRE 2%nat (Z3 eq_refl)) as (_ & _ & _ & _ & p2 & _ & _ & _ & _ & _ & _ & N2 & _ & _ & (RA & RB) & _).
          destruct (ZR eq_refl p2 N2) as (A1 & A2 & A3). split; [split; congruence|]. intros; apply A3.
        - specialize (KR eq_refl). split; [eapply sized_ext; eassumption|]. intros i j I J. destruct KR as (A1 & A2 & A3). destruct S3. apply A3; lia. }
      destruct S1' as (S1' & V1). destruct S2' as (S2' & V2). destruct S3' as (S3' & V3).
      unfold write_pol. rewrite (get_plane_some _ _ _ NB), (get_plane_some _ _ _ ND'), (get_plane_some _ _ _ NM'), (get_plane_some _ _ _ NR'), (get_plane_some _ _ _ NX).
      cbn [bind]. assert (SC : sized n (amap inverse b)) by (destruct SB; split; assumption).
      destruct (azip_same n Rmult d' _ S1' SC) as (df & -> & SDF & VDF). cbn [bind].
      destruct (azip_same n Rmult m' _ S2' SC) as (mf & -> & SMF & VMF). cbn [bind].
      destruct (azip_same n Rmult r' _ S3' SC) as (rf & -> & SRF & VRF). cbn [bind].
      eexists. split; [reflexivity|]. exists bi, b, x, df, mf, rf. split; [exact EB|]. split; [exact SB|]. split; [exact VBB|]. split; [exact NX|].
      split; [unfold five; change (q_nvis ob) with (q_nvis o'); rewrite EV; reflexivity|].
      split; [exact SDF|]. split; [exact SMF|]. split; [exact SRF|]. intros y xx Y X. cbv zeta.
      rewrite VDF, VMF, VRF by assumption. cbn [amap at2]. rewrite V1, V2, V3 by assumption. destruct (VV y xx Y X) as (W1 & W2 & W3). rewrite W1, W2, W3.
      repeat split. }
    rewrite EFL. cbn [bind]. eexists _, files. split; [reflexivity|]. cbn [out_files out_image out_model out_weights out_obs out_header].
    split; [reflexivity|]. split; [exact LF|]. split; [rewrite map_length; exact LR|]. split; [rewrite map_length; exact LR|]. split; [exact LW'|].
    split.
    { exists names. eexists. split; [exact SN|]. split; [reflexivity|]. split; [reflexivity|]. rewrite ECD. reflexivity. }
    intros pol HP. destruct (VF pol HP) as (fl & NF & bi & b & x & d & m & r & EB & SB & VBB & NX & -> & SDF & SMF & SRF & VV).
    destruct (VR pol HP) as ([[[[d0 m0] fa] i'] m'] & NR & b1 & NB1 & PR). destruct PR as (_ & _ & _ & _ & _ & EI & EM).
    destruct (VN pol HP) as ([fac after] & NN & b2 & NB2 & FE & EA). cbn [fst snd] in FE, EA.
    destruct (VW pol after) as (w' & NW' & SW' & VW'); [unfold wts; rewrite nth_error_map, NN; reflexivity|].
    exists bi, b, x, d, m, r, i', m', w'. split; [exact EB|]. split; [exact SB|]. split; [exact VBB|]. split; [exact NX|]. split; [exact NF|].
    split; [exact SDF|]. split; [exact SMF|]. split; [exact SRF|]. split; [exact VV|].
    split; [rewrite nth_error_map, NR; reflexivity|]. split; [exact EI|]. split; [rewrite nth_error_map, NR; reflexivity|]. split; [exact EM|].
    split; [exact NW'|]. split; [exact SW'|]. intros y xx Y X. rewrite VW'. f_equal.
    destruct EA as (A1 & A2 & A3). destruct (planes_nth _ _ _ _ PW HP) as (_ & (RW & CW)). cbn [weighted rows cols] in A1, A2. rewrite A3 by lia. reflexivity.
  Qed.
End Whole.

(** A grid of another size than the planes. *)
Lemma pol_images_err uniform cfg n f o pol b i m w : (2 <= n)%nat -> filters uniform n f -> q_dimension o <> n -> sized n i -> sized n w ->
  pol_images uniform cfg o pol b i m w = Err ValueError.
Proof.
  intros N FI NE SI SW. unfold pol_images, generate.
  destruct (call_front (uniform w) cfg (q_degpix o) (1 <? pol)%nat b i n (f w) (fun u => match uniform w u with Ok q => fst q | Err _ => u end) ltac:(lia) SI) as (k & v & _ & _ & _ & EQ & ->).
  { intros u HS _. destruct (FI w u SW HS) as (_ & p & -> & EP). cbn [fst]. auto. }
  set (op := call_options _ _ _ _ _). destruct (FI w i SW SI) as ((RF & CF) & _).
  unfold step_pad. cbn [op call_options o_pad]. unfold np_pad. destruct (_ <? 0)%Z; [reflexivity|]. cbn [bind]. cbv zeta.
  match goal with |- context [step_image op ?x] => set (k' := x) end.
  assert (SE : (exists im, step_image op k' = Ok im) \/ step_image op k' = Err ValueError).
  { unfold step_image, fft2. destruct (_ || _)%bool; [right; reflexivity|]. cbn [bind op call_options o_beam o_optimal o_norm andb].
    destruct (c_optimal cfg); [|left; cbn [bind]; eauto]. unfold mul_into. destruct (_ && _)%bool; cbn [bind]; [left; eauto|right; reflexivity]. }
  destruct SE as [(im & ->)| ->]; [|reflexivity]. cbn [bind]. unfold assign at 1. destruct (_ && _)%bool; [|reflexivity]. cbn [bind].
  unfold assign at 1, axis_ok. rewrite RF. destruct (Nat.eqb_spec n (q_dimension o)); [lia|]. destruct (Nat.eqb_spec n 1); [lia|]. reflexivity.
Qed.
