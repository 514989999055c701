(** C64: initial gains from the autocorrelations.  C65: gains fitted to the autocorrelations.
    C66: histograms of the residuals by baseline length. *)
From Coq Require Import Sorting.Sorted.
From Verif Require Import Base SortLib NpArr PyIndex Cplx WeightInvert VisWeights GridLoc VisGrid VisGrid2Props CalApply CalApplySpec
  ResMean Histogram HistogramSpec CalAuto CalAutoSpec CalAutoProofs.
Open Scope nat_scope.
Ltac Zify.zify_post_hook ::= idtac.

(** ** C64 *)

(** The call succeeds on every consistent input, whatever the data, and every initial gain is a positive number. *)
Theorem C64_positive sqrt_ abs_ n_pol n_freq n_tile freq_use vis vm va am tiles :
  auto_input n_pol n_freq n_tile va am tiles -> covers n_pol freq_use vis -> covers n_pol freq_use vm ->
  exists g, vis_cal_auto_init sqrt_ abs_ n_pol n_freq n_tile freq_use vis vm va am tiles = Ok g
    /\ (d_pol g, d_freq g, d_bl g) = (n_pol, n_freq, n_tile)
    /\ forall p f t, p < n_pol -> f < n_freq -> t < n_tile -> (0 < at3 g p f t)%Qc.
Proof.
  intros H V M. destruct (init_ok sqrt_ abs_ _ _ _ _ _ _ _ _ _ H V M) as (g & E & D & G).
  exists g. repeat (split; auto). intros p f t Hp _ _. rewrite G by auto. apply init_gain_pos.
Qed.
Print Assumptions C64_positive.

(** With positive autocorrelations and models, the gains of a polarisation are the square roots of
    data over model (1 for tiles without autocorrelation), rescaled so that their average is the square root
    of the ratio of the mean amplitudes of the data and of the model visibilities. *)
Theorem C64_value sqrt_ abs_ n_pol n_freq n_tile freq_use vis vm va am tiles p d m :
  auto_input n_pol n_freq n_tile va am tiles -> covers n_pol freq_use vis -> covers n_pol freq_use vm ->
  p < n_pol -> 0 < n_freq -> 0 < n_tile -> (forall x, (0 < x)%Qc -> (0 < sqrt_ x)%Qc) ->
  (forall f k, f < n_freq -> k < length tiles -> (0 < at3 va p f k)%Qc /\ (0 < at3 am p f k)%Qc) ->
  resistant_mean (used_amps abs_ freq_use vis p) 2 = Some d -> (0 < d)%Q ->
  resistant_mean (used_amps abs_ freq_use vm p) 2 = Some m -> (0 < m)%Q ->
  exists g ratio, vis_cal_auto_init sqrt_ abs_ n_pol n_freq n_tile freq_use vis vm va am tiles = Ok g
    /\ (forall f t, f < n_freq -> t < n_tile -> tile_ratio sqrt_ va am tiles p f t (ratio f t))
    /\ (forall f t, f < n_freq -> t < n_tile ->
          at3 g p f t = (sqrt_ (Q2Qc (d / m)) * ratio f t / average n_freq n_tile ratio)%Qc)
    /\ average n_freq n_tile ratio <> 0%Qc
    /\ average n_freq n_tile (at3 g p) = sqrt_ (Q2Qc (d / m)).
Proof.
  intros H V M Hp Hf0 Ht0 HS HP Rd Pd Rm Pm.
  destruct (init_ok sqrt_ abs_ _ _ _ _ _ _ _ _ _ H V M) as (g & E & D & G).
  pose proof (ai_tiles _ _ _ _ _ _ H) as TL. destruct (ai_va _ _ _ _ _ _ H) as (_ & A2 & _).
  set (ratio := fun f t => match raw_of sqrt_ va am tiles p f t with Some r => r | None => 0%Qc end).
  assert (R : forall f t, f < n_freq -> raw_of sqrt_ va am tiles p f t = Some (ratio f t)
     /\ tile_ratio sqrt_ va am tiles p f t (ratio f t) /\ (0 < ratio f t)%Qc).
  { intros f t Hf. destruct (raw_ratio sqrt_ n_tile va am tiles p f t TL) as (r & R1 & R2 & R3); auto.
    - intros f' k Hf' Hk. apply HP; auto. now rewrite <- A2.
    - now rewrite A2.
    - unfold ratio. now rewrite R1. }
  assert (S0 : (0 < sqrt_ (Q2Qc (d / m)))%Qc).
  { apply HS. unfold Qclt. cbn [this Q2Qc]. rewrite !Qred_correct. apply Qlt_shift_div_l; auto. now rewrite Qmult_0_l. }
  assert (Val : forall f t, f < n_freq -> t < n_tile ->
     at3 g p f t = (sqrt_ (Q2Qc (d / m)) * ratio f t / average n_freq n_tile ratio)%Qc /\ (0 < average n_freq n_tile ratio)%Qc).
  { intros f t Hf Ht. rewrite G by auto. rewrite (cross_scale_eq _ _ _ _ _ _ _ _ Rd Rm Pd Pm).
    rewrite (init_gain_ext _ _ _ (fun f t => Some (ratio f t))); auto.
    - apply init_gain_value; auto. intros f' t' Hf' _. apply (R f' t' Hf').
    - intros f' t' Hf' _. apply (R f' t' Hf'). }
  exists g, ratio. split; auto. split; [intros f t Hf _; apply (R f t Hf)|].
  split; [intros f t Hf Ht; apply (Val f t Hf Ht)|].
  assert (NZ : average n_freq n_tile ratio <> 0%Qc) by (apply Qc_pos_neq, (Val 0 0); auto).
  split; auto.
  rewrite (average_ext _ _ (at3 g p) (fun f t => (sqrt_ (Q2Qc (d / m)) / average n_freq n_tile ratio * ratio f t)%Qc)).
  - rewrite average_scaled. field. auto.
  - intros f t Hf Ht. destruct (Val f t Hf Ht) as (-> & _). field. auto.
Qed.
Print Assumptions C64_value.

(** REFUTED: an unusable autocorrelation sample should only affect the gain it belongs to. One negative
    ratio makes the mean NaN, weight_invert turns it into 0, and every gain of the polarisation becomes 1. *)
Theorem C64_isolation_refuted sqrt_ abs_ n_pol n_freq n_tile freq_use vis vm va am tiles p f0 t0 k :
  auto_input n_pol n_freq n_tile va am tiles -> covers n_pol freq_use vis -> covers n_pol freq_use vm ->
  p < n_pol -> f0 < n_freq -> last_pos tiles t0 k -> (at3 va p f0 k < 0)%Qc -> (0 < at3 am p f0 k)%Qc ->
  exists g, vis_cal_auto_init sqrt_ abs_ n_pol n_freq n_tile freq_use vis vm va am tiles = Ok g
    /\ forall f t, f < n_freq -> t < n_tile -> at3 g p f t = 1%Qc.
Proof.
  intros H V M Hp Hf LP Neg Pos. destruct (init_ok sqrt_ abs_ _ _ _ _ _ _ _ _ _ H V M) as (g & E & D & G).
  exists g. split; auto. intros f t _ _. rewrite G by auto.
  assert (Ht : t0 < n_tile).
  { destruct LP as (K1 & K2 & _). pose proof (ai_tiles _ _ _ _ _ _ H (nth k tiles 0%Z) (nth_In _ _ K1)). lia. }
  apply (init_gain_nan _ _ _ _ f t f0 t0); auto.
  unfold raw_of. rewrite (column_last n_tile tiles t0 k (ai_tiles _ _ _ _ _ _ H) LP).
  unfold auto_amp, fsqrt. rewrite winvert_none. unfold Qceqb.
  destruct (Qc_eq_dec _ _) as [Z0|_]; [exfalso; now apply (Qc_pos_neq _ Pos)|].
  assert (L : (at3 va p f0 k * (1 / at3 am p f0 k) < 0)%Qc).
  { rewrite <- (Qcmult_0_l (1 / at3 am p f0 k)). apply Qcmult_lt_compat_r; auto. now apply Qc_inv_pos. }
  now rewrite (proj2 (Qcleb_false _ _) L).
Qed.
Print Assumptions C64_isolation_refuted.

(** A case: three tiles, the last without autocorrelation; the ratios are 4 and 16. *)
Definition ex_sqrt (x : Qc) : Qc :=
  if Qceqb x 0 then 0%Qc else if Qceqb x (Q2Qc 4) then Q2Qc 2 else if Qceqb x (Q2Qc 16) then Q2Qc 4 else 1%Qc.
Definition ex_abs (c : C) : Qc := Qcabs0 (re c).
Definition ex_v : arr3 C := Arr3 1 2 3 (fun _ _ _ => mkC (Q2Qc 4) 0).
Definition ex_m : arr3 C := Arr3 1 2 3 (fun _ _ _ => mkC 1 0).
Definition ex_va : arr3 Qc := Arr3 1 2 2 (fun _ _ k => if k =? 0 then Q2Qc 4 else Q2Qc 16).
Definition ex_am : arr3 Qc := Arr3 1 2 2 (fun _ _ _ => 1%Qc).
Example C64_case :
  auto_input 1 2 3 ex_va ex_am [0; 1]%Z /\ covers 1 [1; 1]%Z ex_v /\ covers 1 [1; 1]%Z ex_m
  /\ resistant_mean (used_amps ex_abs [1; 1]%Z ex_v 0) 2 <> None
  /\ exists g, vis_cal_auto_init ex_sqrt ex_abs 1 2 3 [1; 1]%Z ex_v ex_m ex_va ex_am [0; 1]%Z = Ok g
       /\ map (at3 g 0 0) [0; 1; 2] = [Q2Qc (12 # 7); Q2Qc (24 # 7); Q2Qc (6 # 7)].
Proof.
  split; [|split; [|split; [|split]]].
  - split; [cbn; lia|cbn; lia|]. intros v [<-|[<-|[]]]; lia.
  - split; [cbn; lia|]. intros [|[|f]] Hf _; cbn in *; lia.
  - split; [cbn; lia|]. intros [|[|f]] Hf _; cbn in *; lia.
  - vm_compute. discriminate.
  - eexists. split; [reflexivity|]. vm_compute. reflexivity.
Qed.

(** ** C65 *)

(** Tiles with autocorrelations: the line is fitted over the safe channels with usable values, the amplitude
    of the new gain is that line, its phase is the phase of the old gain; the other tiles keep their gain. *)
Theorem C65_gain_partial sqrt_ abs_ phase_ lstsq junk junk' n_pol n_freq n_tile freq_use gain va am tiles :
  auto_input n_pol n_freq n_tile va am tiles -> length freq_use = n_freq -> 2 <= n_pol ->
  d_pol gain = n_pol -> d_freq gain = n_freq -> d_bl gain = n_tile -> NoDup tiles ->
  (forall x, (0 <= x)%Qc -> (0 <= sqrt_ x)%Qc) ->
  exists out, vis_cal_auto_fit sqrt_ abs_ phase_ lstsq junk junk' n_pol n_freq n_tile freq_use gain va am tiles = Ok out
    /\ (d_pol (af_gain out), d_freq (af_gain out), d_bl (af_gain out)) = (n_pol, n_freq, n_tile)
    /\ (forall p k, p < n_pol -> k < length tiles ->
          let t := Z.to_nat (nth k tiles 0%Z) in
          exists (amp : nat -> option Qc) (chan : list nat) (slope offset : Qc),
            (forall f, f < n_freq -> amplitude sqrt_ va am p f k (amp f))
            /\ StronglySorted lt chan
            /\ (forall f, In f chan <-> safe_channel freq_use f /\ amp f <> None /\ at3 gain p f t <> None)
            /\ lstsq (map (fun f => (match amp f with Some a => a | None => 0%Qc end,
                                     match at3 gain p f t with Some g => abs_ g | None => 0%Qc end)) chan) = (slope, offset)
            /\ at2 (af_slope out) p t = slope /\ at2 (af_offset out) p t = offset
            /\ forall f, f < n_freq -> at3 (af_gain out) p f t =
                 match amp f, at3 gain p f t with
                 | Some a, Some g => Some (Cscale (a * slope + offset)%Qc (phase_ g))
                 | _, _ => None
                 end)
    /\ (forall p f t, ~ In (Z.of_nat t) tiles -> at3 (af_gain out) p f t = at3 gain p f t).
Proof.
  intros H Lf Np Dp Df Db ND HS.
  destruct (fit_ok sqrt_ abs_ phase_ lstsq junk junk' _ _ _ _ _ _ _ _ H Lf Dp Df Db ND HS) as (g & sl & off & E & F & U).
  rewrite (proj2 (Nat.ltb_ge _ _) Np) in E. eexists. split; [exact E|]. split; [reflexivity|]. split.
  - intros p k Hp Hk t. destruct (F p k Hp Hk) as (amp & chan & F1 & F2 & F3 & F4 & F5). fold t in F3, F4, F5. rewrite Lf in F1, F5.
    exists amp, chan, (sl p t), (off p t). repeat (split; auto).
  - intros p f t NI. apply (U p f t NI).
Qed.
Print Assumptions C65_gain_partial.

(** If the amplitude of the old gains already is a linear function of the autocorrelation amplitude and the
    least squares routine finds that line, the old gains are returned. *)
Theorem C65_exact sqrt_ abs_ phase_ lstsq junk junk' n_pol n_freq n_tile freq_use gain va am tiles slope offset :
  auto_input n_pol n_freq n_tile va am tiles -> length freq_use = n_freq -> 2 <= n_pol ->
  d_pol gain = n_pol -> d_freq gain = n_freq -> d_bl gain = n_tile -> NoDup tiles ->
  (forall x, (0 <= x)%Qc -> (0 <= sqrt_ x)%Qc) ->
  (forall z, Cscale (abs_ z) (phase_ z) = z) ->
  (forall p k f, p < n_pol -> k < length tiles -> f < n_freq ->
     exists a g, amplitude sqrt_ va am p f k (Some a) /\ at3 gain p f (Z.to_nat (nth k tiles 0%Z)) = Some g
       /\ abs_ g = (a * slope + offset)%Qc) ->
  (forall l, (forall xy, In xy l -> snd xy = (fst xy * slope + offset)%Qc) -> lstsq l = (slope, offset)) ->
  exists out, vis_cal_auto_fit sqrt_ abs_ phase_ lstsq junk junk' n_pol n_freq n_tile freq_use gain va am tiles = Ok out
    /\ forall p f t, p < n_pol -> f < n_freq -> t < n_tile -> at3 (af_gain out) p f t = at3 gain p f t.
Proof.
  intros H Lf Np Dp Df Db ND HS Pol Lin LS.
  destruct (C65_gain_partial sqrt_ abs_ phase_ lstsq junk junk' _ _ _ _ _ _ _ _ H Lf Np Dp Df Db ND HS) as (out & E & _ & F & U).
  exists out. split; auto. intros p f t Hp Hf Ht.
  destruct (in_dec Z.eq_dec (Z.of_nat t) tiles) as [I|NI]; [|now apply U].
  destruct (In_nth _ _ 0%Z I) as (k & Hk & Ek). destruct (F p k Hp Hk) as (amp & chan & sl & off & F1 & F2 & F3 & F4 & F5 & F6 & F7).
  rewrite Ek, Nat2Z.id in *.
  assert (Q : (sl, off) = (slope, offset)).
  { rewrite <- F4. apply LS. intros xy I'. apply in_map_iff in I'. destruct I' as (f' & <- & I').
    apply F3 in I'. destruct I' as (S1 & _). assert (Hf' : f' < n_freq) by (destruct S1; lia).
    destruct (Lin p k f' Hp Hk Hf') as (a & g & L1 & L2 & L3). rewrite Ek, Nat2Z.id in L2.
    rewrite (amplitude_fun _ _ _ _ _ _ _ _ (F1 f' Hf') L1), L2. cbn [fst snd]. exact L3. }
  injection Q as -> ->. rewrite F7 by auto. destruct (Lin p k f Hp Hk Hf) as (a & g & L1 & L2 & L3). rewrite Ek, Nat2Z.id in L2.
  rewrite (amplitude_fun _ _ _ _ _ _ _ _ (F1 f Hf) L1), L2, <- L3, Pol. reflexivity.
Qed.
Print Assumptions C65_exact.

(** The reported auto_scale is the average slope when every tile has an autocorrelation. *)
Theorem C65_scale_partial sqrt_ abs_ phase_ lstsq junk junk' n_pol n_freq n_tile freq_use gain va am tiles :
  auto_input n_pol n_freq n_tile va am tiles -> length freq_use = n_freq -> 2 <= n_pol ->
  d_pol gain = n_pol -> d_freq gain = n_freq -> d_bl gain = n_tile -> NoDup tiles ->
  (forall x, (0 <= x)%Qc -> (0 <= sqrt_ x)%Qc) -> (forall t, t < n_tile -> In (Z.of_nat t) tiles) ->
  exists out, vis_cal_auto_fit sqrt_ abs_ phase_ lstsq junk junk' n_pol n_freq n_tile freq_use gain va am tiles = Ok out
    /\ length (af_scale out) = n_pol
    /\ forall p, p < n_pol -> nth p (af_scale out) 0%Qc = (Qcsum (map (at2 (af_slope out) p) (seq 0 n_tile)) / qc_nat n_tile)%Qc.
Proof.
  intros H Lf Np Dp Df Db ND HS All.
  destruct (fit_ok sqrt_ abs_ phase_ lstsq junk junk' _ _ _ _ _ _ _ _ H Lf Dp Df Db ND HS) as (g & sl & off & E & F & U).
  rewrite (proj2 (Nat.ltb_ge _ _) Np) in E. eexists. split; [exact E|]. cbn [af_scale af_slope at2].
  split; [now rewrite map_length, seq_length|]. intros p Hp. rewrite (nth_map_seq _ n_pol p 0%Qc Hp). f_equal. f_equal.
  assert (length (map Z.of_nat (seq 0 n_tile)) <= length tiles).
  { apply NoDup_incl_length.
    - apply FinFun.Injective_map_NoDup; [intros x y; apply Nat2Z.inj|apply seq_NoDup].
    - intros v I. apply in_map_iff in I. destruct I as (t & <- & I). apply in_seq in I. apply All. lia. }
  assert (length tiles <= length (map Z.of_nat (seq 0 n_tile))).
  { apply NoDup_incl_length; auto. intros v I. pose proof (ai_tiles _ _ _ _ _ _ H v I).
    apply in_map_iff. exists (Z.to_nat v). split; [lia|]. apply in_seq. lia. }
  rewrite map_length, seq_length in *. lia.
Qed.
Print Assumptions C65_scale_partial.

(** REFUTED otherwise: with a tile without autocorrelation, auto_scale is whatever the uninitialised
    memory makes it: any value at all is possible. *)
Theorem C65_scale_refuted sqrt_ abs_ phase_ lstsq junk' n_pol n_freq n_tile freq_use gain va am tiles p t (v : Qc) :
  auto_input n_pol n_freq n_tile va am tiles -> length freq_use = n_freq -> 2 <= n_pol ->
  d_pol gain = n_pol -> d_freq gain = n_freq -> d_bl gain = n_tile -> NoDup tiles -> tiles <> [] ->
  (forall x, (0 <= x)%Qc -> (0 <= sqrt_ x)%Qc) -> p < n_pol -> t < n_tile -> ~ In (Z.of_nat t) tiles ->
  exists junk out, vis_cal_auto_fit sqrt_ abs_ phase_ lstsq junk junk' n_pol n_freq n_tile freq_use gain va am tiles = Ok out
    /\ nth p (af_scale out) 0%Qc = v.
Proof.
  intros H Lf Np Dp Df Db ND NE HS Hp Ht NI.
  pose (jk := fun (x : Qc) (p' t' : nat) => if t' =? t then x else 0%Qc).
  assert (NZ : qc_nat (length tiles) <> 0%Qc) by (apply qc_nat_neq0; destruct tiles; [congruence|cbn; lia]).
  (* the slopes of the other tiles do not depend on the junk at [t] *)
  assert (SL : forall x, exists out, vis_cal_auto_fit sqrt_ abs_ phase_ lstsq (jk x) junk' n_pol n_freq n_tile freq_use gain va am tiles = Ok out
     /\ nth p (af_scale out) 0%Qc = ((Qcsum (map (at2 (af_slope out) p) (seq 0 n_tile))) / qc_nat (length tiles))%Qc
     /\ at2 (af_slope out) p t = x
     /\ forall u, u <> t -> u < n_tile ->
          (~ In (Z.of_nat u) tiles -> at2 (af_slope out) p u = 0%Qc)
          /\ (forall k, k < length tiles -> Z.to_nat (nth k tiles 0%Z) = u ->
               exists o1 o2, fitted sqrt_ abs_ phase_ lstsq freq_use gain va am p k u o1 (at2 (af_slope out) p u) o2)).
  { intros x. destruct (fit_ok sqrt_ abs_ phase_ lstsq (jk x) junk' _ _ _ _ _ _ _ _ H Lf Dp Df Db ND HS) as (g & sl & off & E & F & U).
    rewrite (proj2 (Nat.ltb_ge _ _) Np) in E. eexists. split; [exact E|]. cbn [af_scale af_slope at2].
    split; [now rewrite (nth_map_seq _ n_pol p 0%Qc Hp)|]. split.
    - destruct (U p 0 t NI) as (_ & -> & _). unfold jk. now rewrite Nat.eqb_refl.
    - intros u Hu Hun. split.
      + intros NI'. destruct (U p 0 u NI') as (_ & -> & _). unfold jk. now rewrite (proj2 (Nat.eqb_neq _ _) Hu).
      + intros k Hk Eu. pose proof (F p k Hp Hk) as G. cbv zeta in G. rewrite Eu in G. eauto. }
  destruct (SL 0%Qc) as (out0 & E0 & S0 & T0 & O0).
  set (rest := Qcsum (map (at2 (af_slope out0) p) (seq 0 n_tile))).
  set (x := (v * qc_nat (length tiles) - rest)%Qc).
  destruct (SL x) as (out1 & E1 & S1 & T1 & O1). exists (jk x), out1. split; auto. rewrite S1.
  assert (Same : forall u, u < n_tile -> u <> t -> at2 (af_slope out1) p u = at2 (af_slope out0) p u).
  { intros u Hu Hne. destruct (O0 u Hne Hu) as (A0 & B0), (O1 u Hne Hu) as (A1 & B1).
    destruct (in_dec Z.eq_dec (Z.of_nat u) tiles) as [I|I].
    - destruct (In_nth _ _ 0%Z I) as (k & Hk & Ek). assert (Eu : Z.to_nat (nth k tiles 0%Z) = u) by (rewrite Ek; apply Nat2Z.id).
      destruct (B0 k Hk Eu) as (? & ? & amp0 & ch0 & P1 & P2 & P3 & P4 & P5), (B1 k Hk Eu) as (? & ? & amp1 & ch1 & R1 & R2 & R3 & R4 & R5).
      assert (AE : forall f, f < length freq_use -> amp0 f = amp1 f).
      { intros f Hf. apply (amplitude_fun sqrt_ va am p f k); auto. }
      assert (CE : ch0 = ch1).
      { apply AutoProofs.sorted_lt_ext; auto. intros f. rewrite P3, R3. split; intros (Q1 & Q2 & Q3); (split; [auto|]; split; auto).
        - rewrite <- AE; auto. now destruct Q1.
        - rewrite AE; auto. now destruct Q1. }
      subst ch1. rewrite (map_ext_in _ (spec_pairs abs_ amp1 (fun f => at3 gain p f u))) in P4.
      + congruence.
      + intros f I'. apply P3 in I'. unfold spec_pairs. rewrite AE; auto. now destruct I' as ((? & _) & _).
    - now rewrite A0, A1. }
  assert (Sum : forall l, NoDup l -> (forall u, In u l -> u < n_tile) ->
     Qcsum (map (at2 (af_slope out1) p) l) = (Qcsum (map (at2 (af_slope out0) p) l) + (if in_dec Nat.eq_dec t l then x else 0))%Qc).
  { intros l Nl. induction Nl as [|u l N _ IH]; intros Hl.
    - cbn. reflexivity.
    - cbn [map]. unfold Qcsum in *. cbn [fold_right]. rewrite IH by (intros; apply Hl; now right).
      destruct (Nat.eq_dec u t) as [->|Hne].
      + rewrite T0, T1. destruct (in_dec Nat.eq_dec t l); [contradiction|]. destruct (in_dec Nat.eq_dec t (t :: l)) as [|Q]; [ring|exfalso; apply Q; now left].
      + rewrite (Same u) by (auto; apply Hl; now left). destruct (in_dec Nat.eq_dec t l) as [Q|Q], (in_dec Nat.eq_dec t (u :: l)) as [Q'|Q']; try ring.
        * exfalso. apply Q'. now right.
        * exfalso. destruct Q'; [congruence|contradiction]. }
  rewrite Sum; [|apply seq_NoDup|intros u I; apply in_seq in I; lia].
  destruct (in_dec Nat.eq_dec t (seq 0 n_tile)) as [_|Q]; [|exfalso; apply Q, in_seq; lia].
  fold rest. unfold x. field. auto.
Qed.
Print Assumptions C65_scale_refuted.

(** REFUTED: one polarisation. auto_params is allocated with n_pol entries but two are written. *)
Theorem C65_single_pol_refuted sqrt_ abs_ phase_ lstsq junk junk' n_freq n_tile freq_use gain va am tiles :
  auto_input 1 n_freq n_tile va am tiles -> length freq_use = n_freq ->
  d_pol gain = 1 -> d_freq gain = n_freq -> d_bl gain = n_tile -> NoDup tiles ->
  (forall x, (0 <= x)%Qc -> (0 <= sqrt_ x)%Qc) ->
  vis_cal_auto_fit sqrt_ abs_ phase_ lstsq junk junk' 1 n_freq n_tile freq_use gain va am tiles = Err IndexError.
Proof.
  intros H Lf Dp Df Db ND HS.
  destruct (fit_ok sqrt_ abs_ phase_ lstsq junk junk' _ _ _ _ _ _ _ _ H Lf Dp Df Db ND HS) as (g & sl & off & E & _). exact E.
Qed.
Print Assumptions C65_single_pol_refuted.

(** A case: two tiles with autocorrelations, one without; channel 0 is flagged, so the fit uses channels 2, 3. *)
Definition ex_lstsq (l : list (Qc * Qc)) : Qc * Qc := (Q2Qc (inject_Z (Z.of_nat (length l))), 1%Qc).
Definition ex_va2 : arr3 Qc := Arr3 2 4 2 (fun _ _ k => if k =? 0 then Q2Qc 4 else Q2Qc 16).
Definition ex_am2 : arr3 Qc := Arr3 2 4 2 (fun _ _ _ => 1%Qc).
Definition ex_gn : arr3 (option C) := Arr3 2 4 3 (fun _ _ _ => Some (mkC (Q2Qc 3) 0)).
Example C65_case :
  auto_input 2 4 3 ex_va2 ex_am2 [0; 1]%Z
  /\ exists out, vis_cal_auto_fit ex_sqrt ex_abs (fun _ => C1) ex_lstsq (fun _ _ => 0%Qc) (fun _ _ => 0%Qc) 2 4 3
       [0; 1; 1; 1]%Z ex_gn ex_va2 ex_am2 [0; 1]%Z = Ok out
     /\ map (at3 (af_gain out) 1 0) [0; 1; 2] = [Some (mkC (Q2Qc 5) 0); Some (mkC (Q2Qc 9) 0); Some (mkC (Q2Qc 3) 0)]
     /\ safe_channel [0; 1; 1; 1]%Z 2 /\ ~ safe_channel [0; 1; 1; 1]%Z 1.
Proof.
  split.
  - split; [cbn; lia|cbn; lia|]. intros v [<-|[<-|[]]]; lia.
  - eexists. split; [vm_compute; reflexivity|]. split; [vm_compute; reflexivity|]. split.
    + split; [cbn; lia|]. intros [|[|[|[|g]]]] G; cbn in *; lia.
    + intros (_ & H). apply (H 0); cbn; lia.
Qed.

(** ** C66 *)
Open Scope Q_scope.

(** When no bin mixes zero and nonzero model visibilities: each bin holds the mean (and the spread) of the
    residual amplitude over the mean model amplitude, over the visibilities of that length with a model. *)
Theorem C66_value_partial sqrt_ abs_ n_pol kpix lo hi uu vv freq lengths vc vm :
  good_abs abs_ -> hist_input n_pol uu vv freq lo hi vc vm -> lists_lengths sqrt_ kpix uu vv freq lengths ->
  (forall p i j k, (p < n_pol)%nat -> In j (bin_positions lo hi 5 lengths i) -> In k (bin_positions lo hi 5 lengths i) ->
     vis_at vm (length uu) p j = C0 -> vis_at vm (length uu) p k = C0) ->
  exists out, vis_baseline_hist sqrt_ abs_ n_pol kpix lo hi uu vv freq vc vm = Ok out
    /\ (0 < bh_length out)%nat /\ in_bin lo 5 (bh_length out - 1) hi
    /\ forall p i, (p < n_pol)%nat -> (i < bh_length out)%nat ->
       let s := compared lo hi lengths vm (length uu) p i in
       let res := map (fun k => abs_ (vis_at vc (length uu) p k - vis_at vm (length uu) p k)%C) s in
       let model := map (fun k => abs_ (vis_at vm (length uu) p k)) s in
       (s = [] -> at2 (bh_mean out) p i = 0 /\ at2 (bh_sigma out) p i = 0)
       /\ (s <> [] -> at2 (bh_mean out) p i = Qmean res / Qmean model
                      /\ at2 (bh_sigma out) p i = sqrt_ (Qvar res) / Qmean model).
Proof.
  intros G HI LL Pure. destruct (hist_run sqrt_ abs_ n_pol kpix lo hi uu vv freq lengths vc vm HI LL) as (n & N0 & NB & E).
  destruct HI as [E1 E2 (V1 & V2 & V3) (M1 & M2 & M3)].
  assert (BV : forall p i, (p < n_pol)%nat ->
    match bin_positions lo hi 5 lengths i with [] => Ok None | _ => hist_bin sqrt_ abs_ vc vm p (bin_positions lo hi 5 lengths i) end
    = Ok (bin_value sqrt_ abs_ vc vm (length uu) p (compared lo hi lengths vm (length uu) p i))).
  { intros p i Hp. pose proof (fun j k => Pure p i j k Hp) as PP. unfold compared.
    assert (HB : forall k, In k (bin_positions lo hi 5 lengths i) -> (k < length freq * length uu)%nat).
    { intros k I. apply filter_In in I. destruct I as (I & _). apply in_seq in I. destruct LL as (L & _). lia. }
    pose proof (hist_bin_pure sqrt_ abs_ vc vm p (length freq) (length uu) _ G V2 M2 V3 M3 HB PP) as HBP. clear PP HB.
    destruct (bin_positions lo hi 5 lengths i) as [|a l]; auto. }
  rewrite (map_res_ext_ok _ (fun p => map (fun i => bin_value sqrt_ abs_ vc vm (length uu) p (compared lo hi lengths vm (length uu) p i)) (seq 0 n))) in E.
  2:{ intros p Hp. apply in_seq in Hp. apply map_res_ext_ok. intros i _. apply BV. lia. }
  cbn [bind] in E. eexists. split; [exact E|]. cbn [bh_length bh_mean bh_sigma at2]. split; auto. split; auto.
  intros p i Hp Hi. rewrite (nth_map_seq _ n_pol p [] Hp), (nth_map_seq _ n i None Hi).
  cbv zeta. unfold bin_value, vdiff. destruct (compared lo hi lengths vm (length uu) p i) as [|a s].
  - split; auto. congruence.
  - split; [discriminate|]. auto.
Qed.
Print Assumptions C66_value_partial.

(** Calibrated data equal to the model: every mean residual is 0. *)
Theorem C66_perfect sqrt_ abs_ n_pol kpix lo hi uu vv freq lengths vc vm :
  good_abs abs_ -> abs_ C0 == 0 -> hist_input n_pol uu vv freq lo hi vc vm -> lists_lengths sqrt_ kpix uu vv freq lengths ->
  (forall p i j k, (p < n_pol)%nat -> In j (bin_positions lo hi 5 lengths i) -> In k (bin_positions lo hi 5 lengths i) ->
     vis_at vm (length uu) p j = C0 -> vis_at vm (length uu) p k = C0) ->
  (forall p k, (p < n_pol)%nat -> vis_at vc (length uu) p k = vis_at vm (length uu) p k) ->
  exists out, vis_baseline_hist sqrt_ abs_ n_pol kpix lo hi uu vv freq vc vm = Ok out
    /\ forall p i, (p < n_pol)%nat -> (i < bh_length out)%nat -> at2 (bh_mean out) p i == 0.
Proof.
  intros G A0 HI LL Pure Eq. destruct (C66_value_partial sqrt_ abs_ n_pol kpix lo hi uu vv freq lengths vc vm G HI LL Pure) as (out & E & _ & _ & V).
  exists out. split; auto. intros p i Hp Hi. destruct (V p i Hp Hi) as (V1 & V2).
  destruct (compared lo hi lengths vm (length uu) p i) as [|a s]; [destruct V1 as (-> & _); auto; reflexivity|].
  destruct V2 as (-> & _); [discriminate|].
  assert (Z0 : forall l, Qsum (map (fun k => abs_ (vis_at vc (length uu) p k - vis_at vm (length uu) p k)%C) l) == 0).
  { induction l as [|k l IH]; cbn [map]; [reflexivity|]. unfold Qsum in *. cbn [fold_right]. rewrite IH, Eq by auto.
    replace (vis_at vm (length uu) p k - vis_at vm (length uu) p k)%C with C0 by ring. rewrite A0. reflexivity. }
  unfold Qmean at 1. rewrite Z0. unfold Qdiv. now rewrite !Qmult_0_l.
Qed.
Print Assumptions C66_perfect.

(** REFUTED: a bin with at least two visibilities with a model and one without makes the call fail. *)
Theorem C66_mixed_refuted sqrt_ abs_ n_pol kpix lo hi uu vv freq lengths vc vm p i :
  good_abs abs_ -> hist_input n_pol uu vv freq lo hi vc vm -> lists_lengths sqrt_ kpix uu vv freq lengths ->
  (p < n_pol)%nat -> (2 <= length (compared lo hi lengths vm (length uu) p i) < length (bin_positions lo hi 5 lengths i))%nat ->
  vis_baseline_hist sqrt_ abs_ n_pol kpix lo hi uu vv freq vc vm = Err ValueError.
Proof.
  intros G HI LL Hp (Mx1 & Mx2). destruct (hist_run sqrt_ abs_ n_pol kpix lo hi uu vv freq lengths vc vm HI LL) as (n & N0 & NB & E).
  destruct HI as [E1 E2 (V1 & V2 & V3) (M1 & M2 & M3)].
  assert (HB : forall i k, In k (bin_positions lo hi 5 lengths i) -> (k < length freq * length uu)%nat).
  { intros i' k I. apply filter_In in I. destruct I as (I & _). apply in_seq in I. destruct LL as (L & _). lia. }
  assert (Ei : (i < n)%nat).
  { destruct (bin_positions lo hi 5 lengths i) as [|k l] eqn:BP; [cbn in Mx2; lia|].
    assert (I : In k (bin_positions lo hi 5 lengths i)) by (rewrite BP; now left).
    apply filter_In in I. destruct I as (_ & I). apply andb_true_iff in I. destruct I as (I1 & I2).
    apply within_b_spec in I1. apply in_bin_b_spec in I2. now apply (last_bin lo hi n i (nth k lengths 0)). }
  assert (CE : forall q j e, match bin_positions lo hi 5 lengths j with [] => Ok None | _ => hist_bin sqrt_ abs_ vc vm q (bin_positions lo hi 5 lengths j) end = Err e -> e = ValueError).
  { intros q j e. pose proof (hist_bin_err sqrt_ abs_ vc vm q (length freq) (length uu) (bin_positions lo hi 5 lengths j) e G V2 M2 V3 M3 (HB j)) as X.
    destruct (bin_positions lo hi 5 lengths j); [discriminate|]. exact X. }
  assert (CM : map_res (fun j => match bin_positions lo hi 5 lengths j with [] => Ok None | _ => hist_bin sqrt_ abs_ vc vm p (bin_positions lo hi 5 lengths j) end) (seq 0 n) = Err ValueError).
  { apply (map_res_err _ _ i); [apply in_seq; lia| |].
    - pose proof (hist_bin_mixed sqrt_ abs_ vc vm p (length freq) (length uu) (bin_positions lo hi 5 lengths i) G V2 M2 V3 M3 (HB i) Mx1 Mx2) as X.
      destruct (bin_positions lo hi 5 lengths i); [cbn in Mx2; lia|]. exact X.
    - intros j e _. apply CE. }
  rewrite E. rewrite (map_res_err _ _ p ValueError); [reflexivity|apply in_seq; lia|exact CM|].
  intros q e _ X. destruct e; auto; exfalso.
  all: revert X; generalize (seq 0 n); intros l; induction l as [|j l IH]; cbn [map_res]; [discriminate|];
    match goal with |- context [bind ?c _] => destruct c as [b|e'] eqn:Ec end; cbn [bind];
    [destruct (map_res _ l); cbn [bind]; [discriminate|]; intros [= ->]; now apply IH
    |apply CE in Ec; congruence].
Qed.
Print Assumptions C66_mixed_refuted.

(** A square root and a modulus on the values of the cases below. *)
Definition ex_qsqrt (x : Q) : Q := if Qle_bool x 0 then 0 else if Qeq_bool x 9 then 3 else if Qeq_bool x 64 then 8 else 1.
Definition ex_qabs (c : C) : Q := if Ceqb c C0 then 0 else if Qceqb (im c) 0 then Qabs.Qabs (this (re c)) else 1.
Lemma ex_qabs_good : good_abs ex_qabs.
Proof.
  intros c. unfold ex_qabs. split; intros H.
  - subst. vm_compute. discriminate.
  - unfold Ceqb. destruct (C_eq_dec c C0) as [|_]; [contradiction|]. unfold Qceqb. destruct (Qc_eq_dec (im c) 0) as [E|_]; [|reflexivity].
    apply Qnot_le_lt. intros L. apply H, C_ext; auto. cbn [re C0]. apply Qc_is_canon.
    apply Qle_antisym.
    + eapply Qle_trans; [apply Qabs.Qle_Qabs|exact L].
    + pose proof (Qabs.Qle_Qabs (- this (re c))) as P. rewrite Qabs.Qabs_opp in P.
      assert (P' : - this (re c) <= 0) by (eapply Qle_trans; eauto). unfold Qle in *. cbn in *. lia.
Qed.

(** REFUTED: with exactly one model visibility in a bin, perfectly calibrated data are reported with a residual of 100%. *)
Theorem C66_lonely_refuted :
  exists vm, hist_input 1 [3; 3] [0; 0] [1] 0 5 vm vm
    /\ exists out, vis_baseline_hist ex_qsqrt ex_qabs 1 1 0 5 [3; 3] [0; 0] [1] vm vm = Ok out
       /\ at2 (bh_mean out) 0 0 == 1.
Proof.
  exists (Arr3 1 1 2 (fun _ _ b => if (b =? 0)%nat then mkC (Q2Qc 2) 0 else C0)). split.
  - split; [reflexivity|vm_compute; discriminate|cbn; auto|cbn; auto].
  - eexists. split; [vm_compute; reflexivity|]. vm_compute. reflexivity.
Qed.
Print Assumptions C66_lonely_refuted.

(** A case of C66_value_partial: two baselines in different bins. *)
Example C66_case :
  let vc := Arr3 1 1 2 (fun _ _ b => mkC (Q2Qc (if (b =? 0)%nat then 4 else 3)) 0) in
     let vm := Arr3 1 1 2 (fun _ _ b => mkC (Q2Qc 2) 0) in
     hist_input 1 [3; 8] [0; 0] [1] 0 12 vc vm
     /\ bin_positions 0 12 5 [3; 8] 0 = [0%nat] /\ bin_positions 0 12 5 [3; 8] 1 = [1%nat]
     /\ exists out, vis_baseline_hist ex_qsqrt ex_qabs 1 1 0 12 [3; 8] [0; 0] [1] vc vm = Ok out
          /\ bh_length out = 3%nat /\ at2 (bh_mean out) 0 0 == 1 /\ at2 (bh_mean out) 0 1 == 1 # 2 /\ at2 (bh_mean out) 0 2 == 0.
Proof.
  split; [|split; [|split]].
  - split; [reflexivity|vm_compute; discriminate|cbn; auto|cbn; auto].
  - vm_compute. reflexivity.
  - vm_compute. reflexivity.
  - eexists. split; [vm_compute; reflexivity|]. vm_compute. repeat (split; [reflexivity|]). reflexivity.
Qed.
