(** C50: frequency averaging; C63: the files of the HEALPix export. *)
From Coq Require Import String Lqa.
From Verif Require Import Base VisWeights HealpixExport HealpixExportSpec HealpixExportProofs.
Import ListNotations.
Open Scope nat_scope.
Ltac Zify.zify_post_hook ::= idtac.

(** ** C50 *)
(** The blocks partition the used channels: each used channel is in exactly one of the nf output frequencies. *)
Theorem C50_blocks_partition : forall n_freq n_avg freq_use c,
  n_avg <> 0 -> c < n_freq -> (0 < nth c freq_use 0)%Z ->
  let nf := (n_freq - 1) / n_avg + 1 in
  exists i, i < nf /\ In c (block n_freq n_avg freq_use i)
    /\ forall j, In c (block n_freq n_avg freq_use j) -> j = i.
Proof.
  intros n_freq n_avg freq_use c Hn Hc Hu nf. exists (c / n_avg).
  pose proof (Nat.div_mod c n_avg Hn). pose proof (Nat.mod_upper_bound c n_avg Hn).
  destruct (nf_bounds n_freq n_avg ltac:(lia) Hn) as [_ B]. fold nf in B. repeat split.
  - nia.
  - apply In_block. repeat split; try assumption; nia.
  - intros j Hj%In_block. destruct Hj as (_ & ? & _). nia.
Qed.
Print Assumptions C50_blocks_partition.

(** Whatever the gridder does: there are ceil(n_freq / n_avg) output frequencies; output frequency i is the gridding of
    the used channels i*n_avg .. (i+1)*n_avg-1, times its number of visibilities; obs["n_vis"] is the total; and
    obs["nf_vis"] holds the gridder's count for each channel that was gridded and is unchanged elsewhere. *)
Theorem C50_split : forall (P : Type) (o : ops P) fft model n_freq n_avg freq_use bi nf_vis st,
  n_avg <> 0 -> n_freq <= length nf_vis ->
  vis_model_freq_split o fft model n_freq n_avg freq_use bi nf_vis = Ok st ->
  let nf := length (ss_cubes st) in let B := block n_freq n_avg freq_use in
  (nf - 1) * n_avg < n_freq <= nf * n_avg
  /\ (forall i c, i < nf -> nth_error (ss_cubes st) i = Some c -> is_cube o fft bi (B i) c)
  /\ (forall i c, i < nf -> nth_error (ss_uv st) i = Some c -> is_cube o false bi (B i) c)
  /\ ss_n_vis st = sum_nat (map (fun i => count_of o bi (B i)) (seq 0 nf))
  /\ (forall c i g, In c (B i) -> gridding o bi (B i) = Some g -> nth c (ss_nf st) 0 = g_nf g c)
  /\ (forall c, (forall i, In c (B i) -> gridding o bi (B i) = None) -> nth c (ss_nf st) 0 = nth c nf_vis 0).
Proof.
  intros P o fft model n_freq n_avg freq_use bi nf_vis st Hn HV E nf B.
  destruct (split_spec o fft model n_freq n_avg freq_use bi nf_vis st Hn HV E) as (H0 & HL & L1 & L2 & L3 & HC & HN & HF).
  fold B in HC, HN, HF. unfold nf. rewrite L1. destruct (nf_bounds n_freq n_avg H0 Hn) as [b1 b2].
  split; [auto|]. split; [|split; [|split; [auto|split]]].
  - intros i c Hi Ec. apply (nth_error_nth _ _ (zero4 o)) in Ec. subst c. now apply HC.
  - intros i c Hi Ec. apply (nth_error_nth _ _ (zero4 o)) in Ec. subst c. now apply HC.
  - intros c i g Hc Hg. apply (proj1 (HF c) i); auto. apply In_block in Hc. nia.
  - intros c H. apply (proj2 (HF c)). intros i Hi [Hc Hg]. apply Hg. now apply H.
Qed.
Print Assumptions C50_split.

(** It returns whenever the gridder and the imager do. *)
Theorem C50_returns : forall (P : Type) (o : ops P) fft n_freq n_avg freq_use bi nf_vis,
  n_freq <> 0 -> length freq_use = n_freq ->
  (forall ch, ch <> [] -> exists r, op_grid o ch bi = Ok r) -> (forall p, exists y, op_image o p = Ok y) ->
  exists st, vis_model_freq_split o fft true n_freq n_avg freq_use bi nf_vis = Ok st.
Proof. intros. now apply split_ok. Qed.
Print Assumptions C50_returns.

(** The export keeps the first floor(n_freq / n_avg) output frequencies of each cube. Partial: with n_avg not dividing
    n_freq the last channels are in no exported map, see the next theorem. *)
Theorem C50_export_partial : forall (P M : Type) (x : export_in P M) bi out,
  x_n_freq x <= length (x_nf_vis x) -> x_split_ps x = true -> x_split x = Ok bi -> snapshot x = Ok out ->
  forall iter pol, iter < 2 -> pol < x_n_pol x ->
  exists b name f, nth_error bi iter = Some b /\ nth_error out (iter * x_n_pol x + pol) = Some (name, f)
    /\ file_holds x b pol (x_n_freq x / x_n_avg x) f.
Proof.
  intros P M x bi out HV Hs Hb E iter pol Hi Hp. destruct (snapshot_spec x bi out HV Hs Hb E) as [_ H].
  destruct (H iter pol Hi Hp) as (b & p & f & A & _ & C & D). eauto 8.
Qed.
Print Assumptions C50_export_partial.

(** Used channels beyond the last multiple of n_avg are in none of the exported frequencies, in every file. *)
Theorem C50_export_refuted : forall (P M : Type) (x : export_in P M) bi out c,
  x_n_freq x <= length (x_nf_vis x) -> x_split_ps x = true -> x_split x = Ok bi -> snapshot x = Ok out ->
  x_n_freq x / x_n_avg x * x_n_avg x <= c < x_n_freq x -> (0 < nth c (x_freq_use x) 0)%Z ->
  forall k name f, nth_error out k = Some (name, f) ->
  exists i, In c (block (x_n_freq x) (x_n_avg x) (x_freq_use x) i)
    /\ (forall j, j <> i -> ~ In c (block (x_n_freq x) (x_n_avg x) (x_freq_use x) j))
    /\ nth_error (f_weights f) i = None /\ nth_error (f_model f) i = None /\ nth_error (f_variance f) i = None.
Proof.
  intros P M x bi out c HV Hs Hb E Hc Hu k name f Hk.
  assert (Hn : x_n_avg x <> 0) by (intros H; unfold snapshot in E; rewrite H in E; discriminate).
  destruct (snapshot_spec x bi out HV Hs Hb E) as [L H].
  assert (Hk2 : k < length out) by (apply nth_error_Some; congruence). rewrite L in Hk2.
  assert (F : exists b pol, file_holds x b pol (x_n_freq x / x_n_avg x) f).
  { destruct (Nat.lt_ge_cases k (x_n_pol x)) as [Hlt|Hge].
    - destruct (H 0 k ltac:(lia) Hlt) as (b & p & f' & _ & _ & A & B). cbn [Nat.mul plus] in A. rewrite Hk in A. inversion A. subst. eauto.
    - destruct (H 1 (k - x_n_pol x) ltac:(lia) ltac:(lia)) as (b & p & f' & _ & _ & A & B).
      replace (1 * x_n_pol x + (k - x_n_pol x)) with k in A by lia. rewrite Hk in A. inversion A. subst. eauto. }
  destruct F as (b & pol & L1 & L2 & L3 & L4 & _).
  destruct (C50_blocks_partition (x_n_freq x) (x_n_avg x) (x_freq_use x) c Hn ltac:(lia) Hu) as (i & _ & Hi & Hj).
  exists i. split; [auto|]. split; [intros j Hji Hcj; apply Hji; auto|].
  assert (x_n_freq x / x_n_avg x <= i) by (apply In_block in Hi; nia).
  repeat split; apply nth_error_None; lia.
Qed.
Print Assumptions C50_export_refuted.

(** What the default choice of baselines holds: the numbers of the channels in which some baseline has a positive weight. *)
Lemma Qsum_positive (f : nat -> Q) l : (forall b, In b l -> 0 <= f b)%Q -> (0 < Qsum (map f l) <-> exists b, In b l /\ 0 < f b)%Q.
Proof.
  induction l as [|a l IH]; intros H; [split; [intros K; discriminate K|intros (b & [] & _)]|].
  assert (N : (0 <= Qsum (map f l))%Q).
  { clear IH. assert (K : forall b, In b l -> (0 <= f b)%Q) by (intros; apply H; now right). clear H. induction l as [|c l IH]; [discriminate|].
    cbn [map Qsum fold_right]. assert (0 <= f c)%Q by (apply K; now left). assert (0 <= Qsum (map f l))%Q by (apply IH; intros; apply K; now right).
    unfold Qsum in *. lra. }
  assert (A : (0 <= f a)%Q) by (apply H; now left). change (Qsum (map f (a :: l))) with (f a + Qsum (map f l))%Q. split.
  - intros K. destruct (Qlt_le_dec 0 (f a)) as [L|L]; [exists a; split; [now left|exact L]|].
    destruct (proj1 (IH (fun b B => H b (or_intror B)))) as (b & B & P); [lra|]. exists b. split; [now right|exact P].
  - intros (b & [->|B] & P); [lra|]. assert (0 < Qsum (map f l))%Q by (apply IH; [intros; apply H; now right|eauto]). lra.
Qed.
Theorem C50_default_baselines : forall w n_pol f, In f (default_bi w n_pol) <->
  f < d_freq w /\ exists b pol, b < d_bl w /\ (pol = 0 \/ pol = 1 /\ 1 < n_pol) /\ (0 < at3 w pol f b)%Q.
Proof.
  intros w n_pol f. unfold default_bi. rewrite filter_In, in_seq, negb_true_iff.
  set (h := fun b => let p := Qmax0 (at3 w 0 f b) in if 1 <? n_pol then (if Qle_bool p (at3 w 1 f b) then at3 w 1 f b else p) else p).
  change (map (fun b => _) (seq 0 (d_bl w))) with (map h (seq 0 (d_bl w))).
  assert (M : forall q, (0 <= Qmax0 q)%Q /\ (0 < Qmax0 q <-> 0 < q)%Q).
  { intros q. unfold Qmax0. destruct (Qle_bool 0 q) eqn:E; [apply Qle_bool_iff in E; split; [exact E|reflexivity]|].
    split; [discriminate|]. split; [discriminate|]. intros K. assert (Qle_bool 0 q = true) by (apply Qle_bool_iff; lra). congruence. }
  assert (H : forall b, (0 <= h b)%Q /\ ((0 < h b)%Q <-> exists pol, (pol = 0 \/ pol = 1 /\ 1 < n_pol) /\ (0 < at3 w pol f b)%Q)).
  { intros b. destruct (M (at3 w 0 f b)) as [M1 M2]. unfold h. destruct (Nat.ltb_spec 1 n_pol).
    - cbn zeta. destruct (Qle_bool _ _) eqn:E.
      + apply Qle_bool_iff in E. split; [lra|]. split; [intros K; exists 1; split; [right; split; [reflexivity|assumption]|exact K]|].
        intros (pol & [->|[-> _]] & K); [apply M2 in K; lra|exact K].
      + assert (L : ~ (Qmax0 (at3 w 0 f b) <= at3 w 1 f b)%Q) by (intros K; apply Qle_bool_iff in K; congruence).
        split; [exact M1|]. rewrite M2. split; [intros K; exists 0; auto|]. intros (pol & [->|[-> _]] & K); [exact K|].
        apply M2. lra.
    - split; [exact M1|]. rewrite M2. split; [intros K; exists 0; auto|]. intros (pol & [->|[-> L]] & K); [exact K|lia]. }
  assert (S : Qle_bool (Qsum (map h (seq 0 (d_bl w)))) 0 = false <-> (0 < Qsum (map h (seq 0 (d_bl w))))%Q).
  { split; intros K.
    - apply Qnot_le_lt. intros L. apply Qle_bool_iff in L. congruence.
    - destruct (Qle_bool _ 0) eqn:E; auto. apply Qle_bool_iff in E. lra. }
  rewrite S, Qsum_positive by (intros; apply H). split; intros (L & b & B).
  - destruct B as [B P]. apply in_seq in B. apply H in P as (pol & P1 & P2). split; [lia|]. exists b, pol. repeat split; auto. lia.
  - destruct B as (pol & B & P1 & P2). split; [lia|]. exists b. split; [apply in_seq; lia|]. apply H. eauto.
Qed.
Print Assumptions C50_default_baselines.

(** The default choice of baselines picks channel numbers instead: here the only baseline with weight is baseline 2, and
    it is left out. *)
Theorem C50_default_baselines_refuted : exists w : arr3 Q,
  (forall f b, f < d_freq w -> b < d_bl w -> (at3 w 0 f b == if b =? 2 then 1 else 0)%Q)
  /\ d_bl w = 3 /\ default_bi w 1 = [0; 1].
Proof.
  exists (Arr3 1 2 3 (fun _ _ b => if b =? 2 then 1%Q else 0%Q)). split; [|split; reflexivity].
  intros f b _ _. reflexivity.
Qed.
Print Assumptions C50_default_baselines_refuted.

(** A gridder that returns the channels it was given: planes are lists of channels. *)
Definition echo : ops (list nat) := {|
  op_grid ch bi := Ok (if existsb (Nat.eqb 3) ch then None
                       else Some {| g_image := ch; g_weights := bi; g_variance := ch; g_model := ch; g_n_vis := length ch; g_nf := fun c => 10 + c |});
  op_image p := Ok p; op_rephase p := p; op_scale n p := n :: p; op_zero := [] |}.
Example C50_case : exists st,
  vis_model_freq_split echo true true 5 2 [1; 0; 1; 1; 1]%Z [7; 8] [0; 0; 0; 0; 0] = Ok st
  /\ map pl_dirty (ss_cubes st) = [[1; 0]; []; [1; 4]] /\ ss_n_vis st = 2 /\ ss_nf st = [10; 0; 0; 0; 14].
Proof. eexists. split; [reflexivity|]. repeat split. Qed.

(** ** C63. Full statement: for both settings of split_ps_export the export completes when its parts do, and writes one
    file per cube and polarisation, named after them. Proved for the even/odd split. *)
Theorem C63_files_partial : forall (P M : Type) (x : export_in P M) bi out,
  x_n_freq x <= length (x_nf_vis x) -> x_split_ps x = true -> x_split x = Ok bi -> snapshot x = Ok out ->
  length out = 2 * x_n_pol x
  /\ forall iter pol, iter < 2 -> pol < x_n_pol x -> exists p f, nth_error (x_pol_names x) pol = Some p
     /\ nth_error out (iter * x_n_pol x + pol)
        = Some ((x_obs_id x ++ "_" ++ (if (iter =? 0)%nat then "hpx_even" else "hpx_odd") ++ "_" ++ p ++ ".h5")%string, f).
Proof.
  intros P M x bi out HV Hs Hb E. destruct (snapshot_spec x bi out HV Hs Hb E) as [L H]. split; [auto|].
  intros iter pol Hi Hp. destruct (H iter pol Hi Hp) as (b & p & f & _ & A & B & _). exists p, f. split; [auto|].
  unfold cube_name in B. now destruct (iter =? 0).
Qed.
Print Assumptions C63_files_partial.

Theorem C63_returns_partial : forall (P M : Type) (x : export_in P M) even odd,
  x_n_freq x <> 0 -> x_n_avg x <> 0 -> length (x_freq_use x) = x_n_freq x -> x_n_freq x <= length (x_nf_vis x) ->
  x_n_pol x <= length (x_pol_names x) -> x_has_model x = true ->
  x_split_ps x = true -> x_split x = Ok [even; odd] -> x_noise x true = Ok tt ->
  (forall pol ch bi, ch <> [] -> exists r, op_grid (x_ops x pol) ch bi = Ok r) ->
  (forall pol p, exists y, op_image (x_ops x pol) p = Ok y) -> (forall pol i, exists b, x_beam x pol i = Ok b) ->
  (forall p, exists m, x_cnv x p = Ok m) ->
  exists out, snapshot x = Ok out.
Proof. intros. eapply snapshot_ok; eauto. Qed.
Print Assumptions C63_returns_partial.

(** Without split_ps_export the export never completes. *)
Theorem C63_no_split_refuted : forall (P M : Type) (x : export_in P M),
  x_split_ps x = false -> x_n_avg x <> 0 -> 0 < x_n_pol x -> x_noise x false = Ok tt -> snapshot x = Err UnboundLocal.
Proof.
  intros P M x Hs Hn Hp HN. unfold snapshot. apply Nat.eqb_neq in Hn. rewrite Hn, Hs, HN. cbn [bind].
  destruct (Nat.eqb_spec (x_n_pol x) 0); [lia|reflexivity].
Qed.
Print Assumptions C63_no_split_refuted.

Definition small_export (split : bool) : export_in (list nat) (list nat) := {|
  x_ops := fun _ => echo; x_beam := fun pol i => Ok [pol; i]; x_cnv := fun p => Ok p; x_scale := fun n p => n :: p;
  x_split := Ok [[0]; [1]]; x_noise := fun _ => Ok tt; x_n_freq := 5; x_n_avg := 2; x_n_pol := 2; x_freq_use := [1; 1; 1; 0; 1]%Z;
  x_nf_vis := [0; 0; 0; 0; 0]; x_pol_names := ["XX"%string; "YY"%string]; x_obs_id := "1"%string; x_residual := false;
  x_has_model := true; x_split_ps := split |}.
Example C63_case : exists out, snapshot (small_export true) = Ok out
  /\ map fst out = ["1_hpx_even_XX.h5"; "1_hpx_even_YY.h5"; "1_hpx_odd_XX.h5"; "1_hpx_odd_YY.h5"]%string
  /\ map (fun f => f_weights (snd f)) out = [[[2; 0]; [1; 0]]; [[2; 0]; [1; 0]]; [[2; 1]; [1; 1]]; [[2; 1]; [1; 1]]]
  /\ map (fun f => f_beam (snd f)) out = [[[21; 0; 0]; [12; 0; 1]]; [[21; 1; 0]; [12; 1; 1]]; [[21; 0; 0]; [12; 0; 1]]; [[21; 1; 0]; [12; 1; 1]]].
Proof. eexists. split; [vm_compute; reflexivity|]. split; [reflexivity|]. split; reflexivity. Qed.
