(** C91, C92: the cross polarisations of the gridded planes. *)
From Verif Require Import Base Cplx NpArr GridLoc GridSpec GridLocProofs CrossPol CrossPolSpec CrossPolProofs.
Open Scope nat_scope.

(** The planes after the second: half the difference of plane 2 and the conjugates of plane 3 at the opposite {u,v}, then
    the conjugates of that plane. All other planes stay as they are. *)
Theorem C91_planes : forall planes p2 p3, nth_error planes 2 = Some p2 -> nth_error planes 3 = Some p3 ->
  rows p3 = rows p2 -> cols p3 = cols p2 ->
  exists out q2 q3, crosspol_reformat planes = Ok out /\ nth_error out 2 = Some q2 /\ nth_error out 3 = Some q3
    /\ length out = length planes
    /\ (forall k, k <> 2 -> k <> 3 -> nth_error out k = nth_error planes k)
    /\ rows q2 = rows p2 /\ cols q2 = cols p2
    /\ (forall i j, i < rows p2 -> j < cols p2 ->
          at2 q2 i j = Cscale (Q2Qc (1 # 2)) (at2 p2 i j - Cconj (at2 p3 (opposite (rows p2) i) (opposite (cols p2) j)))%C)
    /\ conjugates q2 q3 /\ conjugates q3 q2.
Proof.
  intros planes p2 p3 E2 E3 Er Ec. destruct planes as [|p0 [|p1 [|x [|y rest]]]]; try discriminate.
  injection E2 as ->. injection E3 as ->. rewrite reformat_four.
  do 3 eexists. split; [reflexivity|]. split; [reflexivity|]. split; [reflexivity|]. split; [reflexivity|].
  split; [intros [|[|[|[|k]]]] N2 N3; try reflexivity; congruence|].
  split; [reflexivity|]. split; [reflexivity|]. split.
  - intros i j Hi Hj. cbn [crossed at2]. destruct (mirror_conjugates p3) as (_ & _ & M).
    rewrite M, Er, Ec by congruence. reflexivity.
  - split; [apply mirror_conjugates|]. destruct (mirror_conjugates (crossed p2 p3)) as (_ & _ & M).
    split; [reflexivity|]. split; [reflexivity|]. intros i j Hi Hj.
    change (rows (conjugate_mirror (crossed p2 p3))) with (rows (crossed p2 p3)) in *.
    change (cols (conjugate_mirror (crossed p2 p3))) with (cols (crossed p2 p3)) in *.
    rewrite M by (apply opposite_lt; assumption). rewrite !opposite_opposite, Cconj_involutive by assumption. reflexivity.
Qed.
Print Assumptions C91_planes.

(** The sums over the planes (which are the values of the images in their centre) *)
Theorem C91_total : forall planes p2 p3, nth_error planes 2 = Some p2 -> nth_error planes 3 = Some p3 ->
  rows p3 = rows p2 -> cols p3 = cols p2 ->
  exists out q2 q3, crosspol_reformat planes = Ok out /\ nth_error out 2 = Some q2 /\ nth_error out 3 = Some q3
    /\ total q2 = Cscale (Q2Qc (1 # 2)) (total p2 - Cconj (total p3))%C /\ total q3 = Cconj (total q2).
Proof.
  intros planes p2 p3 E2 E3 Er Ec. destruct planes as [|p0 [|p1 [|x [|y rest]]]]; try discriminate.
  injection E2 as ->. injection E3 as ->. rewrite reformat_four.
  do 3 eexists. split; [reflexivity|]. split; [reflexivity|]. split; [reflexivity|].
  split; [apply total_crossed; assumption|]. apply total_conjugates, mirror_conjugates.
Qed.
Print Assumptions C91_total.

(** Arrays with fewer than four planes raise IndexError; in the pipeline only observations of four polarisations are
    treated, and their image, weights and model all are. *)
Theorem C91_pipeline :
  (forall planes, length planes < 4 -> crosspol_reformat planes = Err IndexError)
  /\ (forall n image weights model, n <> 4 -> reformat_all n image weights model = Ok (image, weights, model))
  /\ (forall image weights model i w m, crosspol_reformat image = Ok i -> crosspol_reformat weights = Ok w ->
        crosspol_reformat model = Ok m ->
        reformat_all 4 image weights (Some model) = Ok (i, w, Some m) /\ reformat_all 4 image weights None = Ok (i, w, None)).
Proof.
  split; [|split].
  - intros [|a [|b [|c [|d l]]]] L; cbn [length] in L; try reflexivity. lia.
  - intros n image weights model N. unfold reformat_all. now rewrite (proj2 (Nat.eqb_neq n 4) N).
  - intros image weights model i w m Ei Ew Em. unfold reformat_all. cbn [Nat.eqb]. rewrite Ei, Ew, Em. split; reflexivity.
Qed.
Print Assumptions C91_pipeline.

(** C92: what the two cross polarisations have in common is lost. If plane 3 is the conjugate of plane 2 at the opposite
    {u,v}, as it is for the correlations of real signals (XY at {u,v} and YX at {-u,-v} are conjugates), both planes become
    zero; *)
Theorem C92_consistent_refuted : forall p0 p1 p2 p3, conjugates p2 p3 ->
  exists q2 q3, crosspol_reformat [p0; p1; p2; p3] = Ok [p0; p1; q2; q3] /\ zero_plane q2 /\ zero_plane q3.
Proof.
  intros p0 p1 p2 p3 (Er & Ec & Hc). rewrite reformat_four. do 2 eexists. split; [reflexivity|].
  assert (Z : zero_plane (crossed p2 p3)).
  { intros i j Hi Hj. cbn [crossed at2 rows cols] in *. destruct (mirror_conjugates p3) as (_ & _ & M).
    rewrite M by congruence. rewrite Er, Ec, Hc by (apply opposite_lt; assumption).
    rewrite !opposite_opposite, Cconj_involutive by assumption. apply C_ext; cbn [re im Cscale Csub C0]; ring. }
  split; [exact Z|]. intros i j Hi Hj. destruct (mirror_conjugates (crossed p2 p3)) as (_ & _ & M).
  change (rows (conjugate_mirror (crossed p2 p3))) with (rows (crossed p2 p3)) in *.
  change (cols (conjugate_mirror (crossed p2 p3))) with (cols (crossed p2 p3)) in *.
  rewrite M by assumption. rewrite Z by (apply opposite_lt; assumption). apply C_ext; cbn; ring.
Qed.
Print Assumptions C92_consistent_refuted.

(** so doing it twice leaves nothing; *)
Theorem C92_twice_refuted : forall p0 p1 p2 p3, rows p3 = rows p2 -> cols p3 = cols p2 ->
  exists out q2 q3, crosspol_reformat [p0; p1; p2; p3] = Ok out /\ crosspol_reformat out = Ok [p0; p1; q2; q3]
    /\ zero_plane q2 /\ zero_plane q3.
Proof.
  intros p0 p1 p2 p3 Er Ec. rewrite reformat_four.
  destruct (C92_consistent_refuted p0 p1 (crossed p2 p3) (conjugate_mirror (crossed p2 p3)) (mirror_conjugates _))
    as (q2 & q3 & E & Z). do 3 eexists. split; [reflexivity|]. split; [exact E|exact Z].
Qed.
Print Assumptions C92_twice_refuted.

(** and when XY and YX have been given the same real total weight, the weights of the two new planes sum to zero: there
    is nothing to normalise an image by. *)
Theorem C92_weights_refuted : forall p0 p1 p2 p3, rows p3 = rows p2 -> cols p3 = cols p2 ->
  total p3 = total p2 -> im (total p2) = 0%Qc ->
  exists q2 q3, crosspol_reformat [p0; p1; p2; p3] = Ok [p0; p1; q2; q3] /\ total q2 = C0 /\ total q3 = C0.
Proof.
  intros p0 p1 p2 p3 Er Ec Et Ei. rewrite reformat_four. do 2 eexists. split; [reflexivity|].
  assert (Z : total (crossed p2 p3) = C0).
  { rewrite total_crossed, Et by assumption. apply C_ext; cbn [re im Cscale Csub Cconj C0]; rewrite ?Ei; ring. }
  split; [exact Z|]. rewrite (total_conjugates _ _ (mirror_conjugates _)), Z. apply C_ext; cbn; ring.
Qed.
Print Assumptions C92_weights_refuted.

(** Where only plane 3 has a weight, the new weight is the negative of half of it. *)
Theorem C92_negative_refuted : forall p0 p1 p2 p3 i j, rows p3 = rows p2 -> cols p3 = cols p2 -> i < rows p2 -> j < cols p2 ->
  at2 p2 i j = C0 ->
  let w := at2 p3 (opposite (rows p2) i) (opposite (cols p2) j) in
  im w = 0%Qc -> (0 < re w)%Qc ->
  exists q2 q3, crosspol_reformat [p0; p1; p2; p3] = Ok [p0; p1; q2; q3] /\ (re (at2 q2 i j) < 0)%Qc.
Proof.
  intros p0 p1 p2 p3 i j Er Ec Hi Hj Z w Iw Pw. rewrite reformat_four. do 2 eexists. split; [reflexivity|].
  cbn [crossed at2]. destruct (mirror_conjugates p3) as (_ & _ & M). rewrite M, Z, Er, Ec by congruence. fold w.
  cbn [re Cscale Csub Cconj C0].
  replace (Q2Qc (1 # 2) * (0 - re w))%Qc with (- (Q2Qc (1 # 2) * re w))%Qc by ring.
  assert (P : (0 < Q2Qc (1 # 2) * re w)%Qc).
  { rewrite <- (Qcmult_0_l (re w)). apply Qcmult_lt_compat_r; [exact Pw|reflexivity]. }
  apply Qclt_minus_iff. rewrite Qcplus_0_l, Qcopp_involutive. exact P.
Qed.
Print Assumptions C92_negative_refuted.

(** A case: 3 by 2 planes. *)
Definition demo_plane (k : Z) : arr2 C :=
  Arr2 3 2 (fun i j => mkC (Q2Qc (inject_Z (k + Z.of_nat (2 * i + j)))) (Q2Qc (inject_Z (Z.of_nat i - Z.of_nat j)))).
Example C91_demo : exists out q2 q3,
  crosspol_reformat [demo_plane 0; demo_plane 1; demo_plane 2; demo_plane 10] = Ok out
  /\ nth_error out 2 = Some q2 /\ nth_error out 3 = Some q3
  /\ at2 q2 1 0 = mkC (Q2Qc (-5)) (Q2Qc (3 # 2)) /\ at2 q3 2 0 = mkC (Q2Qc (-5)) (Q2Qc (-3 # 2))
  /\ conjugates (demo_plane 2) (conjugate_mirror (demo_plane 2))
  /\ total (amap (fun z => mkC (re z) 0%Qc) (demo_plane 2)) = mkC (Q2Qc 27) 0%Qc.
Proof.
  do 3 eexists. split; [reflexivity|]. split; [reflexivity|]. split; [reflexivity|].
  split; [apply C_ext; apply Qc_is_canon; reflexivity|]. split; [apply C_ext; apply Qc_is_canon; reflexivity|].
  split; [apply mirror_conjugates|]. apply C_ext; apply Qc_is_canon; reflexivity.
Qed.
