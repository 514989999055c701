(** C43: region_grow. *)
From Verif Require Import Base RegionGrow RegionGrowSpec RegionGrowProofs.
From Coq Require Import Lqa.
Open Scope nat_scope.
Ltac Zify.zify_post_hook ::= idtac.

(** Full statement: the pixels returned are exactly the interior pixels connected, through pixels within the thresholds,
    to one of the seeds; None if there are none. What holds: that, for the seeds that are not on the border of the image
    ([label] is any function meeting scipy.ndimage.label's contract). Each pixel is listed once. *)
Theorem C43_region_partial : forall label rows cols image roi low high lo hi,
  (forall mask, length mask = rows * cols -> labels_components rows cols mask (label rows cols mask)) ->
  0 < rows -> 0 < cols -> length image = rows * cols ->
  roi <> [] -> (forall s, In s roi -> s < length image) ->
  low_is image roi low lo -> high_is image roi high hi ->
  exists res after, region_grow label rows cols image roi low high = Ok (res, after)
    /\ match res with
       | Some pixels => pixels <> [] /\ NoDup pixels
           /\ forall p, In p pixels <->
                p < length image /\ interior rows cols p
                /\ exists s, In s roi /\ interior rows cols s /\ connected cols (within_thresholds image lo hi) s p
       | None => forall p, ~ (p < length image /\ interior rows cols p
                /\ exists s, In s roi /\ interior rows cols s /\ connected cols (within_thresholds image lo hi) s p)
       end.
Proof.
  intros label rows cols image roi low high lo hi HL Hr Hc Hlen Hne Hroi Hlo Hhi.
  destruct (region_grow_spec label rows cols image roi low high lo hi HL Hr Hc Hlen Hne Hroi Hlo Hhi) as (res & E & H).
  exists res, (map Some (fill_nan image)). split; auto.
Qed.
Print Assumptions C43_region_partial.

(** The contract asked of the labelling can be met. *)
Theorem C43_labelling_exists : exists label, forall rows cols mask, labels_components rows cols mask (label rows cols mask).
Proof. exists label_ref. exact label_ref_ok. Qed.
Print Assumptions C43_labelling_exists.

(** A seed on the border does not grow, even if interior pixels are connected to it: for every labelling. *)
Theorem C43_border_seed_refuted : exists rows cols image s p,
  length image = rows * cols /\ s < length image /\ p < length image /\ interior rows cols p
  /\ connected cols (within_thresholds image 1 2) s p
  /\ forall label, (forall mask, length mask = rows * cols -> labels_components rows cols mask (label rows cols mask)) ->
       exists after, region_grow label rows cols image [s] (Some 1%Q) (Some 2%Q) = Ok (None, after).
Proof.
  set (image := [Some 0; Some 1; Some 0;  Some 0; Some 1; Some 0;  Some 0; Some 0; Some 0]%Q).
  exists 3, 3, image, 1, 4. split; [reflexivity|]. split; [cbn; lia|]. split; [cbn; lia|].
  split; [cbv; lia|]. split.
  - apply conn_step with 1; [apply conn_here| |].
    + exists 1%Q. cbn. repeat split; try lia; lra.
    + right. split; [reflexivity|right; reflexivity].
    + exists 1%Q. cbn. repeat split; try lia; lra.
  - intros label HL.
    destruct (C43_region_partial label 3 3 image [1] (Some 1%Q) (Some 2%Q) 1%Q 2%Q HL ltac:(lia) ltac:(lia) eq_refl
      ltac:(discriminate)) as (res & after & E & H); [intros s [<-|[]]; cbn; lia|reflexivity|reflexivity|].
    exists after. rewrite E. destruct res as [l|]; [|reflexivity]. exfalso.
    destruct H as (Hne & _ & H). destruct l as [|p l]; [congruence|].
    destruct (proj1 (H p) (or_introl eq_refl)) as (_ & _ & s & [<-|[]] & Hi & _). cbv in Hi. lia.
Qed.
Print Assumptions C43_border_seed_refuted.

(** A seed that is NaN, with a threshold to be derived from the seeds: nothing grows. *)
Theorem C43_nan_seed : forall label rows cols image roi low high s,
  (forall mask, length mask = rows * cols -> labels_components rows cols mask (label rows cols mask)) ->
  0 < rows -> 0 < cols -> length image = rows * cols ->
  (forall s, In s roi -> s < length image) -> In s roi -> nth s image None = None ->
  low = None \/ high = None ->
  exists after, region_grow label rows cols image roi low high = Ok (None, after).
Proof. exact nan_seed. Qed.
Print Assumptions C43_nan_seed.

(** A 4x4 image with NaN: the seed's region, without the border, reached around the NaN and through the border. *)
Example C43_case :
  let image := [Some 0; Some 5; Some 5; Some 5;
                Some 0; Some 5; None;   Some 5;
                Some 0; Some 0; Some 5; Some 5;
                Some 0; Some 0; Some 0; Some 0]%Q in
  exists after, region_grow label_ref 4 4 image [5; 15] (Some 4%Q) (Some 6%Q) = Ok (Some [5; 10], after).
Proof. eexists. vm_compute. reflexivity. Qed.

(** C62. region_grow does not change the image it is given: no, NaNs become 0; it does not if there are none. *)
Theorem C62_unchanged_partial : forall label rows cols image roi low high res after,
  (forall p, p < length image -> nth p image None <> None) ->
  region_grow label rows cols image roi low high = Ok (res, after) -> after = image.
Proof. exact unchanged_no_nan. Qed.
Print Assumptions C62_unchanged_partial.
Theorem C62_unchanged_refuted : forall label rows cols image roi low high res after p,
  p < length image -> nth p image None = None ->
  region_grow label rows cols image roi low high = Ok (res, after) -> nth p after None = Some 0%Q.
Proof. exact changed_nan. Qed.
Print Assumptions C62_unchanged_refuted.
Example C62_case : exists res,
  region_grow label_ref 3 3 (None :: repeat (Some 1%Q) 8) [4] (Some 1%Q) (Some 1%Q) = Ok (res, Some 0%Q :: repeat (Some 1%Q) 8).
Proof. eexists. vm_compute. reflexivity. Qed.
