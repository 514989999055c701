(** C42: conversion of an image to HEALPix. *)
From Verif Require Import Base HealpixCnv HealpixCnvSpec HealpixCnvProofs.
From Coq Require Import Lqa.
Open Scope nat_scope.

(** Full statement: every HEALPix pixel inside the image gets the bilinear interpolation. What holds: every one that is
    not on a line of the pixel grid. The other pixels may be anywhere. *)
Theorem C42_bilinear_partial : forall dimension elements xv yv image k0,
  length xv = length yv -> Z.of_nat (length image) = (dimension * elements)%Z ->
  k0 < length xv -> inside dimension elements (nth k0 xv 0%Q) (nth k0 yv 0%Q) ->
  exists cnv map, generate dimension elements xv yv = Ok cnv
    /\ healpix_cnv_apply (length xv) image cnv = Ok map /\ length map = length xv
    /\ forall k, k < length xv -> inside dimension elements (nth k xv 0%Q) (nth k yv 0%Q) ->
         ~ is_integer (nth k xv 0%Q) -> ~ is_integer (nth k yv 0%Q) ->
         (nth k map 0 == bilinear dimension image (nth k xv 0) (nth k yv 0))%Q.
Proof.
  intros dim el xv yv image k0 Hl Hi Hk Hin. destruct (cnv_pixels dim el xv yv image k0 Hl Hi Hk Hin) as (cnv & m & E1 & E2 & L & N).
  exists cnv, m. repeat (split; [assumption|]). intros k Hk2 Hin2 Hx Hy. apply N; auto.
Qed.
Print Assumptions C42_bilinear_partial.

(** A pixel on a grid line gets 0, whatever the image. *)
Theorem C42_gridline_refuted : forall dimension elements xv yv image cnv map k,
  length xv = length yv -> Z.of_nat (length image) = (dimension * elements)%Z ->
  generate dimension elements xv yv = Ok cnv -> healpix_cnv_apply (length xv) image cnv = Ok map ->
  k < length xv -> inside dimension elements (nth k xv 0%Q) (nth k yv 0%Q) ->
  is_integer (nth k xv 0%Q) \/ is_integer (nth k yv 0%Q) ->
  (nth k map 0 == 0)%Q.
Proof.
  intros dim el xv yv image cnv m k Hl Hi E1 E2 Hk Hin H. destruct (cnv_pixels dim el xv yv image k Hl Hi Hk Hin) as (cnv' & m' & E1' & E2' & L & N).
  rewrite E1 in E1'. inversion E1'. subst cnv'. rewrite E2 in E2'. inversion E2'. subst m'. apply N; auto.
Qed.
Print Assumptions C42_gridline_refuted.
(** ... so a constant image does not map to the constant. *)
Theorem C42_constant_refuted : exists dimension elements xv yv image cnv map,
  Z.of_nat (length image) = (dimension * elements)%Z /\ (forall p, In p image -> (p == 1)%Q)
  /\ generate dimension elements xv yv = Ok cnv /\ healpix_cnv_apply (length xv) image cnv = Ok map
  /\ inside dimension elements (nth 1 xv 0%Q) (nth 1 yv 0%Q) /\ (nth 0 map 0 == 1)%Q /\ (nth 1 map 0 == 0)%Q.
Proof.
  exists 4%Z, 4%Z, [3 # 2; 1]%Q, [5 # 4; 5 # 4]%Q, (repeat 1%Q 16).
  do 2 eexists. split; [reflexivity|]. split; [intros p Hp; apply repeat_spec in Hp; now rewrite Hp|].
  split; [vm_compute; reflexivity|]. split; [vm_compute; reflexivity|].
  split; [unfold inside; cbn [nth]; repeat split; unfold Qle, Qlt; cbn; lia|]. split; reflexivity.
Qed.
Print Assumptions C42_constant_refuted.

(** Weights between 0 and 1 that add up to 1; a constant image gives the constant, away from the grid lines. *)
Theorem C42_constant_partial : forall dimension elements xv yv image c cnv map k,
  length xv = length yv -> Z.of_nat (length image) = (dimension * elements)%Z -> (forall p, In p image -> (p == c)%Q) ->
  generate dimension elements xv yv = Ok cnv -> healpix_cnv_apply (length xv) image cnv = Ok map ->
  k < length xv -> inside dimension elements (nth k xv 0%Q) (nth k yv 0%Q) ->
  ~ is_integer (nth k xv 0%Q) -> ~ is_integer (nth k yv 0%Q) ->
  (nth k map 0 == c)%Q.
Proof.
  intros dim el xv yv image c cnv m k Hl Hi Hc E1 E2 Hk Hin Hx Hy.
  destruct (cnv_pixels dim el xv yv image k Hl Hi Hk Hin) as (cnv' & m' & E1' & E2' & L & N).
  rewrite E1 in E1'. inversion E1'. subst cnv'. rewrite E2 in E2'. inversion E2'. subst m'.
  rewrite (proj1 (N k Hk Hin) (conj Hx Hy)). now apply (bilinear_constant dim el).
Qed.
Print Assumptions C42_constant_partial.

(** Linear in the image, for every conversion. *)
Theorem C42_linear : forall n_pix f g (a b : Q) cnv mf mg,
  length f = length g -> healpix_cnv_apply n_pix f cnv = Ok mf -> healpix_cnv_apply n_pix g cnv = Ok mg ->
  exists map, healpix_cnv_apply n_pix (List.map (fun p => a * fst p + b * snd p)%Q (combine f g)) cnv = Ok map
    /\ length map = n_pix /\ forall k, k < n_pix -> (nth k map 0 == a * nth k mf 0 + b * nth k mg 0)%Q.
Proof. exact apply_linear. Qed.
Print Assumptions C42_linear.

(** A pixel outside the image gets values of another row. *)
Theorem C42_outside_refuted : exists dimension elements xv yv image cnv map,
  Z.of_nat (length image) = (dimension * elements)%Z
  /\ (inject_Z dimension < nth 0 xv 0)%Q
  /\ generate dimension elements xv yv = Ok cnv /\ healpix_cnv_apply (length xv) image cnv = Ok map
  /\ (nth 0 map 0 == 5)%Q.
Proof.
  exists 3%Z, 3%Z, [7 # 2]%Q, [1 # 2]%Q, [0; 0; 0; 5; 5; 0; 5; 5; 0]%Q.
  do 2 eexists. split; [reflexivity|]. split; [reflexivity|].
  split; [vm_compute; reflexivity|]. split; [vm_compute; reflexivity|]. reflexivity.
Qed.
Print Assumptions C42_outside_refuted.

(** Two pixels in one cell, one elsewhere. *)
Example C42_case : exists cnv map,
  generate 3 3 [1 # 2; 1 # 4; 3 # 2]%Q [1 # 2; 3 # 4; 1 # 2]%Q = Ok cnv
  /\ healpix_cnv_apply 3 [0; 1; 2; 3; 4; 5; 6; 7; 8]%Q cnv = Ok map
  /\ forall k, k < 3 -> (nth k map 0 == nth k [2; 5 # 2; 3] 0)%Q.
Proof.
  do 2 eexists. split; [vm_compute; reflexivity|]. split; [vm_compute; reflexivity|].
  intros [|[|[|k]]] H; reflexivity.
Qed.
