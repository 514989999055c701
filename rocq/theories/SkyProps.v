(** C44, C45, C47. *)
From Coq Require Import String Reals Lra.
From Verif Require Import Base VisWeights Sky.
Import ListNotations.
Open Scope R_scope.

(** ** C45. Directions on the sky as unit vectors; east and north at the phase centre. *)
Definition vec := (R * R * R)%type.
Definition dot (a b : vec) : R := let '(x, y, z) := a in let '(x', y', z') := b in x * x' + y * y' + z * z'.
Definition direction (ra dec : R) : vec := (cos dec * cos ra, cos dec * sin ra, sin dec).
Definition east (ra dec : R) : vec := (- sin ra, cos ra, 0).
Definition north (ra dec : R) : vec := (- (sin dec * cos ra), - (sin dec * sin ra), cos dec).
Definition degrees (x : R) : R := x * (PI / 180).

(** For every pair of positions: l, m and n are the components of the pixel's direction along east, north and the phase
    centre, so they are direction cosines; a NaN pixel gives zeros; every pixel satisfies l^2 + m^2 + n^2 = 1. *)
Theorem C45_direction_cosines : forall obsdec obsra dec_arr ra_arr,
  List.length dec_arr = List.length ra_arr ->
  exists out, l_m_n obsdec obsra dec_arr ra_arr = Ok out
    /\ List.length out = List.length dec_arr
    /\ forall k, (k < List.length dec_arr)%nat ->
         let '(l, m, n_tracked) := nth k out (0, 0, 0) in
         l * l + m * m + (n_tracked + 1) * (n_tracked + 1) = 1
         /\ match nth k dec_arr None, nth k ra_arr None with
            | Some dec, Some ra =>
              let v := direction (degrees ra) (degrees dec) in
              l = dot v (east (degrees obsra) (degrees obsdec))
              /\ m = dot v (north (degrees obsra) (degrees obsdec))
              /\ n_tracked + 1 = dot v (direction (degrees obsra) (degrees obsdec))
            | _, _ => l = 0 /\ m = 0 /\ n_tracked = 0
            end.
Proof.
  intros od oa ds rs E. unfold l_m_n. rewrite (proj2 (Nat.eqb_eq _ _) E). eexists. split; [reflexivity|].
  rewrite map_length, combine_length, <- E, Nat.min_id. split; [reflexivity|]. intros k Hk.
  rewrite (nth_map_lt _ (combine ds rs) k (None, None)) by (rewrite combine_length; lia).
  rewrite combine_nth by auto. cbn [fst snd].
  destruct (nth k ds None) as [d|], (nth k rs None) as [a|]; cbn [lmn_pixel]; try (repeat split; ring).
  replace (radians d) with (degrees d) by (unfold radians, degrees; field).
  replace (radians a) with (degrees a) by (unfold radians, degrees; field).
  replace (radians od) with (degrees od) by (unfold radians, degrees; field).
  replace (radians oa) with (degrees oa) by (unfold radians, degrees; field).
  generalize (degrees d), (degrees a), (degrees od), (degrees oa). clear. intros d a od oa.
  assert (Sd := sin2_cos2 d). assert (Sd0 := sin2_cos2 od). assert (Sa := sin2_cos2 (a - oa)). unfold Rsqr in *.
  set (cdra := cos (a - oa)) in *. set (sdra := sin (a - oa)) in *.
  assert (Ec : cdra = cos a * cos oa + sin a * sin oa) by (unfold cdra; apply cos_minus).
  assert (Es : sdra = sin a * cos oa - cos a * sin oa) by (unfold sdra; apply sin_minus).
  split.
  - replace (_ * _ + _ + _) with
      ((sin d * sin d) * (sin od * sin od + cos od * cos od) + (cos d * cos d) * (sdra * sdra + (sin od * sin od + cos od * cos od) * (cdra * cdra))) by ring.
    rewrite Sd0, !Rmult_1_l, Rmult_1_r, Sa. lra.
  - unfold dot, direction, east, north. rewrite Ec, Es. repeat split; ring.
Qed.
Print Assumptions C45_direction_cosines.

Theorem C45_phase_centre : forall obsdec obsra,
  l_m_n obsdec obsra [Some obsdec] [Some obsra] = Ok [(0, 0, 0)].
Proof.
  intros d a. cbn. replace (radians a - radians a) with 0 by ring. rewrite sin_0, cos_0.
  assert (S := sin2_cos2 (radians d)). unfold Rsqr in S.
  replace (0 * cos (radians d)) with 0 by ring.
  replace (cos (radians d) * sin (radians d) - cos (radians d) * sin (radians d) * 1) with 0 by ring.
  replace (sin (radians d) * sin (radians d) + cos (radians d) * cos (radians d) * 1 - 1) with 0 by lra. reflexivity.
Qed.
Print Assumptions C45_phase_centre.

(** A pixel 90 degrees east on the equator, one at the pole, one off the sky. *)
Example C45_case : l_m_n 0 0 [Some 0; Some 90; None] [Some 90; Some 0; Some 0] = Ok [(1, 0, -1); (0, 1, -1); (0, 0, 0)].
Proof.
  cbn. replace (radians 0) with 0 by (unfold radians; field). replace (radians 90) with (PI / 2) by (unfold radians; field).
  rewrite Rminus_0_r, (Rminus_0_r 0), sin_0, cos_0, sin_PI2, cos_PI2. do 2 f_equal; [|f_equal]; (f_equal; [f_equal|]; ring).
Qed.

(** ** C44. Full statement: each visibility of baseline b and frequency f is multiplied by exp(i d w_b freq_f).
    With visibilities of PyFHD's shape the call fails, except if there are as many baselines as frequencies and one
    polarisation. *)
Theorem C44_shape_refuted : forall n_pol ww freq vis direction,
  (1 <= n_pol)%nat -> (1 <= List.length ww)%nat ->
  d_freq vis = List.length freq -> d_bl vis = List.length ww ->
  ~ (List.length freq = List.length ww /\ n_pol = 1%nat) ->
  simple_deproject_w_term n_pol ww freq vis direction = Err ValueError.
Proof.
  intros np ww freq vis d Hp Hw Ef Eb H. unfold simple_deproject_w_term, axis_ok. rewrite Ef, Eb.
  destruct ((np * List.length ww =? List.length freq)%nat) eqn:E1, ((List.length freq =? List.length ww)%nat) eqn:E2,
    ((np * List.length ww =? 1)%nat) eqn:E3, ((List.length freq =? 1)%nat) eqn:E4; cbn [orb andb]; try reflexivity;
  exfalso; apply H; rewrite ?Nat.eqb_eq, ?Nat.eqb_neq in *; split; nia.
Qed.
Print Assumptions C44_shape_refuted.

(** When it does not fail, frequency and baseline are exchanged: visibility [f, b] gets the phase of baseline f and
    frequency b. *)
Theorem C44_square_partial : forall ww freq vis direction,
  d_freq vis = List.length freq -> d_bl vis = List.length ww -> List.length freq = List.length ww ->
  exists out, simple_deproject_w_term 1 ww freq vis direction = Ok out
    /\ d_pol out = d_pol vis /\ d_freq out = d_freq vis /\ d_bl out = d_bl vis
    /\ forall p f b, (f < d_freq vis)%nat -> (b < d_bl vis)%nat ->
         at3 out p f b = if (p =? 0)%nat
           then cmul (at3 vis p f b) (cos (direction * (nth f ww 0 * nth b freq 0)), sin (direction * (nth f ww 0 * nth b freq 0)))
           else at3 vis p f b.
Proof.
  intros ww freq vis d Ef Eb E. unfold simple_deproject_w_term, axis_ok. rewrite Nat.mul_1_l, Ef, Eb, E, Nat.eqb_refl.
  cbn [orb andb]. eexists. split; [reflexivity|]. cbn [d_pol d_freq d_bl at3]. split; [auto|]. split; [auto|]. split; [auto|].
  intros p f b Hf Hb. replace (p <? 1)%nat with (p =? 0)%nat by (destruct p; reflexivity).
  destruct (p =? 0)%nat; auto. unfold axis_at. unfold phase, cexp_i.
  replace ((if (List.length ww =? 1)%nat then 0%nat else f) mod List.length ww)%nat with f.
  2:{ destruct (Nat.eqb_spec (List.length ww) 1); [rewrite e; cbn; lia|]. symmetry. apply Nat.mod_small. lia. }
  replace (if (List.length ww =? 1)%nat then 0%nat else b) with b by (destruct (Nat.eqb_spec (List.length ww) 1); lia).
  reflexivity.
Qed.
Print Assumptions C44_square_partial.
Theorem C44_square_refuted : exists ww freq vis,
  d_freq vis = List.length freq /\ d_bl vis = List.length ww /\ d_pol vis = 1%nat
  /\ exists out, simple_deproject_w_term 1 ww freq vis 1 = Ok out
       /\ at3 out 0 0 1 <> cmul (at3 vis 0 0 1) (cos (1 * (nth 1 ww 0 * nth 0 freq 0)), sin (1 * (nth 1 ww 0 * nth 0 freq 0))).
Proof.
  exists [0; PI], [1; 1], (Arr3 1 2 2 (fun _ _ _ => (1, 0))). split; [reflexivity|]. split; [reflexivity|]. split; [reflexivity|].
  eexists. split; [reflexivity|]. cbn. unfold phase, cexp_i, cmul. cbn.
  replace (1 * (0 * 1)) with 0 by ring. replace (1 * (PI * 1)) with PI by ring. rewrite cos_0, sin_0, cos_PI, sin_PI.
  intros [= H _]. lra.
Qed.
Print Assumptions C44_square_refuted.

(** Whatever the shapes: if the call returns, the amplitudes are unchanged and the opposite direction undoes it. *)
Definition modulus2 (z : cx) : R := fst z * fst z + snd z * snd z.
Theorem C44_reversible : forall n_pol ww freq vis direction out,
  simple_deproject_w_term n_pol ww freq vis direction = Ok out ->
  (forall p f b, modulus2 (at3 out p f b) = modulus2 (at3 vis p f b))
  /\ exists back, simple_deproject_w_term n_pol ww freq out (- direction) = Ok back
       /\ d_pol back = d_pol vis /\ d_freq back = d_freq vis /\ d_bl back = d_bl vis
       /\ forall p f b, at3 back p f b = at3 vis p f b.
Proof.
  intros np ww freq vis d out. unfold simple_deproject_w_term.
  destruct (axis_ok _ _ && axis_ok _ _) eqn:E; [|discriminate]. intros [= <-]. cbn [d_pol d_freq d_bl at3]. split.
  - intros p f b. destruct (p <? np)%nat; auto. destruct (at3 vis p f b) as [x y]. unfold phase, cexp_i, cmul, modulus2. cbn [fst snd].
    match goal with |- context [cos ?t] => assert (S := sin2_cos2 t); unfold Rsqr in S; set (c := cos t) in *; set (s := sin t) in * end.
    replace (_ + _) with ((x * x + y * y) * (s * s + c * c)) by ring. rewrite S. ring.
  - rewrite E. eexists. split; [reflexivity|]. cbn [d_pol d_freq d_bl at3]. split; [auto|]. split; [auto|]. split; [auto|].
    intros p f b. destruct (p <? np)%nat; auto. destruct (at3 vis p f b) as [x y]. unfold phase, cexp_i, cmul. cbn [fst snd].
    rewrite Ropp_mult_distr_l_reverse, cos_neg, sin_neg.
    match goal with |- context [cos ?t] => assert (S := sin2_cos2 t); unfold Rsqr in S; set (c := cos t) in *; set (s := sin t) in * end.
    f_equal; [replace (_ - _) with (x * (s * s + c * c)) by ring|replace (_ + _) with (y * (s * s + c * c)) by ring]; rewrite S; ring.
Qed.
Print Assumptions C44_reversible.
Example C44_case : exists out, simple_deproject_w_term 1 [0; PI] [1; 1] (Arr3 1 2 2 (fun _ _ _ => (1, 0))) 1 = Ok out /\ at3 out 0 1 0 = (-1, 0).
Proof.
  eexists. split; [reflexivity|]. cbn. unfold phase, cexp_i, cmul. cbn. replace (1 * (PI * 1)) with PI by ring. rewrite cos_PI, sin_PI. f_equal; ring.
Qed.

(** ** C47. Plane 2 becomes the real part, plane 3 should become the imaginary part; the names follow. *)
Theorem C47_real_partial : forall image names,
  (4 <= List.length image)%nat -> (4 <= List.length names)%nat ->
  exists out names', crosspol_split image (Some names) = Ok (out, Some names')
    /\ List.length out = List.length image
    /\ nth 2 out [] = map (fun z => (fst z, 0)) (nth 2 image [])
    /\ (forall k, k <> 2%nat -> k <> 3%nat -> nth k out [] = nth k image [])
    /\ nth 2 names' ""%string = (nth 2 names "" ++ "_real")%string /\ nth 3 names' ""%string = (nth 2 names "" ++ "_imag")%string
    /\ (forall k, k <> 2%nat -> k <> 3%nat -> nth k names' ""%string = nth k names ""%string).
Proof.
  intros image names Hi Hn. unfold crosspol_split, plane, set_plane, set_name.
  rewrite (proj2 (Nat.ltb_lt 2 (List.length image))) by lia. cbn [bind]. rewrite upd_length.
  rewrite (proj2 (Nat.ltb_lt 2 (List.length image))), (proj2 (Nat.ltb_lt 3 (List.length image))) by lia. cbn [bind].
  rewrite (proj2 (Nat.ltb_lt 2 (List.length names))) by lia. cbn [bind]. rewrite upd_length.
  rewrite (proj2 (Nat.ltb_lt 3 (List.length names))) by lia. cbn [bind].
  eexists _, _. split; [reflexivity|]. rewrite !upd_length. split; [reflexivity|].
  split; [rewrite upd_other, upd_same by lia; reflexivity|].
  split; [intros k H2 H3; rewrite !upd_other by auto; reflexivity|].
  split; [rewrite upd_other, upd_same by lia; reflexivity|].
  split; [rewrite upd_same by (rewrite upd_length; lia); reflexivity|].
  intros k H2 H3. rewrite !upd_other by auto. reflexivity.
Qed.
Print Assumptions C47_real_partial.

(** The imaginary part is lost, for every image. *)
Theorem C47_imaginary_refuted : forall image names out names',
  crosspol_split image names = Ok (out, names') ->
  nth 3 out [] = map (fun _ => (0, 0)) (nth 2 image []).
Proof.
  intros image names out names'. unfold crosspol_split, plane, set_plane, set_name.
  destruct (Nat.ltb_spec 2 (List.length image)) as [H2|]; [cbn [bind]|discriminate]. rewrite upd_length.
  rewrite (proj2 (Nat.ltb_lt 2 (List.length image))) by lia. cbn [bind].
  destruct (Nat.ltb_spec 3 (List.length image)) as [H3|]; [cbn [bind]|discriminate].
  intros H.
  assert (E : out = upd (upd image 2 (map (fun z => (fst z, 0)) (nth 2 image []))) 3
     (map (fun z => (snd z, 0)) (nth 2 (upd image 2 (map (fun z => (fst z, 0)) (nth 2 image []))) []))).
  { destruct names as [names|]; [|now inversion H].
    destruct (2 <? List.length names)%nat; [cbn [bind] in H|discriminate]. rewrite upd_length in H.
    destruct (3 <? List.length names)%nat; [cbn [bind] in H|discriminate]. now inversion H. }
  rewrite E, upd_same by (rewrite upd_length; lia). rewrite upd_same by lia. rewrite map_map. reflexivity.
Qed.
Print Assumptions C47_imaginary_refuted.
Example C47_case : exists names',
  crosspol_split [[(5, 0)]; [(6, 0)]; [(1, 2)]; [(1, -2)]] (Some ["XX"; "YY"; "XY"; "YX"]%string)
  = Ok ([[(5, 0)]; [(6, 0)]; [(1, 0)]; [(0, 0)]], Some names') /\ names' = ["XX"; "YY"; "XY_real"; "XY_imag"]%string.
Proof. eexists. split; reflexivity. Qed.
