(** C98, C99, C100: which HEALPix pixels are exported. *)
From Coq Require Import String Reals Lra.
From Verif Require Import Base PyIndex ModelReadProofs HealpixCnv HealpixCnvSpec HealpixCnvProofs ExportSize ExportSizeProofs Reflect HealpixSel HealpixSelSpec HealpixSelProofs.
Import ListNotations.
Open Scope nat_scope.
Open Scope R_scope.

(** ** C98: the list of pixels *)
Theorem C98_field_and_band : forall {site} (L : lib site) load c o mask radius nside cnv o' c',
  c_restrict c = true -> c_inds c = None ->
  healpix_cnv_generate L load c o mask radius nside = Ok (cnv, o', c') ->
  exists f b, c_inds c' = Some (Template (list_file f b))
    /\ near (direction (o_ra o) (o_dec o)) f
    /\ (forall b', Rabs (band_MHz b - o_freq_center o / 1000000) <= Rabs (band_MHz b' - o_freq_center o / 1000000))
    /\ exists file, load (Template (list_file f b)) = Ok file
         /\ exists l, (file = Plain l \/ exists n, file = Dict n (Some l)) /\ incl (v_inds cnv) l.
Proof.
  intros site L load c o mask radius nside cnv o' c' R N E. unfold healpix_cnv_generate in E. rewrite R, N in E.
  destruct (Rle_dec (-90) (o_dec o)) as [D1|D1].
  2: { rewrite choose_err in E by lra. discriminate. }
  destruct (Rle_dec (o_dec o) 90) as [D2|D2].
  2: { rewrite choose_err in E by lra. discriminate. }
  destruct (choose_spec (o_ra o) (o_dec o) (o_freq_center o) (conj D1 D2)) as (t & f & b & CH & NM & NR & FB).
  rewrite CH in E. cbn [bind] in E. rewrite NM in E. exists f, b.
  destruct (load (Template (list_file f b))) as [file|] eqn:LD; [|discriminate]. cbn [bind] in E.
  destruct (unpack file nside) as [[ns l]|] eqn:U; [|discriminate]. cbn [bind] in E.
  destruct (default_nside ns (o_cdelt o)) as [n|]; [|discriminate]. cbn [bind] in E.
  destruct (place L n (Some l) o radius) as [p|] eqn:P; [|discriminate]. cbn [bind] in E.
  destruct (l_site L (o_instrument o)) as [s|]; [|discriminate]. cbn [bind] in E.
  destruct (cut L s o p) as [[inds xy]|] eqn:CU; [|discriminate]. cbn [bind] in E.
  destruct (generate _ _ _ _) as [en|]; [|discriminate]. cbn [bind] in E.
  destruct (HealpixCnv.healpix_cnv_apply _ _ _) as [tst|]; [|discriminate]. cbn [bind] in E.
  injection E as <- <- <-. cbn [c_inds v_inds]. split; [reflexivity|]. split; [exact NR|]. split; [exact FB|].
  exists file. split; [reflexivity|]. exists l. split.
  - destruct file as [l'|[n'|] [l'|]]; cbn [unpack] in U; try discriminate; injection U as _ <-; eauto.
  - cbn [place] in P. destruct (map_res _ l) as [cs|] eqn:M; [|discriminate]. cbn [bind] in P. injection P as <-.
    unfold cut in CU. destruct (_ =? 1)%nat; [discriminate|]. destruct (_ =? 0)%nat; injection CU as <- <-; [apply incl_refl|].
    intros x X. unfold take in X. apply in_map_iff in X as (i & <- & I).
    apply (In_where _ _ 0%Q) in I as [I _]. rewrite map_length, (map_res_length _ _ _ M) in I. now apply nth_In.
Qed.
Print Assumptions C98_field_and_band.

(** More than a degree nearer to one of the fields, and not halfway between the bands (166.5 MHz): one list. *)
Theorem C98_unique : forall {site} (L : lib site) load c o mask radius nside cnv o' c' f g,
  c_restrict c = true -> c_inds c = None ->
  healpix_cnv_generate L load c o mask radius nside = Ok (cnv, o', c') ->
  f <> g -> apart (direction (o_ra o) (o_dec o)) (centre f) + 1 < apart (direction (o_ra o) (o_dec o)) (centre g) ->
  (166500000 < o_freq_center o -> c_inds c' = Some (Template (list_file f High)))
  /\ (o_freq_center o < 166500000 -> c_inds c' = Some (Template (list_file f Low))).
Proof.
  intros site L load c o mask radius nside cnv o' c' f g R N E NE NR.
  destruct (C98_field_and_band L load c o mask radius nside cnv o' c' R N E) as (f' & b & -> & NR' & FB & _).
  assert (f' = f) as ->. { specialize (NR' f). destruct f', f, g; try reflexivity; try congruence; lra. }
  pose proof (FB High) as H1. pose proof (FB Low) as H2. unfold band_MHz in *.
  split; intros G; destruct b; try reflexivity; exfalso; unfold Rabs in *;
    repeat (destruct (Rcase_abs _)); lra.
Qed.
Print Assumptions C98_unique.

(** The choice stays in the configuration: later calls use the same list, and a file that was named is always used. *)
Theorem C98_named : forall {site} (L : lib site) load load' c o mask radius nside p,
  c_restrict c = true -> c_inds c = Some p -> load' p = load p ->
  healpix_cnv_generate L load c o mask radius nside = healpix_cnv_generate L load' c o mask radius nside
  /\ forall cnv o' c', healpix_cnv_generate L load c o mask radius nside = Ok (cnv, o', c') -> c' = c.
Proof.
  intros site L load load' c o mask radius nside p R N E. unfold healpix_cnv_generate. rewrite R, N. cbn [bind]. rewrite E. split; [reflexivity|].
  intros cnv o' c' H. destruct (load p) as [file|]; [|discriminate]. cbn [bind] in H.
  destruct (unpack file nside) as [[ns l]|]; [|discriminate]. cbn [bind] in H.
  destruct (default_nside ns (o_cdelt o)) as [n|]; [|discriminate]. cbn [bind] in H.
  destruct (place L n (Some l) o radius) as [q|]; [|discriminate]. cbn [bind] in H.
  destruct (l_site L (o_instrument o)) as [s|]; [|discriminate]. cbn [bind] in H.
  destruct (cut L s o q) as [[inds xy]|]; [|discriminate]. cbn [bind] in H.
  destruct (generate _ _ _ _) as [en|]; [|discriminate]. cbn [bind] in H.
  destruct (HealpixCnv.healpix_cnv_apply _ _ _) as [tst|]; [|discriminate]. cbn [bind] in H.
  injection H as _ _ <-. destruct c as [r i]. cbn [c_restrict c_inds] in *. now subst.
Qed.
Print Assumptions C98_named.

(** ** C99: the pixels of the list that are above the horizon *)
Theorem C99_visible : forall {site} (L : lib site) load c o mask radius nside p f n0 l n s pos k0,
  c_restrict c = true -> c_inds c = Some p -> load p = Ok f ->
  ((f = Plain l \/ f = Dict None (Some l)) /\ n0 = nside \/ exists n1, f = Dict (Some n1) (Some l) /\ n0 = Some n1) ->
  n0 = Some n ->
  (2 <= List.length l)%nat -> (forall q, In q l -> l_lonlat L (int_R n) q = Ok (pos q)) -> l_site L (o_instrument o) = Ok s ->
  let visible := filter (fun q => above (l_alt L s (o_jd0 o) (pos q))) l in
  let at_ k := l_xy L (pos (nth k visible 0%Z)) in
  let within_image k := inside (o_dim o) (o_el o) (fst (at_ k)) (snd (at_ k)) in
  (k0 < List.length visible)%nat -> within_image k0 -> Z.of_nat (List.length mask) = (o_dim o * o_el o)%Z ->
  exists cnv o', healpix_cnv_generate L load c o mask radius nside = Ok (cnv, o', c)
    /\ v_inds cnv = visible /\ v_nside cnv = n
    /\ o' = set_healpix o (o_healpix o')
    /\ h_nside (o_healpix o') = n /\ h_ind_list (o_healpix o') = None /\ h_n_pix (o_healpix o') = List.length visible
    /\ (exists map, HealpixCnv.healpix_cnv_apply (List.length visible) mask (v_entries cnv) = Ok map
          /\ h_n_zero (o_healpix o') = List.length (filter (fun v => Qeq_bool v 0) map))
    /\ forall image, Z.of_nat (List.length image) = (o_dim o * o_el o)%Z ->
         exists map, HealpixCnv.healpix_cnv_apply (List.length (v_inds cnv)) image (v_entries cnv) = Ok map
           /\ List.length map = List.length visible
           /\ forall k, (k < List.length visible)%nat -> within_image k -> ~ is_integer (fst (at_ k)) -> ~ is_integer (snd (at_ k)) ->
                (nth k map 0 == bilinear (o_dim o) image (fst (at_ k)) (snd (at_ k)))%Q.
Proof.
  intros site L load c o mask radius nside p f n0 l n s pos k0 R N LD HF Hn L2 LL LS visible at_ within_image K0 IN ML.
  unfold healpix_cnv_generate. rewrite R, N. cbn [bind]. rewrite LD. cbn [bind].
  assert (U : unpack f nside = Ok (n0, l)). { destruct HF as [[[->| ->] ->]|(n1 & -> & ->)]; reflexivity. }
  rewrite U. cbn [bind]. subst n0. cbn [default_nside bind].
  rewrite (place_some L o pos n l radius LL). cbn [bind]. rewrite LS. cbn [bind].
  rewrite (cut_ok L s o pos l) by lia. fold visible. cbn [bind].
  set (xs := map fst (map (fun p0 => l_xy L (pos p0)) visible)). set (ys := map snd (map (fun p0 => l_xy L (pos p0)) visible)).
  assert (Lx : List.length xs = List.length visible) by (unfold xs; now rewrite !map_length).
  assert (Ly : List.length ys = List.length visible) by (unfold ys; now rewrite !map_length).
  assert (Nx : forall k, (k < List.length visible)%nat -> nth k xs 0%Q = fst (at_ k)).
  { intros k K. unfold xs, at_. rewrite map_map. rewrite (nth_indep _ 0%Q (fst (l_xy L (pos 0%Z)))) by now rewrite map_length.
    exact (map_nth (fun x => fst (l_xy L (pos x))) visible 0%Z k). }
  assert (Ny : forall k, (k < List.length visible)%nat -> nth k ys 0%Q = snd (at_ k)).
  { intros k K. unfold ys, at_. rewrite map_map. rewrite (nth_indep _ 0%Q (snd (l_xy L (pos 0%Z)))) by now rewrite map_length.
    exact (map_nth (fun x => snd (l_xy L (pos x))) visible 0%Z k). }
  assert (I0 : inside (o_dim o) (o_el o) (nth k0 xs 0%Q) (nth k0 ys 0%Q)) by (rewrite Nx, Ny by exact K0; exact IN).
  destruct (cnv_pixels (o_dim o) (o_el o) xs ys mask k0) as (cnv & m & E1 & E2 & Lm & _); [congruence|exact ML|now rewrite Lx|exact I0|].
  rewrite E1. cbn [bind]. rewrite Lx in E2. rewrite E2. cbn [bind]. eexists _, _. split; [destruct c as [r i]; cbn [c_restrict c_inds] in *; subst; reflexivity|].
  cbn [v_inds v_nside v_entries o_healpix set_healpix h_nside h_ind_list h_n_pix h_n_zero].
  split; [reflexivity|]. split; [reflexivity|]. split; [reflexivity|]. split; [reflexivity|]. split; [reflexivity|]. split; [reflexivity|]. split.
  - exists m. split; [exact E2|]. pose proof (take_where 0%Q (fun v : Q => v) (fun v : Q => v) (fun v => Qeq_bool v 0) m) as T.
    apply (f_equal (@List.length Q)) in T. unfold take in T. rewrite !map_length, map_id in T. exact T.
  - intros image IL. destruct (cnv_pixels (o_dim o) (o_el o) xs ys image k0) as (cnv' & m' & E1' & E2' & Lm' & V); [congruence|exact IL|now rewrite Lx|exact I0|].
    rewrite E1 in E1'. injection E1' as <-. exists m'. rewrite Lx in E2'. split; [exact E2'|]. split; [congruence|].
    intros k K W X Y. rewrite <- Nx, <- Ny by exact K. apply V; [now rewrite Lx|rewrite Nx, Ny by exact K; exact W|].
    rewrite Nx, Ny by exact K. now split.
Qed.
Print Assumptions C99_visible.

(** Without a number of sides, from the file or the caller: the smallest power of two for which HEALPix pixels are not
    larger than the pixels of the image. *)
Theorem C99_sides : forall cdelt n, default_nside None cdelt = Ok n ->
  exists k, n = powerRZ 2 k /\ forall j, ExportSizeSpec.healpix_area (powerRZ 2 j) <= Rabs (fst cdelt) * Rabs (snd cdelt) <-> (k <= j)%Z.
Proof.
  intros cdelt n H. cbn [default_nside] in H. set (a := Rabs (fst cdelt) * Rabs (snd cdelt)) in *. destruct (Req_EM_T a 0) as [|NZ]; [discriminate|]. injection H as <-.
  assert (AP : 0 <= a) by (apply Rmult_le_pos; apply Rabs_pos).
  assert (SQ : sqrt a ^ 2 = a) by (rewrite <- Rsqr_pow2; now apply Rsqr_sqrt).
  pose (o := {| Quickview.q_npol := 0; Quickview.q_dimension := 0; Quickview.q_elements := 0; Quickview.q_obsx := 0; Quickview.q_obsy := 0;
    Quickview.q_kpix := 0; Quickview.q_degpix := 0; Quickview.q_max := 0; Quickview.q_nvis := 0; Quickview.q_names := [];
    Quickview.q_naxis := (0, 0)%nat; Quickview.q_cdelt := (0, 0); Quickview.q_crpix := (0, 0)%Q; Quickview.q_cd := ((0, 0), (0, 0));
    Quickview.q_nfreq := 0; Quickview.q_freq := []; Quickview.q_freq_res := 0; Quickview.q_fbin := [] |}).
  destruct (nside_ok {| z_kbinsize := 0; z_fov := 0; z_dimension := 0; z_degpix := sqrt a;
      z_nside := powerRZ 2 (ceil (ln (sqrt (4 * PI * (180 / PI) ^ 2 / sqrt a ^ 2 / 12)) / ln 2)); z_radius := 0; z_obs := o |}) as (k & E & M);
    cbn [z_degpix z_nside] in *.
  - intros Z0. apply NZ. rewrite <- SQ, Z0. ring.
  - reflexivity.
  - rewrite SQ in *. exists k. split; [exact E|exact M].
Qed.
Print Assumptions C99_sides.

(** ** C100: without a list *)
(** Full statement: without restriction, the pixels within the given radius of the pointing, inside the mask, are used. Every such call fails. *)
Theorem C100_unrestricted_refuted : forall {site} (L : lib site) load c o mask radius nside,
  c_restrict c = false ->
  (forall r, healpix_cnv_generate L load c o mask radius nside <> Ok r)
  /\ forall n l, nside = Some n -> l_disc L n (o_ra o, o_dec o) radius = Ok l -> (forall p, In p l -> exists ll, l_lonlat_float L n p = Ok ll) ->
       List.length l <> 1%nat -> healpix_cnv_generate L load c o mask radius nside = Err IndexError.
Proof.
  intros site L load c o mask radius nside R. unfold healpix_cnv_generate. rewrite R. cbn [bind]. split.
  - intros r E. destruct (default_nside _ _) as [n|]; [|discriminate]. cbn [bind place] in E.
    destruct (l_disc L _ _ _) as [l|]; [|discriminate]. cbn [bind] in E. destruct (map_res _ l); [|discriminate]. cbn [bind] in E.
    destruct (_ =? 1)%nat; discriminate.
  - intros n l -> E H N. cbn [default_nside bind place]. rewrite E. cbn [bind].
    destruct (map_res_total (fun p => c0 <- l_lonlat_float L n p ;; Ok (snd c0, fst c0)) (fun _ _ => True) l) as (x & -> & _).
    { intros p P. destruct (H p P) as (ll & ->). cbn [bind]. eauto. }
    cbn [bind]. now rewrite (proj2 (Nat.eqb_neq _ _) N).
Qed.
Print Assumptions C100_unrestricted_refuted.

(** ** A case *)
Definition demo_lib : lib unit := {|
  l_lonlat := fun _ p => Ok (inject_Z p, 0%Q); l_lonlat_float := fun _ p => Ok (inject_Z p, 0%Q);
  l_disc := fun _ _ _ => Ok [1; 2; 3]%Z; l_xy := fun c => (fst c + (1 # 2), 1 # 3)%Q;
  l_site := fun _ => Ok tt; l_alt := fun _ _ c => (fst c - 1)%Q |}.
Definition demo_obs : sobs := {| o_ra := 0; o_dec := -30; o_freq_center := 182000000; o_cdelt := (1, 1); o_dim := 8; o_el := 8;
  o_instrument := "mwa"; o_jd0 := 0; o_healpix := {| h_nside := 0; h_ind_list := None; h_n_pix := 0; h_n_zero := 0 |} |}.
Definition demo_load (_ : path) : result loaded := Ok (Dict (Some 4) (Some [1; 2; 3]%Z)).
Example demo_named : exists cnv o', healpix_cnv_generate demo_lib demo_load {| c_restrict := true; c_inds := Some (Given "mine.h5") |} demo_obs (repeat 1%Q 64) 1 None
    = Ok (cnv, o', {| c_restrict := true; c_inds := Some (Given "mine.h5") |}) /\ v_inds cnv = [2; 3]%Z /\ v_nside cnv = 4.
Proof.
  destruct (C99_visible demo_lib demo_load {| c_restrict := true; c_inds := Some (Given "mine.h5") |} demo_obs (repeat 1%Q 64) 1 None
    (Given "mine.h5") (Dict (Some 4) (Some [1; 2; 3]%Z)) (Some 4) [1; 2; 3]%Z 4 tt (fun p => (inject_Z p, 0%Q)) 0%nat) as (cnv & o' & E & V & N & _);
    try reflexivity.
  - right. exists 4. now split.
  - cbn. lia.
  - cbn. lia.
  - unfold inside. cbn. repeat split; unfold Qle; cbn; lia.
  - exists cnv, o'. split; [exact E|]. split; [exact V|exact N].
Qed.
Example demo_choice : exists cnv o' c', healpix_cnv_generate demo_lib demo_load {| c_restrict := true; c_inds := None |} demo_obs (repeat 1%Q 64) 1 None = Ok (cnv, o', c')
  /\ c_inds c' = Some (Template "EoR0_high_healpix_inds.h5").
Proof.
  assert (D : -90 <= -30 <= 90) by lra.
  destruct (choose_spec 0 (-30) 182000000 D) as (t & _ & _ & CH & _).
  destruct (C99_visible demo_lib demo_load {| c_restrict := true; c_inds := Some (Template (m_name t)) |} demo_obs (repeat 1%Q 64) 1 None
    (Template (m_name t)) (Dict (Some 4) (Some [1; 2; 3]%Z)) (Some 4) [1; 2; 3]%Z 4 tt (fun p => (inject_Z p, 0%Q)) 0%nat) as (cnv & o' & E & _);
    try reflexivity.
  - right. exists 4. now split.
  - cbn. lia.
  - cbn. lia.
  - unfold inside. cbn. repeat split; unfold Qle; cbn; lia.
  - assert (E' : healpix_cnv_generate demo_lib demo_load {| c_restrict := true; c_inds := None |} demo_obs (repeat 1%Q 64) 1 None
               = Ok (cnv, o', {| c_restrict := true; c_inds := Some (Template (m_name t)) |})).
    { rewrite <- E. unfold healpix_cnv_generate. cbn [c_restrict c_inds o_ra o_dec o_freq_center demo_obs]. rewrite CH. reflexivity. }
    exists cnv, o', {| c_restrict := true; c_inds := Some (Template (m_name t)) |}. split; [exact E'|].
    assert (Z0 : apart (direction (o_ra demo_obs) (o_dec demo_obs)) (centre EoR0) + 1 < apart (direction (o_ra demo_obs) (o_dec demo_obs)) (centre EoR1)).
    { change (direction (o_ra demo_obs) (o_dec demo_obs)) with (centre EoR0).
      assert (A0 : apart (centre EoR0) (centre EoR0) = 0).
      { unfold apart. rewrite (direction_unit 0 (-30) : dot (centre EoR0) (centre EoR0) = 1). rewrite acos_1. field. apply PI_neq0. }
      rewrite A0. pose proof fields_apart. lra. }
    apply (C98_unique demo_lib demo_load {| c_restrict := true; c_inds := None |} demo_obs (repeat 1%Q 64) 1 None cnv o' _ EoR0 EoR1);
      [reflexivity|reflexivity|exact E'|discriminate|exact Z0|cbn; lra].
Qed.
