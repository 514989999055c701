(** Model of the choice of HEALPix pixels of healpix_cnv_generate, PyFHD/healpix/healpix_utils.py:91-216 and 286-297, and of
    angle_difference, PyFHD/pyfhd_tools/pyfhd_utils.py:905-948.  The interpolation in between (218-284) is in HealpixCnv.v.
    healpy and astropy are given: the longitude and latitude of a HEALPix pixel, the pixels in a disc, the position of a
    direction in the image, its altitude at a site, and the sites.  Angles are real numbers, positions rationals. *)
From Coq Require Import String Reals.
From Verif Require Import Base PyIndex HealpixCnv ExportSize Reflect.
Import ListNotations.
Open Scope nat_scope.
Open Scope R_scope.

(** ** angle_difference, 905-948 *)
Definition rad (degrees : R) : R := degrees * PI / 180.
Definition deg (radians : R) : R := radians * 180 / PI.
(** SkyCoord refuses a declination beyond the poles; separation is the great circle distance (astropy uses a formula that
    is the same function in exact arithmetic), and its value is in degrees. *)
Definition separation (ra1 dec1 ra2 dec2 : R) : R :=
  deg (acos (sin dec1 * sin dec2 + cos dec1 * cos dec2 * cos (ra1 - ra2))).
Definition beyond (dec : R) : bool := if Rle_dec (Rabs dec) (PI / 2) then false else true.
Definition angle_difference (ra1 dec1 ra2 dec2 : R) (degree nearest : bool) : result R :=
  let u x := if degree then rad x else x in                                     (* 937-940 *)
  if beyond (u dec1) || beyond (u dec2) then Err ValueError else                (* 941-942 *)
  let a := separation (u ra1) (u dec1) (u ra2) (u dec2) in                      (* 944 *)
  Ok (if nearest then Rmax a (2 * PI - a) else a).                              (* 945-948 *)

(** ** Choice of the list of pixels, 98-154 *)
Record template := { m_name : string; m_ra : R; m_dec : R; m_freq : R }.
Definition templates : list template :=                                         (* 101-126 *)
  [{| m_name := "EoR0_high_healpix_inds.h5"; m_ra := 0; m_dec := -30; m_freq := 182 |};
   {| m_name := "EoR0_low_healpix_inds.h5"; m_ra := 0; m_dec := -30; m_freq := 151 |};
   {| m_name := "EoR1_high_healpix_inds.h5"; m_ra := 60; m_dec := -30; m_freq := 182 |};
   {| m_name := "EoR1_low_healpix_inds.h5"; m_ra := 60; m_dec := -30; m_freq := 151 |}].
Definition no_template : template := {| m_name := ""; m_ra := 0; m_dec := 0; m_freq := 0 |}.
Definition min_R (l : list R) : R := match l with [] => 0 | a :: t => fold_left Rmin t a end.
(** np.argmin: the first of the smallest *)
Definition argmin (l : list R) : nat := argmax (map Ropp l).
Definition within (x : R) : bool := if Rle_dec x 1 then true else false.
Definition choose (ra dec freq_center : R) : result template :=
  ang_dist <- map_res (fun f => d <- angle_difference ra dec (m_ra f) (m_dec f) true true ;; Ok (Rabs d)) templates ;;   (* 128-142 *)
  let ang_use := min_R ang_dist in                                              (* 143 *)
  let i_use := where_ (fun d => within (Rabs (d - ang_use))) ang_dist in        (* 144 *)
  let files := map (fun i => nth i templates no_template) i_use in              (* 145 *)
  let freq_dist := map (fun f => Rabs (m_freq f - freq_center / 1000000)) files in   (* 146-149 *)
  Ok (nth (argmin freq_dist) files no_template).                                (* 150, 154 *)

(** A file with HEALPix indices: a plain array, or a dictionary. *)
Inductive loaded := Plain (inds : list Z) | Dict (nside : option R) (inds : option (list Z)).
Inductive path := Given (name : string) | Template (name : string).
Record config := { c_restrict : bool; c_inds : option path }.

(** The parts of obs that are used. *)
Record hobs := { h_nside : R; h_ind_list : option (list Z); h_n_pix : nat; h_n_zero : nat }.
Record sobs := { o_ra : R; o_dec : R; o_freq_center : R; o_cdelt : R * R; o_dim : Z; o_el : Z; o_instrument : string; o_jd0 : Q; o_healpix : hobs }.
Definition set_healpix (o : sobs) (h : hobs) : sobs :=
  {| o_ra := o_ra o; o_dec := o_dec o; o_freq_center := o_freq_center o; o_cdelt := o_cdelt o; o_dim := o_dim o; o_el := o_el o;
     o_instrument := o_instrument o; o_jd0 := o_jd0 o; o_healpix := h |}.

Record lib (site : Type) := {
  l_lonlat : Z -> Z -> result (Q * Q);              (* vec2ang(pix2vec(nside, pixel), lonlat=True) *)
  l_lonlat_float : R -> Z -> result (Q * Q);        (* the same with a number of sides that is a float *)
  l_disc : R -> R * R -> R -> result (list Z);      (* query_disc(nside, ang2vec(ra, dec), radius) *)
  l_xy : Q * Q -> Q * Q;                            (* radec_to_pixel *)
  l_site : string -> result site;                   (* EarthLocation.of_site *)
  l_alt : site -> Q -> Q * Q -> Q                   (* radec_to_altaz at a date, the altitude *)
}.
Arguments l_lonlat {site}. Arguments l_lonlat_float {site}. Arguments l_disc {site}. Arguments l_xy {site}.
Arguments l_site {site}. Arguments l_alt {site}.

(** 155-159 *)
Definition unpack (f : loaded) (nside : option R) : result (option R * list Z) :=
  match f with
  | Plain l => Ok (nside, l)
  | Dict _ None => Err KeyError
  | Dict (Some n) (Some l) => Ok (Some n, l)
  | Dict None (Some l) => Ok (nside, l)
  end.
(** 160-164. A pixel size of 0 gives an infinity, for which int fails. *)
Definition default_nside (nside : option R) (cdelt : R * R) : result R :=
  match nside with
  | Some n => Ok n
  | None => let area := Rabs (fst cdelt) * Rabs (snd cdelt) in
            if Req_EM_T area 0 then Err ValueError else
            Ok (powerRZ 2 (ceil (ln (sqrt (4 * PI * (180 / PI) ^ 2 / area / 12)) / ln 2)))
  end.
Definition take {A} (d : A) (l : list A) (idx : list nat) : list A := map (fun i => nth i l d) idx.
Definition above (alt : Q) : bool := if Qlt_le_dec 0 alt then true else false.
Definition below (alt : Q) : bool := if Qlt_le_dec 0 alt then false else true.

(** 169-196: the pixels, their coordinates and their positions *)
Definition place {site} (L : lib site) (nside : R) (hpx_inds : option (list Z)) (o : sobs) (radius : R)
  : result (list Z * list (Q * Q) * list (Q * Q)) :=
  match hpx_inds with
  | Some l => coords <- map_res (l_lonlat L (int_R nside)) l ;;                 (* 169-173 *)
              Ok (l, coords, map (l_xy L) coords)
  | None => l <- l_disc L nside (o_ra o, o_dec o) radius ;;                     (* 175-179 *)
            coords <- map_res (fun p => c <- l_lonlat_float L nside p ;; Ok (snd c, fst c)) l ;;   (* 178: the two swapped *)
            (* 188: an array of floats, even an empty one, is no index.  (If there is exactly one pixel, its position is no
               array either and the failure is at line 186.) *)
            if (List.length l =? 1)%nat then Err TypeError else Err IndexError
  end.

(** 198-216: the pixels below the horizon are cut. The position of a single pixel is a float (unit_conv.py:151-152) that has
    no elements to take; simplified: it fails here, although in the code a single pixel that is above the horizon fails only
    at line 262. *)
Definition cut {site} (L : lib site) (s : site) (o : sobs) (p : list Z * list (Q * Q) * list (Q * Q)) : result (list Z * list (Q * Q)) :=
  let '(inds, coords, xy) := p in
  let alt := map (l_alt L s (o_jd0 o)) coords in
  if (List.length inds =? 1)%nat then Err TypeError else
  if (List.length (where_ below alt) =? 0)%nat then Ok (inds, xy) else          (* 209-210 *)
  let use := where_ above alt in                                                (* 212-215 *)
  Ok (take 0%Z inds use, take (0%Q, 0%Q) xy use).

Record hcnv := { v_nside : R; v_entries : list entry; v_inds : list Z }.

(** [mask]: the flattened mask. The configuration is changed (152): it is returned too. *)
Definition healpix_cnv_generate {site} (L : lib site) (load : path -> result loaded) (c : config) (o : sobs) (mask : list Q)
    (radius : R) (nside : option R) : result (hcnv * sobs * config) :=
  '(c, f) <- (if c_restrict c then                                              (* 98 *)
                p <- match c_inds c with
                     | Some p => Ok p
                     | None => t <- choose (o_ra o) (o_dec o) (o_freq_center o) ;; Ok (Template (m_name t))
                     end ;;
                f <- load p ;;                                                  (* 155 *)
                Ok ({| c_restrict := true; c_inds := Some p |}, Some f)
              else Ok (c, None)) ;;
  '(nside, inds) <- match f with
                    | Some f => '(n, l) <- unpack f nside ;; Ok (n, Some l)
                    | None => Ok (nside, None)
                    end ;;
  nside <- default_nside nside (o_cdelt o) ;;
  p <- place L nside inds o radius ;;
  s <- l_site L (o_instrument o) ;;                                             (* 200 *)
  '(inds, xy) <- cut L s o p ;;
  entries <- generate (o_dim o) (o_el o) (map fst xy) (map snd xy) ;;           (* 218-284 *)
  let n := List.length inds in
  test <- healpix_cnv_apply n mask entries ;;                                   (* 293 *)
  let h := {| h_nside := nside; h_ind_list := if c_restrict c then None else Some inds;   (* 287-292 *)
              h_n_pix := n; h_n_zero := List.length (where_ (fun v => Qeq_bool v 0) test) |} in
  Ok ({| v_nside := nside; v_entries := entries; v_inds := inds |}, set_healpix o h, c).
