(** Model of extract_header (uvfits.py:14-215) and create_params (218-284) of PyFHD/data_setup/uvfits.py. The opened
    UVFITS file is a record; astropy reads it. Numbers are exact rationals. Logging, param_names (never used) and the
    conversion of the Julian date to a date string are left out, as are the antenna table (Layout) and the
    visibilities (Obs). *)
From Coq Require Import String.
From Verif Require Import Base PyIndex Obs.
Import ListNotations.
Open Scope nat_scope.
Open Scope list_scope.

(** The primary header and its group parameters. Group parameters are counted from 0 here: f_ptype i is the stripped
    PTYPE(i+1), f_pzero i is PZERO(i+1), f_bzero i and f_column i belong to the (i+1)-th column of the data. *)
Record uvfile := {
  f_int : string -> option nat;       (* NAXIS, PCOUNT, GCOUNT, NAXIS2, NAXIS3, NAXIS4 *)
  f_num : string -> option Q;         (* CRVAL4, OBSRA, LON, ... *)
  f_dated : bool;                     (* DATE-OBS or DATEOBS is present *)
  f_ptype : nat -> option string;
  f_pzero : nat -> option Q;
  f_bzero : nat -> Q;
  f_column : nat -> list Q            (* the values of the group parameter, already scaled by astropy *)
}.

Record uvheader := {
  h_naxis : nat; h_params : nat; h_baselines : nat; h_complex : nat; h_pols : nat; h_freqs : nat;
  h_freq_ref : Q; h_freq_res : Q; h_freq : list Q;
  h_ra : Q; h_dec : Q; h_lon : Q; h_lat : Q; h_alt : Q;
  h_ant1 : bool; h_ant2 : bool;       (* ant1_i, ant2_i: whether the name occurs, not where *)
  h_baseline_i : option nat; h_date_i : nat; h_jd0 : Q
}.

(** params_header[key] *)
Definition card {A} (h : string -> option A) (k : string) : result A :=
  match h k with Some v => Ok v | None => Err KeyError end.
(** try params_header[k] except KeyError: params_header[k'] *)
Definition card_or {A} (h : string -> option A) (k k' : string) : result A :=
  match h k with Some v => Ok v | None => card h k' end.
(** param_list.index(name) *)
Definition index_of (name : string) (l : list string) : result nat :=
  match find (fun i => String.eqb (nth i l EmptyString) name) (seq 0 (List.length l)) with
  | Some i => Ok i
  | None => Err ValueError
  end.
Definition has (name : string) (l : list string) : bool := existsb (String.eqb name) l.
Definition count (name : string) (l : list string) : nat := List.length (filter (String.eqb name) l).

(** lines 132-134 *)
Definition ptypes (f : uvfile) (n : nat) : result (list string) :=
  map_res (fun i => match f_ptype f i with Some s => Ok s | None => Err KeyError end) (seq 0 n).

(** lines 66-215. [site] is EarthLocation.of_site(instrument): longitude, latitude, height, or None when the site is
    unknown; EarthLocation("mwa") (112) is not a valid call and raises TypeError. *)
Definition extract_header (f : uvfile) (site : option (Q * Q * Q)) : result uvheader :=
  naxis <- card (f_int f) "NAXIS" ;; n_params <- card (f_int f) "PCOUNT" ;; n_baselines <- card (f_int f) "GCOUNT" ;;
  n_complex <- card (f_int f) "NAXIS2" ;; n_pol <- card (f_int f) "NAXIS3" ;; n_freq <- card (f_int f) "NAXIS4" ;;
  freq_ref <- card (f_num f) "CRVAL4" ;; freq_res <- card (f_num f) "CDELT4" ;;
  if negb (f_dated f) then Err KeyError else
  crpix <- card (f_num f) "CRPIX4" ;;
  let freq_ref_i := (crpix - 1)%Q in
  let frequency := map (fun k => ((inject_Z (Z.of_nat k) - freq_ref_i) * freq_res + freq_ref)%Q) (seq 0 n_freq) in
  ra <- card_or (f_num f) "OBSRA" "RA" ;;
  dec <- card_or (f_num f) "OBSDEC" "DEC" ;;
  '(lon0, lat0, alt0) <- (match site with Some l => Ok l | None => Err TypeError end) ;;
  let lon := match f_num f "LON" with Some x => x | None => lon0 end in
  let lat := match f_num f "LAT" with Some x => x | None => lat0 end in
  let alt := match f_num f "ALT" with Some x => x | None => alt0 end in
  params <- ptypes f n_params ;;
  let valid := has "UU" params && has "VV" params && has "WW" params in
  let ant1 := has "ANTENNA1" params in
  let ant2 := has "ANTENNA2" params in
  (** 165-171: an index of 0 counts as missing *)
  '(baseline_i, valid) <- (if negb ant1 || negb ant2
                           then i <- index_of "BASELINE" params ;; Ok (Some i, valid && negb (i =? 0))
                           else Ok (None, valid)) ;;
  date_i <- index_of "DATE" params ;;
  let valid := valid && negb (date_i =? 0) in
  if negb valid then Err KeyError else
  pzero <- (match f_pzero f date_i with Some z => Ok z | None => Err KeyError end) ;;
  jd0 <- (if 1 <? count "DATE" params then
            match f_column f date_i with
            | [] => Err IndexError
            | d :: _ => Ok (pzero + d - f_bzero f date_i)%Q
            end
          else Ok pzero) ;;
  Ok {| h_naxis := naxis; h_params := n_params; h_baselines := n_baselines; h_complex := n_complex; h_pols := n_pol;
        h_freqs := n_freq; h_freq_ref := freq_ref; h_freq_res := freq_res; h_freq := frequency;
        h_ra := ra; h_dec := dec; h_lon := lon; h_lat := lat; h_alt := alt; h_ant1 := ant1; h_ant2 := ant2;
        h_baseline_i := baseline_i; h_date_i := date_i; h_jd0 := jd0 |}.

(** params_data[name]: astropy renames later columns of the same name, so the first one is meant. *)
Definition first_column (f : uvfile) (n : nat) (name : string) : option (list Q) :=
  option_map (f_column f)
    (find (fun i => match f_ptype f i with Some s => String.eqb s name | None => false end) (seq 0 n)).
(** A KeyError ends the program (279-283). *)
Definition column_of (f : uvfile) (n : nat) (name : string) : result (list Q) :=
  match first_column f n name with Some c => Ok c | None => Err SystemExit end.

Record uvparams := { p_uu : list Q; p_vv : list Q; p_ww : list Q; p_time : list Q; p_antenna1 : list Z; p_antenna2 : list Z }.

(** lines 247-285. Antenna and baseline numbers are whole numbers. *)
Definition create_params (f : uvfile) (h : uvheader) : result uvparams :=
  let col := column_of f (h_params h) in
  uu <- col "UU"%string ;; vv <- col "VV"%string ;; ww <- col "WW"%string ;; time <- col "DATE"%string ;;
  '(a1, a2) <- (if h_ant1 h && h_ant2 h then
                  a1 <- col "ANTENNA1"%string ;; a2 <- col "ANTENNA2"%string ;;
                  Ok (map Qfloor a1, map Qfloor a2)
                else
                  b <- col "BASELINE"%string ;; decode_baselines (map Qfloor b)) ;;
  Ok {| p_uu := uu; p_vv := vv; p_ww := ww; p_time := time; p_antenna1 := a1; p_antenna2 := a2 |}.
