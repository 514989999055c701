(** Model of PyFHD/data_setup/obs.py: create_obs (with the time bins, frequency bins and tile numbering of Obs.v),
    read_metafits and project_slant_orthographic.  Times are whole numbers of ticks; numbers are exact.  Astropy's
    coordinate transformations and the trigonometric projection are parameters, and so are 180/pi and the length of a
    baseline [hyp].  Not represented: entries of obs that are constants, the copy of the metafits header and table,
    logging. *)
From Coq Require Import String Qabs Qround.
From Verif Require Import Base SortLib Histogram Utils1 PyIndex Obs.
Import ListNotations.
Open Scope nat_scope.
Open Scope list_scope.

(** A time to cut, as the list in the configuration holds it. The command line option has [type=list], so that it gives
    single characters. *)
Inductive cutval := CInt (z : Z) | CFloat (q : Q) | CChar (c : string).
Record config := { c_n_pol : nat; c_nfreq_avg : option Q; c_fov : option Q; c_kbinsize : option Q;
  c_dimension : option Z; c_elements : option Z; c_min_baseline : option Q; c_time_cut : option (list cutval);
  c_simulation : bool; c_phasera : option Q; c_phasedec : option Q }.
Record header := { d_n_tile : nat; d_n_pol : nat; d_freq_res : Q; d_freq : list Q; d_lon : Q; d_lat : Q; d_alt : Q;
  d_ra : Q; d_dec : Q }.
Record uvpar := { u_time : list Z; u_ant1 : list Z; u_ant2 : list Z; u_baseline : option (list Z); u_uu : list Q; u_vv : list Q }.

(** The metafits file: numeric cards, delays and the rows of its table. *)
Record row := { r_antenna : Z; r_pol : string; r_tile : Z; r_height : Q; r_flag : Z }.
Record metafits := { mf_num : string -> option Q; mf_delays : option (list string); mf_rows : list row }.

Record sky := { zenith : Q -> Q -> Q -> Z -> Q * Q; slant : Q -> Q -> Q -> Q -> Q -> Q * Q;
  to_altaz : Q -> Q -> Q -> Q -> Q -> Z -> Q * Q; hyp : Q -> Q -> Q; deg : Q }.

Record astrometry := { a_naxis : Z * Z; a_cdelt : Q * Q; a_crpix : Z * Z; a_crval : Q * Q; a_pv2 : Q * Q }.
Record meta := { m_jdate : list Z; m_obsx : Z; m_obsy : Z; m_jd0 : Z; m_tile_names : list Z; m_tile_height : list Q;
  m_tile_flag : list Z; m_time_res : Q; m_obsra : Q; m_obsdec : Q; m_phasera : Q; m_phasedec : Q;
  m_orig_phasera : Q; m_orig_phasedec : Q; m_zenra : Q; m_zendec : Q; m_astr : astrometry; m_altaz : Q * Q;
  m_delays : option (list string) }.

(** ** read_metafits, 293-412 *)
Definition card (f : metafits) (k : string) : result Q := match mf_num f k with Some v => Ok v | None => Err KeyError end.
(** 309-310: a stable sort by antenna *)
Definition sort_rows (l : list row) : list row := isort (fun a b => (r_antenna a <=? r_antenna b)%Z) l.
(** 311: the rows of the polarisation of the first one; an empty table is an IndexError *)
Definition single (l : list row) : result (list row) :=
  match l with [] => Err IndexError | r :: _ => Ok (filter (fun x => String.eqb (r_pol x) (r_pol r)) l) end.
Definition zsum (l : list Z) : Z := fold_right Z.add 0%Z l.
(** 315-321 *)
Definition all_flagged (flags : list Z) : bool := (zsum flags =? Z.of_nat (List.length flags) - 1)%Z.

(** project_slant_orthographic 436-443: the longitude offset *)
Definition lon_offset (phasera zenra : Q) : Q :=
  if Qlt_le_dec 90 (Qabs (phasera - zenra)) then
    (phasera - (if Qlt_le_dec zenra phasera then 360 else -360) - zenra)%Q
  else (phasera - zenra)%Q.
(** 436-487. The pixel of the zenith is not represented. *)
Definition project (s : sky) (dimension elements : Z) (degpix phasera phasedec zenra zendec : Q) : astrometry :=
  {| a_naxis := (dimension, elements); a_cdelt := (degpix, degpix); a_crpix := (dimension / 2 + 1, elements / 2 + 1)%Z;
     a_crval := (phasera, phasedec);
     a_pv2 := slant s phasera phasedec zenra zendec (lon_offset phasera zenra) |}.

(** What lines 306-356 take from the metafits file: names, heights, flags, time resolution, pointing and phase centre. *)
Definition from_file (simulation : bool) (h : header) (f : metafits) :=
  rows <- single (sort_rows (mf_rows f)) ;;
  let flags := map r_flag rows in
  if all_flagged flags && negb simulation then Err SystemExit else
  ra <- card f "RA" ;; dec <- card f "DEC" ;; pra <- card f "RAPHASE" ;; pdec <- card f "DECPHASE" ;; res <- card f "INTTIME" ;;
  delays <- match mf_delays f with Some d => Ok d | None => Err KeyError end ;;
  Ok (map r_tile rows, map (fun r => (r_height r - d_alt h)%Q) rows, flags, res, (ra, dec), (pra, pdec), Some delays).
(** 335-356, without the file. [tick]: seconds per tick *)
Definition from_header (tick : Q) (h : header) (p : uvpar) (n_tile : nat) :=
  hA <- histogram (map inject_Z (u_ant1 p)) 1 None (Some 1%Q) (Some (inject_Z (Z.of_nat n_tile))) ;;
  hB <- histogram (map inject_Z (u_ant2 p)) 1 None (Some 1%Q) (Some (inject_Z (Z.of_nat n_tile))) ;;
  let '(a, _, _) := hA in let '(b, _, _) := hB in
  if negb (List.length a =? List.length b) then Err ValueError else
  if negb (List.length a <=? n_tile) then Err IndexError else
  let flag := map (fun i => if (nth i a 1 + nth i b 1 =? 0) then 1%Z else 0%Z) (seq 0 n_tile) in
  let b0i := idl_argunique (u_time p) in
  let res := match b0i with
             | i :: j :: _ => (inject_Z (nth j (u_time p) 0%Z - nth i (u_time p) 0%Z) * tick)%Q
             | _ => 1%Q
             end in
  Ok (map (fun i => Z.of_nat (i + 1)) (seq 0 n_tile), repeat 0%Q n_tile, flag, res, (d_ra h, d_dec h), (d_ra h, d_dec h), @None (list string)).

Definition read_metafits (s : sky) (tick : Q) (c : config) (h : header) (p : uvpar) (n_tile : nat) (dimension elements : Z)
    (degpix : Q) (file : option metafits) : result meta :=
  let b0i := idl_argunique (u_time p) in
  let jdate := map (fun i => nth i (u_time p) 0%Z) b0i in
  jd0 <- zmin jdate ;;
  src <- match file with Some f => from_file (c_simulation c) h f | None => from_header tick h p n_tile end ;;
  let '(names, height, flags, res, (ra, dec), (pra, pdec), delays) := src in
  let '(zra, zdec) := zenith s (d_lat h) (d_lon h) (d_alt h) jd0 in
  let m := {| m_jdate := jdate; m_obsx := (dimension / 2)%Z; m_obsy := (elements / 2)%Z; m_jd0 := jd0; m_tile_names := names;
     m_tile_height := height; m_tile_flag := flags; m_time_res := res; m_obsra := ra; m_obsdec := dec; m_phasera := pra;
     m_phasedec := pdec;
     m_orig_phasera := (match c_phasera c with Some x => x | None => pra end);
     m_orig_phasedec := (match c_phasedec c with Some x => x | None => pdec end);
     m_zenra := zra; m_zendec := zdec; m_astr := project s dimension elements degpix pra pdec zra zdec;
     m_altaz := to_altaz s ra dec (d_lat h) (d_lon h) (d_alt h) jd0; m_delays := delays |} in
  (* 398-405: [hdr] is only bound when there is a file *)
  match file with Some _ => Ok m | None => Err UnboundLocal end.

(** ** create_obs *)
(** 163-190: pixel size in wavelengths, dimensions, degrees per pixel *)
Definition kpix (c : config) (dg : Q) : result Q :=
  _ <- match c_fov c with
       | Some f => if Qeq_bool f 0 then Err ZeroDivision else Ok (dg / f)%Q
       | None => Ok 0%Q
       end ;;
  Ok (match c_kbinsize c with None => 1 # 2 | Some k => k end).
Definition dimensions (c : config) : result (Z * Z) :=
  match c_dimension c, c_elements c with
  | None, None => Err KeyError
  | Some d, None => Ok (d, d)
  | None, Some e => Ok (e, e)
  | Some d, Some e => Ok (d, e)
  end.
Definition degpix (c : config) (dg k : Q) : result Q :=
  match c_dimension c with
  | None => Err TypeError
  | Some d => if Qeq_bool (k * inject_Z d) 0 then Err ZeroDivision else Ok (dg / (k * inject_Z d))%Q
  end.
(** 154-158, 192-203: the samples, those inside the uv grid, and the extreme lengths *)
Definition samples (freq uu vv : list Q) : list (Q * Q) :=
  flat_map (fun f => map (fun uv => (f * fst uv, f * snd uv)%Q) (combine uu vv)) freq.
Definition inside (k : Q) (dimension elements : Z) (xy : Q * Q) : bool :=
  (if Qlt_le_dec (Qabs (fst xy) / k) (inject_Z dimension / 2) then true else false)
  && (if Qlt_le_dec (Qabs (snd xy) / k) (inject_Z elements / 2) then true else false).
Definition qmax_list (l : list Q) : result Q := match l with [] => Err ValueError | x :: l => Ok (fold_left (fun a b => if Qlt_le_dec a b then b else a) l x) end.
Definition qmin_list (l : list Q) : result Q := match l with [] => Err ValueError | x :: l => Ok (fold_left (fun a b => if Qlt_le_dec b a then b else a) l x) end.
Definition extent (s : sky) (c : config) (k : Q) (dimension elements : Z) (xy : list (Q * Q)) : result (Q * Q) :=
  mx <- qmax_list (map (fun p => Qabs (hyp s (fst p) (snd p))) (filter (inside k dimension elements) xy)) ;;
  mn <- qmin_list (filter (fun r => negb (Qeq_bool r 0)) (map (fun p => hyp s (fst p) (snd p)) xy)) ;;
  Ok (mx, match c_min_baseline c with None => mn | Some b => if Qlt_le_dec b mn then mn else b end).

(** 99-151: tiles. Without antenna numbers above 0 they are taken from the baseline numbers; a number of tiles
    taken from there is a float, which [range] rejects. *)
Definition zmax (l : list Z) : result Z := match l with [] => Err ValueError | x :: l => Ok (fold_left Z.max l x) end.
Definition tiles (h : header) (p : uvpar) (antenna_numbers : list Z) : result (list Z * list Z) :=
  m1 <- zmax (u_ant1 p) ;; m2 <- (if (0 <? m1)%Z then zmax (u_ant2 p) else Ok 0%Z) ;;
  ab <- (if (0 <? m1)%Z && (0 <? m2)%Z then Ok (u_ant1 p, u_ant2 p)
         else match u_baseline p with
              | None => Err KeyError
              | Some b =>
                mn <- zmin b ;;
                let t := map (fun x => (x / antenna_mod_index mn)%Z) b in
                mx <- zmax t ;;
                if (mx =? Z.of_nat (d_n_tile h))%Z then Ok (t, t) else Err TypeError
              end) ;;
  a <- renumber antenna_numbers (d_n_tile h) (fst ab) ;;
  b <- renumber antenna_numbers (d_n_tile h) (snd ab) ;;
  Ok (a, b).

(** 206-228: the times to use. A float that ends up in the slice is a TypeError; [min] returns its first argument unless
    the second is smaller. *)
Inductive num := NInt (z : Z) | NFloat (q : Q).
Definition num_val (n : num) : Q := match n with NInt z => inject_Z z | NFloat q => q end.
Definition py_min (a b : num) : num := if Qlt_le_dec (num_val b) (num_val a) then b else a.
Definition qceil (q : Q) : Q := inject_Z (Qceiling q).
(** [time_cut[ti]] *)
Definition cut_at (l : list cutval) (ti : cutval) : result Q :=
  match ti with
  | CInt z =>
    i <- norm_index (List.length l) z ;;
    match nth i l (CInt 0) with
    | CInt v => Ok (inject_Z v)
    | CFloat q => Ok q
    | CChar _ => Err TypeError
    end
  | _ => Err TypeError
  end.
Definition cut_range (n_time : nat) (res v : Q) : num * num :=
  if Qlt_le_dec v 0 then
    (py_min (NFloat (inject_Z (Z.of_nat n_time) - qceil (Qabs v / res))) (NInt (Z.of_nat n_time - 1)), NInt (Z.of_nat n_time - 1))
  else (NInt 0, py_min (NFloat (qceil (Qabs v) / res - 1)) (NInt (Z.of_nat n_time - 1))).
Definition cut_one (n_time : nat) (res : Q) (l : list cutval) (use : list bool) (ti : cutval) : result (list bool) :=
  v <- cut_at l ti ;;
  let '(a, b) := cut_range n_time res v in
  if Qlt_le_dec (num_val b) (num_val a) then Ok use else
  match a, b with
  | NInt a, NInt b => Ok (map (fun i => if ((a <=? Z.of_nat i) && (Z.of_nat i <=? b))%Z then false else nth i use true) (seq 0 (List.length use)))
  | _, _ => Err TypeError
  end.
Definition time_use (n_time : nat) (res : Q) (c : config) : result (list bool) :=
  match c_time_cut c with
  | None => Ok (repeat true n_time)
  | Some l => fold_res (cut_one n_time res l) l (repeat true n_time)
  end.

Definition median (l : list Q) : Q :=
  let s := isort Qle_bool l in let n := List.length s in
  if Nat.even n then ((nth (n / 2 - 1) s 0 + nth (n / 2) s 0) / 2)%Q else nth (n / 2) s 0%Q.
Record obs := { o_n_pol : nat; o_n_time : nat; o_bin_offset : list nat; o_n_baselines : nat; o_n_vis : nat;
  o_fbin : list nat; o_freq_center : Q; o_tile_a : list Z; o_tile_b : list Z; o_kpix : Q; o_dimension : Z; o_elements : Z;
  o_degpix : Q; o_max_baseline : Q; o_min_baseline : Q; o_time_use : list bool; o_n_time_flag : nat; o_tile_use : list Z;
  o_n_tile_flag : nat; o_meta : meta }.
(** 48-262 *)
Definition create_obs (s : sky) (tick : Q) (c : config) (h : header) (p : uvpar) (antenna_numbers : list Z)
    (file : option metafits) : result obs :=
  let n_pol := if c_n_pol c =? 0 then d_n_pol h else c_n_pol c in
  let n_freq := List.length (d_freq h) in
  t <- obs_times (u_time p) ;;
  let '(n_time, offsets, n_baselines) := t in
  let avg := match c_nfreq_avg c with Some a => a | None => 1%Q end in
  fbin <- create_fbin (d_freq h) n_freq (avg * d_freq_res h) ;;
  ab <- tiles h p antenna_numbers ;;
  k <- kpix c (deg s) ;;
  de <- dimensions c ;;
  dp <- degpix c (deg s) k ;;
  ext <- extent s c k (fst de) (snd de) (samples (d_freq h) (u_uu p) (u_vv p)) ;;
  m <- read_metafits s tick c h {| u_time := u_time p; u_ant1 := fst ab; u_ant2 := snd ab; u_baseline := u_baseline p;
                                   u_uu := u_uu p; u_vv := u_vv p |} (d_n_tile h) (fst de) (snd de) dp file ;;
  use <- time_use n_time (m_time_res m) c ;;
  let tile_use := map (fun f => (1 - f)%Z) (m_tile_flag m) in
  Ok {| o_n_pol := n_pol; o_n_time := n_time; o_bin_offset := offsets; o_n_baselines := n_baselines;
        o_n_vis := List.length (u_time p) * n_freq; o_fbin := fbin; o_freq_center := median (d_freq h);
        o_tile_a := fst ab; o_tile_b := snd ab; o_kpix := k; o_dimension := fst de; o_elements := snd de; o_degpix := dp;
        o_max_baseline := fst ext; o_min_baseline := snd ext; o_time_use := use;
        o_n_time_flag := n_time - List.length (filter (fun b => b) use);
        o_tile_use := tile_use; o_n_tile_flag := List.length (filter (fun x => (x =? 0)%Z) tile_use); o_meta := m |}.
