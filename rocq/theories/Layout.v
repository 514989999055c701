(** Model of PyFHD/data_setup/uvfits.py: create_layout and _check_layout_valid.  The header and the columns of the antenna
    table are functions of the name (lower case, as in the code); the result is a dictionary.  Log messages, among them the
    report that an array has another size than the number of antennas, and the final [save] (see H5IO.v) are not represented. *)
From Coq Require Import String Ascii.
From Verif Require Import Base.
Import ListNotations.
Open Scope nat_scope.
Open Scope list_scope.
Open Scope string_scope.

(** Values of header cards, columns and dictionary entries. A column of strings is a chararray, whose type is not
    [np.ndarray]; in a numeric column None is NaN; a column with several numbers per antenna is a list of rows. *)
Inductive lval :=
| LNum (q : Q)
| LText (t : string)
| LPy (l : list lval)
| LChars (l : list string)
| LCol (l : list (option Q))
| LRows (l : list (list (option Q))).
Definition table := string -> option lval.
Definition dict := list (string * lval).

(** [d[k]] and [d[k] = v] *)
Fixpoint get (k : string) (d : dict) : option lval :=
  match d with [] => None | (k', v) :: d => if String.eqb k k' then Some v else get k d end.
Definition set (k : string) (v : lval) (d : dict) : dict := (k, v) :: d.

(** [try: layout[key] = t[name] except KeyError: layout[key] = default] *)
Definition or_default (t : table) (name : string) (default : lval) : lval :=
  match t name with Some v => v | None => default end.

(** str.strip, for blanks *)
Fixpoint lstrip (s : string) : string :=
  match s with String " " r => lstrip r | _ => s end.
Fixpoint rstrip (s : string) : string :=
  match s with
  | EmptyString => EmptyString
  | String c r => match rstrip r with EmptyString => if Ascii.eqb c " " then EmptyString else String c EmptyString | r => String c r end
  end.
Definition strip (v : lval) : result lval :=
  match v with LText t => Ok (LText (rstrip (lstrip t))) | _ => Err AttributeError end.

(** 407-424 *)
Definition mwa_center : lval := LPy [LNum (-255945407880307 # 100000000); LNum (509537214368305 # 100000000); LNum (-284905718534633 # 100000000)].
Definition center (h : table) : lval :=
  match h "arrayx", h "arrayy", h "arrayz" with Some x, Some y, Some z => LPy [x; y; z] | _, _, _ => mwa_center end.
(** 462-473 *)
Definition time_system (h : table) : result lval :=
  match h "timesys" with
  | Some v => strip v
  | None => match h "timsys" with Some v => strip v | None => Ok (LText "UTC") end
  end.
(** 489-502: without IAUTC and with another time system than IAT nothing is stored *)
Definition leap (h : table) (system diff : lval) : option lval :=
  match h "iautc" with
  | Some v => Some v
  | None => match system with LText "IAT" => Some diff | _ => None end
  end.
(** [np.zeros(n)] for a number of a card *)
Definition zeros (n : Q) : result lval :=
  if (Qden n =? 1)%positive then if (Qnum n <? 0)%Z then Err ValueError else Ok (LCol (repeat (Some 0%Q) (Z.to_nat (Qnum n))))
  else Err TypeError.
(** 583-594, 612-623 *)
Definition cal_params (d : table) (name : string) (n_params : lval) : result lval :=
  match d name with
  | Some v => Ok v
  | None =>
    match n_params with
    | LNum n => if Qlt_le_dec 1 n then zeros n else Ok (LNum 0)
    | _ => Err TypeError
    end
  end.
(** 530-533: [np.arange(n).astype(str)]; the digits are not represented, only their number *)
Definition count_of (v : lval) : result nat :=
  match v with LNum n => if (Qden n =? 1)%positive then Ok (Z.to_nat (Qnum n)) else Err TypeError | _ => Err TypeError end.
Definition names (d : table) (digits : nat -> string) (n_antenna : lval) : result lval :=
  match d "anname" with
  | Some v => Ok v
  | None => n <- count_of n_antenna ;; Ok (LChars (map digits (seq 0 n)))
  end.
(** 535-542: [layout.warning] on a dictionary *)
Definition numbers (d : table) : result lval :=
  match d "nosta" with Some v => Ok v | None => Err AttributeError end.
(** 544-551 *)
Definition coords (d : table) (n_antenna : lval) : result lval :=
  match d "stabxyz" with
  | Some v => Ok v
  | None => n <- count_of n_antenna ;; Ok (LRows (repeat [Some 0%Q; Some 0%Q; Some 0%Q] n))
  end.

(** _check_layout_valid 364-368 with check_min_max: an array whose minimum is its maximum becomes its first element *)
Definition qeq (a b : option Q) : bool := match a, b with Some a, Some b => Qeq_bool a b | _, _ => false end.
Definition constant (l : list (option Q)) : result bool :=
  match l with [] => Err ValueError | x :: r => Ok (forallb (qeq x) (x :: r)) end.
Definition collapse (v : lval) : result lval :=
  match v with
  | LCol l => c <- constant l ;; Ok (if c then match l with Some q :: _ => LNum q | _ => v end else v)
  | LRows l => c <- constant (List.concat l) ;; Ok (if c then LCol (hd [] l) else v)
  | _ => Ok v
  end.

(** 405-639 *)
Definition create_layout (digits : nat -> string) (h d : table) : result dict :=
  ts <- time_system h ;;
  let diff := or_default h "datutc" (LNum 0) in
  let n_params := or_default h "nopcal" (LNum 0) in
  let n_antenna := or_default h "naxis2" (LNum 128) in
  nm <- names d digits n_antenna ;;
  no <- numbers d ;;
  xyz <- coords d n_antenna ;;
  let mount := or_default d "mntsta" (LNum 0) in
  let offset := or_default d "staxof" (LNum 0) in
  let pola := or_default d "poltya" (LText "X") in
  let oa := or_default d "polaa" (LNum 0) in
  pa <- cal_params d "polcala" n_params ;;
  let polb := or_default d "poltyb" (LText "Y") in
  let ob := or_default d "polab" (LNum 90) in
  pb <- cal_params d "polcalb" n_params ;;
  mount <- collapse mount ;; offset <- collapse offset ;; oa <- collapse oa ;; ob <- collapse ob ;;
  let l : dict :=
    [("array_center", center h); ("coordinate_frame", or_default h "frame" (LText "IRTF"));
     ("gst0", or_default h "gstia0" (LNum (-1))); ("earth_degpd", or_default h "degpdy" (LNum (360985 # 1000)));
     ("refdate", or_default h "rdate" (LNum (-1))); ("time_system", ts); ("dut1", or_default h "ut1utc" (LNum 0));
     ("diff_utc", diff); ("pol_type", or_default h "poltype" (LText "X-Y LIN")); ("n_pol_cal_params", n_params);
     ("n_antenna", n_antenna); ("antenna_names", nm); ("antenna_numbers", no); ("antenna_coords", xyz);
     ("mount_type", mount); ("axis_offset", offset); ("pola", pola); ("pola_orientation", oa); ("pola_cal_params", pa);
     ("polb", polb); ("polb_orientation", ob); ("polb_cal_params", pb)] in
  let l := match leap h ts diff with Some v => set "nleap_sec" v l | None => l end in
  let l := match d "diameter" with Some v => set "diameters" v l | None => l end in
  let l := match d "beamfwhm" with Some v => set "beam_fwhm" v l | None => l end in
  Ok l.
