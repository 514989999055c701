(** What a layout should hold. *)
From Coq Require Import String.
From Verif Require Import Base Layout.
Import ListNotations.
Open Scope list_scope.
Open Scope string_scope.

(** Entries of the layout, the header card each comes from and the documented value without it. *)
Definition header_entries : list (string * string * lval) :=
  [("coordinate_frame", "frame", LText "IRTF"); ("gst0", "gstia0", LNum (-1)); ("earth_degpd", "degpdy", LNum (360985 # 1000));
   ("refdate", "rdate", LNum (-1)); ("dut1", "ut1utc", LNum 0); ("diff_utc", "datutc", LNum 0);
   ("pol_type", "poltype", LText "X-Y LIN"); ("n_pol_cal_params", "nopcal", LNum 0); ("n_antenna", "naxis2", LNum 128)].

(** Entries that are columns of the table, as they are; and per-antenna entries kept as one number if it is the same for
    all antennas. *)
Definition column_entries : list (string * string) :=
  [("antenna_names", "anname"); ("antenna_numbers", "nosta"); ("antenna_coords", "stabxyz"); ("pola", "poltya");
   ("pola_cal_params", "polcala"); ("polb", "poltyb"); ("polb_cal_params", "polcalb"); ("diameters", "diameter"); ("beam_fwhm", "beamfwhm")].
Definition constant_entries : list (string * string * Q) :=
  [("mount_type", "mntsta", 0%Q); ("axis_offset", "staxof", 0%Q); ("pola_orientation", "polaa", 0%Q); ("polb_orientation", "polab", 90%Q)].

(** The value for antenna [i] an entry stands for. *)
Definition for_antenna (v : lval) (i : nat) : option (option Q) :=
  match v with LNum q => Some (Some q) | LCol l => nth_error l i | _ => None end.
Definition same (a b : option (option Q)) : Prop :=
  match a, b with Some (Some x), Some (Some y) => (x == y)%Q | _, _ => a = b end.

(** A header and table with the values where they belong: names are texts, numbers numbers, counts counts. *)
Definition count (v : lval) : Prop := exists n : nat, v = LNum (inject_Z (Z.of_nat n)).
Definition well_typed (h d : table) : Prop :=
  (forall v, h "timesys" = Some v -> exists t, v = LText t) /\ (forall v, h "timsys" = Some v -> exists t, v = LText t)
  /\ (forall v, h "nopcal" = Some v -> count v) /\ (forall v, h "naxis2" = Some v -> count v)
  /\ (forall k c q v, In (k, c, q) constant_entries -> d c = Some v -> exists x r, v = LCol (x :: r)).
