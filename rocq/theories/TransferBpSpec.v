(** Specification of the transfer of a bandpass (C85, C86). *)
From Coq Require Import String.
From Verif Require Import Base Cplx VisWeights Obs TransferBp.
Import ListNotations.
Open Scope nat_scope.
Open Scope list_scope.

(** The header cards every file needs whatever its axes. *)
Definition has_cards (f : calfits) : Prop :=
  (exists n, c_int f "njones" = Some n) /\ (exists x, c_num f "inttime" = Some x) /\ (exists x, c_num f "chwidth" = Some x)
  /\ (exists s, c_str f "xorient" = Some s)
  /\ (forall k, In k ["crval2"; "crval3"; "crval4"; "cdelt2"; "cdelt3"] -> exists x, c_num f k = Some x)%string.

(** The axes of the file, from the first FITS axis on: names and lengths. *)
Definition axes (f : calfits) (l : list (string * nat)) : Prop :=
  c_int f "naxis" = Some (List.length l)
  /\ (forall k name n, nth_error l k = Some (name, n) ->
        c_str f (numbered "ctype" (S k)) = Some name /\ c_int f (numbered "naxis" (S k)) = Some n)
  /\ nd_shape (c_data f) = rev (map snd l).
(** A gain calibration with the axes of the standard, for so many tiles, channels, times, polarisations; n_data is 3 or
    more: real part, imaginary part, flags. The entry of a tile, channel, time and polarisation is
    nd_at (c_data f) [tile; channel; time; polarisation; k] with k = 0 and 1 for the two parts. *)
Definition calibration (f : calfits) (tiles channels times pols n_data : nat) : Prop :=
  has_cards f /\ (exists s, c_str f "caltype" = Some s /\ contains "delay" s = false)
  /\ axes f [("narrays", n_data); ("jones", pols); ("time", times); ("freqs", channels); ("antaxis", tiles)]%string.
Definition part (f : calfits) (tile channel pol k : nat) : Q := nd_at (c_data f) [tile; channel; 0; pol; k].
(** Same channel width as the observation. *)
Definition same_width (f : calfits) (o : bp_obs) : Prop := exists w, c_num f "chwidth" = Some w /\ (w == b_freq_res o)%Q.
Definition oriented (f : calfits) (s : string) : Prop := c_str f "xorient" = Some s.
(** The gains of the calibration have the frequencies and tiles of the observation. *)
Definition gains_of (o : bp_obs) (gain : arr3 (option C)) : Prop :=
  d_pol gain = Nat.min (b_pol o) 2 /\ d_freq gain = b_freq o /\ d_bl gain = b_tile o.
