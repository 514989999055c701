(** What a user of vis_cal_bandpass relies on. *)
From Verif Require Import Base Cplx VisWeights CalFlagSpec.
Open Scope nat_scope.

Definition used (use : list Z) (k : nat) : Prop := nth k use 0%Z <> 0%Z.

(** Some cable length has no used tile, so that everything is averaged together. *)
Definition empty_group (tile_use cable : list Z) : Prop :=
  exists c, In c cable /\ forall t, used tile_use t -> nth t cable 0%Z <> c.

(** The tiles averaged with tile [t]: all used ones, or those with its cable length. *)
Definition averaged_with (tile_use : list Z) (cable : option (list Z)) (auto_ratio : bool) (t s : nat) : Prop :=
  used tile_use s /\
  match cable with
  | None => True
  | Some c => auto_ratio = true \/ empty_group tile_use c \/ nth s c 0%Z = nth t c 0%Z
  end.
(** [group] lists them in order. *)
Definition group_of (tile_use : list Z) (cable : option (list Z)) (auto_ratio : bool) (t : nat) (group : list nat) : Prop :=
  StronglySorted lt group /\ forall s, In s group <-> averaged_with tile_use cable auto_ratio t s.

(** The bandpass: the average over the group of the amplitudes, each tile's amplitudes first divided by
    their average over the used frequencies. *)
Definition tile_mean (cabs : C -> Qc) (avg : list (option Qc) -> option Qc) (gain : arr3 (option C))
    (freqs : list nat) (p t : nat) : option Qc :=
  avg (map (fun f => option_map cabs (at3 gain p f t)) freqs).
Definition bandpass_value (cabs : C -> Qc) (avg : list (option Qc) -> option Qc) (gain : arr3 (option C))
    (freqs group : list nat) (p f : nat) : option Qc :=
  avg (map (fun t => match tile_mean cabs avg gain freqs p t, at3 gain p f t with
                     | Some m, Some g => Some (cabs g / m)%Qc   (* 0 when the mean m is 0 *)
                     | Some m, None => if Qc_eq_dec m 0 then Some 0%Qc else None
                     | None, _ => None
                     end) group).
