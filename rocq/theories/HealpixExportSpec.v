(** Channels averaged into the output frequency [i]: the used ones of i*n_avg .. (i+1)*n_avg - 1. *)
From Verif Require Import Base.
Open Scope nat_scope.

Definition block (n_freq n_avg : nat) (freq_use : list Z) (i : nat) : list nat :=
  filter (fun c => (i * n_avg <=? c) && (c <? (i + 1) * n_avg) && (0 <? nth c freq_use 0%Z)%Z) (seq 0 n_freq).

From Verif Require Import HealpixExport.
(** What the gridder gives for a list of channels: nothing without channels, or when it returns the empty dictionary. *)
Definition gridding {P} (o : ops P) (bi channels : list nat) : option (gridded P) :=
  match channels with [] => None | _ => match op_grid o channels bi with Ok (Some g) => Some g | _ => None end end.
Definition count_of {P} (o : ops P) (bi channels : list nat) : nat :=
  match gridding o bi channels with Some g => g_n_vis g | None => 0 end.
(** The planes of one output frequency, times the number of visibilities; zero if nothing was gridded. *)
Definition is_cube {P} (o : ops P) (fft : bool) (bi channels : list nat) (c : planes P) : Prop :=
  match gridding o bi channels with
  | None => c = Planes (op_zero o) (op_zero o) (op_zero o) (op_zero o)
  | Some g =>
      let value p q := exists y, (if fft then op_image o p = Ok y else y = p) /\ q = op_scale o (g_n_vis g) y in
      value (g_image g) (pl_dirty c) /\ value (op_rephase o (g_weights g)) (pl_weights c)
      /\ value (op_rephase o (g_variance g)) (pl_variance c) /\ value (g_model g) (pl_model c)
  end.

(** One exported file: the maps of each output frequency, made from the channels of that frequency and the baselines [bi]. *)
Definition map_of {P M} (x : export_in P M) (plane : P) (maps : list M) (i : nat) : Prop :=
  exists m, x_cnv x plane = Ok m /\ nth_error maps i = Some m.
Definition file_holds {P M} (x : export_in P M) (bi : list nat) (pol n_maps : nat) (f : hpx_file M) : Prop :=
  let B := block (x_n_freq x) (x_n_avg x) (x_freq_use x) in
  length (f_beam f) = n_maps /\ length (f_weights f) = n_maps /\ length (f_variance f) = n_maps /\ length (f_model f) = n_maps
  /\ forall i, i < n_maps -> exists c beam cube,
       is_cube (x_ops x pol) true bi (B i) c
       /\ map_of x (pl_weights c) (f_weights f) i /\ map_of x (pl_variance c) (f_variance f) i
       /\ map_of x (pl_model c) (f_model f) i
       /\ x_beam x pol i = Ok beam
       /\ map_of x (x_scale x (sum_nat (map (fun k => nth (i * x_n_avg x + k) (f_nf f) 0) (seq 0 (x_n_avg x)))) beam) (f_beam f) i
       /\ map_of x (pl_dirty c) cube i /\ length cube = n_maps
       /\ (if negb (x_residual x) && x_has_model x then f_dirty f = Some cube /\ f_res f = None
           else f_dirty f = None /\ f_res f = Some cube).
