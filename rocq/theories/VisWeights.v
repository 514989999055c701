(** Model of the visibility weight functions of PyFHD/pyfhd_tools/pyfhd_utils.py:
    vis_weights_update (1106-1211), split_vis_weights (1214-1287) and vis_noise_calc
    (1290-1337).  Floats are exact rationals. *)
From Verif Require Import Base Histogram ArrayMatch NpArr GridLoc.
Open Scope nat_scope.

(** A 3-D array [polarisation, frequency, baseline]; only indices inside the shape are
    meaningful. *)
Record arr3 (A : Type) := Arr3 { d_pol : nat; d_freq : nat; d_bl : nat; at3 : nat -> nat -> nat -> A }.
Arguments Arr3 {A}. Arguments d_pol {A}. Arguments d_freq {A}. Arguments d_bl {A}. Arguments at3 {A}.

(** [vis_weights[0:n_pol, f, b] = 0] at the positions selected by [mask]. *)
Definition zero_at (n_pol : nat) (mask : nat -> nat -> bool) (w : arr3 Q) : arr3 Q :=
  Arr3 (d_pol w) (d_freq w) (d_bl w)
       (fun p f b => if (p <? n_pol) && mask f b then 0%Q else at3 w p f b).

(** A 2-D array read in C order. *)
Definition flat2 {A} (n m : nat) (f : nat -> nat -> A) : list A :=
  flat_map (fun i => map (f i) (seq 0 m)) (seq 0 n).

Definition memn (k : nat) (l : list nat) : bool := existsb (Nat.eqb k) l.

(** The fields of obs and obs["baseline_info"] that are read. *)
Record wobs := {
  o_kpix : Q; o_freq : list Q;
  o_min_baseline : Q; o_max_baseline : Q;
  o_dimension : Z; o_elements : Z;
  o_n_pol : nat;
  o_freq_use : list Z; o_tile_use : list Z; o_time_use : list Z;
  o_tile_a : list Z; o_tile_b : list Z;
  o_bin_offset : list nat }.

(** What the call writes into obs: n_vis, and n_time_flag, n_tile_flag, n_freq_flag when
    they are written. *)
Record wcounts := { c_n_vis : nat; c_flags : option (Z * Z * Z) }.

(** An index array applied to an axis of size [n]. *)
Definition in_axis (n : nat) (l : list nat) : result unit :=
  if forallb (fun i => i <? n) l then Ok tt else Err IndexError.

(** lines 1148, 1150: [floor(cen) + size/2 - (psf_dim/2 - 1)] *)
Definition corner (cen : Q) (size psf_dim : Z) : Q :=
  (inject_Z (Qfloor cen) + inject_Z size / 2 - (inject_Z psf_dim / 2 - 1))%Q.
(** lines 1153, 1159 *)
Definition off_range (lo : Q) (size psf_dim : Z) : bool :=
  Qle_bool lo 0 || Qle_bool (inject_Z (size - 1)) (lo + inject_Z psf_dim - 1)%Q.

(** lines 1180-1184: the time index of every baseline *)
Definition time_bins (n_times : nat) (offs : list nat) : result (nat -> nat) :=
  fold_res (fun tb ti =>
      if S ti <? length offs
      then Ok (fun b => if (nth ti offs 0 <=? b) && (b <? nth (S ti) offs 0) then ti else tb b)
      else Err IndexError)
    (seq 0 n_times) (fun _ => 0).

Definition is0 (z : Z) : bool := (z =? 0)%Z.

(** lines 1130-1140: the reflected uv position of baseline b, in pixels *)
Definition k_of (o : wobs) (l : list Q) (b : nat) : Q := (nth b l 0 / o_kpix o)%Q.
Definition kx_of (o : wobs) (uu vv : list Q) (b : nat) : Q :=
  if Qltb 0 (k_of o vv b) then (- k_of o uu b)%Q else k_of o uu b.
Definition ky_of (o : wobs) (vv : list Q) (b : nat) : Q :=
  if Qltb 0 (k_of o vv b) then (- k_of o vv b)%Q else k_of o vv b.
(** lines 1132-1136: the distance test, with squares instead of square roots
    (GridLoc.scaled_sqrt_lt) *)
Definition far (o : wobs) (uu vv : list Q) (f b : nat) : bool :=
  let s := (k_of o uu b * k_of o uu b + k_of o vv b * k_of o vv b)%Q in
  scaled_sqrt_lt (nth f (o_freq o) 0%Q * o_kpix o) s (o_min_baseline o)
  || scaled_sqrt_lt (- (nth f (o_freq o) 0%Q * o_kpix o)) s (- o_max_baseline o).
(** lines 1144-1150 *)
Definition xmin0 (o : wobs) (psf_dim : Z) (uu vv : list Q) (f b : nat) : Q :=
  corner (nth f (o_freq o) 0 * kx_of o uu vv b)%Q (o_dimension o) psf_dim.
Definition ymin0 (o : wobs) (psf_dim : Z) (vv : list Q) (f b : nat) : Q :=
  corner (nth f (o_freq o) 0 * ky_of o vv b)%Q (o_elements o) psf_dim.
(** lines 1152-1170: the visibilities whose xmin and ymin are set to -1; the y test sees the
    ymin already set to -1 by the x test *)
Definition bad (o : wobs) (psf_dim : Z) (uu vv : list Q) (f b : nat) : bool :=
  let badx := off_range (xmin0 o psf_dim uu vv f b) (o_dimension o) psf_dim in
  let ymin1 := if badx then (- (1))%Q else ymin0 o psf_dim vv f b in
  badx || off_range ymin1 (o_elements o) psf_dim || far o uu vv f b.

(** pyfhd_utils.py:1130-1211.  [vis_weights] is updated in place and returned. *)
Definition vis_weights_update (w : arr3 Q) (o : wobs) (psf_dim : Z) (uu vv : list Q)
  : result (arr3 Q * wcounts) :=
  let nf := length (o_freq o) in
  let nb := length uu in
  if negb (length vv =? nb) then Err ValueError else
  let xmin f b := if bad o psf_dim uu vv f b then (- (1))%Q else xmin0 o psf_dim uu vv f b in
  let ymin f b := if bad o psf_dim uu vv f b then (- (1))%Q else ymin0 o psf_dim vv f b in
  (* 1173-1175 *)
  let freq_cut := where_ is0 (o_freq_use o) in
  _ <- in_axis (d_freq w) freq_cut ;;
  let w := zero_at (o_n_pol o) (fun f _ => memn f freq_cut) w in
  (* 1176-1184: np.size(-1) is 1, so the scalar -1 of a failed match is used as an index *)
  let tile_cut := where_ is0 (o_tile_use o) in
  w <- match tile_cut with
       | [] => Ok w
       | _ =>
         bi <- array_match (o_tile_a o)
                 (Some (map (fun i => (Z.of_nat i + 1)%Z) tile_cut)) (Some (o_tile_b o)) ;;
         match bi with
         | MinusOne =>
             if d_bl w =? 0 then Err IndexError
             else Ok (zero_at (o_n_pol o) (fun _ b => b =? d_bl w - 1) w)
         | Indices bi =>
             _ <- in_axis (d_bl w) bi ;;
             Ok (zero_at (o_n_pol o) (fun _ b => memn b bi) w)
         end
       end ;;
  (* 1186-1194 *)
  let time_cut := where_ is0 (o_time_use o) in
  tb <- time_bins (length (o_time_use o)) (o_bin_offset o ++ [nb]) ;;
  w <- fold_res (fun w t =>
         let cut := filter (fun b => tb b =? t) (seq 0 nb) in
         _ <- in_axis (d_bl w) cut ;;
         Ok (zero_at (o_n_pol o) (fun _ b => memn b cut) w)) time_cut w ;;
  (* 1196-1202 *)
  if d_pol w =? 0 then Err IndexError else
  let flag f b := Qle_bool (at3 w 0 f b) 0 in
  _ <- in_axis (d_freq w) (map fst (filter (fun p => Qltb (xmin (fst p) (snd p)) 0) (flat2 nf nb pair))) ;;
  _ <- in_axis (d_bl w) (map snd (filter (fun p => Qltb (xmin (fst p) (snd p)) 0) (flat2 nf nb pair))) ;;
  let w' := zero_at (o_n_pol o) (fun f b => Qltb (xmin f b) 0) w in
  _ <- in_axis nf (map fst (filter (fun p => flag (fst p) (snd p)) (flat2 (d_freq w) (d_bl w) pair))) ;;
  _ <- in_axis nb (map snd (filter (fun p => flag (fst p) (snd p)) (flat2 (d_freq w) (d_bl w) pair))) ;;
  let xm f b := if flag f b then (- (1))%Q else xmin f b in
  let ym f b := if flag f b then (- (1))%Q else ymin f b in
  (* 1204-1211 *)
  mx <- np_max (flat2 nf nb xm) ;;
  my <- np_max (flat2 nf nb ym) ;;
  if Qltb mx 0 || Qltb my 0 then Ok (w', {| c_n_vis := 0; c_flags := None |})
  else
    '(bin_n, _, _) <- histogram (flat2 nf nb (fun f b => (xm f b + ym f b * inject_Z (o_dimension o))%Q))
                        1 None (Some 0%Q) None ;;
    let flags l := sum_Z (map (fun z => (1 - z)%Z) l) in
    Ok (w', {| c_n_vis := sum_nat bin_n;
               c_flags := Some (flags (o_time_use o), flags (o_tile_use o), flags (o_freq_use o)) |}).

(** ** split_vis_weights *)

(** lines 1237-1240: the baselines of time t are [bin_offset[t], bin_end[t]]; the last time ends
    at the last baseline. *)
Definition bin_stop (n_time nb : nat) (offs : list nat) (t : nat) : nat :=
  if t =? n_time - 1 then nb else nth (S t) offs 0.

(** lines 1241-1243: only the first n_time // 2 times are numbered. *)
Definition bin_numbers (n_time nb : nat) (offs : list nat) : list Z :=
  map (fun b => fold_left (fun acc t =>
                   if (nth t offs 0 <=? b) && (b <? bin_stop n_time nb offs t) then Z.of_nat t else acc)
                 (seq 0 (n_time / 2)) (-1)%Z)
      (seq 0 nb).

(** lines 1245-1256: times are paired from the first usable one; a time keeps its flag only
    when its partner is usable as well. [time_use] is taken to have n_time entries. *)
Definition paired_use (n_time : nat) (time_use : list Z) (start : nat) : list Z :=
  let nt3 := (n_time - start) / 2 * 2 in
  map (fun t =>
         if (start <=? t) && (t <? start + nt3)
         then let a := start + (t - start) / 2 * 2 in
              (nth a time_use 0%Z * nth (a + 1) time_use 0%Z)%Z
         else 0%Z)
      (seq 0 (length time_use)).

Definition Qmax0 (x : Q) : Q := if Qle_bool 0 x then x else 0%Q.
Definition Qmin (x y : Q) : Q := if Qle_bool x y then x else y.

(** pyfhd_utils.py:1233-1287.  [None]: n_time < 2, only the weights are returned. The offsets are
    taken inside the baseline axis. *)
Definition split_vis_weights (n_time n_pol : nat) (offs : list nat) (time_use : list Z) (w : arr3 Q)
  : result (arr3 Q * option (list nat * list nat)) :=
  if n_time <? 2 then Ok (w, None) else
  let nb := d_bl w in
  if length offs <? n_time then Err ValueError else
  let bin_i := bin_numbers n_time nb offs in
  match where_ (fun z => negb (is0 z)) time_use with
  | [] => Err ValueError
  | start :: _ =>
    let use := paired_use n_time time_use start in
    let cut := where_ (fun z => (z <=? 0)%Z) use in
    let bin_i := map (fun z => if existsb (fun c => (z =? Z.of_nat c)%Z) cut then (-1)%Z else z) bin_i in
    let even := where_ (fun z => (z mod 2 =? 0)%Z) bin_i in
    let odd := where_ (fun z => (z mod 2 =? 1)%Z) bin_i in
    let n := Nat.min (length even) (length odd) in
    let even := firstn n even in
    let odd := firstn n odd in
    if d_pol w <? n_pol then Err IndexError else
    let flag_use p f i := Qmin (Qmax0 (at3 w p f (nth i even 0))) (Qmin (at3 w p f (nth i odd 0)) 1) in
    let find l b := hd_error (filter (fun i => nth i l 0 =? b) (seq 0 n)) in
    Ok (Arr3 (d_pol w) (d_freq w) nb
          (fun p f b =>
             if p <? n_pol then
               match find odd b with
               | Some i => flag_use p f i
               | None => match find even b with Some i => flag_use p f i | None => 0%Q end
               end
             else at3 w p f b),
        Some (even, odd))
  end.

(** ** vis_noise_calc *)

Definition Qsum (l : list Q) : Q := fold_right Qplus 0%Q l.
Definition Qmean (l : list Q) : Q := (Qsum l / inject_Z (Z.of_nat (length l)))%Q.
(** Population variance: np.std squared. *)
Definition Qvar (l : list Q) : Q := Qmean (map (fun x => (x - Qmean l) * (x - Qmean l))%Q l).

(** pyfhd_utils.py:1310-1337.  The result is the square of noise_arr: var / 2 instead of
    std / sqrt 2.  [imag] is the imaginary part of vis_arr.  Indices are taken inside the axes. *)
Definition vis_noise_sq (n_time n_pol n_freq : nat) (offs : list nat) (time_use : list Z)
                        (imag w : arr3 Q) (bi_use : option (list nat * list nat))
  : result (arr2 Q) :=
  if n_time <? 2 then Ok (Arr2 n_pol n_freq (fun _ _ => 0%Q)) else
  '(w, bi) <- match bi_use with
              | Some bi => Ok (w, bi)
              | None =>
                  '(w', r) <- split_vis_weights n_time n_pol offs time_use w ;;
                  match r with Some bi => Ok (w', bi) | None => Err ValueError end
              end ;;
  let '(even, odd) := bi in
  if negb (length even =? length odd) then Err ValueError else
  Ok (Arr2 n_pol n_freq (fun p f =>
        let pairs := combine even odd in
        let good := filter (fun eo =>
              negb (Qeq_bool (Qmax0 (at3 w p f (fst eo)) * Qmax0 (at3 w p f (snd eo))) 0)) pairs in
        match good with
        | [] => 0%Q
        | _ => (Qvar (map (fun eo => at3 imag p f (fst eo) - at3 imag p f (snd eo))%Q good) / 2)%Q
        end)).
