(** Model of PyFHD/flagging/flagging.py: vis_flag_tiles (7-61), vis_flag_basic (64-207) and
    vis_flag (210-359). *)
From Coq Require Import Qabs.
From Verif Require Import Base SortLib Histogram ArrayMatch NpArr PyIndex GridLoc VisWeights.
Open Scope nat_scope.

(** pyfhd_config entries that are read.  [None] stands for a falsy option (None or 0).
    [f_flag_tiles]: for every entry of flag_tiles, whether it is a string naming a tile. *)
Record fconfig := {
  f_freq_start : option Q; f_freq_end : option Q;
  f_flag_tiles : list bool; f_flag_frequencies : bool }.

(** obs entries that are read; [b_freq] is in Hz. *)
Record fobs := {
  b_freq : list Q; b_n_pol : nat; b_n_freq : nat; b_n_tile : nat; b_n_time : nat;
  b_tile_a : list Z; b_tile_b : list Z;
  b_tile_use : list Z; b_freq_use : list Z; b_time_use : list Z; b_bin_offset : list nat }.

(** The obs entries that are written. *)
Record fout := {
  r_tile_use : list Z; r_freq_use : list Z;
  r_n_time_flag : nat; r_n_tile_flag : nat; r_n_freq_flag : nat }.

(** flagging.py:33-61. A found name calls [append] on a NumPy array (40), which has no such
    method; without one the histogram of the empty list (47) is taken. The statements after
    line 47 are reached only if neither fails; they are not modelled and the theorem
    C22_flag_tiles_refuted shows that they are never reached. *)
Definition vis_flag_tiles (o : fobs) (found : list bool) : result unit :=
  if existsb (fun x => x) found then Err AttributeError
  else
    _ <- histogram (injs (b_tile_a o)) 1 None (Some 1%Q) None ;;
    _ <- histogram (injs (b_tile_b o)) 1 None (Some 1%Q) None ;;
    _ <- histogram [] 1 None (Some 1%Q) None ;;
    Ok tt.

(** lines 104-120: channels below flag_freq_start or above flag_freq_end, in MHz *)
Definition freq_cut (o : fobs) (c : fconfig) (f : nat) : bool :=
  let mhz := (nth f (b_freq o) 0 / 1000000)%Q in
  match f_freq_start c with Some s => Qltb mhz s | None => false end
  || match f_freq_end c with Some e => Qltb e mhz | None => false end.

(** lines 130-140: the edges of the coarse channels. A modulus of 0 gives 0 in NumPy. *)
Definition edge_cut (n_freq : nat) (f : nat) : result bool :=
  if n_freq =? 0 then Err ZeroDivision else
  let freq_avg := (768 / Z.of_nat n_freq)%Z in
  if (freq_avg =? 0)%Z then Err ZeroDivision else
  let edge := Qceiling (2 / inject_Z freq_avg) in
  let coarse := (32 / freq_avg)%Z in
  let fine := if (coarse =? 0)%Z then 0%Z else (Z.of_nat f mod coarse)%Z in
  Ok (Z.min fine (coarse - 1 - fine) <? edge)%Z.

(** [vis_weight_arr[:, np.where(cut), :] = 0], [cut] being an array of [n] channels *)
Definition zero_freqs (n : nat) (cut : nat -> bool) (w : arr3 Q) : result (arr3 Q) :=
  if existsb (fun f => (d_freq w <=? f) && cut f) (seq 0 n) then Err IndexError
  else Ok (Arr3 (d_pol w) (d_freq w) (d_bl w) (fun p f b => if (f <? n) && cut f then 0%Q else at3 w p f b)).

(** [np.max(w[p], axis) > 0] *)
Definition bl_ok (w : arr3 Q) (p b : nat) : bool :=
  existsb (fun f => Qltb 0 (at3 w p f b)) (seq 0 (d_freq w)).
Definition fq_ok (w : arr3 Q) (p f : nat) : bool :=
  existsb (fun b => Qltb 0 (at3 w p f b)) (seq 0 (d_bl w)).

(** lines 146-164: a frequency (tile) is used when every polarisation has a positive weight for it *)
Definition freq_use_of (o : fobs) (w : arr3 Q) : list Z :=
  map (fun f => if forallb (fun p => fq_ok w p f) (seq 0 (b_n_pol o)) then 1%Z else 0%Z)
      (seq 0 (b_n_freq o)).
Definition tile_marks (n_tile : nat) (tiles : list Z) (bi : list nat) (u : list Z) : result (list Z) :=
  fold_res (fun u b =>
      if b <? length tiles
      then k <- norm_index n_tile (nth b tiles 0 - 1)%Z ;; Ok (upd u k 1%Z)
      else Err IndexError) bi u.
Definition tile_use_of (o : fobs) (w : arr3 Q) : result (list Z) :=
  fold_res (fun u p =>
      let bi := filter (bl_ok w p) (seq 0 (d_bl w)) in
      t <- tile_marks (b_n_tile o) (b_tile_a o) bi (repeat 0%Z (b_n_tile o)) ;;
      t <- tile_marks (b_n_tile o) (b_tile_b o) bi t ;;
      Ok (map (fun x => (fst x * snd x)%Z) (combine u t)))
    (seq 0 (b_n_pol o)) (repeat 1%Z (b_n_tile o)).

(** lines 171-189: fully flagged channels are restored where the data are non-zero; the flags
    of the baselines are those before the loop over the channels. *)
Definition unflag (o : fobs) (nz : nat -> nat -> nat -> bool) (w : arr3 Q) : arr3 Q :=
  Arr3 (d_pol w) (d_freq w) (d_bl w) (fun p f b =>
    if (p <? b_n_pol o) && negb (fq_ok w p f) && bl_ok w p b && nz p f b then 1%Q else at3 w p f b).

(** lines 191-199: [bin_offset[ti] : bin_offset[ti + 1] - 1]; the slice stops one short of the
    last baseline of the time. *)
Definition time_cut (o : fobs) (w : arr3 Q) : result (arr3 Q) :=
  let n := length (b_tile_a o) in
  let offs := b_bin_offset o ++ [n] in
  fold_res (fun w ti =>
      if negb (ti <? length (b_time_use o)) then Err IndexError
      else if (0 <? nth ti (b_time_use o) 0)%Z then Ok w
      else if negb (S ti <? length offs) then Err IndexError
      else
        let hi := if nth (S ti) offs 0 =? 0 then d_bl w - 1 else nth (S ti) offs 0 - 1 in
        Ok (Arr3 (d_pol w) (d_freq w) (d_bl w)
              (fun p f b => if (nth ti offs 0 <=? b) && (b <? hi) then 0%Q else at3 w p f b)))
    (seq 0 (b_n_time o)) w.

(** lines 201-208: bitwise and with the previous flags *)
Definition combine_use (new old : list Z) : result (list Z) :=
  if negb (length new =? length old) then Err ValueError
  else Ok (map (fun x => if (Z.land (fst x) (snd x) =? 0)%Z then 0%Z else 1%Z) (combine new old)).

Definition zeros (l : list Z) : nat := length (filter (fun z => (z =? 0)%Z) l).

(** flagging.py:99-207. [nz p f b]: the visibility is not 0.  An empty array is taken to make
    np.max fail. *)
Definition vis_flag_basic (w : arr3 Q) (nz : nat -> nat -> nat -> bool) (o : fobs) (c : fconfig)
  : result (arr3 Q * fout) :=
  w <- zero_freqs (length (b_freq o)) (freq_cut o c) w ;;
  _ <- match f_flag_tiles c with [] => Ok tt | l => vis_flag_tiles o l end ;;
  w <- (if f_flag_frequencies c then
          cuts <- map_res (edge_cut (b_n_freq o)) (seq 0 (b_n_freq o)) ;;
          _ <- edge_cut (b_n_freq o) 0 ;;
          zero_freqs (b_n_freq o) (fun f => nth f cuts false) w
        else Ok w) ;;
  if (d_freq w =? 0) || (d_bl w =? 0) then Err ValueError else
  if d_pol w <? b_n_pol o then Err IndexError else
  if existsb (fun f => existsb (fun p => fq_ok w p f) (seq 0 (b_n_pol o)))
       (seq (b_n_freq o) (d_freq w - b_n_freq o)) then Err IndexError else
  let freq_use := freq_use_of o w in
  tile_use <- tile_use_of o w ;;
  let restore := negb (f_flag_frequencies c) && existsb (fun z => (z =? 0)%Z) freq_use in
  let w := if restore then unflag o nz w else w in
  let freq_use := if f_flag_frequencies c then freq_use else repeat 1%Z (b_n_freq o) in
  w <- (match b_time_use o with
        | [] => Err ValueError
        | _ => if existsb (fun z => (z <=? 0)%Z) (b_time_use o) then time_cut o w else Ok w
        end) ;;
  tile_use' <- combine_use tile_use (b_tile_use o) ;;
  freq_use' <- combine_use freq_use (b_freq_use o) ;;
  Ok (w, {| r_tile_use := tile_use'; r_freq_use := freq_use';
            r_n_time_flag := zeros (b_time_use o);
            r_n_tile_flag := zeros tile_use'; r_n_freq_flag := zeros freq_use' |}).

(** ** vis_flag, flagging.py:210-359 *)

(** pyfhd_utils.py:1383-1385 *)
Definition median_point (l : list Q) : result Q :=
  match nth_error (isort Qle_bool l) ((length l + 1) / 2) with Some v => Ok v | None => Err IndexError end.

(** obs entries read by vis_flag.  [v_far b]: the length of baseline b at the median frequency is
    outside the allowed range (251-256). *)
Record vobs := {
  v_n_pol : nat; v_n_freq : nat; v_tile_a : list Z; v_tile_b : list Z;
  v_tile_use : list Z; v_freq_use : list Z; v_time_use : list Z; v_bin_offset : list nat;
  v_far : nat -> bool }.

Section VisFlag.
  (** [np.std], and the running median of idl_median for a width of at least 1 (1368-1377) *)
  Variable std : list Q -> Q.
  Variable smooth : nat -> list Q -> list Q.
  (** what np.empty returned for tile_fom (260) *)
  Variable junk : nat -> Q.
  (** data_abs (245-247) *)
  Variable dabs : nat -> nat -> Q.

  Definition Qnz (q : Q) : bool := negb (Qeq_bool q 0).

  (** 271-274 and 279-282: the standard deviation of the usable values, if more than 10 *)
  Definition fom_term (test_data : bool) (w : arr3 Q) (cells : list (nat * nat)) (p : nat) : Q :=
    let use := filter (fun x => Qltb 0 (at3 w p (fst x) (snd x))
                        && (negb test_data || Qltb 0 (dabs (fst x) (snd x)))) cells in
    if 10 <? length use then std (map (fun x => dabs (fst x) (snd x)) use) else 0%Q.
  Definition fom (test_data : bool) (n_pol : nat) (w : arr3 Q) (cells : list (nat * nat)) : Q :=
    fold_right Qplus 0%Q (map (fom_term test_data w cells) (seq 0 (Nat.min n_pol 2))).

  (** 261-274.  Baselines of tile t as first tile, then as second. *)
  Definition tile_bl (o : vobs) (t : nat) : list nat :=
    where_ (fun z => (z - 1 =? Z.of_nat t)%Z) (v_tile_a o)
    ++ where_ (fun z => (z - 1 =? Z.of_nat t)%Z) (v_tile_b o).
  Definition tile_fom (o : vobs) (w : arr3 Q) (t : nat) : Q :=
    (junk t + fom true (v_n_pol o) w (list_prod (seq 0 (d_freq w)) (tile_bl o t)))%Q.
  (** 276-282 *)
  Definition freq_fom (o : vobs) (w : arr3 Q) (f : nat) : Q :=
    fom true (v_n_pol o) w (map (fun b => (f, b)) (seq 0 (d_bl w))).
  (** 331-338: no test on the data here *)
  Definition time_fom (o : vobs) (offs : list nat) (w : arr3 Q) (t : nat) : Q :=
    fom false (v_n_pol o) w
        (list_prod (seq 0 (d_freq w))
           (filter (fun b => b <? d_bl w) (seq (nth t offs 0) (nth (S t) offs 0 - nth t offs 0)))).

  (** 284-300 and 339-347: two rounds of median and deviation over a list of figures of merit *)
  Definition outliers (k : Q) (foms : list Q) : result (list nat) :=
    let nzs := filter Qnz foms in
    mean <- median_point nzs ;;
    let dev := std nzs in
    let cut0 := filter (fun x => Qle_bool (Qabs (mean - x)) (6 * dev) || Qnz x)%Q foms in
    mean2 <- median_point cut0 ;;
    let dev2 := std cut0 in
    Ok (where_ (fun x => Qltb (k * dev2) (Qabs (mean2 - x)) || Qeq_bool x 0)%Q foms).

  (** 288-306: frequencies are compared with a running median of width n_freq // 20, or with the
      median when that width is 0 *)
  Definition run_median (n_freq : nat) (l : list Q) : result (nat -> Q) :=
    if n_freq / 20 =? 0 then m <- median_point l ;; Ok (fun _ => m)
    else let s := smooth (n_freq / 20) l in Ok (fun i => nth i s 0%Q).
  Definition freq_outliers (n_freq : nat) (foms : list Q) : result (list nat) :=
    let idx := where_ Qnz foms in
    let nzs := filter Qnz foms in
    m1 <- run_median n_freq nzs ;;
    (** freq_mean: m1 spread over the non-zero positions, 0 elsewhere *)
    let dev := std (map (fun i => nth i nzs 0%Q - m1 i)%Q (seq 0 (length nzs))) in
    let mean f := match find (fun i => nth i idx 0 =? f) (seq 0 (length idx)) with
                  | Some i => m1 i | None => 0%Q end in
    let cut0 := filter (fun f => let x := nth f foms 0%Q in
                  Qle_bool (Qabs (mean f - x)) (6 * dev) || Qnz x)%Q (seq 0 (length foms)) in
    m2 <- run_median n_freq foms ;;
    let dev2 := std (map (fun f => nth f foms 0%Q - m2 f)%Q cut0) in
    Ok (filter (fun f => let x := nth f foms 0%Q in
          Qltb (3 * dev2) (Qabs (m2 f - x)) || Qeq_bool x 0)%Q (seq 0 (length foms))).

  Definition zero_use (l : list Z) (cut : list nat) : result (list Z) :=
    _ <- in_axis (length l) cut ;;
    Ok (map (fun x => if memn (fst x) cut then 0%Z else snd x) (combine (seq 0 (length l)) l)).

  (** flagging.py:244-359: weights, tile_use, freq_use and n_vis.  Index arrays larger than the
      axes are not modelled for the weights. *)
  Definition vis_flag (w : arr3 Q) (o : vobs) : result (arr3 Q * (list Z * list Z * nat)) :=
    match v_tile_a o ++ v_tile_b o with
    | [] => Err ValueError
    | t0 :: ts =>
      let n_tiles_use := Z.to_nat (fold_right Z.max t0 ts) in
      let w := zero_at (v_n_pol o) (fun _ b => v_far o b) w in
      tile_cut <- outliers 3 (map (tile_fom o w) (seq 0 n_tiles_use)) ;;
      freq_cut <- freq_outliers (v_n_freq o) (map (freq_fom o w) (seq 0 (v_n_freq o))) ;;
      let is_cut b := existsb (fun t =>
            (nth b (v_tile_a o) 0 =? Z.of_nat t + 1)%Z || (nth b (v_tile_b o) 0 =? Z.of_nat t + 1)%Z)
            tile_cut in
      let w := zero_at (v_n_pol o) (fun _ b => is_cut b) w in
      tile_use <- zero_use (v_tile_use o) tile_cut ;;
      let w := zero_at (v_n_pol o) (fun f _ => memn f freq_cut) w in
      freq_use <- zero_use (v_freq_use o) freq_cut ;;
      let offs := v_bin_offset o ++ [length (v_tile_a o)] in
      if length offs <=? length (v_time_use o) then Err IndexError else
      time_cut <- outliers 6 (map (time_fom o offs w) (seq 0 (length (v_time_use o)))) ;;
      match time_cut with
      | _ :: _ => Err AttributeError (* 353: [ti_cut] is a tuple *)
      | [] => Ok (w, (tile_use, freq_use,
                 length (filter (fun x => Qltb 0 (at3 w 0 (fst x) (snd x)))
                           (list_prod (seq 0 (d_freq w)) (seq 0 (d_bl w))))))
      end
    end.
End VisFlag.
