(** Model of the histogram machinery of PyFHD/pyfhd_tools/pyfhd_utils.py.
    Data values are exact rationals instead of float64/int64. *)
From Verif Require Import Base.
Open Scope Q_scope.

(** [np.arange(start, stop, step)]: ceil((stop-start)/step) values start + i*step.
    numba/NumPy raise on a zero step. *)
Definition arange (start stop step : Q) : result (list Q) :=
  if Qeq_bool step 0 then Err ValueError
  else Ok (map (fun i => start + inject_Z (Z.of_nat i) * step)
               (seq 0 (Z.to_nat (Qceiling ((stop - start) / step))))).

(** pyfhd_utils.py:15-49 [get_bins]. *)
Definition get_bins (lo hi bin_size : Q) : result (list Q) :=
  arange lo (hi + bin_size) bin_size.

(** pyfhd_utils.py:90-99 and 106 (repeated at 201-207 and 216): the index of the
    bin of [d], [int(n * (d - bin_min) / bin_divider)]. *)
Definition bin_index (bins : list Q) (d : Q) : Z :=
  let n := (Z.of_nat (length bins) - 1)%Z in
  let bin_min := hd 0 bins in
  let bin_max := last bins 0 in
  let bin_divider := if Qeq_bool bin_min bin_max then 1 else bin_max - bin_min in
  Qtrunc (inject_Z n * (d - bin_min) / bin_divider).

(** pyfhd_utils.py:103 and 212: [data[idx] < min or data[idx] > max]. *)
Definition outside (lo hi d : Q) : bool :=
  negb (Qle_bool lo d) || negb (Qle_bool d hi).

(** pyfhd_utils.py:101-108, one iteration of the counting loop. The kernel is
    compiled without bounds checks; an index outside [hist] is [OutOfBounds]. *)
Definition hist_step (bins : list Q) (lo hi : Q) (hist : list nat) (d : Q)
  : result (list nat) :=
  if outside lo hi d then Ok hist
  else
    let bin_i := bin_index bins d in
    if (0 <=? bin_i)%Z && (bin_i <? Z.of_nat (length hist))%Z
    then Ok (upd hist (Z.to_nat bin_i) (nth (Z.to_nat bin_i) hist 0%nat + 1)%nat)
    else Err OutOfBounds.

(** pyfhd_utils.py:52-109 [get_hist]; reading [bins[0]] of an empty array is an
    out-of-bounds read. *)
Definition get_hist (data bins : list Q) (lo hi : Q) : result (list nat) :=
  match bins with
  | [] => Err OutOfBounds
  | _ => fold_res (hist_step bins lo hi) data (repeat 0%nat (length bins))
  end.

(** pyfhd_utils.py:189-194: [first_v], the running totals starting at bin_l + 1. *)
Fixpoint running (start : nat) (hist : list nat) : list nat :=
  match hist with
  | [] => [start]
  | h :: t => start :: running (start + h) t
  end.

(** State of the loop at pyfhd_utils.py:210-219: [ri], [tracker], [counter]. *)
Record ri_state := { ri_arr : list nat; ri_tracker : list nat; ri_counter : nat }.

(** pyfhd_utils.py:210-219, one iteration; [kd] is (idx, data[idx]). *)
Definition ri_step (bins : list Q) (lo hi : Q) (s : ri_state) (kd : nat * Q)
  : result ri_state :=
  let (idx, d) := kd in
  if outside lo hi d
  then Ok {| ri_arr := ri_arr s; ri_tracker := ri_tracker s;
             ri_counter := S (ri_counter s) |}
  else
    let bin_i := bin_index bins d in
    if (0 <=? bin_i)%Z && (bin_i <? Z.of_nat (length (ri_tracker s)))%Z
    then
      let b := Z.to_nat bin_i in
      let pos := nth b (ri_tracker s) 0%nat in
      if (pos <? length (ri_arr s))%nat
      then Ok {| ri_arr := upd (ri_arr s) pos idx;
                 ri_tracker := upd (ri_tracker s) b (pos + 1)%nat;
                 ri_counter := ri_counter s |}
      else Err OutOfBounds
    else Err OutOfBounds.

(** pyfhd_utils.py:112-221 [get_ri]. *)
Definition get_ri (data bins : list Q) (hist : list nat) (lo hi : Q)
  : result (list nat) :=
  match bins with
  | [] => Err OutOfBounds
  | _ =>
    let bin_l := length bins in
    let first_v := running (bin_l + 1) hist in
    let ri0 := first_v ++ repeat 0%nat (length data) in
    s <- fold_res (ri_step bins lo hi)
           (combine (seq 0 (length data)) data)
           {| ri_arr := ri0; ri_tracker := first_v; ri_counter := 0 |} ;;
    Ok (firstn (length (ri_arr s) - ri_counter s) (ri_arr s))
  end.

(** [np.min]/[np.max] of an array: ValueError on an empty one. *)
Definition Qmin2 (a b : Q) : Q := if Qle_bool a b then a else b.
Definition Qmax2 (a b : Q) : Q := if Qle_bool a b then b else a.
Definition np_min (l : list Q) : result Q :=
  match l with [] => Err ValueError | a :: t => Ok (fold_left Qmin2 t a) end.
Definition np_max (l : list Q) : result Q :=
  match l with [] => Err ValueError | a :: t => Ok (fold_left Qmax2 t a) end.

(** pyfhd_utils.py:224-294 [histogram]; [data] is already flattened (288). *)
Definition histogram (data : list Q) (bin_size : Q) (num_bins : option Z)
                     (omin omax : option Q)
  : result (list nat * list Q * list nat) :=
  lo <- match omin with Some x => Ok x | None => np_min data end ;;
  hi <- match omax with Some x => Ok x | None => np_max data end ;;
  bs <- match num_bins with
        | None => Ok bin_size
        | Some k => if (k =? 0)%Z then Err ZeroDivision
                    else Ok ((hi - lo) / inject_Z k)
        end ;;
  let hi := if negb (Qle_bool lo hi) then lo else hi in
  bins <- get_bins lo hi bs ;;
  match bins with
  | [] => Err IndexError
  | _ =>
    let drop := negb (Qle_bool (last bins 0) hi)
                || match num_bins with Some _ => true | None => false end in
    let bins := if drop then removelast bins else bins in
    hist <- get_hist data bins lo hi ;;
    ri <- get_ri data bins hist lo hi ;;
    Ok (hist, bins, ri)
  end.
