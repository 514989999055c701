(** Model of region_grow, PyFHD/pyfhd_tools/pyfhd_utils.py 1432-1539, for 2-D real images. An image is its row-major
    ("flat") list of pixels, None being NaN. Seeds are non-negative flat indices. *)
From Verif Require Import Base Histogram.
Open Scope nat_scope.

(** np.min and np.max propagate NaN (1472-1475); ValueError on an empty array. *)
Definition nan_reduce (f : list Q -> result Q) (l : list (option Q)) : result (option Q) :=
  if existsb (fun x => match x with None => true | Some _ => false end) l then Ok None
  else q <- f (map (fun x => match x with Some q => q | None => 0%Q end) l) ;; Ok (Some q).

(** 1477-1478: NaNs are replaced by zero in the caller's image. *)
Definition fill_nan (image : list (option Q)) : list Q := map (fun x => match x with Some q => q | None => 0%Q end) image.
(** 1480-1482: pixels that were NaN are cleared again; a comparison with a NaN threshold is False *)
Definition in_threshold (low high : option Q) (x : Q) : bool :=
  match low, high with Some lo, Some hi => Qle_bool lo x && Qle_bool x hi | _, _ => false end.
Definition threshold (image : list (option Q)) (low high : option Q) : list bool :=
  map (fun x => match x with None => false | Some q => in_threshold low high q end) image.

(** 1487-1491 *)
Definition on_edge (rows cols k : nat) : bool :=
  (k / cols =? 0) || (k mod cols =? 0) || (k / cols =? rows - 1) || (k mod cols =? cols - 1).
Definition clear_edges (rows cols : nat) (labels : list nat) : list nat :=
  map (fun k => if on_edge rows cols k then 0 else nth k labels 0) (seq 0 (length labels)).

Definition take (l : list nat) (idx : list nat) : result (list nat) :=
  if forallb (fun k => k <? length l) idx then Ok (map (fun k => nth k l 0) idx) else Err IndexError.
Definition floats (l : list nat) : list Q := map (fun n => inject_Z (Z.of_nat n)) l.

(** 1496-1512: nLabels and labels (before the decrement). *)
Definition seed_labels (label_array roi : list nat) : result (nat * list nat) :=
  vals <- take label_array roi ;;
  labels <- (if 1 <? length roi then
               h <- histogram (floats vals) 1 None (Some 0%Q) None ;;
               let '(hist, _, _) := h in Ok (where_ (fun n => negb (n =? 0)) hist)
             else Ok vals) ;;
  match labels with
  | [] => Err IndexError
  | first :: rest =>
    if first =? 0 then Ok (length labels - 1, if 0 <? length labels - 1 then rest else labels)
    else Ok (length labels, labels)
  end.

(** 1513-1539. [labels] counts from 1, the histogram's bins from label 1. *)
Definition collect (label_array : list nat) (n_labels : nat) (labels : list nat) : result (option (list nat)) :=
  let labels := if negb (n_labels =? 0) then map pred labels else labels in
  h <- histogram (floats label_array) 1 None (Some 1%Q) None ;;
  let '(label_hist, _, rev_ind) := h in
  n_pixels <- (if negb (n_labels =? 0) then counts <- take label_hist labels ;; Ok (sum_nat counts) else Ok 0) ;;
  if 0 <? n_pixels then
    if n_labels =? 1 then
      let l := nth 0 labels 0 in Ok (Some (slice rev_ind (nth l rev_ind 0) (nth (l + 1) rev_ind 0)))
    else
      (* np.empty and consecutive assignments; positions never assigned would be uninitialised *)
      let filled := flat_map (fun l => if nth (l + 1) rev_ind 0 <=? length rev_ind
                                       then slice rev_ind (nth l rev_ind 0) (nth (l + 1) rev_ind 0) else []) labels in
      Ok (Some (filled ++ repeat 0 (n_pixels - length filled)))
  else Ok None.

(** 1470-1539; [label] is scipy.ndimage.label with its default structure. The result, and what the caller's image holds
    afterwards. *)
Definition region_grow (label : nat -> nat -> list bool -> list nat) (rows cols : nat) (image : list (option Q))
    (roi : list nat) (low high : option Q) : result (option (list nat) * list (option Q)) :=
  if negb (forallb (fun k => k <? length image) roi) then Err IndexError else
  let vals := map (fun k => nth k image None) roi in
  lo <- (match low with None => nan_reduce np_min vals | Some q => Ok (Some q) end) ;;
  hi <- (match high with None => nan_reduce np_max vals | Some q => Ok (Some q) end) ;;
  if (rows =? 0) || (cols =? 0) then Err IndexError else
  let label_array := clear_edges rows cols (label rows cols (threshold image lo hi)) in
  '(n_labels, labels) <- seed_labels label_array roi ;;
  grown <- collect label_array n_labels labels ;;
  Ok (grown, map Some (fill_nan image)).
