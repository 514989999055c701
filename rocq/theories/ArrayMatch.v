(** Model of array_match, PyFHD/pyfhd_tools/pyfhd_utils.py:724-792, on integer
    arrays (the only use in PyFHD: tile numbers of baselines). *)
From Verif Require Import Base Histogram.
Open Scope nat_scope.

(** The function returns either the scalar -1 (line 780) or an index array. *)
Inductive match_result :=
| MinusOne
| Indices (l : list nat).

Definition injs (l : list Z) : list Q := map inject_Z l.

(** lines 785-788 for one selected bin: write 1 at the positions ri[ri[i]:ri[i+1]];
    NumPy raises IndexError for a position beyond array_1. *)
Definition mark (ind : list nat) (ri : list nat) (i : nat) : result (list nat) :=
  fold_res (fun acc k => if k <? length acc then Ok (upd acc k 1) else Err IndexError)
           (slice ri (nth i ri 0) (nth (S i) ri 0)) ind.

(** lines 783-788, one iteration of the loop over the selected values; [ri2] is
    unbound (None) when array_2 was not given. *)
Definition mark_value (hist1 ri1 hist2 : list nat) (ri2 : option (list nat))
                      (ind : list nat) (i : nat) : result (list nat) :=
  ind1 <- (if 0 <? nth i hist1 0 then mark ind ri1 i else Ok ind) ;;
  if 0 <? nth i hist2 0 then
    match ri2 with None => Err UnboundLocal | Some ri2 => mark ind1 ri2 i end
  else Ok ind1.

(** line 754: [array_2 is not None and np.size(array_2) > 0]. *)
Definition supplied (array_2 : option (list Z)) : option (list Z) :=
  match array_2 with
  | Some a2 => if 0 <? length a2 then Some a2 else None
  | None => None
  end.

(** pyfhd_utils.py:751-792. [hist1 + hist2] (768) has equal sizes because both
    histograms use the same limits and unit bins. *)
Definition array_match (array_1 : list Z) (value_match : option (list Z))
                       (array_2 : option (list Z)) : result match_result :=
  match value_match with
  | None => Err ValueError
  | Some vm =>
    '(min_use, max_use, hist2, ri2) <-
      (match supplied array_2 with
       | Some a2 =>
         m1 <- np_min (injs array_1) ;; m2 <- np_min (injs a2) ;;
         M1 <- np_max (injs array_1) ;; M2 <- np_max (injs a2) ;;
         let mn := Qmin2 m1 m2 in let mx := Qmax2 M1 M2 in
         '(h2, _, r2) <- histogram (injs a2) 1 None (Some mn) (Some mx) ;;
         Ok (mn, mx, h2, Some r2)
       | None =>
         mn <- np_min (injs array_1) ;; mx <- np_max (injs array_1) ;;
         Ok (mn, mx, seq 0 (Z.to_nat (Qceiling (mx - mn + 1)%Q)), None)
       end) ;;
    '(hist1, _, ri1) <- histogram (injs array_1) 1 None (Some min_use) (Some max_use) ;;
    let hist_combined := map (fun p => fst p + snd p) (combine hist1 hist2) in
    let bins := where_ (fun c => 0 <? c) hist_combined in
    '(hist_v1, bins_v1, _) <-
      histogram (map (fun k => (inject_Z (Z.of_nat k) + min_use)%Q) bins) 1 None None None ;;
    let omin := hd 0%Q bins_v1 in
    let omax := last bins_v1 0%Q in
    '(hist_v2, _, _) <- histogram (injs vm) 1 None (Some omin) (Some omax) ;;
    let both := map (fun p => Nat.land (fst p) (snd p)) (combine hist_v1 hist_v2) in
    let vals := map (fun k => Z.to_nat (Qtrunc (inject_Z (Z.of_nat k) + omin - min_use)%Q))
                    (where_ (fun c => negb (c =? 0)) both) in
    match vals with
    | [] => Ok MinusOne
    | _ =>
      ind <- fold_res (mark_value hist1 ri1 hist2 ri2) vals
                      (repeat 0 (length array_1)) ;;
      Ok (Indices (where_ (fun c => negb (c =? 0)) ind))
    end
  end.
