(** Model of healpix_cnv_apply (24-54) and of the interpolation part of healpix_cnv_generate (218-280),
    PyFHD/healpix/healpix_utils.py. The positions of the HEALPix pixels in the image come from healpy and astropy and are
    given, as finite rationals; images are real and flattened. *)
From Verif Require Import Base Histogram.
Open Scope nat_scope.

(** One element of the object arrays ija and sa, and of i_use. *)
Record entry := { e_ija : list nat; e_sa : list Q; e_use : Z }.

(** [a[idx] += vals]: all sums are formed from the old array, then assigned in order. *)
Definition fancy_add (m : list Q) (idx : list nat) (vals : list Q) : list Q :=
  fold_left (fun acc iv => upd acc (fst iv) (nth (fst iv) m 0 + snd iv)%Q) (combine idx vals) m.

(** 44-54. i_use is never negative here, so a negative index (which Python would accept) is an error. *)
Definition apply_entry (image : list Q) (m : list Q) (e : entry) : result (list Q) :=
  if ((0 <=? e_use e) && (e_use e <? Z.of_nat (length image)))%Z then
    let v := nth (Z.to_nat (e_use e)) image 0%Q in
    if forallb (fun k => k <? length m) (e_ija e)
    then Ok (fancy_add m (e_ija e) (map (fun s => s * v)%Q (e_sa e)))
    else Err IndexError
  else Err IndexError.
Definition healpix_cnv_apply (n_pix : nat) (image : list Q) (cnv : list entry) : result (list Q) :=
  fold_res (apply_entry image) cnv (repeat 0%Q n_pix).

(** 218-219 *)
Definition frac (x : Q) : Q := (1 - (x - inject_Z (Qfloor x)))%Q.

(** 221-240: pixel numbers of the four corners *)
Definition corners (cx cy : Q -> Z) (dimension : Z) (xv yv : list Q) : list Z :=
  map (fun p => (cx (fst p) + dimension * cy (snd p))%Z) (combine xv yv).

Definition min_Z (l : list Z) : result Z := match l with [] => Err ValueError | a :: t => Ok (fold_left Z.min t a) end.
Definition max_Z (l : list Z) : result Z := match l with [] => Err ValueError | a :: t => Ok (fold_left Z.max t a) end.

(** 254-280. [sa0] and [ija0] are filled slice after slice; the slices have the lengths counted by the histograms. *)
Definition weight (wx wy : Q -> Q) (xv yv : list Q) (k : nat) : Q := (wx (frac (nth k xv 0)) * wy (frac (nth k yv 0)))%Q.
Definition part (h ri : list nat) (ind : nat) (w : nat -> Q) : list (nat * Q) :=
  if 0 <? nth ind h 0 then map (fun k => (k, w k)) (slice ri (nth ind ri 0) (nth (ind + 1) ri 0)) else [].
Definition id_ (x : Q) : Q := x.
Definition co_ (x : Q) : Q := (1 - x)%Q.

(** 218-280 *)
Definition generate (dimension elements : Z) (xv yv : list Q) : result (list entry) :=
  if negb (length xv =? length yv) then Err ValueError else
  let v_floor := corners Qfloor Qfloor dimension xv yv in
  let v_ceil := corners Qceiling Qceiling dimension xv yv in
  lo <- min_Z v_floor ;; hi <- max_Z v_ceil ;;
  let min_bin := Z.max lo 0 in
  let max_bin := Z.min hi (dimension * elements - 1) in
  let hist data := histogram (map inject_Z data) 1 None (Some (inject_Z min_bin)) (Some (inject_Z max_bin)) in
  '(h00, _, ri00) <- hist v_floor ;;
  '(h01, _, ri01) <- hist (corners Qfloor Qceiling dimension xv yv) ;;
  '(h10, _, ri10) <- hist (corners Qceiling Qfloor dimension xv yv) ;;
  '(h11, _, ri11) <- hist v_ceil ;;
  let htot := map (fun i => nth i h00 0 + nth i h01 0 + nth i h10 0 + nth i h11 0) (seq 0 (length h00)) in
  Ok (map (fun ind =>
        let l := part h00 ri00 ind (weight id_ id_ xv yv) ++ part h01 ri01 ind (weight id_ co_ xv yv)
                 ++ part h10 ri10 ind (weight co_ id_ xv yv) ++ part h11 ri11 ind (weight co_ co_ xv yv) in
        {| e_ija := map fst l; e_sa := map snd l; e_use := (Z.of_nat ind + min_bin)%Z |})
      (where_ (fun n => negb (n =? 0)) htot)).
