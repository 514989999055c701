(** Model of crosspol_reformat, PyFHD/gridding/gridding_utils.py:868-890, and of its use in PyFHD/pyfhd.py:458-463. The
    array is changed in place and returned, so the result is also what the caller's array holds afterwards. *)
From Verif Require Import Base Cplx NpArr GridLoc.
Open Scope nat_scope.

(** image_uv[k] for k >= 0 *)
Definition plane (planes : list (arr2 C)) (k : nat) : result (arr2 C) :=
  match nth_error planes k with Some a => Ok a | None => Err IndexError end.
Definition set_plane (planes : list (arr2 C)) (k : nat) (a : arr2 C) : list (arr2 C) :=
  firstn k planes ++ a :: skipn (S k) planes.

(** lines 887-890. All planes of an array have one shape. *)
Definition crosspol_reformat (planes : list (arr2 C)) : result (list (arr2 C)) :=
  p2 <- plane planes 2 ;; p3 <- plane planes 3 ;;
  let m := conjugate_mirror p3 in
  let crosspol := Arr2 (rows p2) (cols p2) (fun i j => Cscale (Q2Qc (1 # 2)) (at2 p2 i j - at2 m i j)%C) in
  let planes := set_plane planes 2 crosspol in
  Ok (set_plane planes 3 (conjugate_mirror crosspol)).

(** pyfhd.py:458-463: the image, the weights and, if there is one, the model *)
Definition reformat_all (n_pol : nat) (image weights : list (arr2 C)) (model : option (list (arr2 C)))
  : result (list (arr2 C) * list (arr2 C) * option (list (arr2 C))) :=
  if n_pol =? 4 then
    i <- crosspol_reformat image ;; w <- crosspol_reformat weights ;;
    match model with
    | None => Ok (i, w, None)
    | Some m => m <- crosspol_reformat m ;; Ok (i, w, Some m)
    end
  else Ok (image, weights, model).
