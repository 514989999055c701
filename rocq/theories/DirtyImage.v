(** Model of dirty_image_generate, PyFHD/gridding/gridding_utils.py:297-495, over the real numbers.  A plane is a shape and
    an index function (NpArr.v), so that a row index comes first; complex numbers are the pairs of Sky.v.  NaN and
    infinities (degpix = 0) and logging are not represented.  filter_uv_uniform (Filter.v) and rebin (Rebin.v) are parameters. *)
From Coq Require Import String Reals.
From Verif Require Import Base NpArr Utils1 Sky.
Import ListNotations.
Open Scope nat_scope.
Open Scope list_scope.
Open Scope R_scope.

Definition cadd (a b : cx) : cx := (fst a + fst b, snd a + snd b).
Definition cscale (r : R) (z : cx) : cx := (r * fst z, r * snd z).
Definition csum (n : nat) (f : nat -> cx) : cx := fold_right cadd (0, 0) (map f (seq 0 n)).
Definition rsum (n : nat) (f : nat -> R) : R := fold_right Rplus 0 (map f (seq 0 n)).
(** A row index counted from the middle: x - n/2 as a real number. *)
Definition half (n : nat) : R := INR n / 2.

(** np.fft.fftn(a, norm="forward") of a plane; an empty axis is a ValueError *)
Definition fft2 (a : arr2 cx) : result (arr2 cx) :=
  if (rows a =? 0)%nat || (cols a =? 0)%nat then Err ValueError else
  Ok (Arr2 (rows a) (cols a) (fun y x =>
    cscale (/ (INR (rows a) * INR (cols a)))
      (csum (rows a) (fun e => csum (cols a) (fun d =>
         cmul (at2 a e d) (cexp_i (- (2 * PI * (INR (e * y) / INR (rows a) + INR (d * x) / INR (cols a)))))))))).
(** np.fft.fftshift: np.roll by n//2 on both axes *)
Definition fftshift (a : arr2 cx) : arr2 cx :=
  Arr2 (rows a) (cols a) (fun i j => at2 a ((i + (rows a - rows a / 2)) mod rows a)%nat ((j + (cols a - cols a / 2)) mod cols a)%nat).

(** [a *= b]: b must broadcast to the shape of a *)
Definition mul_into {A B} (f : A -> B -> A) (a : arr2 A) (b : arr2 B) : result (arr2 A) :=
  if axis_ok (rows a) (rows b) && axis_ok (cols a) (cols b)
  then Ok (Arr2 (rows a) (cols a) (fun i j => f (at2 a i j) (at2 b (bidx (rows b) i) (bidx (cols b) j))))
  else Err ValueError.
Definition rmul (z : cx) (r : R) : cx := cscale r z.

(** ** The baseline threshold, 364-399 *)
(** 367-370. meshgrid of two arguments gives a square, of the one size or the other. *)
Definition rarray (elements dimension : nat) : result (arr2 R) :=
  mx <- meshgrid dimension 1 None ;;
  my <- meshgrid elements 2 None ;;
  azip (fun a b => sqrt ((INR a - half dimension) ^ 2 + (INR b - half elements) ^ 2)) (of_lists 0%nat mx) (of_lists 0%nat my).
(** 372-375 *)
Definition cut (t r : R) : bool :=
  if Rle_dec 0 t then (if Rlt_dec r t then true else false) else (if Rlt_dec (Rabs t) r then true else false).
(** 372-381: the mask; [mask_bt.flat] is indexed with positions in the flattened rarray *)
Definition cut_mask (elements dimension : nat) (t : R) (r : arr2 R) : result (arr2 R) :=
  let at_flat k := at2 r (k / cols r) (k mod cols r) in
  if forallb (fun k => negb (cut t (at_flat k)) || (k <? elements * dimension)%nat) (seq 0 (rows r * cols r))
  then Ok (Arr2 elements dimension (fun i j =>
         let k := (i * dimension + j)%nat in
         if (k <? rows r * cols r)%nat && cut t (at_flat k) then 0 else 1))
  else Err IndexError.
(** 365-366, 383-386: the kernel width, odd. A width that is not a whole number is not represented. *)
Definition kernel_width (elements dimension : nat) (width : option nat) : nat :=
  let w := match width with Some w => w | None => (Nat.sqrt (dimension * elements) / 100)%nat end in
  let k := Nat.max w 1 in
  if (k mod 2 =? 0)%nat then (k + 1)%nat else k.
(** 388: Box2DKernel(k) is k x k entries 1/k^2; a kernel larger than the mask is not represented (for one axis it is this
    error, for both scipy exchanges the arguments) *)
Definition box_averages (k : nat) (m : arr2 R) : result (arr2 R) :=
  if (k <=? rows m)%nat && (k <=? cols m)%nat then
    Ok (Arr2 (rows m - k + 1) (cols m - k + 1) (fun i j =>
      rsum k (fun a => rsum k (fun b => at2 m (i + a) (j + b) * / (INR k * INR k)))))
  else Err ValueError.
(** 390-392: both ends are taken from the number of columns *)
Definition smooth (k : nat) (m : arr2 R) : result (arr2 R) :=
  box <- box_averages k m ;;
  let start := (k / 2)%nat in
  let stop := (cols m - k / 2)%nat in
  let n_rows := (Nat.min stop (rows m) - start)%nat in
  if axis_ok n_rows (rows box) then
    Ok (Arr2 (rows m) (cols m) (fun i j =>
      if (start <=? i)%nat && (i <? stop)%nat && (start <=? j)%nat && (j <? stop)%nat
      then at2 box (bidx (rows box) (i - start)) (j - start) else at2 m i j))
  else Err ValueError.
Definition threshold_mask (elements dimension : nat) (t : R) (width : option nat) : result (arr2 R) :=
  r <- rarray elements dimension ;;
  m <- cut_mask elements dimension t r ;;
  smooth (kernel_width elements dimension width) m.

(** ** Options and the whole function *)
Inductive normal := NNum (r : R) | NArr (a : arr2 R).
Record options := {
  o_mask : option (arr2 R);
  o_threshold : option R;
  o_width : option nat;                   (* width_smooth *)
  o_filter : option (arr2 R);             (* a filter that is not an array is ignored *)
  o_resize : option nat;
  o_pad : option Q;
  o_degpix : option R;
  o_not_real : bool;
  o_beam : option (bool * arr2 cx);       (* whether its type is complex, and the beam *)
  o_norm : option normal;
  o_optimal : bool                        (* pyfhd_config["image_filter"] == "filter_uv_optimal" *)
}.
(** The plane being worked on: the caller's own array until something makes a copy. *)
Record work := { caller : arr2 cx; current : option (arr2 cx) }.
Definition plane (w : work) : arr2 cx := match current w with Some a => a | None => caller w end.
Definition in_place (w : work) (a : arr2 cx) : work :=
  match current w with Some _ => {| caller := caller w; current := Some a |} | None => {| caller := a; current := None |} end.
Definition copied (w : work) (a : arr2 cx) : work := {| caller := caller w; current := Some a |}.

(** int(q) *)
Definition py_int (q : Q) : Z := if Qlt_le_dec q 0 then (- Qround.Qfloor (- q))%Z else Qround.Qfloor q.
(** np.pad(a, k): k zeros on every side; a negative k is a ValueError *)
Definition np_pad (a : arr2 cx) (k : Z) : result (arr2 cx) :=
  if (k <? 0)%Z then Err ValueError else
  let k := Z.to_nat k in
  Ok (Arr2 (rows a + 2 * k) (cols a + 2 * k) (fun i j =>
    if (k <=? i)%nat && (i <? k + rows a)%nat && (k <=? j)%nat && (j <? k + cols a)%nat then at2 a (i - k) (j - k) else (0, 0))).

Section Generate.
  (** filter_uv_uniform with the counts and weights of the call: the filtered plane (a new array) and the filter; rebin of one
      part *)
  Variable uniform : arr2 cx -> result (arr2 cx * arr2 R).
  Variable rebin : arr2 R -> nat * nat -> result (arr2 R).

  (** 361-399 *)
  Definition step_threshold (o : options) (w : work) : result work :=
    match o_threshold o with
    | None => Ok w
    | Some t =>
      m <- threshold_mask (rows (plane w)) (cols (plane w)) t (o_width o) ;;
      p <- mul_into rmul (plane w) m ;; Ok (in_place w p)
    end.
  (** 401-403 *)
  Definition step_mask (o : options) (w : work) : result work :=
    match o_mask o with None => Ok w | Some m => p <- mul_into rmul (plane w) m ;; Ok (in_place w p) end.
  (** 405-443 *)
  Definition step_filter (o : options) (w : work) : result (work * option (arr2 R)) :=
    match o_filter o with
    | None => Ok (w, None)
    | Some f =>
      if (rows f * cols f =? rows (plane w) * cols (plane w))%nat
      then p <- mul_into rmul (plane w) f ;; Ok (in_place w p, Some f)
      else pf <- uniform (plane w) ;; Ok (copied w (fst pf), Some (snd pf))
    end.
  (** 445-460: also the new dimensions *)
  Definition step_resize (o : options) (w : work) (dims : nat * nat) : result (work * (nat * nat)) :=
    match o_resize o with
    | None => Ok (w, dims)
    | Some r =>
      let dims := (fst dims * r, snd dims * r)%nat in
      re <- rebin (amap fst (plane w)) dims ;; im <- rebin (amap snd (plane w)) dims ;;
      p <- azip (fun x y => (x, y)) re im ;; Ok (copied w p, dims)
    end.
  (** 462-471 *)
  Definition step_pad (o : options) (w : work) (dims : nat * nat) : result work :=
    match o_pad o with
    | None => Ok w
    | Some q =>
      p <- np_pad (plane w) (Z.of_nat (Nat.max (fst dims) (snd dims) / 2) * (py_int q - 1)) ;;
      Ok (copied w (amap (cscale (Q2R q ^ 2)) p))
    end.
  (** 473-475 *)
  Definition step_degpix (o : options) (w : work) : work :=
    match o_degpix o with None => w | Some d => in_place w (amap (cscale (/ (radians d ^ 2))) (plane w)) end.
  (** 477-495 *)
  Definition real_part (a : arr2 cx) : arr2 cx := amap (fun z => (fst z, 0)) a.
  Definition step_image (o : options) (w : work) : result (arr2 cx) :=
    f <- fft2 (fftshift (plane w)) ;;
    let image := fftshift f in
    let image := if o_not_real o then image else real_part image in
    image <- (match o_beam o with
              | Some (is_complex, b) =>
                if o_optimal o then
                  if is_complex && negb (o_not_real o) then Err TypeError else mul_into cmul image b
                else Ok image
              | None => Ok image
              end) ;;
    match o_norm o with
    | None => Ok image
    | Some (NNum r) => Ok (amap (cscale r) image)
    | Some (NArr a) => mul_into rmul image a
    end.

  (** The image, the filter and the caller's plane after the call. *)
  Definition dirty_image_generate (o : options) (uv : arr2 cx) : result (arr2 cx * option (arr2 R) * arr2 cx) :=
    w <- step_threshold o {| caller := uv; current := None |} ;;
    w <- step_mask o w ;;
    ' (w, filter) <- step_filter o w ;;
    ' (w, dims) <- step_resize o w (rows uv, cols uv) ;;
    w <- step_pad o w dims ;;
    let w := step_degpix o w in
    image <- step_image o w ;;
    Ok (image, filter, caller w).
End Generate.
