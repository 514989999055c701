(** Model of PyFHD/plotting/image.py: quick_image (6-296), log_color_calc (299-545), color_range (548-575). The colours given to
    the pixels, the ticks of the colour bar with their labels, the name of the file, and what happens to the caller's array
    are represented; drawing, titles, axes, positions and printed messages are not. Numbers are exact reals with NaN and the
    infinities; a label is the number printed, not its two digits. Pixels are numbered in one sequence. *)
From Coq Require Import String Ascii Reals.
From Verif Require Import Base.
Import ListNotations.
Open Scope list_scope.
Open Scope R_scope.

Inductive ext := Fin (r : R) | PInf | NInf | NaN.

(** numpy's comparisons and arithmetic on float64, without rounding and without the sign of zero *)
Definition rltb (a b : R) : bool := if Rlt_dec a b then true else false.
Definition reqb (a b : R) : bool := if Req_EM_T a b then true else false.
Definition lt (a b : ext) : bool :=
  match a, b with
  | NaN, _ | _, NaN => false
  | Fin x, Fin y => rltb x y
  | NInf, NInf | PInf, _ | _, NInf => false
  | NInf, _ | _, PInf => true
  end.
Definition eq (a b : ext) : bool :=
  match a, b with Fin x, Fin y => reqb x y | PInf, PInf | NInf, NInf => true | _, _ => false end.
Definition opp (a : ext) : ext := match a with Fin x => Fin (- x) | PInf => NInf | NInf => PInf | NaN => NaN end.
Definition add (a b : ext) : ext :=
  match a, b with
  | NaN, _ | _, NaN | PInf, NInf | NInf, PInf => NaN
  | Fin x, Fin y => Fin (x + y)
  | Fin _, i => i
  | i, _ => i
  end.
Definition sub (a b : ext) : ext := add a (opp b).
Definition sign (a : ext) : ext := if lt (Fin 0) a then PInf else if lt a (Fin 0) then NInf else NaN.
Definition mul (a b : ext) : ext :=
  match a, b with
  | Fin x, Fin y => Fin (x * y)
  | NaN, _ | _, NaN => NaN
  | PInf, c | c, PInf => sign c
  | NInf, c | c, NInf => sign (opp c)
  end.
Definition div (a b : ext) : ext :=
  match a, b with
  | NaN, _ | _, NaN => NaN
  | Fin x, Fin y => if reqb y 0 then sign a else Fin (x / y)
  | Fin _, _ => Fin 0
  | _, Fin y => if reqb y 0 then a else mul a (Fin y)
  | _, _ => NaN
  end.
Definition abs (a : ext) : ext := if lt a (Fin 0) then opp a else a.
Definition l10 (x : R) : R := ln x / ln 10.
Definition log10 (a : ext) : ext :=
  match a with
  | Fin x => if rltb 0 x then Fin (l10 x) else if reqb x 0 then NInf else NaN
  | PInf => PInf
  | _ => NaN
  end.
(** 10 ** a *)
Definition pow10 (a : ext) : ext := match a with Fin x => Fin (exp (x * ln 10)) | PInf => PInf | NInf => Fin 0 | NaN => NaN end.

Definition is_nan (a : ext) : bool := match a with NaN => true | _ => false end.
(** np.min, np.max: NaN if there is one; ValueError without elements *)
Definition min2 (a b : ext) : ext := if is_nan a || is_nan b then NaN else if lt b a then b else a.
Definition max2 (a b : ext) : ext := if is_nan a || is_nan b then NaN else if lt a b then b else a.
Definition np_min (l : list ext) : result ext := match l with [] => Err ValueError | x :: t => Ok (fold_left min2 t x) end.
Definition np_max (l : list ext) : result ext := match l with [] => Err ValueError | x :: t => Ok (fold_left max2 t x) end.
(** np.nanmin, np.nanmax: the NaNs are left out, NaN if nothing else is there *)
Definition numbers (l : list ext) : list ext := filter (fun a => negb (is_nan a)) l.
Definition nanmin (l : list ext) : result ext :=
  match l with [] => Err ValueError | _ => match numbers l with [] => Ok NaN | x :: t => Ok (fold_left min2 t x) end end.
Definition nanmax (l : list ext) : result ext :=
  match l with [] => Err ValueError | _ => match numbers l with [] => Ok NaN | x :: t => Ok (fold_left max2 t x) end end.

(** np.where(test) for one test per pixel, and a[where] = v *)
Definition anyb (f : ext -> bool) (l : list ext) : bool := existsb f l.
Definition put (test : ext -> bool) (v : ext) (l : list ext) : list ext := map (fun x => if test x then v else x) l.
(** a[np.where(test(data))] = v, for an array [a] of the shape of [data] *)
Fixpoint put_where (test : ext -> bool) (v : ext) (data a : list ext) : list ext :=
  match data, a with
  | d :: data, x :: a => (if test d then v else x) :: put_where test v data a
  | _, _ => a
  end.
Fixpoint put_at (wh : list nat) (v : ext) (a : list ext) : list ext :=
  match wh with [] => a | i :: wh => put_at wh v (upd a i v) end.

(** color_range, 548-575: the first colour of the data and the number of colours; the last colour is 255.
    [None > 0] is a TypeError. *)
Definition color_range (count_missing : option nat) : result (R * R) :=
  match count_missing with
  | None => Err TypeError
  | Some O => Ok (0, 256)
  | Some _ => Ok (1, 255)
  end.
Definition last_color : R := 255.

(** np.linspace(c0, 255, num=5) *)
Definition ticks (c0 : R) : list R := map (fun k => c0 + INR k * (last_color - c0) / 4) [0; 1; 2; 3; 4]%nat.

(** 360-371: the range of the data *)
Definition data_range_of (data : list ext) (data_range : option (list ext)) : result (ext * ext) :=
  match data_range with
  | None => a <- np_min data ;; b <- np_max data ;; Ok (a, b)
  | Some [a; b] => Ok (a, b)
  | Some _ => Err ValueError
  end.

Definition pos (a : ext) : bool := lt (Fin 0) a.
Definition neg (a : ext) : bool := lt a (Fin 0).
Definition zero (a : ext) : bool := eq a (Fin 0).

(** 381-391 *)
Definition min_pos (data : list ext) (a b : ext) : ext :=
  match np_min (filter pos data) with
  | Ok m => m
  | Err _ => if pos a then a else if pos b then div b (Fin 10) else Fin (1 / 100)
  end.
(** 393-401 *)
Definition max_neg (data : list ext) (a b : ext) : ext :=
  match np_max (filter neg data) with
  | Ok m => m
  | Err _ => if neg b then b else div a (Fin 10)
  end.

(** 407-454: the colours and the logarithmic range *)
Definition log_cut (data : list ext) (a b : ext) (log_cut_val : option ext) (c0 n : R) : result (list ext * (ext * ext)) :=
  if neg b then Err ValueError else
  let cut := match log_cut_val with Some c => c | None => if pos a then log10 a else log10 (min_pos data a b) end in
  let '(l, h) := (cut, log10 b) in
  let min_pos_color := if anyb zero data then 2 else 1 in
  let data_log := map log10 data in
  let data_log := put_where (fun v => lt v (pow10 cut)) l data data_log in
  let data_log := put (fun v => lt h v) h data_log in
  let norm := map (fun v => add (add (div (mul (sub v l) (Fin (n - min_pos_color - 1))) (sub h l)) (Fin c0)) (Fin min_pos_color)) data_log in
  let norm := put_where neg (Fin 0) data norm in
  let norm := put_where zero (Fin 1) data norm in
  Ok (norm, (l, h)).

(** 498-505, 514-521: values outside the colours *)
Definition clip (c0 : R) (l : list ext) : list ext :=
  put (fun v => lt (Fin last_color) v) (Fin last_color) (put (fun v => lt v (Fin c0)) (Fin c0) l).

(** 456-505 *)
Definition sym_log (data : list ext) (a b : ext) (min_abs : option ext) (c0 n : R) : result (list ext * (ext * ext)) :=
  if neg b then Err ValueError else
  let count_pos := anyb pos data in let count_neg := anyb neg data in
  let m := match min_abs with
           | Some m => m
           | None => if count_pos && count_neg then
                       (* Python's min(x, y): y if y < x, else x *)
                       (if lt (abs (max_neg data a b)) (min_pos data a b) then abs (max_neg data a b) else min_pos data a b)
                     else if count_pos then min_pos data a b
                     else if count_neg then abs (max_neg data a b) else Fin 1
           end in
  let '(l, h) := (log10 m, log10 b) in
  let color v := add (div (mul (sub (log10 v) l) (Fin (n - 1))) (sub h l)) (Fin c0) in
  let norm := map (fun v => if pos v then color v else if neg v then color (abs v) else if zero v then Fin c0 else Fin 0) data in
  Ok (clip c0 norm, (l, h)).

(** 507-521 *)
Definition abs_profile (data : list ext) (a b : ext) (c0 n : R) : list ext :=
  clip c0 (map (fun v => add (div (mul (sub (abs v) a) (Fin (n - 1))) (sub b a)) (Fin c0)) data).

(** 531-543, 210-215: the number on the colour bar at a tick *)
Definition log_label (l h : ext) (n t : R) : ext := pow10 (add (div (mul (Fin t) (sub h l)) (Fin (n - 1))) l).
Definition lin_label (a b : ext) (n t : R) : ext := add (div (mul (Fin t) (sub b a)) (Fin (n - 1))) a.

Inductive profile := LogCut | SymLog | Abs.
(** 353-358 *)
Definition profile_of (s : string) : result profile :=
  if String.eqb s "log_cut" then Ok LogCut else if String.eqb s "sym_log" then Ok SymLog
  else if String.eqb s "abs" then Ok Abs else Err ValueError.

(** 299-545: colours, ticks, labels. [wh_missing], [missing_color]: the positions of missing values and their colour. *)
Definition log_color_calc (data : list ext) (data_range : option (list ext)) (color_profile : string) (log_cut_val min_abs : option ext)
    (count_missing : option nat) (wh_missing : list nat) (missing_color : R) (invert_colorbar : bool) : result (list ext * list R * list ext) :=
  pr <- profile_of color_profile ;;
  '(a, b) <- data_range_of data data_range ;;
  _ <- (if lt b a then Err ValueError else Ok tt) ;;
  let pr := match pr with SymLog => if pos a then LogCut else SymLog | p => p end in
  '(c0, n) <- color_range count_missing ;;
  '(norm, label) <- match pr with
                    | LogCut => '(norm, (l, h)) <- log_cut data a b log_cut_val c0 n ;; Ok (norm, log_label l h n)
                    | SymLog => '(norm, (l, h)) <- sym_log data a b min_abs c0 n ;; Ok (norm, log_label l h n)
                    | Abs => Ok (abs_profile data a b c0 n, lin_label a b n)
                    end ;;
  let norm := match count_missing with Some (S _) => put_at wh_missing (Fin missing_color) norm | _ => norm end in
  let norm := if invert_colorbar then map (fun v => sub (Fin last_color) (sub v (Fin c0))) norm else norm in
  Ok (norm, ticks c0, map label (ticks c0)).

(** 184-215: the linear scale *)
Definition linear (image : list ext) (data_range : option (list ext)) (count_missing : nat) (wh_missing : list nat) : result (list ext * list R * list ext) :=
  '(a, b) <- match data_range with
             | None => a <- nanmin image ;; b <- nanmax image ;; Ok (a, b)
             | Some (a :: b :: _) => Ok (a, b)
             | Some _ => Err IndexError
             end ;;
  '(c0, n) <- color_range (Some count_missing) ;;
  let image := map (fun v => add (div (mul (sub v a) (Fin (n - 1))) (sub b a)) (Fin c0)) image in
  let image := put (fun v => lt v a) (Fin c0) image in
  let image := put (fun v => lt b v) (Fin last_color) image in
  let image := match count_missing with O => image | _ => put_at wh_missing (Fin 0) image end in
  Ok (image, ticks c0, map (lin_label a b n) (ticks c0)).

(** The image of the caller: its pixels (real parts, if complex: np.real is a view of the array), whether they are integers. *)
Record picture := { pixels : list ext; whole : bool }.

(** 142-216: the colours drawn, ticks, labels, and the pixels of the caller's array afterwards. An image that is not a
    two-dimensional array is left out (a message is printed). [missing_color] is assigned only when there is a missing
    value (157-167); storing NaN in an array of integers is a ValueError. *)
Definition quick_image (image : picture) (data_range : option (list ext)) (data_min_abs missing_value : option ext) (log : bool)
    (color_profile : string) : result (list ext * list R * list ext * list ext) :=
  let wh := match missing_value with
            | None => []
            | Some m => filter (fun i => match nth_error (pixels image) i with Some v => eq v m | None => false end)
                          (seq 0 (List.length (pixels image)))
            end in
  let count := List.length wh in
  data <- (if (0 <? count)%nat then if whole image then Err ValueError else Ok (put_at wh NaN (pixels image)) else Ok (pixels image)) ;;
  '(colors, ticks, labels) <-
    (if log then
       _ <- match missing_value, count with Some _, O => Err UnboundLocal | _, _ => Ok tt end ;;
       log_color_calc data data_range color_profile None data_min_abs (Some count) wh 0 false
     else linear data data_range count wh) ;;
  Ok (colors, ticks, labels, data).

(** os.path.splitext(s)[1]: from the last dot of the last part of the path, unless only dots come before it in that part *)
Fixpoint last_dot (rev_s acc : list ascii) : option (list ascii * list ascii) :=
  match rev_s with
  | [] => None
  | c :: t => if Ascii.eqb c "/" then None else if Ascii.eqb c "." then Some (t, c :: acc) else last_dot t (c :: acc)
  end.
Fixpoint only_dots (rev_s : list ascii) : bool :=
  match rev_s with
  | [] => true
  | c :: t => if Ascii.eqb c "/" then true else Ascii.eqb c "." && only_dots t
  end.
Definition extension (s : string) : string :=
  match last_dot (rev (list_ascii_of_string s)) [] with
  | Some (before, e) => if only_dots before then EmptyString else string_of_list_ascii e
  | None => EmptyString
  end.
(** str.lower, for ASCII *)
Definition lower1 (c : ascii) : ascii :=
  let n := nat_of_ascii c in if ((65 <=? n) && (n <=? 90))%nat then ascii_of_nat (n + 32) else c.
Definition lower (s : string) : string := string_of_list_ascii (map lower1 (list_ascii_of_string s)).

(** 101-140, 289-294: the file the picture is saved to; None: it is shown. [savefile]: the empty text counts as not given. *)
Definition save_name (savefile : option string) (png eps pdf : bool) : option string :=
  let given := match savefile with None => EmptyString | Some s => s end in
  let named := negb (String.eqb given EmptyString) in
  if named || png || eps || pdf then
    let e := lower (extension given) in
    let '(png, eps, pdf) :=
      if png || eps || pdf then (png, eps, pdf)
      else if String.eqb e ".eps" then (false, true, false)
      else if String.eqb e ".png" then (true, false, false)
      else if String.eqb e ".pdf" then (false, false, true)
      else (true, false, false) in
    let name := if named then given else "idl_quick_image"%string in
    let '(png, eps, pdf) := if (1 <? Nat.b2n png + Nat.b2n eps + Nat.b2n pdf)%nat then (true, false, false) else (png, eps, pdf) in
    Some (name ++ (if png then ".png" else if pdf then ".pdf" else if eps then ".eps" else ""))%string
  else None.
