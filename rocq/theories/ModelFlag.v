(** Model of flag_model_visibilities and _FlaggingInfoCounter,
    PyFHD/source_modeling/vis_model_transfer.py:169-224 and 227-456. Times are exact rationals (days),
    antennas integers, visibilities values of any type [V] with a zero. *)
From Coq Require Export QArith Qcanon.
From Verif Require Import Base SortLib NpArr PyIndex VisWeights WeightInvert.
Open Scope nat_scope.

(** np.unique of times *)
Fixpoint tdedup (l : list Qc) : list Qc :=
  match l with
  | [] => []
  | x :: t => match t with
              | [] => [x]
              | y :: _ => if Qc_eq_dec x y then tdedup t else x :: tdedup t
              end
  end.
Definition tunique (l : list Qc) : list Qc := tdedup (isort Qcleb l).

(** np.rint, np.round(x, 2): half to even *)
Definition rint (x : Q) : Z :=
  let n := Qfloor x in
  match Qcompare (x - inject_Z n)%Q (1#2) with
  | Lt => n
  | Gt => n + 1
  | Eq => if Z.even n then n else n + 1
  end%Z.
Definition round2 (x : Qc) : Qc := Q2Qc (inject_Z (rint (x * 100)%Q) / 100)%Q.

Definition tabs (x : Qc) : Qc := if Qcleb 0 x then x else (- x)%Qc.
(** np.argmin, first of the smallest; np.min. ValueError for an empty array *)
Fixpoint argmin_aux (l : list Qc) (k best : nat) (m : Qc) : nat :=
  match l with
  | [] => best
  | x :: l => if Qcleb m x then argmin_aux l (S k) best m else argmin_aux l (S k) k x
  end.
Definition argmin (l : list Qc) : result nat :=
  match l with [] => Err ValueError | x :: l => Ok (argmin_aux l 1 0 x) end.

Record params := { pm_time : list Qc; pm_a1 : list Z; pm_a2 : list Z }.
Record info := {
  i_times : list Qc; i_num_visis : nat; i_names : list Z; i_num_autos : nat; i_per_time : nat;
  i_cross : list nat; i_auto : list nat; i_a1 : list Z; i_a2 : list Z }.

(** a1[k] == a2[k] *)
Definition same_at (a1 a2 : list Z) : list bool := map (fun ab => fst ab =? snd ab)%Z (combine a1 a2).

(** lines 172-224. Antenna columns of different lengths are taken to be an error. *)
Definition counter (p : params) : result info :=
  if negb (length (pm_a1 p) =? length (pm_a2 p)) then Err ValueError else
  let names := np_unique (np_unique (pm_a1 p) ++ np_unique (pm_a2 p)) in
  let n := length names in
  let autos := same_at (pm_a1 p) (pm_a2 p) in
  let num_autos := length (where_ (fun b => b) autos) in
  let per_time := n * (n - 1) / 2 + (if num_autos =? 0 then 0 else n) in
  Ok {| i_times := tunique (pm_time p); i_num_visis := length (pm_a1 p); i_names := names;
        i_num_autos := num_autos; i_per_time := per_time;
        i_cross := where_ negb (firstn per_time autos);
        i_auto := where_ (fun b => b) (firstn per_time autos);
        i_a1 := firstn per_time (pm_a1 p); i_a2 := firstn per_time (pm_a2 p) |}.

Definition day : Qc := Q2Qc 86400.
Definition qsum (l : list Qc) : Qc := fold_right Qcplus 0%Qc l.

(** lines 269-296: the shift added to the model times. np.mean of no times is NaN, which fails both
    tests. *)
Definition time_shift (data model : list Qc) (time_res : Qc) : result Qc :=
  offs <- map_res (fun t => k <- argmin (map (fun m => tabs (m - t)%Qc) model) ;;
                            Ok (tabs (nth k model 0 - t)%Qc * day)%Qc) data ;;
  match offs with
  | [] => Ok 0%Qc
  | _ => let r := round2 (qsum offs / Q2Qc (inject_Z (Z.of_nat (length offs))))%Qc in
         Ok (if Qcleb (Q2Qc (1#4)) r && Qcleb r (time_res / Q2Qc 2)%Qc then r / day else 0)%Qc
  end.

(** lines 302-307 *)
Definition match_times (data model : list Qc) (shift : Qc) : result (list nat) :=
  map_res (fun t => argmin (map (fun m => tabs (m + shift - t)%Qc) model)) data.

Definition zmem (z : Z) (l : list Z) : bool := existsb (Z.eqb z) l.
Definition zmax (l : list Z) : result Z :=
  match l with [] => Err ValueError | x :: l => Ok (fold_left Z.max l x) end.

(** lines 371-389: the 1-based indices of the tiles that do not occur in the data *)
Definition flag_indexes (names tile_names : list Z) : result (list Z) :=
  mx <- zmax names ;;
  let n := length tile_names in
  if (Z.of_nat n <? mx)%Z
  then Ok (map (fun k => Z.of_nat (k + 1)) (filter (fun k => negb (zmem (nth k tile_names 0%Z) names)) (seq 0 n)))
  else Ok (filter (fun a => negb (zmem a names)) (map Z.of_nat (seq 1 n))).

(** [out[:, :, dst] = src[:, :, idx]]: a single source column is broadcast *)
Definition put_cols {V} (out : arr3 V) (dst : list nat) (src : arr3 V) (idx : list nat) : result (arr3 V) :=
  if negb (forallb (fun k => k <? d_bl src) idx) || negb (forallb (fun k => k <? d_bl out) dst) then Err IndexError else
  if negb (d_pol src =? d_pol out) || negb (d_freq src =? d_freq out) then Err ValueError else
  if negb (length idx =? length dst) && negb (length idx =? 1) then Err ValueError else
  Ok (Arr3 (d_pol out) (d_freq out) (d_bl out) (fun p f b =>
        match find (fun j => nth j dst 0 =? b) (rev (seq 0 (length dst))) with
        | Some j => at3 src p f (nth (if length idx =? length dst then j else 0) idx 0)
        | None => at3 out p f b
        end)).

(** lines 264-456. A model whose polarisation or frequency axis differs from the data's is an error
    (length-1 axes, which NumPy would broadcast, included). *)
Definition flag_model_visibilities {V} (zero : V) (n_pol n_freq : nat) (time_res : Qc) (tile_names : list Z)
    (vis_model : arr3 V) (data model : params) : result (arr3 V) :=
  d <- counter data ;;
  m <- counter model ;;
  shift <- time_shift (i_times d) (i_times m) time_res ;;
  use <- match_times (i_times d) (i_times m) shift ;;
  if negb (length (i_times d) =? length (np_unique (map Z.of_nat use))) then Err SystemExit else
  if length (i_names m) <? length (i_names d) then Err SystemExit else
  let include_autos := negb (i_num_autos m =? 0)
                       && negb (i_num_autos m <? length (i_times m) * length (i_names m)) in
  flags <- flag_indexes (i_names d) tile_names ;;
  let include := map (fun ab => negb (zmem (fst ab) flags) && negb (zmem (snd ab) flags)) (combine (i_a1 m) (i_a2 m)) in
  let cross_m := where_ (fun b => b) include in
  let kept := map fst (filter snd (combine (combine (i_a1 m) (i_a2 m)) include)) in
  let auto_m := where_ (fun ab => fst ab =? snd ab)%Z kept in
  fold_res (fun out ij =>
      let '(t_data, t_model) := ij in
      let at_d := map (fun k => t_data * i_per_time d + k) in
      let at_m := map (fun k => t_model * i_per_time m + k) in
      out <- put_cols out (at_d (i_cross d)) vis_model (at_m cross_m) ;;
      if include_autos then put_cols out (at_d (i_auto d)) vis_model (at_m auto_m) else Ok out)
    (combine (seq 0 (length use)) use)
    (Arr3 n_pol n_freq (i_num_visis d) (fun _ _ _ => zero)).
