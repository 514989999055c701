(** C72: the antenna layout read from a UVFITS file. *)
From Coq Require Import String.
From Verif Require Import Base Layout LayoutSpec LayoutProofs.
Import ListNotations.
Open Scope nat_scope.
Open Scope list_scope.
Open Scope string_scope.

(** Every entry of the header that is given is taken, every other has its documented value; the array centre is the
    file's if it is complete. *)
Theorem C72_header : forall digits h d l, create_layout digits h d = Ok l ->
  (forall k c dflt, In (k, c, dflt) header_entries ->
     (forall v, h c = Some v -> get k l = Some v) /\ (h c = None -> get k l = Some dflt))
  /\ (forall x y z, h "arrayx" = Some x -> h "arrayy" = Some y -> h "arrayz" = Some z -> get "array_center" l = Some (LPy [x; y; z]))
  /\ (h "arrayx" = None \/ h "arrayy" = None \/ h "arrayz" = None -> get "array_center" l = Some mwa_center).
Proof.
  intros digits h d l H. apply create_parts in H. split; [|split].
  - intros k c v I. pose proof (k_header _ _ _ _ H k c v I) as E. unfold or_default in E.
    split; [intros w W|intros W]; rewrite W in E; exact E.
  - intros x y z X Y Z. rewrite (k_center _ _ _ _ H). unfold center. rewrite X, Y, Z. reflexivity.
  - intros N. rewrite (k_center _ _ _ _ H). unfold center. destruct (h "arrayx"), (h "arrayy"), (h "arrayz"); try reflexivity.
    destruct N as [N|[N|N]]; discriminate N.
Qed.
Print Assumptions C72_header.

(** The columns of the antenna table come through unchanged. *)
Theorem C72_columns : forall digits h d l k c v, create_layout digits h d = Ok l -> In (k, c) column_entries -> d c = Some v ->
  get k l = Some v.
Proof.
  intros digits h d l k c v H I E. apply create_parts in H. unfold column_entries in I. cbn [In] in I.
  repeat (destruct I as [I|I]; [injection I as <- <-|]); [..|destruct I].
  - destruct (k_names _ _ _ _ H) as (w & W & G). unfold names in W. rewrite E in W. congruence.
  - destruct (k_numbers _ _ _ _ H) as (w & W & G). unfold numbers in W. rewrite E in W. congruence.
  - destruct (k_coords _ _ _ _ H) as (w & W & G). unfold coords in W. rewrite E in W. congruence.
  - rewrite (k_pola _ _ _ _ H). unfold or_default. rewrite E. reflexivity.
  - destruct (k_pa _ _ _ _ H) as (w & W & G). unfold cal_params in W. rewrite E in W. congruence.
  - rewrite (k_polb _ _ _ _ H). unfold or_default. rewrite E. reflexivity.
  - destruct (k_pb _ _ _ _ H) as (w & W & G). unfold cal_params in W. rewrite E in W. congruence.
  - rewrite (k_dia _ _ _ _ H). exact E.
  - rewrite (k_fwhm _ _ _ _ H). exact E.
Qed.
Print Assumptions C72_columns.

(** Mounts, offsets and feed orientations: the value for each antenna is the one of the table (or the default); one number
    is kept for all antennas exactly when they agree. *)
Theorem C72_constant : forall digits h d l k c dflt, create_layout digits h d = Ok l -> In (k, c, dflt) constant_entries ->
  (forall col, d c = Some (LCol col) -> exists v, get k l = Some v
     /\ (forall i, i < List.length col -> same (for_antenna v i) (nth_error col i))
     /\ ((exists x, v = LNum x) <-> exists x, Forall (fun y => same (Some y) (Some (Some x))) col))
  /\ (d c = None -> get k l = Some (LNum dflt)).
Proof.
  intros digits h d l k c q H I. apply create_parts in H. destruct (k_const _ _ _ _ H k c q I) as (v & C & G). unfold or_default in C.
  split.
  - intros col E. rewrite E in C. exists v. split; [exact G|]. split; [intros i Hi; exact (collapse_same _ _ _ C Hi)|].
    destruct col as [|x col]; [discriminate C|]. exact (collapse_number _ _ _ C).
  - intros E. rewrite E in C. injection C as <-. exact G.
Qed.
Print Assumptions C72_constant.

(** What is made up when a column is missing has the documented size. *)
Theorem C72_missing_columns : forall digits h d l n, create_layout digits h d = Ok l -> or_default h "naxis2" (LNum 128) = LNum (inject_Z (Z.of_nat n)) ->
  (d "anname" = None -> get "antenna_names" l = Some (LChars (map digits (seq 0 n))))
  /\ (d "stabxyz" = None -> get "antenna_coords" l = Some (LRows (repeat [Some 0%Q; Some 0%Q; Some 0%Q] n)))
  /\ (d "poltya" = None -> get "pola" l = Some (LText "X")) /\ (d "poltyb" = None -> get "polb" l = Some (LText "Y")).
Proof.
  intros digits h d l n H N. apply create_parts in H. split; [|split; [|split]].
  - intros E. destruct (k_names _ _ _ _ H) as (w & W & G). unfold names in W. rewrite E, N in W. cbn [count_of Qden Qnum inject_Z Pos.eqb bind] in W.
    rewrite Nat2Z.id in W. injection W as <-. exact G.
  - intros E. destruct (k_coords _ _ _ _ H) as (w & W & G). unfold coords in W. rewrite E, N in W. cbn [count_of Qden Qnum inject_Z Pos.eqb bind] in W.
    rewrite Nat2Z.id in W. injection W as <-. exact G.
  - intros E. rewrite (k_pola _ _ _ _ H). unfold or_default. rewrite E. reflexivity.
  - intros E. rewrite (k_polb _ _ _ _ H). unfold or_default. rewrite E. reflexivity.
Qed.
Print Assumptions C72_missing_columns.

(** Any table with antenna numbers and at least one antenna is accepted. *)
Theorem C72_accepts_partial : forall digits h d no, well_typed h d -> d "nosta" = Some no ->
  exists l, create_layout digits h d = Ok l.
Proof. exact create_ok. Qed.
Print Assumptions C72_accepts_partial.

(** One without antenna numbers never is, although a default is announced. *)
Theorem C72_numbers_refuted : forall digits h d, well_typed h d -> d "nosta" = None ->
  create_layout digits h d = Err AttributeError.
Proof.
  intros digits h d (T1 & T2 & P & A & K) N. unfold create_layout.
  assert (CA : count (or_default h "naxis2" (LNum 128))) by (apply (default_count h "naxis2" 128); [exact A|exists 128; reflexivity]).
  destruct (time_system h) as [ts|e] eqn:ET.
  2:{ exfalso. unfold time_system in ET. destruct (h "timesys") as [v|] eqn:H1.
      - destruct (T1 v eq_refl) as [t ->]. discriminate ET.
      - destruct (h "timsys") as [v|] eqn:H2; [|discriminate ET]. destruct (T2 v eq_refl) as [t ->]. discriminate ET. }
  cbn [bind]. destruct (count_of_count _ CA) as [n En].
  assert (NM : exists nm, names d digits (or_default h "naxis2" (LNum 128)) = Ok nm).
  { unfold names. destruct (d "anname"); [eauto|]. rewrite En. cbn [bind]. eauto. }
  destruct NM as [nm ->]. cbn [bind]. unfold numbers. rewrite N. reflexivity.
Qed.
Print Assumptions C72_numbers_refuted.

(** The leap seconds are those of the file, or for the time system IAT its difference to UTC; otherwise the entry is
    missing, although the log announces -1. *)
Theorem C72_leap_partial : forall digits h d l, create_layout digits h d = Ok l ->
  (forall v, h "iautc" = Some v -> get "nleap_sec" l = Some v)
  /\ (h "iautc" = None -> get "time_system" l = Some (LText "IAT") -> get "nleap_sec" l = get "diff_utc" l).
Proof.
  intros digits h d l H. apply create_parts in H. destruct (k_ts _ _ _ _ H) as (ts & _ & T & L). unfold leap in L. split.
  - intros v E. rewrite E in L. exact L.
  - intros E F. rewrite E in L. rewrite T in F. injection F as ->. rewrite L. symmetry.
    exact (k_header _ _ _ _ H "diff_utc" "datutc" (LNum 0) ltac:(cbn; tauto)).
Qed.
Print Assumptions C72_leap_partial.
Theorem C72_leap_refuted : forall digits h d l ts, create_layout digits h d = Ok l -> h "iautc" = None ->
  get "time_system" l = Some (LText ts) -> ts <> "IAT" -> get "nleap_sec" l = None.
Proof.
  intros digits h d l ts H E T N. apply create_parts in H. destruct (k_ts _ _ _ _ H) as (t & _ & T' & L). rewrite T in T'. injection T' as <-.
  rewrite L. unfold leap. rewrite E.
  do 3 (destruct ts as [|[[] [] [] [] [] [] [] []] ts]; try reflexivity). destruct ts; [|reflexivity]. now contradict N.
Qed.
Print Assumptions C72_leap_refuted.
Theorem C72_time_system : forall digits h d l t, create_layout digits h d = Ok l ->
  (h "timesys" = Some (LText t) \/ h "timesys" = None /\ h "timsys" = Some (LText t)) ->
  get "time_system" l = Some (LText (rstrip (lstrip t))).
Proof.
  intros digits h d l t H E. apply create_parts in H. destruct (k_ts _ _ _ _ H) as (ts & T & G & _). rewrite G.
  unfold time_system in T. destruct E as [E|[E1 E]]; [rewrite E in T|rewrite E1, E in T]; injection T as <-; reflexivity.
Qed.
Print Assumptions C72_time_system.

(** Without a time system UTC is assumed; without calibration parameters there are as many zeros as the header says, or
    the number 0 if it says none or one. *)
Theorem C72_defaults : forall digits h d l, create_layout digits h d = Ok l ->
  (h "timesys" = None -> h "timsys" = None -> get "time_system" l = Some (LText "UTC"))
  /\ forall n k c, or_default h "nopcal" (LNum 0) = LNum (inject_Z (Z.of_nat n)) ->
     In (k, c) [("pola_cal_params", "polcala"); ("polb_cal_params", "polcalb")] -> d c = None ->
     get k l = Some (match n with S (S _) => LCol (repeat (Some 0%Q) n) | _ => LNum 0 end).
Proof.
  intros digits h d l H. apply create_parts in H. split.
  - intros E1 E2. destruct (k_ts _ _ _ _ H) as (ts & T & G & _). rewrite G. unfold time_system in T. rewrite E1, E2 in T. injection T as <-. reflexivity.
  - intros n k c N I E.
    assert (K : forall w, cal_params d c (or_default h "nopcal" (LNum 0)) = Ok w -> w = match n with S (S _) => LCol (repeat (Some 0%Q) n) | _ => LNum 0 end).
    { intros w W. rewrite N in W. unfold cal_params in W. rewrite E in W. destruct (Qlt_le_dec 1 (inject_Z (Z.of_nat n))) as [L|L].
      - unfold zeros in W. cbn [Qden Qnum inject_Z Pos.eqb] in W. destruct (Z.ltb_spec (Z.of_nat n) 0); [lia|]. rewrite Nat2Z.id in W.
        change 1%Q with (inject_Z 1) in L. rewrite <- Zlt_Qlt in L. destruct n as [|[|n]]; [lia|lia|]. congruence.
      - change 1%Q with (inject_Z 1) in L. rewrite <- Zle_Qle in L. destruct n as [|[|n]]; [congruence|congruence|lia]. }
    destruct I as [I|[I|[]]]; injection I as <- <-.
    + destruct (k_pa _ _ _ _ H) as (w & W & G). rewrite G. f_equal. exact (K w W).
    + destruct (k_pb _ _ _ _ H) as (w & W & G). rewrite G. f_equal. exact (K w W).
Qed.
Print Assumptions C72_defaults.

(** A column of an antenna table without antennas is an error. *)
Theorem C72_empty_refuted : forall digits h d no, well_typed h (fun c => if String.eqb c "mntsta" then None else d c) ->
  d "nosta" = Some no -> d "mntsta" = Some (LCol []) -> create_layout digits h d = Err ValueError.
Proof.
  intros digits h d no T N M. destruct (create_ok digits _ _ no T) as [l L]; [exact N|]. unfold create_layout in L |- *.
  destruct (time_system h) as [ts|e]; [|discriminate L]. cbn [bind] in L |- *.
  change (names (fun c => if String.eqb c "mntsta" then None else d c)) with (names d) in L.
  destruct (names d _ _) as [nm|e]; [|discriminate L]. cbn [bind] in L |- *.
  change (numbers (fun c => if String.eqb c "mntsta" then None else d c)) with (numbers d) in L.
  destruct (numbers d) as [nu|e]; [|discriminate L]. cbn [bind] in L |- *.
  change (coords (fun c => if String.eqb c "mntsta" then None else d c)) with (coords d) in L.
  destruct (coords d _) as [xyz|e]; [|discriminate L]. cbn [bind] in L |- *.
  change (cal_params (fun c => if String.eqb c "mntsta" then None else d c) "polcala") with (cal_params d "polcala") in L.
  destruct (cal_params d "polcala" _) as [pa|e]; [|discriminate L]. cbn [bind] in L |- *.
  change (cal_params (fun c => if String.eqb c "mntsta" then None else d c) "polcalb") with (cal_params d "polcalb") in L.
  destruct (cal_params d "polcalb" _) as [pb|e]; [|discriminate L]. cbn [bind].
  unfold or_default at 1. rewrite M. reflexivity.
Qed.
Print Assumptions C72_empty_refuted.

(** A table that meets the hypotheses: two antennas on one mount type, different offsets, no leap seconds. *)
Definition demo_h : table := fun k => if String.eqb k "timesys" then Some (LText "UTC ") else if String.eqb k "naxis2" then Some (LNum 2)
  else if String.eqb k "gstia0" then Some (LNum 12) else None.
Definition demo_d : table := fun k => if String.eqb k "nosta" then Some (LCol [Some 1; Some 2]%Q)
  else if String.eqb k "mntsta" then Some (LCol [Some 3; Some 3]%Q) else if String.eqb k "staxof" then Some (LCol [Some 0; Some (1#2)]%Q) else None.
Example C72_demo : well_typed demo_h demo_d /\ exists l, create_layout (fun _ => "0") demo_h demo_d = Ok l
  /\ get "gst0" l = Some (LNum 12) /\ get "mount_type" l = Some (LNum 3) /\ get "axis_offset" l = Some (LCol [Some 0; Some (1#2)]%Q)
  /\ get "time_system" l = Some (LText "UTC") /\ get "nleap_sec" l = None /\ get "polb_orientation" l = Some (LNum 90)
  /\ get "antenna_coords" l = Some (LRows [[Some 0; Some 0; Some 0]; [Some 0; Some 0; Some 0]]%Q).
Proof.
  split; [|eexists; split; [reflexivity|repeat split]].
  split; [|split; [|split; [|split]]].
  - intros v E. injection E as <-. eauto.
  - intros v E. discriminate E.
  - intros v E. discriminate E.
  - intros v E. injection E as <-. exists 2. reflexivity.
  - intros k c q v I E. cbn in I. repeat (destruct I as [I|I]; [injection I as <- <- <-; first [discriminate E|injection E as <-; eauto]|]). destruct I.
Qed.
