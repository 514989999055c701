(** Proofs about create_layout. *)
From Coq Require Import String.
From Verif Require Import Base Layout LayoutSpec.
Import ListNotations.
Open Scope nat_scope.
Open Scope list_scope.
Open Scope string_scope.

Lemma bind_ok {A B} (x : result A) (f : A -> result B) r : bind x f = Ok r -> exists a, x = Ok a /\ f a = Ok r.
Proof. destruct x; [eauto|discriminate]. Qed.

(** The parts of a layout. *)
Record parts (digits : nat -> string) (h d : table) (l : dict) : Prop := {
  k_header : forall k c v, In (k, c, v) header_entries -> get k l = Some (or_default h c v);
  k_center : get "array_center" l = Some (center h);
  k_ts : exists ts, time_system h = Ok ts /\ get "time_system" l = Some ts
         /\ get "nleap_sec" l = leap h ts (or_default h "datutc" (LNum 0));
  k_names : exists v, names d digits (or_default h "naxis2" (LNum 128)) = Ok v /\ get "antenna_names" l = Some v;
  k_numbers : exists v, numbers d = Ok v /\ get "antenna_numbers" l = Some v;
  k_coords : exists v, coords d (or_default h "naxis2" (LNum 128)) = Ok v /\ get "antenna_coords" l = Some v;
  k_const : forall k c q, In (k, c, q) constant_entries -> exists v, collapse (or_default d c (LNum q)) = Ok v /\ get k l = Some v;
  k_pola : get "pola" l = Some (or_default d "poltya" (LText "X"));
  k_polb : get "polb" l = Some (or_default d "poltyb" (LText "Y"));
  k_pa : exists v, cal_params d "polcala" (or_default h "nopcal" (LNum 0)) = Ok v /\ get "pola_cal_params" l = Some v;
  k_pb : exists v, cal_params d "polcalb" (or_default h "nopcal" (LNum 0)) = Ok v /\ get "polb_cal_params" l = Some v;
  k_dia : get "diameters" l = d "diameter";
  k_fwhm : get "beam_fwhm" l = d "beamfwhm" }.

Lemma create_parts digits h d l : create_layout digits h d = Ok l -> parts digits h d l.
Proof.
  intros H. unfold create_layout in H.
  apply bind_ok in H as (ts & E1 & H). apply bind_ok in H as (nm & E2 & H). apply bind_ok in H as (no & E3 & H).
  apply bind_ok in H as (xyz & E4 & H). apply bind_ok in H as (pa & E5 & H). apply bind_ok in H as (pb & E6 & H).
  apply bind_ok in H as (mount & E7 & H). apply bind_ok in H as (offset & E8 & H). apply bind_ok in H as (oa & E9 & H).
  apply bind_ok in H as (ob & E10 & H). injection H as <-.
  assert (G : forall k, k <> "nleap_sec" -> k <> "diameters" -> k <> "beam_fwhm" -> forall base,
    get k (match d "beamfwhm" with Some v => set "beam_fwhm" v (match d "diameter" with Some v => set "diameters" v
       (match leap h ts (or_default h "datutc" (LNum 0)) with Some v => set "nleap_sec" v base | None => base end) | None =>
       (match leap h ts (or_default h "datutc" (LNum 0)) with Some v => set "nleap_sec" v base | None => base end) end) | None =>
       (match d "diameter" with Some v => set "diameters" v
       (match leap h ts (or_default h "datutc" (LNum 0)) with Some v => set "nleap_sec" v base | None => base end) | None =>
       (match leap h ts (or_default h "datutc" (LNum 0)) with Some v => set "nleap_sec" v base | None => base end) end) end)
    = get k base).
  { intros k N1 N2 N3 base. apply String.eqb_neq in N1, N2, N3.
    destruct (d "beamfwhm"), (d "diameter"), (leap h ts (or_default h "datutc" (LNum 0))); unfold set; cbn [get];
      rewrite ?N1, ?N2, ?N3; reflexivity. }
  constructor.
  - intros k c v I. unfold header_entries in I. cbn [In] in I.
    repeat (destruct I as [I|I]; [injection I as <- <- <-; rewrite G by discriminate; reflexivity|]). destruct I.
  - rewrite G by discriminate. reflexivity.
  - exists ts. split; [exact E1|]. split; [rewrite G by discriminate; reflexivity|].
    destruct (d "beamfwhm"), (d "diameter"), (leap h ts (or_default h "datutc" (LNum 0))); reflexivity.
  - exists nm. split; [exact E2|]. rewrite G by discriminate; reflexivity.
  - exists no. split; [exact E3|]. rewrite G by discriminate; reflexivity.
  - exists xyz. split; [exact E4|]. rewrite G by discriminate; reflexivity.
  - intros k c q I. unfold constant_entries in I. cbn [In] in I.
    destruct I as [I|[I|[I|[I|[]]]]]; injection I as <- <- <-; eexists; (split; [eassumption|rewrite G by discriminate; reflexivity]).
  - rewrite G by discriminate; reflexivity.
  - rewrite G by discriminate; reflexivity.
  - exists pa. split; [exact E5|]. rewrite G by discriminate; reflexivity.
  - exists pb. split; [exact E6|]. rewrite G by discriminate; reflexivity.
  - destruct (d "beamfwhm"), (d "diameter"), (leap h ts (or_default h "datutc" (LNum 0))); reflexivity.
  - destruct (d "beamfwhm"), (d "diameter"), (leap h ts (or_default h "datutc" (LNum 0))); reflexivity.
Qed.

Lemma qeq_same a b : qeq a b = true -> exists x y, a = Some x /\ b = Some y /\ (x == y)%Q.
Proof. destruct a, b; cbn; try discriminate. intros H. apply Qeq_bool_iff in H. eauto. Qed.
Lemma same_refl x : same x x.
Proof. destruct x as [[q|]|]; cbn; reflexivity. Qed.
(** A collapsed column stands for the same values. *)
Lemma collapse_same l v i : collapse (LCol l) = Ok v -> i < List.length l -> same (for_antenna v i) (nth_error l i).
Proof.
  intros H Hi. cbn [collapse] in H. apply bind_ok in H as (c & E & H). injection H as <-.
  destruct c; [|apply same_refl]. destruct l as [|[q|] l]; try apply same_refl.
  assert (E' : forallb (qeq (Some q)) (Some q :: l) = true) by (unfold constant in E; congruence). clear E. rename E' into E.
  rewrite forallb_forall in E.
  destruct (nth_error (Some q :: l) i) as [y|] eqn:N; [|apply nth_error_None in N; lia].
  apply nth_error_In in N. apply E in N. apply qeq_same in N as (x & y' & X & -> & Q0). injection X as <-. exact Q0.
Qed.
(** And becomes one number exactly when the column is constant. *)
Lemma collapse_number q l v : collapse (LCol (q :: l)) = Ok v ->
  ((exists x, v = LNum x) <-> exists x, Forall (fun y => same (Some y) (Some (Some x))) (q :: l)).
Proof.
  intros H. cbn [collapse constant] in H. apply bind_ok in H as (c & E & H).
  assert (E' : c = forallb (qeq q) (q :: l)) by congruence. clear E. destruct c; injection H as <-; symmetry in E'; rename E' into F.
  - destruct q as [x|]; [|cbn in F; discriminate F]. split; [|intros _; exists x; reflexivity]. intros _. exists x. apply Forall_forall. intros y Hy.
    rewrite forallb_forall in F. apply F, qeq_same in Hy as (a & b & A & -> & Q0). injection A as <-. cbn. now symmetry.
  - split; [intros [x X]; discriminate X|]. intros [x X]. exfalso.
    assert (Y : forallb (qeq q) (q :: l) = true).
    { apply forallb_forall. intros y Hy. rewrite Forall_forall in X. pose proof (X y Hy) as A. pose proof (X q (or_introl eq_refl)) as B.
      destruct q as [a|], y as [b|]; cbn in A, B |- *; try discriminate. apply Qeq_bool_iff. rewrite A, B. reflexivity. }
    rewrite Y in F. discriminate F.
Qed.
Lemma count_of_count v : count v -> exists n, count_of v = Ok n.
Proof. intros [n ->]. cbn. eauto. Qed.
Lemma default_count (h : table) c m : (forall v, h c = Some v -> count v) -> count (LNum (inject_Z (Z.of_nat m))) -> count (or_default h c (LNum (inject_Z (Z.of_nat m)))).
Proof. intros H D. unfold or_default. destruct (h c); [now apply H|exact D]. Qed.
Lemma zeros_count n : exists v, zeros (inject_Z (Z.of_nat n)) = Ok v.
Proof. unfold zeros. cbn [Qden Qnum inject_Z]. cbn [Pos.eqb]. destruct (Z.of_nat n <? 0)%Z eqn:E; [lia|]. eauto. Qed.
Lemma cal_params_ok d c v : count v -> exists w, cal_params d c v = Ok w.
Proof. intros [n ->]. unfold cal_params. destruct (d c); [eauto|]. destruct Qlt_le_dec; [apply zeros_count|eauto]. Qed.
Lemma collapse_ok v : (forall l, v <> LCol l \/ l <> []) -> (forall l, v <> LRows l) -> exists w, collapse v = Ok w.
Proof.
  intros H N. destruct v; try (cbn; eauto; fail).
  - cbn [collapse]. destruct l as [|x l]; [destruct (H []); congruence|]. cbn. eauto.
  - exfalso. now apply (N l).
Qed.
Lemma create_ok digits h d no : well_typed h d -> d "nosta" = Some no -> exists l, create_layout digits h d = Ok l.
Proof.
  intros (T1 & T2 & P & A & K) N. unfold create_layout.
  assert (CA : count (or_default h "naxis2" (LNum 128))) by (apply (default_count h "naxis2" 128); [exact A|exists 128; reflexivity]).
  assert (CP : count (or_default h "nopcal" (LNum 0))) by (apply (default_count h "nopcal" 0); [exact P|exists 0; reflexivity]).
  destruct (time_system h) as [ts|e] eqn:ET.
  2:{ exfalso. unfold time_system in ET. destruct (h "timesys") as [v|] eqn:H1.
      - destruct (T1 v eq_refl) as [t ->]. discriminate ET.
      - destruct (h "timsys") as [v|] eqn:H2; [|discriminate ET]. destruct (T2 v eq_refl) as [t ->]. discriminate ET. }
  cbn [bind]. destruct (count_of_count _ CA) as [n En].
  assert (NM : exists nm, names d digits (or_default h "naxis2" (LNum 128)) = Ok nm).
  { unfold names. destruct (d "anname"); [eauto|]. rewrite En. cbn [bind]. eauto. }
  destruct NM as [nm ->]. cbn [bind]. unfold numbers. rewrite N. cbn [bind].
  assert (XYZ : exists nm, coords d (or_default h "naxis2" (LNum 128)) = Ok nm).
  { unfold coords. destruct (d "stabxyz"); [eauto|]. rewrite En. cbn [bind]. eauto. }
  destruct XYZ as [xyz ->]. cbn [bind].
  destruct (cal_params_ok d "polcala" _ CP) as [pa ->]. cbn [bind].
  destruct (cal_params_ok d "polcalb" _ CP) as [pb ->]. cbn [bind].
  assert (CO : forall k c q, In (k, c, q) constant_entries -> exists w, collapse (or_default d c (LNum q)) = Ok w).
  { intros k c q I. apply collapse_ok; unfold or_default; destruct (d c) as [v|] eqn:E; try (intros; try left; discriminate);
      destruct (K k c q v I E) as (x & r & ->); [|discriminate].
    intros [|y l]; [left; discriminate|right; discriminate]. }
  destruct (CO "mount_type" "mntsta" 0%Q) as [w1 ->]; [cbn; tauto|]. cbn [bind].
  destruct (CO "axis_offset" "staxof" 0%Q) as [w2 ->]; [cbn; tauto|]. cbn [bind].
  destruct (CO "pola_orientation" "polaa" 0%Q) as [w3 ->]; [cbn; tauto|]. cbn [bind].
  destruct (CO "polb_orientation" "polab" 90%Q) as [w4 ->]; [cbn; tauto|]. cbn [bind].
  eauto.
Qed.
