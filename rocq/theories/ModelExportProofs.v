(** Lemmas about texts, paths and the two loops of the export. *)
From Coq Require Import String Ascii DecimalString DecimalNat.
From Verif Require Import Base PyIndex Cplx Obs ModelRead ModelReadSpec ModelExport ModelExportSpec.
Import ListNotations.
Open Scope nat_scope.
Open Scope list_scope.

Lemma pieces_start sep c s : sep c = false -> exists w r, pieces sep (String c s) = w :: r.
Proof.
  intros H. cbn [pieces]. rewrite H. destruct s as [|c' s]; [eexists _, _; reflexivity|]. destruct (sep c'); [eexists _, _; reflexivity|].
  destruct (pieces sep (String c' s)); eexists _, _; reflexivity.
Qed.
Lemma pieces_app sep c s : sep c = true -> forall a, pieces sep (a ++ String c s) = pieces sep a ++ pieces sep s.
Proof.
  intros H. induction a as [|x a IH]; [cbn [String.append pieces]; now rewrite H|].
  destruct (sep x) eqn:X; [cbn [String.append pieces]; now rewrite X, IH|].
  destruct a as [|y a]; [cbn [String.append pieces]; now rewrite X, H|].
  destruct (sep y) eqn:Y.
  - change (String x (String y a) ++ String c s)%string with (String x (String y (a ++ String c s))).
    change (String y a ++ String c s)%string with (String y (a ++ String c s)) in IH. cbn [pieces] in IH |- *. rewrite X, Y in *.
    cbn [app]. now rewrite IH.
  - change (String x (String y a) ++ String c s)%string with (String x (String y (a ++ String c s))).
    change (String y a ++ String c s)%string with (String y (a ++ String c s)) in IH.
    assert (E : forall t, pieces sep (String x (String y t)) = match pieces sep (String y t) with w :: r => String x w :: r | [] => [String x ""] end).
    { intros t. set (z := String y t). cbn [pieces]. rewrite X. unfold z at 1. rewrite Y. reflexivity. }
    rewrite !E, IH. destruct (pieces_start sep y a Y) as (w & r & ->). reflexivity.
Qed.
Lemma pieces_one sep a : a <> EmptyString -> (forall c, In c (chars a) -> sep c = false) -> pieces sep a = [a].
Proof.
  induction a as [|x a IH]; [congruence|]. intros _ H. destruct a as [|y a]; [cbn [pieces]; now rewrite (H x (or_introl eq_refl))|].
  assert (E : pieces sep (String x (String y a)) = match pieces sep (String y a) with w :: r => String x w :: r | [] => [String x ""] end).
  { set (z := String y a). cbn [pieces]. rewrite (H x (or_introl eq_refl)). unfold z at 1.
    rewrite (H y (or_intror (or_introl eq_refl))). reflexivity. }
  rewrite E, IH; [reflexivity|discriminate|]. intros c Hc. apply H. now right.
Qed.
Lemma white_spec c : white c = true <-> In (nat_of_ascii c) [9; 10; 11; 12; 13; 28; 29; 30; 31; 32].
Proof.
  unfold white. set (n := nat_of_ascii c). clearbody n. rewrite orb_true_iff, !andb_true_iff, !Nat.leb_le. cbn [In]. lia.
Qed.
Lemma unspaced_white a : unspaced a -> forall c, In c (chars a) -> white c = false.
Proof. intros U c Hc. destruct (white c) eqn:E; [|reflexivity]. apply white_spec in E. destruct (U c Hc E). Qed.
Lemma digits_unspaced u : unspaced (NilEmpty.string_of_uint u).
Proof.
  induction u as [|u IH|u IH|u IH|u IH|u IH|u IH|u IH|u IH|u IH|u IH]; intros c Hc; cbn [NilEmpty.string_of_uint chars In] in Hc;
    [destruct Hc|..]; (destruct Hc as [<-|Hc]; [vm_compute; lia|exact (IH c Hc)]).
Qed.
Lemma digits_nonempty n : NilEmpty.string_of_uint (Nat.to_uint n) <> EmptyString.
Proof.
  intros E. destruct (Nat.to_uint n) eqn:U; try discriminate. assert (N := Unsigned.of_to n). rewrite U in N. cbn in N. subst n. discriminate U.
Qed.
Lemma fix_digits n : fix_int (NilEmpty.string_of_uint (Nat.to_uint n)) = n.
Proof. unfold fix_int. rewrite NilEmpty.usu. apply Unsigned.of_to. Qed.

Lemma app_cancel a b c : (a ++ b = a ++ c -> b = c)%string.
Proof. induction a as [|x a IH]; cbn; [auto|]. intros E. injection E as E. auto. Qed.
Lemma app_assoc_s a b c : ((a ++ b) ++ c = a ++ b ++ c)%string.
Proof. induction a as [|x a IH]; cbn; [reflexivity|]. now rewrite IH. Qed.
Lemma app_cancel_r a b c : (b ++ a = c ++ a -> String.length b = String.length c -> b = c)%string.
Proof.
  revert c. induction b as [|x b IH]; intros [|y c] E L; try discriminate; [reflexivity|]. cbn in E. injection E as -> E. cbn in L.
  f_equal. apply IH; [exact E|lia].
Qed.
Lemma chars_app a b : chars (a ++ b) = chars a ++ chars b.
Proof. induction a as [|x a IH]; cbn; [reflexivity|]. now rewrite IH. Qed.

Lemma command_words d o n : identifier o -> pieces white (command d o n)
  = (["idl"; "-IDL_DEVICE"; "ps"; "-e"; "convert_model_arr_to_sav"; "-args"]%string
     ++ pieces white d ++ [o; NilEmpty.string_of_uint (Nat.to_uint n)]).
Proof.
  intros (Hn & U & _). unfold command.
  change ("idl -IDL_DEVICE ps -e convert_model_arr_to_sav -args " ++ d ++ " " ++ o ++ " " ++ NilEmpty.string_of_uint (Nat.to_uint n))%string
    with ("idl -IDL_DEVICE ps -e convert_model_arr_to_sav -args" ++ String " " (d ++ String " " (o ++ String " " (NilEmpty.string_of_uint (Nat.to_uint n)))))%string.
  rewrite pieces_app by reflexivity. rewrite pieces_app by reflexivity. rewrite pieces_app by reflexivity.
  rewrite (pieces_one white o Hn (unspaced_white o U)).
  rewrite (pieces_one white (NilEmpty.string_of_uint _) (digits_nonempty n) (unspaced_white _ (digits_unspaced _))). reflexivity.
Qed.

(** Names *)
Lemma set_inj o p q : set_name o p = set_name o q -> p = q.
Proof. unfold set_name. intros E. apply app_cancel in E. now apply app_cancel in E. Qed.
Lemma file_inj o p q : In p pol_table -> In q pol_table -> file_of o p = file_of o q -> p = q.
Proof.
  unfold file_of. intros Hp Hq E. apply app_cancel in E. apply app_cancel in E. apply app_cancel_r in E; [exact E|].
  assert (L : forall x, In x pol_table -> String.length x = 2) by (intros x Hx; cbn in Hx; intuition (subst; reflexivity)).
  now rewrite !L.
Qed.
Lemma slash_free s : ~ In "/"%char (chars s) -> forall c, In c (chars s) -> slash c = false.
Proof. intros H c Hc. unfold slash. destruct (Ascii.eqb_spec c "/"); [subst; contradiction|reflexivity]. Qed.
Lemma absolute_app d s : from_root d -> absolute (d ++ s) = true.
Proof. intros (r & ->). reflexivity. Qed.
Lemma in_dir m d name : from_root d -> name <> EmptyString -> ~ In "/"%char (chars name) ->
  at_path m (d ++ String "/" name) = pieces slash d ++ [name].
Proof.
  intros R N S. unfold at_path. rewrite absolute_app by exact R. rewrite pieces_app by reflexivity.
  rewrite (pieces_one slash name N (slash_free _ S)). reflexivity.
Qed.
Lemma id_suffix o s : identifier o -> ~ In "/"%char (chars s) -> (o ++ s)%string <> EmptyString /\ ~ In "/"%char (chars (o ++ s)).
Proof.
  intros (N & _ & S) H. split; [destruct o; [congruence|discriminate]|]. rewrite chars_app, in_app_iff. tauto.
Qed.
Lemma sav_path m d o p : from_root d -> identifier o -> In p pol_table -> at_path m (sav_name d o p) = pieces slash d ++ [file_of o p].
Proof.
  intros R I H. assert (S : ~ In "/"%char (chars ("_vis_model_" ++ p ++ ".sav"))).
  { cbn in H. destruct H as [<-|[<-|[<-|[<-|[]]]]]; vm_compute; intuition discriminate. }
  destruct (id_suffix o _ I S) as (N & S'). exact (in_dir m d _ R N S').
Qed.
Lemma h5_path m d o : from_root d -> identifier o -> at_path m (h5_name d o) = pieces slash d ++ [(o ++ "_vis_model.h5")%string].
Proof.
  intros R I. assert (S : ~ In "/"%char (chars "_vis_model.h5")) by (vm_compute; intuition discriminate).
  destruct (id_suffix o _ I S) as (N & S'). exact (in_dir m d _ R N S').
Qed.
Lemma path_eqb_refl p : path_eqb p p = true.
Proof. unfold path_eqb. destruct (list_eq_dec _ _ _); congruence. Qed.
Lemma path_eqb_false p q : p <> q -> path_eqb p q = false.
Proof. unfold path_eqb. destruct (list_eq_dec _ _ _); congruence. Qed.

(** The data sets *)
Lemma write_all o d0 : forall pols vis h, List.length pols <= List.length vis -> NoDup pols ->
  exists h', write_sets o vis pols h = (h', Ok tt)
    /\ (forall k, k < List.length pols -> h' (set_name o (nth k pols ""%string)) = Some (transpose (nth k vis d0)))
    /\ (forall s, (forall pol, In pol pols -> s <> set_name o pol) -> h' s = h s).
Proof.
  induction pols as [|p pols IH]; intros vis h L ND.
  { exists h. split; [destruct vis; reflexivity|]. split; [cbn; lia|auto]. }
  destruct vis as [|a vis]; [cbn in L; lia|]. cbn [write_sets]. inversion ND as [|? ? NI ND']; subst.
  destruct (IH vis (fun s => if String.eqb s (set_name o p) then Some (transpose a) else h s) ltac:(cbn in L; lia) ND') as (h' & E & K & O).
  exists h'. split; [exact E|]. split.
  - intros [|k] Hk; cbn [nth]; [|apply K; cbn in Hk; lia]. rewrite O; [now rewrite String.eqb_refl|].
    intros q Hq E'. apply set_inj in E'. subst q. contradiction.
  - intros s Hs. rewrite O by (intros q Hq; apply Hs; now right). destruct (String.eqb_spec s (set_name o p)); [|reflexivity].
    destruct (Hs p (or_introl eq_refl) e).
Qed.

(** IDL's loop *)
Lemma loop_dir single h d o pols : forall m, m_cwd (idl_loop single h d o pols m) = m_cwd m /\ m_h5 (idl_loop single h d o pols m) = m_h5 m.
Proof.
  induction pols as [|p pols IH]; intros m; cbn [idl_loop]; [auto|]. destruct (nth_error _ _); [|auto]. destruct (h _); [|auto].
  destruct (IH (with_sav m (put (m_sav m) (at_path m (sav_name d o s)) (Some (idl_copy single n))))) as (A & B). rewrite A, B. auto.
Qed.
Lemma loop_all single h d o (A : nat -> ndarr C) : from_root d -> identifier o -> forall pols m,
  (forall p, In p pols -> p < 4 /\ h (set_name o (nth p pol_table ""%string)) = Some (A p)) ->
  forall p, p < 4 -> In p pols \/ m_sav m (pieces slash d ++ [file_of o (nth p pol_table ""%string)]) = Some (Some (idl_copy single (A p))) ->
  m_sav (idl_loop single h d o pols m) (pieces slash d ++ [file_of o (nth p pol_table ""%string)]) = Some (Some (idl_copy single (A p))).
Proof.
  intros R I. induction pols as [|q pols IH]; intros m H p P G; cbn [idl_loop]; [destruct G as [[]|G]; exact G|].
  destruct (H q (or_introl eq_refl)) as (Q4 & HQ). rewrite (nth_error_nth' pol_table ""%string) by (cbn; lia). rewrite HQ.
  apply IH; [intros x Hx; apply H; now right|exact P|]. cbn [m_sav with_sav]. rewrite sav_path by (try assumption; apply nth_In; cbn; lia).
  unfold put. destruct (Nat.eq_dec p q) as [->|NE]; [right; now rewrite path_eqb_refl|].
  destruct G as [[G|G]|G]; [congruence|now left|]. right. rewrite path_eqb_false; [exact G|].
  intros E. apply app_inj_tail in E as [_ E]. apply file_inj in E; [|apply nth_In; cbn; lia|apply nth_In; cbn; lia].
  apply NE. assert (NDp : NoDup pol_table) by (repeat constructor; cbn; intuition discriminate).
  exact (proj1 (NoDup_nth pol_table ""%string) NDp p q ltac:(cbn; lia) ltac:(cbn; lia) E).
Qed.
Lemma NoDup_firstn {A} (l : list A) n : NoDup l -> NoDup (firstn n l).
Proof.
  intros H. rewrite <- (firstn_skipn n l) in H. revert H. generalize (firstn n l) (skipn n l). intros a b H.
  induction a as [|x a IH]; [constructor|]. cbn in H. inversion H; subst. constructor; [|auto]. intros Hx. apply H2. apply in_or_app. now left.
Qed.
