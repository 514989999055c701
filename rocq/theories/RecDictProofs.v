From Coq Require Import String Ascii.
From Verif Require Import Base PyIndex RecDict RecDictSpec.
Import ListNotations.
Open Scope nat_scope.
Open Scope list_scope.

(** The step of the loop, by name. *)
Definition field (x : val) : result val :=
  match x with
  | Arr t shape [e] =>
      match shape with
      | [_] => match e with
               | Rec _ => convert e
               | Arr _ [_] (Rec _ as r :: _) => convert r
               | _ => plain e
               end
      | [] => Err IndexError
      | _ :: rest => match rest, e with
                     | [_], Rec _ => convert e
                     | _, _ => plain (Arr t rest [e])
                     end
      end
  | Arr _ [_] (Rec _ as r :: _) => convert r
  | Rec _ => convert x
  | _ => plain x
  end.
Fixpoint fields (l : list (string * val)) : result (list (string * val)) :=
  match l with
  | [] => Ok []
  | (k, x) :: l => v <- field x ;; rest <- fields l ;; Ok ((k, v) :: rest)
  end.
Lemma convert_rec columns : convert (Rec columns) = (l <- fields columns ;; Ok (Dict (map (fun kv => (lower (fst kv), snd kv)) l))).
Proof. reflexivity. Qed.
Lemma convert_dict items : convert (Dict items) = (l <- fields items ;; Ok (Dict l)).
Proof. reflexivity. Qed.

Lemma index0_numbers t shape l : numbers t shape l -> exists e, index0 t shape l = Ok e /\ (number e \/ exists s k, e = Arr t s k).
Proof.
  intros (T & S & L & P & F & _). destruct shape as [|[|n] [|m rest]]; [congruence| | | |]; cbn in *; try lia.
  - destruct l as [|e l]; [cbn in P; lia|]. exists e. split; [reflexivity|left]. now inversion F.
  - eexists. split; [reflexivity|right]. eauto.
Qed.
Lemma plain_numbers t shape l : numbers t shape l -> plain (Arr t shape l) = Ok (Arr t shape l).
Proof.
  intros N. destruct (index0_numbers _ _ _ N) as (e & E & K). unfold plain. rewrite E. cbn [bind].
  destruct N as ([-> | ->] & S & L & P & F & _); (destruct l as [|v l]; [cbn in P; lia|]); inversion F as [|? ? NV ?]; subst;
    destruct v; try contradiction; (destruct K as [K|(s & k & ->)]; [destruct e; try contradiction|]; reflexivity).
Qed.
Lemma cast_all_numbers t l : Forall number l -> whole t l -> numeric t -> cast_all t l = Some l.
Proof.
  intros F W T. induction F as [|v l N F IH]; [reflexivity|]. cbn [cast_all].
  assert (C : cast t v = Some v).
  { destruct T as [-> | ->].
    - destruct (W eq_refl v (or_introl eq_refl)) as (z & ->). cbn. repeat f_equal. unfold Qtrunc.
      destruct (Qle_bool 0 (inject_Z z)).
      + apply Qfloor_Z.
      + unfold Qceiling. rewrite <- inject_Z_opp, Qfloor_Z. lia.
    - destruct v; reflexivity. }
  rewrite C, IH; [reflexivity|]. intros E v' I. apply (W E). now right.
Qed.
Lemma rows_numbers t shape rows : (forall r, In r rows -> numbers t shape r) -> numeric t ->
  rows_of t shape (map filled (map (Arr t shape) rows)) = Some (concat rows).
Proof.
  intros H T. induction rows as [|r rows IH]; [reflexivity|]. cbn [map filled rows_of row].
  destruct (list_eq_dec Nat.eq_dec shape shape); [|congruence].
  destruct (H r (or_introl eq_refl)) as (_ & _ & _ & _ & F & W).
  rewrite cast_all_numbers, IH; try assumption; [reflexivity|]. intros r' I. apply H. now right.
Qed.
Lemma not_null_arrays t shape r rows : forallb null (map (Arr t shape) (r :: rows)) = false.
Proof. reflexivity. Qed.
Lemma strings_mapped l :
  map_res (fun x => match x with Byte s => Ok (Str (strip s)) | _ => Err AttributeError end) (map Byte l)
  = Ok (map (fun s => Str (strip s)) l).
Proof. induction l as [|s l IH]; [reflexivity|]. cbn [map map_res bind]. rewrite IH. reflexivity. Qed.

Lemma lower_letters c : lower_ascii c = lower_letter c.
Proof. destruct c as [[] [] [] [] [] [] [] []]; reflexivity. Qed.
Lemma lower_same s : lower s = lower_case s.
Proof. induction s as [|c s IH]; [reflexivity|]. cbn [lower lower_case]. now rewrite lower_letters, IH. Qed.
Lemma blank_white c : blank c = true <-> white c.
Proof.
  unfold blank, white. cbn [In]. rewrite Bool.orb_true_iff, !Bool.andb_true_iff, !Nat.leb_le. lia.
Qed.
Lemma lstrip_white a s : all_white a -> lstrip (a ++ s) = lstrip s.
Proof. induction a as [|c a IH]; intros W; [reflexivity|]. destruct W as [W1 W2]. cbn [append lstrip].
  rewrite (proj2 (blank_white c) W1). auto. Qed.
Lemma rstrip_white b : all_white b -> rstrip b = EmptyString.
Proof. induction b as [|c b IH]; intros W; [reflexivity|]. destruct W as [W1 W2]. cbn [rstrip]. rewrite IH by exact W2.
  now rewrite (proj2 (blank_white c) W1). Qed.
Lemma append_nil (s : string) : (s ++ EmptyString)%string = s.
Proof. induction s as [|c s IH]; [reflexivity|]. cbn. now rewrite IH. Qed.
Lemma rstrip_end r c b : ~ white c -> all_white b -> rstrip ((r ++ String c EmptyString) ++ b) = (r ++ String c EmptyString)%string.
Proof.
  intros N W. assert (B : blank c = false) by (destruct (blank c) eqn:E; [apply blank_white in E; contradiction|reflexivity]).
  induction r as [|d r IH].
  - cbn [append rstrip]. now rewrite (rstrip_white b W), B.
  - cbn [append rstrip]. rewrite IH. destruct (r ++ String c EmptyString)%string eqn:E; [|reflexivity].
    destruct r; discriminate.
Qed.
Lemma stripped_strip s t : stripped s t -> strip s = t.
Proof.
  intros (a & b & -> & Wa & Wb & [->|[(c & r & E & N) (r' & c' & E' & N')]]); unfold strip; rewrite lstrip_white by exact Wa.
  - cbn [append]. pose proof (lstrip_white b EmptyString Wb) as L. rewrite append_nil in L. rewrite L. reflexivity.
  - assert (L : lstrip (t ++ b) = (t ++ b)%string).
    { rewrite E. cbn [append lstrip]. destruct (blank c) eqn:B; [apply blank_white in B; contradiction|reflexivity]. }
    rewrite L, E'. now apply rstrip_end.
Qed.
Lemma stripped_all l l' : Forall2 stripped l l' -> map (fun s => Str (strip s)) l = map Str l'.
Proof. induction 1 as [|s t l l' S _ IH]; [reflexivity|]. cbn [map]. now rewrite (stripped_strip _ _ S), IH. Qed.

Lemma stacked_rows t shape rows : stacked shape (map (Arr t shape) rows) = Some (concat rows).
Proof.
  induction rows as [|r rows IH]; [reflexivity|]. cbn [map stacked]. destruct (list_eq_dec Nat.eq_dec shape shape); [|congruence].
  rewrite IH. reflexivity.
Qed.
Lemma concat_rows t shape rows : concat (map (map (Arr t shape)) rows) = map (Arr t shape) (concat rows).
Proof. symmetry. apply concat_map. Qed.
Lemma concat_concat {A} (l : list (list (list A))) : concat (concat l) = concat (map (@concat A) l).
Proof. induction l as [|x l IH]; [reflexivity|]. cbn [concat map]. now rewrite concat_app, IH. Qed.
Lemma unpack_nested fuel n t outer shape rows : numeric t -> rows <> [] -> (forall r, In r rows -> r <> []) -> 2 <= fuel ->
  unpack fuel Obj [n] (map (fun r => Arr Obj outer (map (Arr t shape) r)) rows)
  = Ok (Arr t (n :: outer ++ shape) (concat (map (@concat val) rows))).
Proof.
  intros T NE NR L. destruct fuel as [|[|fuel]]; [lia|lia|]. destruct rows as [|r rows]; [congruence|].
  assert (E : map (fun r => Arr Obj outer (map (Arr t shape) r)) (r :: rows) = map (Arr Obj outer) (map (map (Arr t shape)) (r :: rows)))
    by (rewrite map_map; reflexivity).
  rewrite E. assert (SR := stacked_rows Obj outer (map (map (Arr t shape)) (r :: rows))). cbn [map] in SR |- *.
  cbn [unpack]. rewrite SR. clear SR E.
  pose proof (concat_rows t shape (r :: rows)) as CR. cbn [map] in CR. rewrite CR.
  assert (C0 : exists x rest, concat (r :: rows) = x :: rest).
  { destruct r as [|x r]; [exfalso; apply (NR []); [left; reflexivity|reflexivity]|]. cbn. eauto. }
  destruct C0 as (x & rest & C0). rewrite C0.
  assert (SR := stacked_rows t shape (x :: rest)). cbn [map] in SR |- *. rewrite SR. rewrite <- C0.
  rewrite concat_concat. rewrite <- app_assoc. cbn [app map].
  destruct T as [-> | ->]; destruct fuel; reflexivity.
Qed.

Scheme means_mut := Induction for means Sort Prop with structure_mut := Induction for structure Sort Prop.
Combined Scheme means_structure from means_mut, structure_mut.

Lemma means_converted :
  (forall v v', means v v' -> field v = Ok v')
  /\ (forall columns items, structure columns items -> convert (Rec columns) = Ok (Dict items)).
Proof.
  apply means_structure.
  - intros t e T N. destruct e; try contradiction; reflexivity.
  - reflexivity.
  - reflexivity.
  - intros t shape l N. assert (P : plain (Arr t shape l) = Ok (Arr t shape l)) by now apply plain_numbers.
    destruct N as (_ & _ & _ & L & F & _). destruct l as [|v l]; [cbn in L; lia|]. inversion F as [|? ? NV ?]; subst.
    unfold field. destruct shape as [|n [|m rest]]; try exact P. destruct v; try contradiction; exact P.
  - intros t l l' L ST. rewrite <- (stripped_all _ _ ST). destruct l as [|s l]; [cbn in L; lia|]. unfold field. cbn [map]. unfold plain. cbn [List.length index0 bind].
    change (Byte s :: map Byte l) with (map Byte (s :: l)). rewrite strings_mapped. reflexivity.
  - intros n t shape rows L P H. destruct rows as [|r rows]; [cbn in L; lia|].
    assert (T : numeric t) by apply (H r (or_introl eq_refl)).
    unfold field. change (map (Arr t shape) (r :: rows)) with (Arr t shape r :: map (Arr t shape) rows) at 1.
    assert (PL : plain (Arr Obj [n] (map (Arr t shape) (r :: rows))) = Ok (Arr t (n :: shape) (concat (r :: rows)))).
    { unfold plain. destruct n as [|n]; [lia|]. cbn [index0 map bind].
      change (forallb null (Arr t shape r :: map (Arr t shape) rows)) with false. cbv iota zeta.
      change (map filled (Arr t shape r :: map (Arr t shape) rows)) with (map filled (map (Arr t shape) (r :: rows))).
      pose proof (rows_numbers t shape (r :: rows) H T) as RR. replace (size [S n]) with (S n) by (cbn; lia).
      destruct T as [-> | ->]; cbn [map] in RR |- *; now rewrite RR. }
    destruct n as [|n]; [lia|]. exact PL.
  - intros n t outer shape rows L P SO LR H. destruct rows as [|r rows]; [cbn in L; lia|].
    assert (NR : forall r', In r' (r :: rows) -> r' <> []).
    { intros r' I ->. specialize (LR [] I). cbn in LR. lia. }
    assert (T : numeric t).
    { destruct r as [|x r]; [exfalso; apply (NR []); [left; reflexivity|reflexivity]|]. apply (H (x :: r) x); now left. }
    assert (FU : 2 <= depth (Arr Obj [n] (map (fun r => Arr Obj outer (map (Arr t shape) r)) (r :: rows)))).
    { cbn [map depth fold_right]. lia. }
    pose proof (unpack_nested _ n t outer shape (r :: rows) T ltac:(discriminate) NR FU) as U.
    unfold field. destruct n as [|n]; [lia|]. cbn [map] in U |- *. unfold plain. cbn [index0 bind].
    change (forallb null (Arr Obj outer (map (Arr t shape) r) :: map (fun r => Arr Obj outer (map (Arr t shape) r)) rows)) with false.
    cbv iota zeta.
    assert (FI : forall l, map filled (map (fun r => Arr Obj outer (map (Arr t shape) r)) l) = map (fun r => Arr Obj outer (map (Arr t shape) r)) l).
    { intros l. rewrite map_map. reflexivity. }
    cbn [map filled]. rewrite FI. exact U.
  - intros columns items _ IH. exact IH.
  - intros columns items _ IH. exact IH.
  - reflexivity.
  - intros k v v' columns items _ F _ IH. rewrite <- lower_same. rewrite convert_rec in *. cbn [fields]. rewrite F. cbn [bind].
    destruct (fields columns) as [l|e]; [|discriminate]. cbn [bind] in *. inversion IH; subst. reflexivity.
Qed.
