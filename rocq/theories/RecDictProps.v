(** C87, C88: IDL structures become dictionaries. *)
From Coq Require Import String Ascii.
From Verif Require Import Base PyIndex RecDict RecDictSpec RecDictProofs.
Import ListNotations.
Open Scope nat_scope.
Open Scope list_scope.

(** C87: a structure whose tags hold numbers, strings, null pointers, arrays of numbers or strings, pointers to arrays of one
    shape, and again such structures (to any depth, directly or through pointers) becomes the dictionary it means. *)
Theorem C87_structure : forall columns items, structure columns items -> convert (Rec columns) = Ok (Dict items).
Proof. exact (proj2 means_converted). Qed.
(** A dictionary of such values, as readsav returns it: the names are kept as they are. *)
Theorem C87_dictionary : forall items items',
  Forall2 (fun a b => fst a = fst b /\ means (snd a) (snd b)) items items' -> convert (Dict items) = Ok (Dict items').
Proof.
  intros items items' F. rewrite convert_dict. assert (E : fields items = Ok items'); [|now rewrite E].
  induction F as [|[k v] [k' v'] items items' (K & M) F IH]; [reflexivity|]. cbn [fst snd] in *. subst k'.
  cbn [fields]. rewrite (proj1 means_converted _ _ M). cbn [bind]. now rewrite IH.
Qed.
(** Record arrays are converted wherever they stand: as a value of a dictionary, ... *)
Theorem C87_records : forall k columns items, structure columns items -> convert (Dict [(k, Rec columns)]) = Ok (Dict [(k, Dict items)]).
Proof.
  intros k columns items S. rewrite convert_dict. cbn [fields field]. now rewrite (C87_structure _ _ S).
Qed.
Print Assumptions C87_structure.
Print Assumptions C87_dictionary.
Print Assumptions C87_records.

(** ** C88: what becomes of everything else *)

(** Of an array of two or more structures only the first is kept, whatever the others are (and of the records of a
    structure array only the first value of every tag that is itself a structure). *)
Theorem C88_structures_refuted : forall k n first rest rest',
  convert (Dict [(k, Arr Obj [S (S n)] (Rec first :: rest))]) = convert (Dict [(k, Arr Obj [S (S n)] (Rec first :: rest'))])
  /\ (forall items, structure first items ->
        convert (Dict [(k, Arr Obj [S (S n)] (Rec first :: rest))]) = Ok (Dict [(k, Dict items)])).
Proof.
  assert (E : forall k n first rest, convert (Dict [(k, Arr Obj [S (S n)] (Rec first :: rest))])
              = (v <- convert (Rec first) ;; Ok (Dict [(k, v)]))).
  { intros. rewrite convert_dict. cbn [fields field]. destruct rest; destruct (convert (Rec first)); reflexivity. }
  intros k n first rest rest'. rewrite !E. split; [reflexivity|]. intros items S. now rewrite (C87_structure _ _ S).
Qed.
(** Pointers of which the first is null: the others are not converted, so that record arrays stay record arrays. *)
Theorem C88_null_refuted : forall k x rest columns, In (Rec columns) (x :: rest) ->
  exists l, convert (Dict [(k, Arr Obj [2 + List.length rest] (Null :: x :: rest))]) = Ok (Dict [(k, Arr Obj [2 + List.length rest] (NaN :: l))])
    /\ In (Rec columns) l.
Proof.
  intros k x rest columns I. rewrite convert_dict. cbn [fields field plain index0 bind Nat.add].
  assert (N : forallb null (Null :: x :: rest) = false).
  { cbn [forallb null andb]. destruct (forallb null (x :: rest)) eqn:F; [|exact F].
    rewrite forallb_forall in F. apply F in I. discriminate. }
  cbv zeta. rewrite N. exists (map filled (x :: rest)). split; [reflexivity|].
  change (Rec columns) with (filled (Rec columns)). now apply in_map.
Qed.
(** Pointers to an array of whole numbers and then one of other numbers: these are rounded towards zero. *)
Theorem C88_types_refuted : forall k z q,
  convert (Dict [(k, Arr Obj [2] [Arr Int [1] [Num (inject_Z z)]; Arr Float [1] [Num q]])])
  = Ok (Dict [(k, Arr Int [2; 1] [Num (inject_Z z); Num (inject_Z (Qtrunc q))])]).
Proof.
  intros. rewrite convert_dict. cbn [fields field plain index0 bind forallb null andb map filled].
  cbn [rows_of row]. destruct (list_eq_dec Nat.eq_dec [1] [1]); [|congruence]. cbn [cast_all cast app size fold_right Nat.mul Nat.add].
  replace (Qtrunc (inject_Z z)) with z; [reflexivity|]. unfold Qtrunc. destruct (Qle_bool 0 (inject_Z z)).
  - now rewrite Qfloor_Z.
  - unfold Qceiling. rewrite <- inject_Z_opp, Qfloor_Z. lia.
Qed.
(** Pointers to an array of n numbers and then to one of a single number: the number is repeated n times. *)
Theorem C88_repeated_refuted : forall k l q, 2 <= List.length l ->
  convert (Dict [(k, Arr Obj [2] [Arr Float [List.length l] (map Num l); Arr Float [1] [Num q]])])
  = Ok (Dict [(k, Arr Float [2; List.length l] (map Num l ++ repeat (Num q) (List.length l)))]).
Proof.
  intros k l q L. rewrite convert_dict. cbn [fields field plain index0 bind forallb null andb map filled].
  cbn [rows_of row]. destruct (list_eq_dec Nat.eq_dec [List.length l] [List.length l]); [|congruence].
  destruct (list_eq_dec Nat.eq_dec [1] [List.length l]) as [E|_]; [inversion E; lia|].
  assert (C : forall m, cast_all Float (map Num m) = Some (map Num m)).
  { induction m as [|x m IH]; [reflexivity|]. cbn [map cast_all cast]. now rewrite IH. }
  assert (R : forall n, cast_all Float (repeat (Num q) n) = Some (repeat (Num q) n)).
  { induction n as [|n IH]; [reflexivity|]. cbn [repeat cast_all cast]. now rewrite IH. }
  rewrite C, R. rewrite app_nil_r. reflexivity.
Qed.
(** Arrays of different sizes, none of them 1: the list of the arrays. *)
Theorem C88_ragged : forall k a b, 2 <= List.length a -> 2 <= List.length b -> List.length a <> List.length b ->
  let pair := [Arr Float [List.length a] (map Num a); Arr Float [List.length b] (map Num b)] in
  convert (Dict [(k, Arr Obj [2] pair)]) = Ok (Dict [(k, ListV pair)]).
Proof.
  intros k a b A B N. cbn zeta. rewrite convert_dict. cbn [fields field plain index0 bind forallb null andb map filled].
  cbn [rows_of row]. destruct (list_eq_dec Nat.eq_dec [List.length b] [List.length a]) as [E|_]; [inversion E; lia|].
  destruct (List.length b) as [|[|m]] eqn:LB; [lia|lia|].
  destruct (match (if list_eq_dec Nat.eq_dec [List.length a] [List.length a] then _ else _) with Some _ => _ | None => _ end) eqn:X.
  - exfalso. revert X. destruct (if list_eq_dec Nat.eq_dec _ _ then _ else _); discriminate.
  - reflexivity.
Qed.
(** The same one level deeper: pointers to arrays of pointers, of different shapes. *)
Theorem C88_nested_ragged : forall k shape shape' x a b, shape <> shape' ->
  let pair := [Arr Obj shape (x :: a); Arr Obj shape' b] in
  convert (Dict [(k, Arr Obj [2] pair)]) = Ok (Dict [(k, ListV pair)]).
Proof.
  intros k shape shape' x a b N. cbn zeta. rewrite convert_dict. cbn [fields field plain index0 bind forallb null andb map filled].
  cbn [depth fold_right unpack stacked]. destruct (list_eq_dec Nat.eq_dec shape shape); [|congruence].
  destruct (list_eq_dec Nat.eq_dec shape' shape) as [E|_]; [congruence|]. reflexivity.
Qed.
(** A null pointer after arrays of floating-point numbers becomes a row of NaN; after whole numbers it does not fit, and
    the result is the list of the arrays. *)
Theorem C88_null_row : forall k (l : list Q) (z : list Z), 1 <= List.length l -> 1 <= List.length z ->
  convert (Dict [(k, Arr Obj [2] [Arr Float [List.length l] (map Num l); Null])])
  = Ok (Dict [(k, Arr Float [2; List.length l] (map Num l ++ repeat NaN (List.length l)))])
  /\ let a := Arr Int [List.length z] (map (fun i => Num (inject_Z i)) z) in
     convert (Dict [(k, Arr Obj [2] [a; Null])]) = Ok (Dict [(k, ListV [a; NaN])]).
Proof.
  intros k l z L LZ. split; [|cbn zeta]; rewrite convert_dict; cbn [fields field plain index0 bind forallb null andb map filled].
  - cbn [rows_of row]. destruct (list_eq_dec Nat.eq_dec [List.length l] [List.length l]); [|congruence].
    assert (C : forall m, cast_all Float (map Num m) = Some (map Num m)).
    { induction m as [|x m IH]; [reflexivity|]. cbn [map cast_all cast]. now rewrite IH. }
    assert (R : forall n, cast_all Float (repeat NaN n) = Some (repeat NaN n)).
    { induction n as [|n IH]; [reflexivity|]. cbn [repeat cast_all cast]. now rewrite IH. }
    rewrite C, R, app_nil_r. replace (size [List.length l]) with (List.length l) by (cbn; lia). reflexivity.
  - assert (E : forall n, 1 <= n -> cast_all Int (repeat NaN n) = None) by (intros [|n] H; [lia|reflexivity]).
    cbn [rows_of row]. replace (size [List.length z]) with (List.length z) by (cbn; lia). rewrite E by exact LZ.
    destruct (list_eq_dec Nat.eq_dec [List.length z] [List.length z]); [|congruence].
    destruct (cast_all Int (map (fun i : Z => Num (inject_Z i)) z)); reflexivity.
Qed.
(** A table of strings (two axes) raises AttributeError. *)
Theorem C88_string_table_refuted : forall k t n m s rest, 2 <= S n * S m -> List.length rest = S n * S m - 1 ->
  convert (Dict [(k, Arr t [S n; S m] (Byte s :: rest))]) = Err AttributeError.
Proof.
  intros k t n m s rest L R. rewrite convert_dict. cbn [fields field]. destruct rest as [|x rest]; [cbn [List.length] in R; lia|].
  cbn [plain index0 bind]. reflexivity.
Qed.
Print Assumptions C88_structures_refuted.
Print Assumptions C88_null_refuted.
Print Assumptions C88_types_refuted.
Print Assumptions C88_repeated_refuted.
Print Assumptions C88_ragged.
Print Assumptions C88_nested_ragged.
Print Assumptions C88_null_row.
Print Assumptions C88_string_table_refuted.

(** ** An observation structure with a nested one *)
Example C87_demo : exists columns items, structure columns items /\ convert (Rec columns) = Ok (Dict items)
  /\ items = [("dimension", Num 2048); ("instrument", Str "mwa");
              ("baseline_info", Dict [("tile_a", Arr Int [3] [Num 1; Num 1; Num 2]); ("names", ListV [Str "Tile011"; Str "Tile012"])])]%string.
Proof.
  set (info := [("TILE_A", Arr Obj [1] [Arr Int [3] [Num 1; Num 1; Num 2]]);
                ("NAMES", Arr Obj [1] [Arr Obj [2] [Byte "Tile011 "; Byte "Tile012"]])]%string).
  set (columns := [("DIMENSION", Arr Float [1] [Num 2048]); ("INSTRUMENT", Arr Obj [1] [Byte "mwa"]);
                   ("BASELINE_INFO", Arr Obj [1] [Rec info])]%string).
  assert (S : structure columns [("dimension", Num 2048); ("instrument", Str "mwa");
              ("baseline_info", Dict [("tile_a", Arr Int [3] [Num 1; Num 1; Num 2]); ("names", ListV [Str "Tile011"; Str "Tile012"])])]%string).
  { apply (S_tag "DIMENSION"); [apply M_number; [now right|exact I]|].
    apply (S_tag "INSTRUMENT"); [apply M_string|]. apply (S_tag "BASELINE_INFO"); [|apply S_empty].
    apply M_structure. apply (S_tag "TILE_A").
    - apply M_array. split; [now left|]. split; [discriminate|]. split; [reflexivity|]. split; [cbn; lia|]. split.
      + repeat constructor.
      + intros _ v [<-|[<-|[<-|[]]]]; [now exists 1%Z|now exists 1%Z|now exists 2%Z].
    - apply (S_tag "NAMES"); [|apply S_empty].
      apply (M_strings Obj ["Tile011 "; "Tile012"]%string ["Tile011"; "Tile012"]%string); [cbn; lia|].
      assert (W : forall a b t c r r' c', all_white a -> all_white b -> t = String c r -> t = (r' ++ String c' "")%string ->
                  ~ white c -> ~ white c' -> stripped (a ++ t ++ b) t).
      { intros a b t c r r' c' Wa Wb E E' N N'. exists a, b. split; [reflexivity|]. split; [exact Wa|]. split; [exact Wb|].
        right. split; [exists c, r; auto|exists r', c'; auto]. }
      constructor; [|constructor; [|constructor]].
      + apply (W "" " " "Tile011" "T"%char "ile011" "Tile01" "1"%char)%string; [exact I|split; [unfold white; cbn; lia|exact I]|reflexivity|reflexivity| |];
          unfold white; cbn; lia.
      + apply (W "" "" "Tile012" "T"%char "ile012" "Tile01" "2"%char)%string; [exact I|exact I|reflexivity|reflexivity| |]; unfold white; cbn; lia. }
  exists columns. eexists. split; [exact S|]. split; [exact (C87_structure _ _ S)|reflexivity].
Qed.
