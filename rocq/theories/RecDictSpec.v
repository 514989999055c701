(** Specification of the conversion of IDL structures (C87, C88). *)
From Coq Require Import String Ascii.
From Verif Require Import Base RecDict.
Import ListNotations.
Open Scope nat_scope.
Open Scope list_scope.

Definition number (v : val) : Prop := match v with Num _ | NaN => True | _ => False end.
Definition numeric (t : dtype) : Prop := t = Int \/ t = Float.
Definition whole (t : dtype) (l : list val) : Prop :=
  t = Int -> forall v, In v l -> exists z, v = Num (inject_Z z).
(** An array of numbers, of any number of axes, with at least one entry. *)
Definition numbers (t : dtype) (shape : list nat) (l : list val) : Prop :=
  numeric t /\ shape <> [] /\ length l = size shape /\ 1 <= length l /\ Forall number l /\ whole t l.

(** ASCII letters in lower case *)
Definition lower_letter (c : ascii) : ascii :=
  match String.index 0 (String c EmptyString) "ABCDEFGHIJKLMNOPQRSTUVWXYZ" with
  | Some k => match String.get k "abcdefghijklmnopqrstuvwxyz" with Some d => d | None => c end
  | None => c
  end.
Fixpoint lower_case (s : string) : string :=
  match s with EmptyString => EmptyString | String c s => String (lower_letter c) (lower_case s) end.
(** [t] is [s] without the white space at its ends. *)
Definition white (c : ascii) : Prop := In (nat_of_ascii c) [9; 10; 11; 12; 13; 28; 29; 30; 31; 32].
Fixpoint all_white (s : string) : Prop := match s with EmptyString => True | String c s => white c /\ all_white s end.
Definition stripped (s t : string) : Prop :=
  exists a b, s = (a ++ t ++ b)%string /\ all_white a /\ all_white b
    /\ (t = EmptyString \/ (exists c r, t = String c r /\ ~ white c) /\ (exists r c, t = (r ++ String c EmptyString)%string /\ ~ white c)).

(** What a value of an IDL structure is in the dictionary.
    A structure, at any depth, is a dictionary with the names of its tags in lower case. *)
Inductive means : val -> val -> Prop :=
| M_number t e : numeric t -> number e -> means (Arr t [1] [e]) e
| M_string s : means (Arr Obj [1] [Byte s]) (Str s)
| M_null : means (Arr Obj [1] [Null]) Null
| M_array t shape l : numbers t shape l -> means (Arr Obj [1] [Arr t shape l]) (Arr t shape l)
(* strings without the blanks around them *)
| M_strings t l l' : 1 <= length l -> Forall2 stripped l l' ->
    means (Arr Obj [1] [Arr t [length l] (map Byte l)]) (ListV (map Str l'))
(* pointers to arrays of one shape are one array with an axis more *)
| M_pointers n t shape rows : length rows = n -> 1 <= n -> (forall r, In r rows -> numbers t shape r) ->
    means (Arr Obj [1] [Arr Obj [n] (map (Arr t shape) rows)]) (Arr t (n :: shape) (concat rows))
(* pointers to arrays of pointers to arrays, all of one shape (as a beam is stored), are one array *)
| M_nested n t outer shape rows : length rows = n -> 1 <= n -> 1 <= size outer ->
    (forall r, In r rows -> length r = size outer) -> (forall r x, In r rows -> In x r -> numbers t shape x) ->
    means (Arr Obj [1] [Arr Obj [n] (map (fun r => Arr Obj outer (map (Arr t shape) r)) rows)])
          (Arr t (n :: outer ++ shape) (concat (map (@concat val) rows)))
| M_structure columns items : structure columns items -> means (Arr Obj [1] [Rec columns]) (Dict items)
(* a pointer to a structure *)
| M_pointer columns items : structure columns items -> means (Arr Obj [1] [Arr Obj [1] [Rec columns]]) (Dict items)
with structure : list (string * val) -> list (string * val) -> Prop :=
| S_empty : structure [] []
| S_tag k v v' columns items : means v v' -> structure columns items -> structure ((k, v) :: columns) ((lower_case k, v') :: items).
