(** Model of recarray_to_dict, PyFHD/io/pyfhd_io.py:543-636, on what scipy.io.readsav returns. Names of a structure are
    taken to be distinct in lower case (IDL knows no case). Strings hold ASCII characters, so decoding does not change
    them. Numbers are exact rationals with NaN. Not represented: object arrays of two or more axes that hold record
    arrays, or that hold both arrays and numbers. *)
From Coq Require Import String Ascii.
From Verif Require Import Base PyIndex.
Import ListNotations.
Open Scope nat_scope.
Open Scope list_scope.

(** dtypes: integers, floats, byte strings, objects *)
Inductive dtype := Int | Float | Bytes | Obj.
(** A record array is the list of its columns, each an array with one entry per record. The entries of an array are
    listed in C order. *)
Inductive val :=
| Num (q : Q) | NaN | Null                      (* Null: None, a null pointer of IDL *)
| Byte (s : string) | Str (s : string)
| Arr (t : dtype) (shape : list nat) (entries : list val)
| Rec (columns : list (string * val))
| Dict (items : list (string * val))
| ListV (l : list val).

Definition lower_ascii (c : ascii) : ascii :=
  let n := nat_of_ascii c in if (65 <=? n) && (n <=? 90) then ascii_of_nat (n + 32) else c.
Fixpoint lower (s : string) : string :=
  match s with EmptyString => EmptyString | String c s => String (lower_ascii c) (lower s) end.
(** str.strip() *)
Definition blank (c : ascii) : bool :=
  let n := nat_of_ascii c in ((9 <=? n) && (n <=? 13)) || ((28 <=? n) && (n <=? 32)).
Fixpoint lstrip (s : string) : string :=
  match s with String c r => if blank c then lstrip r else s | EmptyString => EmptyString end.
Fixpoint rstrip (s : string) : string :=
  match s with
  | EmptyString => EmptyString
  | String c r => match rstrip r with
                  | EmptyString => if blank c then EmptyString else String c EmptyString
                  | r' => String c r'
                  end
  end.
Definition strip (s : string) : string := rstrip (lstrip s).

Definition size (shape : list nat) : nat := fold_right Nat.mul 1 shape.
Definition null (v : val) : bool := match v with Null => true | _ => false end.
Definition filled (v : val) : val := match v with Null => NaN | _ => v end.
(** data[key][0]: an entry of a 1-D array, a row of one with more axes *)
Definition index0 (t : dtype) (shape : list nat) (entries : list val) : result val :=
  match shape with
  | [] => Err IndexError
  | O :: _ => Err IndexError
  | [_] => match entries with e :: _ => Ok e | [] => Err IndexError end
  | _ :: rest => Ok (Arr t rest (firstn (size rest) entries))
  end.

(** new_array[idx] = x for rows of the given shape and dtype (626-627): scalars fill the row, arrays of another shape are
    broadcast; None in place of the result is a ValueError. NaN does not fit an integer array; floats are rounded towards
    zero. Broadcasting is modelled for 1-D rows. *)
Definition cast (t : dtype) (v : val) : option val :=
  match t, v with
  | Int, Num q => Some (Num (inject_Z (Qtrunc q)))
  | Int, NaN => None
  | _, v => Some v
  end.
Fixpoint cast_all (t : dtype) (l : list val) : option (list val) :=
  match l with
  | [] => Some []
  | v :: l => match cast t v, cast_all t l with Some v, Some l => Some (v :: l) | _, _ => None end
  end.
Definition row (t : dtype) (shape : list nat) (x : val) : option (list val) :=
  match x with
  | Arr _ s l => if list_eq_dec Nat.eq_dec s shape then cast_all t l
                 else match s, shape with
                      | [1], [n] => match l with v :: _ => cast_all t (repeat v n) | [] => None end
                      | _, _ => None
                      end
  | Num _ | NaN => cast_all t (repeat x (size shape))
  | _ => None
  end.
Fixpoint rows_of (t : dtype) (shape : list nat) (l : list val) : option (list val) :=
  match l with
  | [] => Some []
  | x :: l => match row t shape x, rows_of t shape l with Some r, Some l => Some (r ++ l) | _, _ => None end
  end.
(** 632-635, one turn of the loop: all entries arrays of one shape (np.vstack and reshape); a ValueError otherwise. An
    entry that is no array has no shape (AttributeError). *)
Fixpoint stacked (shape : list nat) (l : list val) : option (list val) :=
  match l with
  | [] => Some []
  | Arr _ s e :: l => if list_eq_dec Nat.eq_dec s shape then option_map (app e) (stacked shape l) else None
  | _ => None
  end.
Fixpoint unpack (fuel : nat) (t : dtype) (shape : list nat) (entries : list val) : result val :=
  match t, fuel with
  | Obj, S fuel =>
      match entries with
      | Arr t' s _ :: _ =>
          match stacked s entries with
          | Some l => unpack fuel t' (shape ++ s) l
          | None => Ok (ListV entries)
          end
      | _ => Err AttributeError
      end
  | _, _ => Ok (Arr t shape entries)
  end.
(** How deeply object arrays are nested. *)
Fixpoint depth (v : val) : nat :=
  match v with Arr _ _ l => S (fold_right (fun x n => Nat.max (depth x) n) 0 l) | _ => 0 end.

(** 590-636, all branches but those that meet a record array *)
Definition plain (v : val) : result val :=
  match v with
  | Arr t shape entries =>
      first <- index0 t shape entries ;;
      match first with
      | Null =>                                                        (* 590-598 *)
          let all := forallb null entries in
          Ok (Arr (if all then Float else t) shape (map filled entries))
      | _ =>
          match entries with
          | Byte _ :: _ =>                                             (* 600-601 *)
              match shape with
              | [_] => l <- map_res (fun x => match x with Byte s => Ok (Str (strip s)) | _ => Err AttributeError end) entries ;;
                       Ok (ListV l)
              | _ => Err AttributeError                                (* a row of the array has no decode *)
              end
          | _ =>
              match t, first with
              | Obj, Arr t0 s0 _ =>                                    (* 609-636 *)
                  let all := forallb null entries in
                  let entries := map filled entries in
                  if all then Ok (Arr Float shape entries) else
                  match t0 with
                  | Obj => unpack (depth v) t shape entries
                  | _ => match rows_of t0 s0 entries with
                         | Some l => Ok (Arr t0 (size shape :: s0) l)
                         | None => Ok (ListV entries)
                         end
                  end
              | _, _ => Ok v
              end
          end
      end
  | Byte s => Ok (Str s)                                               (* 603-604 *)
  | _ => Ok v
  end.

(** The whole function, on a record array or a dictionary. The loop over the keys is written as a recursion. *)
Fixpoint convert (data : val) : result val :=
  (* 577-636 for one key; the first step takes the only entry out of an array of one *)
  let field := fun x : val =>
    match x with
    | Arr t shape [e] =>
        match shape with
        | [_] => match e with
                 | Rec _ => convert e
                 | Arr _ [_] (Rec _ as r :: _) => convert r
                 | _ => plain e
                 end
        | [] => Err IndexError
        | _ :: rest => match rest, e with
                       | [_], Rec _ => convert e
                       | _, _ => plain (Arr t rest [e])
                       end
        end
    | Arr _ [_] (Rec _ as r :: _) => convert r
    | Rec _ => convert x
    | _ => plain x
    end in
  let fields := fix go (l : list (string * val)) : result (list (string * val)) :=
    match l with
    | [] => Ok []
    | (k, x) :: l => v <- field x ;; rest <- go l ;; Ok ((k, v) :: rest)
    end in
  match data with
  | Rec columns => l <- fields columns ;; Ok (Dict (map (fun kv => (lower (fst kv), snd kv)) l))
  | Dict items => l <- fields items ;; Ok (Dict l)
  | _ => Err TypeError
  end.
