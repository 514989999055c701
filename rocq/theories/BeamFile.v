(** Model of PyFHD/beam_setup/beam.py create_psf (99-169) and of the use of its result in PyFHD/pyfhd.py (203-215).
    IDL sav files are represented by what scipy.io.readsav and recarray_to_dict (modelled in RecDict) make of their fields;
    HDF5 files by their contents (H5IO).  Messages are not represented. *)
From Coq Require Import String Ascii.
From Verif Require Import Base H5IO.
Import ListNotations.
Open Scope nat_scope.
Open Scope list_scope.

(** A path: the directory and the last component. *)
Definition fpath := (string * string)%type.
Definition fpath_eqb (a b : fpath) : bool := String.eqb (fst a) (fst b) && String.eqb (snd a) (snd b).

(** pathlib: the position of the last dot, counted from the left. *)
Fixpoint rfind_dot (s : string) : option nat :=
  match s with
  | EmptyString => None
  | String c r =>
    match rfind_dot r with
    | Some i => Some (S i)
    | None => if Ascii.eqb c "." then Some 0 else None
    end
  end.
(** PurePath.suffix and PurePath.stem: no suffix when the last dot is the first or the last character. *)
Definition split_name (s : string) : string * string :=
  match rfind_dot s with
  | Some i => if (0 <? i) && (i <? String.length s - 1)
              then (substring 0 i s, substring i (String.length s - i) s) else (s, EmptyString)
  | None => (s, EmptyString)
  end.
Definition stem (s : string) : string := fst (split_name s).
Definition suffix (s : string) : string := snd (split_name s).

(** The psf structure of a sav file: beam_ptr as readsav gives it, by baseline, frequency and polarization, each entry an
    array (shape and contents); id by polarization last as well (its dimensions and contents, in the order of readsav);
    the other fields as recarray_to_dict leaves them.  Where the fields come in the structure is not represented. *)
Definition entry := (list nat * list (fval * fval))%type.
Record savpsf := { sv_beam : list (list (list entry)); sv_id : list (list (list Z)); sv_rest : list (string * value) }.
Inductive content := Sav (psf : option savpsf) | Hdf5 (r : root) | Unreadable.
Definition disk := fpath -> option content.
Definition write (d : disk) (p : fpath) (c : content) : disk := fun q => if fpath_eqb q p then Some c else d q.

(** [.T] of a three-dimensional array given by its rows: n0 x n1 x n2 -> n2 x n1 x n0. *)
Definition transpose3 {A} (x : A) (a : list (list (list A))) : list (list (list A)) :=
  let n1 := length (nth 0 a []) in
  let n2 := length (nth 0 (nth 0 a []) []) in
  map (fun k => map (fun j => map (fun row => nth k (nth j row []) x) a) (seq 0 n1)) (seq 0 n2).

Definition shape_eqb (a b : list nat) : bool := if list_eq_dec Nat.eq_dec a b then true else false.
(** beam.py 129-136 for the field beam_ptr, with the last branch of recarray_to_dict (pyfhd_io.py 604-638): the arrays of all
    polarizations and frequencies in one array; if they differ in shape the field becomes a list, which has no shape (138-141;
    different shapes with the same total that NumPy would still put together are not modelled). *)
Definition beam_array (beam : list (list (list entry))) : result (list nat * list (fval * fval)) :=
  let t := transpose3 ([], []) beam in
  b0 <- (match beam with [] => Err IndexError | _ => Ok (map (map (fun row => nth 0 row ([], []))) t) end) ;;
  match concat b0 with
  | [] => Err IndexError
  | e :: _ =>
    if forallb (fun x => shape_eqb (fst x) (fst e)) (concat b0)
    then Ok ([length b0; length (nth 0 b0 [])] ++ fst e, concat (map snd (concat b0)))
    else Err AttributeError
  end.
(** 134 *)
Definition id_array (ids : list (list (list Z))) : value :=
  let t := transpose3 0%Z ids in
  VArr [length t; length (nth 0 t []); length (nth 0 (nth 0 t []) [])] (EInt (concat (concat t))).

(** What create_psf returns: nothing, a dictionary (or what else an HDF5 file holds), or an open file. *)
Inductive beam := NoBeam | InMemory (v : value) | OpenFile (r : root).

(** 119-169; the disk afterwards *)
Definition create_psf (lib : h5lib) (d : disk) (beam_file_path : fpath) (lazy : bool) : result (beam * disk) :=
  let sfx := suffix (snd beam_file_path) in
  if String.eqb sfx ".sav" then
    match d beam_file_path with
    | None => Err FileMissing
    | Some (Sav None) => Err KeyError
    | Some (Sav (Some s)) =>
      '(shape, data) <- beam_array (sv_beam s) ;;
      let psf := VDict (("beam_ptr"%string, VArr shape (EComplex false data)) :: ("id"%string, id_array (sv_id s)) :: sv_rest s) in
      let output_path := (fst beam_file_path, (stem (snd beam_file_path) ++ ".h5")%string) in
      file <- save lib [("beam_ptr"%string, shape)] "psf" psf ;;
      Ok (InMemory (save_caller psf), write d output_path (Hdf5 file))
    | Some _ => Err ValueError
    end
  else if String.eqb sfx ".h5" || String.eqb sfx ".hdf5" then
    match d beam_file_path with
    | None => Err FileMissing
    | Some (Hdf5 r) => if lazy then Ok (OpenFile r, d) else v <- load lib r ;; Ok (InMemory v, d)
    | Some _ => Err IOError
    end
  else if String.eqb sfx ".fits" then Err SystemExit
  else Ok (NoBeam, d).

(** pyfhd.py 209-215: the option beam_per_baseline after the beam has been read.  [shape == 1] compares a tuple with a
    number.  Strings, lists and dictionaries have no shape; an empty dataset of an open file has the shape None. *)
Definition tuple_is_one (shape : list nat) : bool := false.
Definition switch_off (b : beam) (per_baseline : bool) : result bool :=
  match b with
  | NoBeam => Err TypeError
  | InMemory (VDict l) =>
    match lookup "image_info" l with
    | None => Err KeyError
    | Some (VDict i) =>
      match lookup "image_power_beam_arr" i with
      | None => Err KeyError
      | Some VNone => Ok per_baseline
      | Some (VArr shape _) => Ok (if tuple_is_one shape then false else per_baseline)
      | Some (VScalar (SStr _)) => Err AttributeError
      | Some (VScalar _) => Ok (if tuple_is_one [] then false else per_baseline)
      | Some _ => Err AttributeError
      end
    | Some _ => Err TypeError
    end
  | InMemory _ => Err IndexError
  | OpenFile r =>
    match lookup "image_info" (fst r) with
    | Some (NGroup i _) =>
      match lookup "image_power_beam_arr" i with
      | None => Err KeyError
      | Some (NGroup _ _) => Err AttributeError
      | Some (NArr shape _) => Ok (if tuple_is_one shape then false else per_baseline)
      | Some _ => Ok (if tuple_is_one [] then false else per_baseline)
      end
    | Some _ => Err ValueError
    | None => Err KeyError
    end
  end.
