(** Model of vis_model_transfer, import_vis_model_from_sav and import_vis_model_from_uvfits,
    PyFHD/source_modeling/vis_model_transfer.py:17-162. Visibilities are exact. A directory is a function from file names
    to contents, None for a missing file; other errors of scipy.io.readsav are not represented. *)
From Coq Require Import String.
From Verif Require Import Base PyIndex Cplx VisWeights Obs UvHeader TransferBp.
Import ListNotations.
Open Scope nat_scope.
Open Scope list_scope.

(** vis_model_ptr of a sav file: the array itself, or an object array of one entry that holds it. readsav returns a
    dictionary, so the branch of a record array (86-87, 106-108) is not taken; None: the file has no vis_model_ptr. *)
Inductive stored := Direct (a : ndarr C) | Packed (a : ndarr C).
Record savdir (P : Type) := {
  s_params : string -> option P;                  (* <obs_id>_params.sav *)
  s_vis : string -> option (option stored)        (* <obs_id>_vis_model_<pol>.sav *)
}.
Arguments s_params {P}. Arguments s_vis {P}.

(** readsav(path): FileNotFoundError ends the program (112-117). *)
Definition readsav {A} (dir : string -> option A) (name : string) : result A :=
  match dir name with Some a => Ok a | None => Err SystemExit end.
(** a[0] *)
Definition first_of {A} (a : ndarr A) : result (ndarr A) :=
  match nd_shape a with
  | [] | O :: _ => Err IndexError
  | _ :: s => Ok (NdArr s (fun idx => nd_at a (0 :: idx)))
  end.
Definition nd_size {A} (a : ndarr A) : nat := fold_right Nat.mul 1 (nd_shape a).
(** if a.size == 1: a = a[0] (89-90, 110-111) *)
Definition unpack (x : stored) : result (ndarr C) :=
  match x with
  | Packed a => Ok a
  | Direct a => if nd_size a =? 1 then first_of a else Ok a
  end.
(** a.transpose() *)
Definition transpose {A} (a : ndarr A) : ndarr A := NdArr (rev (nd_shape a)) (fun idx => nd_at a (rev idx)).

Definition file_of (obs_id pol : string) : string := (obs_id ++ "_vis_model_" ++ pol ++ ".sav")%string.
Definition params_file (obs_id : string) : string := (obs_id ++ "_params.sav")%string.

(** lines 79-91 and 99-111 *)
Definition read_pol {P} (dir : savdir P) (obs_id : string) (pol_names : list string) (p : nat) : result (ndarr C) :=
  pol <- nth_res pol_names p ;;
  x <- readsav (s_vis dir) (file_of obs_id pol) ;;
  match x with None => Err KeyError | Some x => a <- unpack x ;; Ok (transpose a) end.

(** lines 74-118. [dict_of] is recarray_to_dict (RecDict.v) on the params of the file. *)
Definition import_sav {P D} (dict_of : P -> result D) (dir : savdir P) (obs_id : string) (pol_names : list string)
  (n_pol : nat) : result (ndarr C * D) :=
  params <- readsav (s_params dir) (params_file obs_id) ;;
  params_model <- dict_of params ;;
  first <- read_pol dir obs_id pol_names 0 ;;
  if n_pol =? 0 then Err IndexError else           (* vis_model_arr[0] = ... *)
  rest <- map_res (fun p => a <- read_pol dir obs_id pol_names p ;; nd_fill (nd_shape first) a) (seq 1 (n_pol - 1)) ;;
  let slabs := first :: rest in
  Ok (NdArr (n_pol :: nd_shape first)
        (fun idx => match idx with [] => nd_at first [] | p :: idx => nd_at (nth p slabs first) idx end), params_model).

(** lines 143-162. real_index, imaginary_index and weights_index are 0, 1 and 2 (uvfits.py:70-72). *)
Definition import_uvfits (file : uvfile) (data : ndarr Q) (site : option (Q * Q * Q)) (config_n_pol n_freq : nat)
  : result (arr3 C * uvparams) :=
  header <- extract_header file site ;;
  if negb (h_freqs header =? n_freq) then Err SystemExit else
  params <- create_params file header ;;
  '(vis, _) <- extract_visibilities (h_pols header) config_n_pol 0 1 2 data ;;
  Ok (vis, params).

(** lines 41-47: the model that is read, by the type of its file *)
Inductive model (P : Type) := FromSav (vis : ndarr C) (params : P) | FromUvfits (vis : arr3 C) (params : uvparams).
Arguments FromSav {P}. Arguments FromUvfits {P}.
Definition vis_model_transfer {P D} (dict_of : P -> result D) (file_type : string) (dir : savdir P) (obs_id : string)
  (pol_names : list string) (n_pol : nat) (file : uvfile) (data : ndarr Q) (site : option (Q * Q * Q))
  (config_n_pol n_freq : nat) : result (model D) :=
  if String.eqb file_type "sav" then
    '(v, p) <- import_sav dict_of dir obs_id pol_names n_pol ;; Ok (FromSav v p)
  else if String.eqb file_type "uvfits" then
    '(v, p) <- import_uvfits file data site config_n_pol n_freq ;; Ok (FromUvfits v p)
  else Err SystemExit.
