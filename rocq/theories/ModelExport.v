(** Model of convert_vis_model_arr_to_sav, PyFHD/source_modeling/vis_model_transfer.py:459-522, of run_command,
    PyFHD/pyfhd_tools/pyfhd_utils.py:1086-1103, and of the IDL program it starts,
    PyFHD/templates/convert_model_arr_to_sav.pro. Visibilities are exact; [single] is the rounding of IDL's COMPLEX.
    Paths are lists of names; "." and ".." are names like others. Not represented: permissions, full disks, the copy of the
    template, and IDL's treatment of a last axis of length one. *)
From Coq Require Import String Ascii DecimalString.
From Verif Require Import Base PyIndex Cplx Obs ModelRead.
Import ListNotations.
Open Scope nat_scope.
Open Scope list_scope.

(** The non-empty pieces of a text between separators: cmd.split() (pyfhd_utils.py:1101) with white space, and the names of a
    path with "/". *)
Fixpoint pieces (sep : ascii -> bool) (s : string) : list string :=
  match s with
  | EmptyString => []
  | String c s' =>
      if sep c then pieces sep s' else
      match s' with
      | EmptyString => [String c EmptyString]
      | String c' _ => if sep c' then String c EmptyString :: pieces sep s'
                       else match pieces sep s' with w :: r => String c w :: r | [] => [String c EmptyString] end
      end
  end.
(** the ASCII characters str.split takes for white space *)
Definition white (c : ascii) : bool :=
  let n := nat_of_ascii c in (9 <=? n) && (n <=? 13) || (28 <=? n) && (n <=? 32).
Definition slash (c : ascii) : bool := Ascii.eqb c "/".
Definition absolute (s : string) : bool := match s with String c _ => slash c | EmptyString => false end.

(** The machine: the working directory of the process, the directories, the HDF5 files with their data sets, the sav files
    (as scipy.io.readsav shows them, ModelRead.v) and whether the command idl is there. *)
Record machine := {
  m_cwd : list string;
  m_dir : list string -> bool;
  m_h5 : list string -> option (string -> option (ndarr C));
  m_sav : list string -> option (option stored);
  m_idl : bool
}.
Definition path_eqb (a b : list string) : bool := if list_eq_dec string_dec a b then true else false.
Definition put {A} (f : list string -> option A) (p : list string) (x : A) : list string -> option A :=
  fun q => if path_eqb q p then Some x else f q.
Definition with_h5 (m : machine) h := {| m_cwd := m_cwd m; m_dir := m_dir m; m_h5 := h; m_sav := m_sav m; m_idl := m_idl m |}.
Definition with_sav (m : machine) s := {| m_cwd := m_cwd m; m_dir := m_dir m; m_h5 := m_h5 m; m_sav := s; m_idl := m_idl m |}.
Definition with_cwd (m : machine) d := {| m_cwd := d; m_dir := m_dir m; m_h5 := m_h5 m; m_sav := m_sav m; m_idl := m_idl m |}.
(** the file or directory a text names *)
Definition at_path (m : machine) (s : string) : list string :=
  (if absolute s then [] else m_cwd m) ++ pieces slash s.

(** 486, and convert_model_arr_to_sav.pro:18 *)
Definition pol_table : list string := ["XX"; "YY"; "XY"; "YX"]%string.
Definition h5_name (dir obs : string) : string := (dir ++ "/" ++ obs ++ "_vis_model.h5")%string.
Definition set_name (obs pol : string) : string := (obs ++ "_vis_model_" ++ pol)%string.
Definition sav_name (dir obs pol : string) : string := (dir ++ "/" ++ obs ++ "_vis_model_" ++ pol ++ ".sav")%string.

Definition map_nd {A B} (f : A -> B) (a : ndarr A) : ndarr B := NdArr (nd_shape a) (fun i => f (nd_at a i)).
(** convert_model_arr_to_sav.pro:24-38. IDL's axes are those of the file in reverse, and readsav reverses them again. *)
Definition idl_copy (single : C -> C) (a : ndarr C) : stored := Packed (transpose (map_nd single (transpose a))).

(** convert_model_arr_to_sav.pro:21-43: the loop over the polarisations; an error ends IDL, not the caller *)
Fixpoint idl_loop (single : C -> C) (h : string -> option (ndarr C)) (dir obs : string) (pols : list nat) (m : machine) : machine :=
  match pols with
  | [] => m
  | p :: pols =>
      match nth_error pol_table p with
      | None => m
      | Some pol =>
          match h (set_name obs pol) with
          | None => m
          | Some a => idl_loop single h dir obs pols
                        (with_sav m (put (m_sav m) (at_path m (sav_name dir obs pol)) (Some (idl_copy single a))))
          end
      end
  end.
(** FIX(args[2]); a text that is no number gives 0 *)
Definition fix_int (s : string) : nat := match NilEmpty.uint_of_string s with Some u => Nat.of_uint u | None => 0 end.
(** convert_model_arr_to_sav.pro:1-15 *)
Definition idl_run (single : C -> C) (args : list string) (m : machine) : machine :=
  match args with
  | dir :: obs :: n :: _ =>
      match m_h5 m (at_path m (h5_name dir obs)) with
      | None => m
      | Some h => idl_loop single h dir obs (seq 0 (fix_int n)) m
      end
  | _ => m
  end.
(** run_command (pyfhd_utils.py:1098-1103) on 520: the arguments of IDL are the words behind -args. *)
Definition command (dir obs : string) (n : nat) : string :=
  ("idl -IDL_DEVICE ps -e convert_model_arr_to_sav -args " ++ dir ++ " " ++ obs ++ " "
   ++ NilEmpty.string_of_uint (Nat.to_uint n))%string.
Definition run_command (single : C -> C) (cmd : string) (m : machine) : machine * result unit :=
  if m_idl m then (idl_run single (skipn 6 (pieces white cmd)) m, Ok tt) else (m, Err FileMissing).

(** 494-501: the data sets written before the first polarisation that vis_model_arr does not have *)
Fixpoint write_sets (obs : string) (vis : list (ndarr C)) (pols : list string) (h : string -> option (ndarr C))
  : (string -> option (ndarr C)) * result unit :=
  match pols, vis with
  | [], _ => (h, Ok tt)
  | _ :: _, [] => (h, Err IndexError)
  | pol :: pols, a :: vis =>
      write_sets obs vis pols (fun s => if String.eqb s (set_name obs pol) then Some (transpose a) else h s)
  end.
(** 486-522 *)
Definition convert (single : C -> C) (vis : list (ndarr C)) (dir obs : string) (n_pol : nat) (m : machine)
  : machine * result unit :=
  let file := at_path m (h5_name dir obs) in
  if negb (m_dir m (removelast file)) then (m, Err FileMissing) else
  let '(h, r) := write_sets obs vis (firstn n_pol pol_table) (fun _ => None) in
  let m1 := with_h5 m (put (m_h5 m) file h) in
  match r with
  | Err e => (m1, Err e)
  | Ok _ =>
      if negb (m_dir m1 (at_path m1 dir)) then (m1, Err FileMissing) else
      let m2 := with_cwd m1 (at_path m1 dir) in
      run_command single (command dir obs n_pol) m2
  end.

(** What import_vis_model_from_sav (vis_model_transfer.py:50-118) finds in a directory; [params] is the parameter file. *)
Definition view {P} (m : machine) (dir : list string) (params : string -> option P) : savdir P :=
  {| s_params := params; s_vis := fun name => m_sav m (dir ++ [name]) |}.
