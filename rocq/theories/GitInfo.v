(** Model of the version a run reports: GitInfo.run of setup.py (54-69) with get_commandline_output (8-26),
    retrieve_gitdict, PyFHD/pyfhd_tools/git_helper.py:6-34, and the commit of pyfhd_parser and pyfhd_logger,
    PyFHD/pyfhd_tools/pyfhd_setup.py:73-84, 1138-1149. Texts are ASCII; the git command is an argument. *)
From Coq Require Import String Ascii.
From Verif Require Import Base.
Import ListNotations.
Open Scope list_scope.

Definition newline : ascii := ascii_of_nat 10.
(** the ASCII white space of str.strip *)
Definition blank (c : ascii) : bool :=
  let n := nat_of_ascii c in ((9 <=? n) && (n <=? 13) || (28 <=? n) && (n <=? 32))%nat.
(** str.strip() (setup.py:25), on the characters *)
Fixpoint lstrip (l : list ascii) : list ascii :=
  match l with [] => [] | c :: t => if blank c then lstrip t else l end.
Definition strip (l : list ascii) : list ascii := rev (lstrip (rev (lstrip l))).
(** text.split("\n") (git_helper.py:24) *)
Fixpoint split_lines (l : list ascii) : list (list ascii) :=
  match l with
  | [] => [[]]
  | c :: t => if Ascii.eqb c newline then [] :: split_lines t
              else match split_lines t with w :: r => (c :: w) :: r | [] => [[c]] end
  end.

(** What git prints in a directory for: describe --always; log -1 --format=%cd; rev-parse --abbrev-ref HEAD; rev-parse HEAD.
    None: not a repository (git fails and prints nothing to its output). *)
Record prints := { p_describe : list ascii; p_date : list ascii; p_branch : list ascii; p_head : list ascii }.
(** setup.py:62-69; a failing git ends the installation (check_output) *)
Definition git_file (g : option prints) : result (list ascii) :=
  match g with
  | None => Err IOError
  | Some g => Ok ((strip (p_describe g) ++ [newline]) ++ (strip (p_date g) ++ [newline]) ++ (strip (p_branch g) ++ [newline]))
  end.
Record gitdict := { d_describe : list ascii; d_date : list ascii; d_branch : list ascii }.
(** git_helper.py:22-34; None: False *)
Definition retrieve_gitdict (file : option (list ascii)) : result (option gitdict) :=
  match file with
  | None => Ok None
  | Some text =>
      match split_lines text with
      | a :: b :: c :: _ => Ok (Some {| d_describe := a; d_date := b; d_branch := c |})
      | _ => Err IndexError
      end
  end.
(** pyfhd_setup.py:73-84, 1138-1149: the commit written to the log. [git]: whether the command is there; [here]: what it prints in
    the working directory of the run. The result of commit.replace is not kept. *)
Definition commit (file : option (list ascii)) (git : bool) (here : option prints) : result (list ascii) :=
  d <- retrieve_gitdict file ;;
  match d with
  | Some d => Ok (d_describe d)
  | None => if git then Ok (match here with Some g => p_head g | None => [] end) else Err FileMissing
  end.
