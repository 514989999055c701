(** The values a PyFHD configuration holds and the shape of one option of the parser. *)
From Coq Require Import String.
From Verif Require Import Base.
Import ListNotations.

(** The values found in pyfhd_config (PyFHD/pyfhd_tools/pyfhd_setup.py:1294, [vars(options)]). A float is held as its [repr],
    which identifies it; a path as the text that [str] gives. *)
Inductive val :=
| VNone | VBool (b : bool) | VInt (z : Z) | VFloat (t : string) | VStr (s : string) | VPath (s : string)
| VList (l : list val).

(** The [type] of an option (pyfhd_setup.py:33-1008): text ([str], or none given), [int], [float], [Path], [list]. *)
Inductive ty := TText | TInt | TFloat | TPath | TList.

(** How an option takes its value: [action="store_true"], one value, [action="append"], [nargs="*"] (pyfhd_setup.py:33-1008). *)
Inductive kind := Switch | Store (t : ty) | Append (t : ty) | Many.

(** One [add_argument] of pyfhd_setup.py:33-1008. [o_dest] is the name argparse derives from the first long flag. *)
Record option_def := opt {
  o_dest : string; o_flags : list string; o_kind : kind; o_default : val; o_choices : list val }.
