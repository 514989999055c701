(** Vocabulary for the statements about the version of a run. *)
From Coq Require Import String Ascii.
From Verif Require Import Base GitInfo.
Import ListNotations.
Open Scope list_scope.

(** One line: some text without line ends that neither starts nor ends with white space. *)
Definition white_code (c : ascii) : Prop := In (nat_of_ascii c) [9; 10; 11; 12; 13; 28; 29; 30; 31; 32].
Definition one_line (l : list ascii) : Prop :=
  ~ In newline l /\ l <> [] /\ ~ white_code (hd newline l) /\ ~ white_code (last l newline).
(** git prints the four lines of the repository, each with a line end. *)
Definition repository (g : prints) (describe date branch head : list ascii) : Prop :=
  one_line describe /\ one_line date /\ one_line branch /\ one_line head
  /\ p_describe g = describe ++ [newline] /\ p_date g = date ++ [newline]
  /\ p_branch g = branch ++ [newline] /\ p_head g = head ++ [newline].
