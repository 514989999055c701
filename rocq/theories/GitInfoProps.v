(** C118: a run reports the version of the code that runs. *)
From Coq Require Import String Ascii.
From Verif Require Import Base GitInfo GitInfoSpec.
Import ListNotations.
Open Scope list_scope.

Lemma blank_white c : blank c = true <-> white_code c.
Proof.
  unfold blank, white_code. set (n := nat_of_ascii c). clearbody n. rewrite orb_true_iff, !andb_true_iff, !Nat.leb_le. cbn [In]. lia.
Qed.
Lemma lstrip_id l : l <> [] -> ~ white_code (hd newline l) -> lstrip l = l.
Proof.
  destruct l as [|c l]; [congruence|]. intros _ H. cbn [lstrip hd] in *. destruct (blank c) eqn:B; [|reflexivity]. apply blank_white in B. contradiction.
Qed.
Lemma hd_app (a b : list ascii) d : a <> [] -> hd d (a ++ b) = hd d a.
Proof. destruct a; [congruence|reflexivity]. Qed.
Lemma hd_rev (l : list ascii) d : hd d (rev l) = last l d.
Proof.
  induction l as [|x l IH] using rev_ind; [reflexivity|]. rewrite rev_app_distr, last_last. reflexivity.
Qed.
Lemma strip_line l : one_line l -> strip (l ++ [newline]) = l.
Proof.
  intros (_ & N & H1 & H2). unfold strip. rewrite (lstrip_id (l ++ [newline])).
  - rewrite rev_app_distr. cbn [rev app lstrip]. replace (blank newline) with true by reflexivity.
    rewrite lstrip_id, rev_involutive; [reflexivity| |].
    + intros E. apply N. rewrite <- (rev_involutive l), E. reflexivity.
    + rewrite hd_rev. exact H2.
  - destruct l; [congruence|discriminate].
  - rewrite hd_app by exact N. exact H1.
Qed.
Lemma split_first l t : ~ In newline l -> split_lines (l ++ newline :: t) = l :: split_lines t.
Proof.
  induction l as [|c l IH]; intros H; cbn [app split_lines]; [reflexivity|].
  destruct (Ascii.eqb_spec c newline) as [E|E]; [subst c; exfalso; apply H; now left|]. rewrite IH; [reflexivity|]. intros X. apply H. now right.
Qed.
Lemma lines_of a b c : ~ In newline a -> ~ In newline b -> ~ In newline c ->
  split_lines ((a ++ [newline]) ++ (b ++ [newline]) ++ (c ++ [newline])) = [a; b; c; []].
Proof.
  intros A B C. rewrite <- !app_assoc. cbn [app]. rewrite split_first by exact A. rewrite split_first by exact B.
  rewrite split_first by exact C. reflexivity.
Qed.

(** C118, partial: an installed PyFHD knows the description, date and branch of the repository it was installed from, and reports
    that description wherever it runs and whether or not git is there. *)
Theorem C118_installed_partial : forall g describe date branch head, repository g describe date branch head ->
  exists file, git_file (Some g) = Ok file
    /\ retrieve_gitdict (Some file) = Ok (Some {| d_describe := describe; d_date := date; d_branch := branch |})
    /\ forall git here, commit (Some file) git here = Ok describe.
Proof.
  intros g describe date branch head (D & DA & B & H & E1 & E2 & E3 & E4). unfold git_file. rewrite E1, E2, E3, !strip_line by assumption.
  eexists. split; [reflexivity|]. assert (L := lines_of describe date branch (proj1 D) (proj1 DA) (proj1 B)).
  assert (R : retrieve_gitdict (Some ((describe ++ [newline]) ++ (date ++ [newline]) ++ branch ++ [newline]))
              = Ok (Some {| d_describe := describe; d_date := date; d_branch := branch |})).
  { unfold retrieve_gitdict. rewrite L. reflexivity. }
  split; [exact R|]. intros git here. unfold commit. rewrite R. reflexivity.
Qed.
Print Assumptions C118_installed_partial.
(** Without that file the commit reported is the one of whatever repository the run is started in, so two runs of the same code
    report different versions, each with a line end at the end of it; *)
Theorem C118_elsewhere_refuted : forall g g' d da b h d' da' b' h', repository g d da b h -> repository g' d' da' b' h' -> h <> h' ->
  exists c c', commit None true (Some g) = Ok c /\ commit None true (Some g') = Ok c' /\ c <> c'
    /\ c = h ++ [newline] /\ c' = h' ++ [newline].
Proof.
  intros g g' d da b h d' da' b' h' (_ & _ & _ & _ & _ & _ & _ & E) (_ & _ & _ & _ & _ & _ & _ & E') N.
  exists (h ++ [newline]), (h' ++ [newline]). unfold commit. cbn [retrieve_gitdict bind]. rewrite E, E'. repeat split.
  intros X. apply app_inj_tail in X as [X _]. contradiction.
Qed.
Print Assumptions C118_elsewhere_refuted.
(** outside of a repository it is empty instead of the message for that case, and without git the run ends with an error. *)
Theorem C118_unknown_refuted :
  commit None true None = Ok [] /\ (forall here, commit None false here = Err FileMissing)
  /\ list_ascii_of_string "Could not find git info" <> [].
Proof. split; [reflexivity|]. split; [reflexivity|discriminate]. Qed.
Print Assumptions C118_unknown_refuted.
(** A file with fewer than three lines ends the run. *)
Theorem C118_damaged : forall a b, ~ In newline a -> ~ In newline b -> forall git here,
  commit (Some a) git here = Err IndexError /\ commit (Some (a ++ newline :: b)) git here = Err IndexError.
Proof.
  assert (ONE : forall l, ~ In newline l -> split_lines l = [l]).
  { induction l as [|c l IH]; intros H; [reflexivity|]. cbn [split_lines]. destruct (Ascii.eqb_spec c newline) as [->|E]; [exfalso; apply H; now left|].
    rewrite IH; [reflexivity|]. intros X. apply H. now right. }
  intros a b A B git here. unfold commit, retrieve_gitdict. rewrite split_first by exact A. rewrite (ONE a A), (ONE b B). split; reflexivity.
Qed.
Print Assumptions C118_damaged.

Definition T := list_ascii_of_string.
Definition case_git : prints :=
  {| p_describe := T "v1.0-3-gab12" ++ [newline]; p_date := T "Mon Nov 16 2026" ++ [newline]; p_branch := T "main" ++ [newline]; p_head := T "ab12cd" ++ [newline] |}.
Example C118_case : repository case_git (T "v1.0-3-gab12") (T "Mon Nov 16 2026") (T "main") (T "ab12cd").
Proof.
  repeat split; try discriminate; try (vm_compute; intuition discriminate).
Qed.
