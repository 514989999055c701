(** Vocabulary for the statements about pictures. *)
From Coq Require Import String Ascii Reals.
From Verif Require Import Base ColorImg.
Import ListNotations.
Open Scope list_scope.
Open Scope R_scope.

(** The colour of a positive value on a logarithmic scale from [p] (colour [m]) to [b] (colour 255). *)
Definition within (p b v : R) : R := Rmin b (Rmax p v).
Definition log_color (m p b v : R) : R := m + (255 - m) * (ln (within p b v) - ln p) / (ln b - ln p).

(** The values of the pixels, all finite. *)
Definition values (data : list ext) (vs : list R) : Prop := data = map Fin vs.

(** [a] and [b] are the smallest and the largest value. *)
Definition extremes (vs : list R) (a b : R) : Prop :=
  In a vs /\ In b vs /\ forall v, In v vs -> a <= v <= b.

(** [p] is the smallest positive value. *)
Definition least_positive (vs : list R) (p : R) : Prop := In p vs /\ 0 < p /\ forall v, In v vs -> 0 < v -> p <= v.

(** The lower end of the logarithmic scale: that of the range, or the smallest positive value, or a tenth of the upper end. *)
Definition lower_end (vs : list R) (a b p : R) : Prop :=
  (0 < a /\ p = a) \/ (a <= 0 /\ least_positive vs p) \/ (a <= 0 /\ (forall v, In v vs -> v <= 0) /\ p = b / 10).

(** The range the picture is drawn in: the one asked for, or that of the data. *)
Definition drawn_range (vs : list R) (data_range : option (list ext)) (a b : R) : Prop :=
  match data_range with None => extremes vs a b | Some r => r = [Fin a; Fin b] /\ a <= b end.

(** Exactly one of the three. *)
Definition one_format (png eps pdf : bool) (e : string) : Prop :=
  (png = true /\ eps = false /\ pdf = false /\ e = ".png"%string)
  \/ (png = false /\ eps = true /\ pdf = false /\ e = ".eps"%string)
  \/ (png = false /\ eps = false /\ pdf = true /\ e = ".pdf"%string).

(** [s] is [t] with some of the small letters made capitals. *)
Inductive same_letters : string -> string -> Prop :=
| sl_nil : same_letters "" ""
| sl_same c s t : same_letters s t -> same_letters (String c s) (String c t)
| sl_capital n s t : (97 <= n <= 122)%nat -> same_letters s t ->
    same_letters (String (ascii_of_nat (n - 32)) s) (String (ascii_of_nat n) t).
