(** What "the connected region" means. Pixels are flat indices of a rows x cols image. *)
From Verif Require Import Base.
Open Scope nat_scope.

(** Sharing a side. *)
Definition adjacent (cols p q : nat) : Prop :=
  (p / cols = q / cols /\ (p mod cols = S (q mod cols) \/ q mod cols = S (p mod cols)))
  \/ (p mod cols = q mod cols /\ (p / cols = S (q / cols) \/ q / cols = S (p / cols))).

(** A path of adjacent pixels all in [on]. *)
Inductive connected (cols : nat) (on : nat -> Prop) : nat -> nat -> Prop :=
| conn_here p : on p -> connected cols on p p
| conn_step p q r : connected cols on p q -> adjacent cols q r -> on r -> connected cols on p r.

Definition interior (rows cols p : nat) : Prop :=
  0 < p / cols /\ p / cols < rows - 1 /\ 0 < p mod cols /\ p mod cols < cols - 1.

(** A pixel with a value (not NaN) within the thresholds. *)
Definition within_thresholds (image : list (option Q)) (lo hi : Q) (p : nat) : Prop :=
  exists v, p < length image /\ nth p image None = Some v /\ (lo <= v)%Q /\ (v <= hi)%Q.

(** The contract of scipy.ndimage.label: background is 0, and two foreground pixels have the same label exactly if they
    are connected. *)
Definition labels_components (rows cols : nat) (mask : list bool) (labels : list nat) : Prop :=
  length labels = length mask
  /\ (forall p, p < length mask -> (nth p labels 0 = 0 <-> nth p mask false = false))
  /\ (forall p q, p < length mask -> q < length mask -> nth p mask false = true -> nth q mask false = true ->
        (nth p labels 0 = nth q labels 0 <-> connected cols (fun k => k < length mask /\ nth k mask false = true) p q)).

(** The threshold in force: the one given, or the extreme seed value. *)
Definition low_is (image : list (option Q)) (roi : list nat) (low : option Q) (lo : Q) : Prop :=
  match low with
  | Some q => lo = q
  | None => (exists s, In s roi /\ nth s image None = Some lo)
            /\ forall s, In s roi -> exists v, nth s image None = Some v /\ (lo <= v)%Q
  end.
Definition high_is (image : list (option Q)) (roi : list nat) (high : option Q) (hi : Q) : Prop :=
  match high with
  | Some q => hi = q
  | None => (exists s, In s roi /\ nth s image None = Some hi)
            /\ forall s, In s roi -> exists v, nth s image None = Some v /\ (v <= hi)%Q
  end.
