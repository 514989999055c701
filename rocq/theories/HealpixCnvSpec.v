(** Bilinear interpolation of an image, stored row by row with [dimension] pixels per row, at the point (x, y). *)
From Verif Require Import Base.
Open Scope Q_scope.

Definition pixel (dimension : Z) (image : list Q) (i j : Z) : Q := nth (Z.to_nat (i + dimension * j)) image 0.
Definition bilinear (dimension : Z) (image : list Q) (x y : Q) : Q :=
  let i := Qfloor x in let j := Qfloor y in
  let dx := x - inject_Z i in let dy := y - inject_Z j in
  (1 - dx) * (1 - dy) * pixel dimension image i j
  + (1 - dx) * dy * pixel dimension image i (j + 1)
  + dx * (1 - dy) * pixel dimension image (i + 1) j
  + dx * dy * pixel dimension image (i + 1) (j + 1).
Definition is_integer (x : Q) : Prop := x == inject_Z (Qfloor x).
