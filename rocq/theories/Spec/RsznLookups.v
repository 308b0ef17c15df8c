(** Piecewise linear interpolation of a table. *)
From Coq Require Import List Reals.
Local Open Scope R_scope.

(** (x,y) lies on the segment between two consecutive rows of the table (xs, ys). *)
Definition on_table (xs ys : list R) (x y : R) : Prop :=
  exists i, (S i < length xs)%nat /\
    let x0 := nth i xs 0 in let x1 := nth (S i) xs 0 in let y0 := nth i ys 0 in let y1 := nth (S i) ys 0 in
    x0 <= x <= x1 /\ (y - y0) * (x1 - x0) = (y1 - y0) * (x - x0).
