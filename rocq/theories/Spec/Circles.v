(** Circles through points of the plane. *)
From Coq Require Import List Reals.
Import ListNotations.
Local Open Scope R_scope.

Definition on_circle (c : R * R) (r : R) (p : R * R) : Prop := sqrt ((fst p - fst c) ^ 2 + (snd p - snd c) ^ 2) = r.
(** A solver that never ends with a larger sum of squares than where it starts. *)
Definition sum_of_squares (l : list R) : R := fold_right (fun x s => x ^ 2 + s) 0 l.
Definition descends (leastsq : (R * R -> list R) -> R * R -> R * R) : Prop :=
  forall f c, sum_of_squares (f (leastsq f c)) <= sum_of_squares (f c).
