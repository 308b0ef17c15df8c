(** Directions and angles in degrees. *)
From Coq Require Import Reals ZArith.
Local Open Scope R_scope.

(** Same direction: the angles differ by a whole number of turns. *)
Definition same_angle (a b : R) : Prop := exists k : Z, a = b + 360 * IZR k.

(** [a] is the angle (degrees, counter-clockwise from the x axis) of the vector (x,y). *)
Definition points_to (a x y : R) : Prop :=
  x = sqrt (x ^ 2 + y ^ 2) * cos (PI * a / 180) /\ y = sqrt (x ^ 2 + y ^ 2) * sin (PI * a / 180).
