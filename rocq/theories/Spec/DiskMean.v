(** Mean value over the unit disk, in polar coordinates. *)
From Coq Require Import Reals.
From Coquelicot Require Import Coquelicot.
Local Open Scope R_scope.

Definition disk_mean (f : R -> R -> R) (v : R) : Prop :=
  exists g, (forall t, is_RInt (fun r => f (r * cos t) (r * sin t) * r) 0 1 (g t)) /\
  is_RInt g 0 (2 * PI) (v * PI).
