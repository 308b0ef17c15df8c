(** Turning the field by the ADC angle; interpolation of a table. *)
From Coq Require Import List Reals Sorted.
From Verif.Model Require Import Prelude.
From Verif.Spec Require Import Trig.
Local Open Scope R_scope.

(** Coordinates of [p] in axes turned by [deg] degrees, and back. *)
Definition turned (deg : R) (p : R * R) : R * R :=
  (cos (PI * deg / 180) * fst p + sin (PI * deg / 180) * snd p, - sin (PI * deg / 180) * fst p + cos (PI * deg / 180) * snd p).
Definition turned_back (deg : R) (p : R * R) : R * R :=
  (cos (PI * deg / 180) * fst p - sin (PI * deg / 180) * snd p, sin (PI * deg / 180) * fst p + cos (PI * deg / 180) * snd p).
Definition reduced_by (a : R) (p : R * R) : R * R := (fst p / a, snd p / a).
(** An interpolation goes through its knots (at least four, in increasing order). *)
Definition interpolates (f : list R -> list R -> R -> res R) : Prop :=
  forall xs ys j, (4 <= length xs)%nat -> length ys = length xs -> StronglySorted Rlt xs -> (j < length xs)%nat -> f xs ys (nth j xs 0) = Ok (nth j ys 0).
