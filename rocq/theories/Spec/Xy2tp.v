(** The two-arm positioner. *)
From Coq Require Import Reals ZArith.
From Verif.Spec Require Import Trig Match.
Local Open Scope R_scope.

(** The fiber is at (x,y) when the first arm points at angle t and the second at angle t + p. *)
Definition fiber_at (r tp xy : R * R) : Prop :=
  let a := PI * fst tp / 180 in
  let b := PI * (fst tp + snd tp) / 180 in
  fst xy = fst r * cos a + snd r * cos b /\ snd xy = fst r * sin a + snd r * sin b.

(** Inside a travel range given by its two ends in any order. *)
Definition in_interval (a : R) (range : R * R) : Prop := Rmin (fst range) (snd range) <= a <= Rmax (fst range) (snd range).
Definition in_ranges (tp : R * R) (ranges : (R * R) * (R * R)) : Prop :=
  in_interval (fst tp) (fst ranges) /\ in_interval (snd tp) (snd ranges).

(** The ring of radii between the arm length difference and sum, shrunk by [c] on both sides. *)
Definition norm2 (xy : R * R) : R := sqrt (fst xy ^ 2 + snd xy ^ 2).
Definition in_annulus (r : R * R) (c : R) (xy : R * R) : Prop :=
  Rabs (fst r - snd r) + c <= norm2 xy <= fst r + snd r - c.
(** [10 * sys.float_info.epsilon] *)
Definition tiny : R := 10 * / 2 ^ 52.
