(** Distances and contractions in the plane. *)
From Coq Require Import Reals.
From Verif.Model Require Import Prelude.
Local Open Scope R_scope.

(** The larger of the distances in x and in y. *)
Definition sup_dist (p q : R * R) : R := Rmax (Rabs (fst p - fst q)) (Rabs (snd p - snd q)).
Definition sup_norm (p : R * R) : R := Rmax (Rabs (fst p)) (Rabs (snd p)).
(** [D] brings points of the square of half side [rho] around [c] closer by the factor [q]. *)
Definition contracts (D : R * R -> R * R) (q : R) (c : R * R) (rho : R) : Prop :=
  forall p p', sup_dist p c <= rho -> sup_dist p' c <= rho -> sup_dist (D p) (D p') <= q * sup_dist p p'.
(** A displacement, as a function of the point. *)
Definition field (f : R -> R -> res (R * R)) (p : R * R) : R * R := match f (fst p) (snd p) with Ok d => d | Err _ => (0, 0) end.
