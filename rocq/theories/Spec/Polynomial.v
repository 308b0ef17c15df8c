(** Polynomials in two variables, as lists of terms (coefficient, (exponent of x, exponent of y)). *)
From Coq Require Import List Reals.
Import ListNotations.
Local Open Scope R_scope.
Notation terms := (list (R * (nat * nat))) (only parsing).
Definition value (P : terms) (x y : R) : R := fold_right (fun t s => fst t * (x ^ fst (snd t) * y ^ snd (snd t)) + s) 0 P.
Definition degree_le (n : nat) (P : terms) : Prop := Forall (fun t => (fst (snd t) + snd (snd t) <= n)%nat) P.
(** [(fst g, snd g)] is the gradient of [P] at [(x, y)] *)
Definition gradient (P : terms) (p g : R * R) : Prop :=
  derivable_pt_lim (fun t => value P t (snd p)) (fst p) (fst g) /\ derivable_pt_lim (fun t => value P (fst p) t) (snd p) (snd g).
