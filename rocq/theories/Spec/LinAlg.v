(** Least squares. *)
From Coq Require Import List Reals.
Import ListNotations.
Local Open Scope R_scope.

(** Value at one sample of the linear combination with coefficients [p] of basis functions whose
    values at this sample are [h]. *)
Fixpoint combination (p h : list R) : R :=
  match p, h with c :: p', x :: h' => c * x + combination p' h' | _, _ => 0 end.

(** Sum of squared residuals over samples (basis values, datum). *)
Definition sum_sq (p : list R) (samples : list (list R * R)) : R :=
  fold_right Rplus 0 (map (fun s => (snd s - combination p (fst s)) ^ 2) samples).

(** [p] is the unique minimum of the sum of squared residuals. *)
Definition least_squares (k : nat) (samples : list (list R * R)) (p : list R) : Prop :=
  length p = k /\ forall q, length q = k -> q <> p -> sum_sq p samples < sum_sq q samples.

(** The samples determine the coefficients: only the zero combination vanishes at all of them. *)
Definition independent (k : nat) (samples : list (list R * R)) : Prop :=
  forall p, length p = k -> (forall s, In s samples -> combination p (fst s) = 0) -> p = repeat 0 k.
