(** Specification for the correction of turbulence by stationary fibres. *)
From Verif.Model Require Import Prelude Stats.
From Coq Require Import Reals.
Local Open Scope R_scope.

(** Gaussian covariance of amplitude [aa] and length [ll] between two positions *)
Definition gauss_cov (aa ll : R) (p q : R * R) : R := aa ^ 2 * exp (- ((fst p - fst q) ^ 2 + (snd p - snd q) ^ 2) / (2 * ll ^ 2)).
(** [f] is the Gaussian process prediction (simple kriging) with noise [s] of values [v] observed at [ps]: weights solve the linear system of the covariance *)
Definition gp_field (aa ll : R) (ps : list (R * R)) (w : list R) (q : R * R) : R := Rsum (map (fun pw => snd pw * gauss_cov aa ll (fst pw) q) (combine ps w)).
Definition kriging (s aa ll : R) (ps : list (R * R)) (v : list R) (qs : list (R * R)) (f : list R) : Prop :=
  exists w, length w = length ps /\ (forall i, (i < length ps)%nat -> gp_field aa ll ps w (nth i ps (0, 0)) + s ^ 2 * nth i w 0 = nth i v 0) /\ f = map (gp_field aa ll ps w) qs.
(** strictly within 5 robust standard deviations of the median: the standard deviation is 1.4826 times the median distance to the median *)
Definition inlier (l : list R) (v : R) : Prop := exists med mad, median l = Ok med /\ median (map (fun x => Rabs (x - med)) l) = Ok mad /\ Rabs (v - med) < 5 * (mad * 1.482602218505602).
(** the elements of [l] flagged in [m] *)
Fixpoint flagged {A} (m : list bool) (l : list A) : list A := match m, l with true :: m, x :: l => x :: flagged m l | false :: m, _ :: l => flagged m l | _, _ => [] end.
