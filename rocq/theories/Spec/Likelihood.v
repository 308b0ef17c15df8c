(** Probability density of offsets under a Gaussian process. *)
From Coq Require Import List Reals.
Import ListNotations.
From Verif.Spec Require Import Stationary.
Local Open Scope R_scope.

(** normal distribution of mean [m] and variance [v] *)
Definition normal (m v x : R) : R := exp (- (x - m) ^ 2 / (2 * v)) / sqrt (2 * PI * v).
(** Density of the offsets (dx, dy) observed at positions, one spot after the other: given the earlier ones, each offset of a spot is normal, with the prediction from the
    earlier spots as its mean; its variance is that of the process plus that of the noise, less what the earlier spots explain. The two coordinates are independent. *)
Inductive gp_density (s aa ll : R) : list ((R * R) * (R * R)) -> R -> Prop :=
| density_none : gp_density s aa ll [] 1
| density_next l d p x y mx my g v : gp_density s aa ll l d ->
    kriging s aa ll (map fst l) (map (fun o => fst (snd o)) l) [p] [mx] -> kriging s aa ll (map fst l) (map (fun o => snd (snd o)) l) [p] [my] ->
    kriging s aa ll (map fst l) (map (fun o => gauss_cov aa ll (fst o) p) l) [p] [g] -> v = aa ^ 2 + s ^ 2 - g ->
    gp_density s aa ll (l ++ [(p, (x, y))]) (d * (normal mx v x * normal my v y)).
