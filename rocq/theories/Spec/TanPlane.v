(** Tangent plane coordinates (in radians) seen from another pointing. *)
From Coq Require Import List Reals.
From Verif.Spec Require Import Sphere.
Local Open Scope R_scope.

Definition in_disk (p : R * R) : Prop := fst p ^ 2 + snd p ^ 2 <= 1.
(** Direction with tangent plane coordinates [p] for the pointing ha = dec = 0. *)
Definition direction (p : R * R) : R * R * R := (sqrt (1 - fst p ^ 2 - snd p ^ 2), fst p, snd p).
(** Tangent plane coordinates of this direction for the pointing [o] = (ha, dec), in degrees. *)
Definition seen_from (o p : R * R) : R * R :=
  (inner (direction p) (unit_vector (fst o + 90) 0), inner (direction p) (unit_vector (fst o) (snd o + 90))).
Definition average (l : list R) : R := fold_right Rplus 0 l / INR (length l).
(** One correction of the pointing: the mean offset from sources to targets, in degrees, is subtracted. *)
Definition pointing_step (data : list ((R * R) * (R * R))) (o o' : R * R) : Prop :=
  fst o' = fst o - 180 / PI * average (map (fun d => fst (snd d) - fst (seen_from o (fst d))) data) /\
  snd o' = snd o - 180 / PI * average (map (fun d => snd (snd d) - snd (seen_from o (fst d))) data).
Definition sources_from (o : R * R) (data : list ((R * R) * (R * R))) : list ((R * R) * (R * R)) :=
  map (fun d => (seen_from o (fst d), snd d)) data.
