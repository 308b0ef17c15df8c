(** Affine and rigid maps of the plane fitted to pairs of points. *)
From Coq Require Import List Reals.
From Verif.Spec Require Import LinAlg Trig.
Import ListNotations.
Local Open Scope R_scope.

(** Data: pairs (source, target). *)
Definition xs1 (data : list ((R * R) * (R * R))) := map (fun d => fst (fst d)) data.
Definition ys1 (data : list ((R * R) * (R * R))) := map (fun d => snd (fst d)) data.
Definition xs2 (data : list ((R * R) * (R * R))) := map (fun d => fst (snd d)) data.
Definition ys2 (data : list ((R * R) * (R * R))) := map (fun d => snd (snd d)) data.

(** Samples of the function a0 + a1 x + a2 y for the target x and for the target y. *)
Definition x_samples (data : list ((R * R) * (R * R))) := map (fun d => ([1; fst (fst d); snd (fst d)], fst (snd d))) data.
Definition y_samples (data : list ((R * R) * (R * R))) := map (fun d => ([1; fst (fst d); snd (fst d)], snd (snd d))) data.

(** The source points are not on one line. *)
Definition not_collinear (data : list ((R * R) * (R * R))) : Prop :=
  forall a b c, (forall d, In d data -> a + b * fst (fst d) + c * snd (fst d) = 0) -> a = 0 /\ b = 0 /\ c = 0.

(** The affine map with coefficients ax = [ax0; ax1; ax2] and ay. *)
Definition affine (ax ay : list R) (p : R * R) : R * R := (combination ax [1; fst p; snd p], combination ay [1; fst p; snd p]).

(** Rotation by an angle in degrees followed by a translation. *)
Definition rigid (deg dx dy : R) (p : R * R) : R * R :=
  (cos (PI * deg / 180) * fst p - sin (PI * deg / 180) * snd p + dx, sin (PI * deg / 180) * fst p + cos (PI * deg / 180) * snd p + dy).

(** Sum over the data of the squared distances between images and targets. *)
Definition misfit (f : R * R -> R * R) (data : list ((R * R) * (R * R))) : R :=
  fold_right Rplus 0 (map (fun d => (fst (snd d) - fst (f (fst d))) ^ 2 + (snd (snd d) - snd (f (fst d))) ^ 2) data).
