(** Arguments which are one common value or one value per point. *)
From Coq Require Import List Reals.
From Verif.Model Require Import Pos2ptl.
Import ListNotations.

(** [u] gives the value [f i] to each of the points 0 .. n-1: a scalar (or vector of length 1), or
    a vector of length n. *)
Definition gives {A} (u : arg A) (n : nat) (f : nat -> A) : Prop :=
  match u with
  | Scalar a => forall i, (i < n)%nat -> f i = a
  | Vec l => l = map f (seq 0 n) \/ exists a, l = [a] /\ forall i, (i < n)%nat -> f i = a
  end.
