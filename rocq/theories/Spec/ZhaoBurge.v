(** Vector fields given by coefficients of a list of basis fields. *)
From Coq Require Import List Reals ZArith String.
From Verif.Model Require Import Prelude.
Import ListNotations.
Local Open Scope R_scope.

(** The components of a term (dx, dy, label). *)
Definition vx_of (t : res (R * R * string)) : R := match t with Ok (vx, _, _) => vx | Err _ => 0 end.
Definition vy_of (t : res (R * R * string)) : R := match t with Ok (_, vy, _) => vy | Err _ => 0 end.

(** A point moved by a displacement. *)
Definition displaced (d : res (R * R)) (p : R * R) : R * R := match d with Ok v => (fst p + fst v, snd p + snd v) | Err _ => p end.

(** a u + b v, entry by entry *)
Fixpoint lin_comb (a : R) (u : list R) (b : R) (v : list R) : list R :=
  match u, v with x :: u', y :: v' => a * x + b * y :: lin_comb a u' b v' | _, _ => [] end.

(** Scale by s and rotate by t (radians). *)
Definition similarity (s t : R) (p : R * R) : R * R := (s * (fst p * cos t - snd p * sin t), s * (fst p * sin t + snd p * cos t)).
