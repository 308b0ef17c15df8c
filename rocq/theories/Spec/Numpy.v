(** What numpy's sorting functions promise, independent of the algorithm they use. *)
From Coq Require Import List Bool Permutation Sorted.
Import ListNotations.

(** A usable comparison: irreflexive, transitive, and incomparable elements behave alike. *)
Record strict_weak {K} (ltb : K -> K -> bool) : Prop := {
  sw_irrefl : forall x, ltb x x = false;
  sw_trans : forall x y z, ltb x y = true -> ltb y z = true -> ltb x z = true;
  sw_split : forall x y z, ltb x z = true -> ltb x y = true \/ ltb y z = true
}.

(** Strict total order. *)
Record strict_total {K} (ltb : K -> K -> bool) : Prop := {
  st_weak : strict_weak ltb;
  st_total : forall x y, ltb x y = false -> ltb y x = false -> x = y
}.

(** [p] is a result [np.argsort a] may return: a permutation of the indices along which the
    values never decrease. Any tie breaking is allowed. *)
Definition sorting_permutation {K} (ltb : K -> K -> bool) (a : list K) (p : list nat) : Prop :=
  Permutation p (seq 0 (length a)) /\
  StronglySorted (fun i j => forall x y, nth_error a i = Some x -> nth_error a j = Some y -> ltb y x = false) p.

(** A sorting function in the sense of [np.argsort]. *)
Definition is_argsort (argsort : forall K, (K -> K -> bool) -> list K -> list nat) : Prop :=
  forall K ltb a, strict_weak ltb -> sorting_permutation ltb a (argsort K ltb a).
