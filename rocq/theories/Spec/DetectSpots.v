(** What scipy's KD-tree promises for two neighbours, and rectangular images. *)
From Coq Require Import List Reals.
Import ListNotations.
Local Open Scope R_scope.

Definition apart (p q : R * R) : R := sqrt ((fst p - fst q) ^ 2 + (snd p - snd q) ^ 2).
(** The second of two nearest entries to entry i, in any order for equal distances. A lone entry has no second. *)
Definition second_query (query : list (R * R) -> nat -> option R * nat) : Prop :=
  forall l i p, nth_error l i = Some p ->
    (length l = 1%nat -> query l i = (None, 1%nat)) /\
    ((2 <= length l)%nat -> exists j1 q1 j q, query l i = (Some (apart p q), j) /\ j1 <> j /\ nth_error l j1 = Some q1 /\ nth_error l j = Some q /\
      apart p q1 <= apart p q /\ forall k s, nth_error l k = Some s -> k <> j1 -> k <> j -> apart p q <= apart p s).
Definition rectangle (n0 n1 : nat) (img : list (list R)) : Prop := length img = n0 /\ Forall (fun row => length row = n1) img.
