(** C05: key join of two tables. *)
From Verif.Model Require Import KeyMatch.
From Verif.Spec Require Import Numpy.
From Verif.Proofs Require KeyMatch Numpy.
From Coq Require Import Sorted.

(** Raised exactly on a repeated key of the first array. *)
Theorem C05_duplicate_keys_rejected :
  forall (argsort : forall K, (K -> K -> bool) -> list K -> list nat), is_argsort argsort ->
  forall (K : Type) (ltb eqb : K -> K -> bool), strict_total ltb -> (forall x y, eqb x y = true <-> x = y) ->
  forall a b : list K, ~ NoDup a -> match_keys argsort ltb eqb a b = Err ValueError.
Proof. intros s _ K ltb eqb _ He. exact (@KeyMatch.match_keys_dup s K ltb eqb He). Qed.
Print Assumptions C05_duplicate_keys_rejected.

(** Otherwise the result lists exactly the pairs of positions holding equal values, in the
    order of the second array. *)
Theorem C05_pairs_are_exactly_the_equal_values :
  forall (argsort : forall K, (K -> K -> bool) -> list K -> list nat), is_argsort argsort ->
  forall (K : Type) (ltb eqb : K -> K -> bool), strict_total ltb -> (forall x y, eqb x y = true <-> x = y) ->
  forall a b : list K, NoDup a ->
  exists ia ib, match_keys argsort ltb eqb a b = Ok (ia, ib) /\ length ia = length ib /\
    StronglySorted lt ib /\
    forall i j, In (i, j) (combine ia ib) <-> exists v, nth_error a i = Some v /\ nth_error b j = Some v.
Proof. exact @KeyMatch.match_keys_ok. Qed.
Print Assumptions C05_pairs_are_exactly_the_equal_values.

Example C05_example :
  is_argsort isort_argsort /\ strict_total Z.ltb /\ NoDup [30; 10; 20] /\
  match_keys isort_argsort Z.ltb Z.eqb [30; 10; 20] [20; 25; 30; 20; 99; -1] = Ok ([2; 0; 2]%nat, [0; 2; 3]%nat) /\
  match_keys isort_argsort Z.ltb Z.eqb [30; 10; 30] [20] = Err ValueError.
Proof.
  split; [exact Numpy.isort_is_argsort|]. split; [split; [split|]; intros; lia|].
  split; [repeat constructor; cbn; intuition lia|]. split; reflexivity.
Qed.
