(** C06, C07, C08: matching of catalogues of points. *)
From Verif.Model Require Import Match KDTree.
From Verif.Spec Require Import Numpy Match.
From Verif.Proofs Require Numpy Match MatchTriangles MatchRecover KDTree MatchExample.
From Coq Require Import Lra.

Theorem C06_injective_and_closest :
  forall argsort, is_argsort argsort -> forall query2, nearest_query query2 ->
  forall xy1 xy2 : list (R * R), xy2 <> [] ->
  exists ind dis, match_same_system argsort query2 xy1 xy2 true = Ok (ind, dis) /\
    length ind = length xy1 /\ length dis = length xy1 /\
    (* each entry: unmatched with infinite distance, or a nearest entry with its distance *)
    (forall k p z e, nth_error xy1 k = Some p -> nth_error ind k = Some z -> nth_error dis k = Some e ->
       (z = -1 /\ e = None) \/
       exists j q, z = Z.of_nat j /\ nth_error xy2 j = Some q /\ e = Some (distance p q) /\ nearest xy2 p q) /\
    (* no entry of the second catalogue is used twice *)
    (forall k k' j, nth_error ind k = Some (Z.of_nat j) -> nth_error ind k' = Some (Z.of_nat j) -> k = k') /\
    (* the entry found for k stays matched, to an entry at least as close as k *)
    (forall k p, nth_error xy1 k = Some p ->
       exists j q k' p', snd (query2 xy2 p) = j /\ nth_error xy2 j = Some q /\
         nth_error ind k' = Some (Z.of_nat j) /\ nth_error xy1 k' = Some p' /\ (distance p' q <= distance p q)%R).
Proof. exact Match.match_same_system_spec. Qed.
Print Assumptions C06_injective_and_closest.

Theorem C06_without_duplicate_removal :
  forall argsort query2, nearest_query query2 ->
  forall xy1 xy2 : list (R * R), xy2 <> [] ->
  exists ind dis, match_same_system argsort query2 xy1 xy2 false = Ok (ind, dis) /\
    length ind = length xy1 /\ length dis = length xy1 /\
    (forall k p z e, nth_error xy1 k = Some p -> nth_error ind k = Some z -> nth_error dis k = Some e ->
       exists j q, z = Z.of_nat j /\ nth_error xy2 j = Some q /\ e = Some (distance p q) /\ nearest xy2 p q).
Proof. exact Match.match_same_system_plain. Qed.
Print Assumptions C06_without_duplicate_removal.

(** With an empty second catalogue the single entry of the first is reported as matched to
    entry 0, which does not exist. *)
Theorem C06_empty_second_catalogue_refuted :
  forall argsort query2, nearest_query query2 -> forall p,
  match_same_system argsort query2 [p] [] true = Ok ([0], [None]) /\ nth_error (@nil (R * R)) 0 = None.
Proof. intros a q Hq p. exact (conj (Match.match_same_system_empty a q Hq p) eq_refl). Qed.
Print Assumptions C06_empty_second_catalogue_refuted.

Example C06_example : is_argsort isort_argsort /\ nearest_query (scan_query distance) /\ [(0, 0); (1, 0)]%R <> [].
Proof. split; [exact Numpy.isort_is_argsort|]. split; [exact KDTree.scan_query2|discriminate]. Qed.

(** Whatever the triangle search answers, the result is a one to one partial assignment. *)
Theorem C07_result_is_injective :
  forall argsort, is_argsort argsort -> forall query3 (xy1 xy2 : list (R * R)) ind dis,
  match_arbitrary argsort query3 xy1 xy2 = Ok (ind, dis) ->
  length ind = length xy1 /\ length dis = length xy1 /\
  (forall m z, nth_error ind m = Some z -> z = -1 \/ exists j q, z = Z.of_nat j /\ nth_error xy2 j = Some q) /\
  (forall m m' j, nth_error ind m = Some (Z.of_nat j) -> nth_error ind m' = Some (Z.of_nat j) -> m = m').
Proof. exact MatchTriangles.match_arbitrary_valid. Qed.
Print Assumptions C07_result_is_injective.

(** The call returns normally as soon as the search answers with existing triangles and the
    second catalogue has three entries (or the first has fewer than three). *)
Theorem C07_returns_normally :
  forall argsort, is_argsort argsort -> forall query3 (xy1 xy2 : list (R * R)),
  (forall cat p, cat <> [] -> (snd (query3 cat p) < length cat)%nat) ->
  (3 <= length xy2)%nat \/ (length xy1 < 3)%nat ->
  exists r, match_arbitrary argsort query3 xy1 xy2 = Ok r.
Proof. exact MatchTriangles.match_arbitrary_Ok. Qed.
Print Assumptions C07_returns_normally.

(** With fewer than three entries in the second catalogue only, it raises IndexError. *)
Theorem C07_small_second_catalogue_fails :
  forall argsort, is_argsort argsort -> forall query3 (xy1 xy2 : list (R * R)),
  (forall p, query3 [] p = (None, 0%nat)) ->
  (length xy2 < 3)%nat -> (3 <= length xy1)%nat ->
  match_arbitrary argsort query3 xy1 xy2 = Err IndexError.
Proof. exact MatchTriangles.match_arbitrary_small. Qed.
Print Assumptions C07_small_second_catalogue_fails.

Example C07_example : nearest_query3 (scan_query distance3) /\
  exists r, match_arbitrary isort_argsort (scan_query distance3) [(0,0);(1,0);(0,2);(5,5)]%R [(0,0);(1,0);(0,2)]%R = Ok r.
Proof.
  split; [exact KDTree.scan_query3|].
  apply (C07_returns_normally isort_argsort Numpy.isort_is_argsort).
  - intros cat p H. destruct (KDTree.scan_query_ok distance3 cat p H) as (i & q & -> & Hi & _). cbn.
    apply nth_error_Some. congruence.
  - left. cbn. lia.
Qed.

(** A translated and dilated copy, in any order, is recovered exactly. *)
Theorem C08_recovers_translated_dilated_copy :
  forall argsort, is_argsort argsort -> forall query3, nearest_query3 query3 ->
  forall (xy1 xy2 : list (R * R)) (sigma : nat -> nat) (s tx ty : R),
  (0 < s)%R -> length xy2 = length xy1 -> (3 <= length xy1)%nat ->
  (forall i p, nth_error xy1 i = Some p -> nth_error xy2 (sigma i) = Some (s * fst p + tx, s * snd p + ty)%R) ->
  (forall i j, (i < length xy1)%nat -> (j < length xy1)%nat -> sigma i = sigma j -> i = j) ->
  NoDup (map fst xy1) -> distinct_shapes xy1 ->
  exists ind dis, match_arbitrary argsort query3 xy1 xy2 = Ok (ind, dis) /\ length ind = length xy1 /\
    forall i, (i < length xy1)%nat ->
      nth_error ind i = Some (Z.of_nat (sigma i)) /\ nth_error dis i = Some (Some 0%R).
Proof. exact MatchRecover.recover. Qed.
Print Assumptions C08_recovers_translated_dilated_copy.

(** Four points in general position and their image under x -> 2 x + 1, y -> 2 y, reordered. *)
Example C08_example :
  let xy1 := [(0, 0); (3, 4); (8, 6); (15, 8)]%R in
  let xy2 := [(7, 8); (1, 0); (31, 16); (17, 12)]%R in
  let sigma := fun i => match i with 0 => 1 | 1 => 0 | 2 => 3 | _ => 2 end%nat in
  exists ind dis, match_arbitrary isort_argsort (scan_query distance3) xy1 xy2 = Ok (ind, dis) /\
    length ind = 4%nat /\ forall i, (i < 4)%nat ->
      nth_error ind i = Some (Z.of_nat (sigma i)) /\ nth_error dis i = Some (Some 0%R).
Proof.
  intros xy1 xy2 sigma.
  apply (C08_recovers_translated_dilated_copy isort_argsort Numpy.isort_is_argsort _ KDTree.scan_query3 xy1 xy2 sigma 2 1 0).
  - lra.
  - reflexivity.
  - cbn; lia.
  - intros [|[|[|[|i]]]] p H; cbn in H; try (destruct i; discriminate); injection H as <-; cbn; repeat f_equal; lra.
  - cbn. intros [|[|[|[|i]]]] [|[|[|[|j]]]] Hi Hj E; cbn in E; try lia.
  - unfold xy1. cbn. repeat constructor; cbn; intuition lra.
  - exact MatchExample.base_shapes.
Qed.
