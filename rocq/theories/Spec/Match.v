(** Matching of catalogues of points of the plane. *)
From Coq Require Import List Reals.
Import ListNotations.
Local Open Scope R_scope.

Definition distance (p q : R * R) : R := sqrt ((fst p - fst q) ^ 2 + (snd p - snd q) ^ 2).

(** [q] is an entry of the catalogue nearest to [p]. *)
Definition nearest (cat : list (R * R)) (p q : R * R) : Prop :=
  In q cat /\ forall q', In q' cat -> distance p q <= distance p q'.

(** What scipy's KD-tree query promises: the index of a nearest entry and its distance
    (any one of several equally near entries); infinite distance ([None]) and the index 0,
    the number of entries, when there is none. *)
Definition nearest_query (query : list (R * R) -> R * R -> option R * nat) : Prop :=
  (forall p, query [] p = (None, 0%nat)) /\
  forall cat p, cat <> [] ->
    exists i q, query cat p = (Some (distance p q), i) /\ nth_error cat i = Some q /\ nearest cat p q.

(** Shape of a triangle with vertices in a given order: longest over shortest side, cosine of
    the angle at the first vertex, cosine of the angle of the first side with the x axis. *)
Definition shape (a b c : R * R) : R * R * R :=
  let longest := Rmax (Rmax (distance a b) (distance b c)) (distance c a) in
  let shortest := Rmin (Rmin (distance a b) (distance b c)) (distance c a) in
  (longest / shortest,
   ((fst b - fst a) * (fst c - fst a) + (snd b - snd a) * (snd c - snd a)) / (distance a b * distance a c),
   (fst b - fst a) / distance a b).

(** No two triangles of the catalogue, vertices taken in order of x, have the same shape. *)
Definition distinct_shapes (cat : list (R * R)) : Prop :=
  forall a b c a' b' c', In a cat -> In b cat -> In c cat -> In a' cat -> In b' cat -> In c' cat ->
    fst a < fst b < fst c -> fst a' < fst b' < fst c' ->
    shape a b c = shape a' b' c' -> a = a' /\ b = b' /\ c = c'.

Definition distance3 (s t : R * R * R) : R :=
  let '(a, b, c) := s in let '(a', b', c') := t in sqrt ((a - a') ^ 2 + (b - b') ^ 2 + (c - c') ^ 2).

(** The same promise as [nearest_query] for the tree of triangle shapes. *)
Definition nearest_query3 (query : list (R * R * R) -> R * R * R -> option R * nat) : Prop :=
  (forall p, query [] p = (None, 0%nat)) /\
  forall cat p, cat <> [] ->
    exists i q, query cat p = (Some (distance3 p q), i) /\ nth_error cat i = Some q /\
      forall q', In q' cat -> distance3 p q <= distance3 p q'.
