(** Groups of close spots, and the neighbour search that finds them. *)
From Coq Require Import List Reals.
From Verif.Spec Require Import Match.
Import ListNotations.
Local Open Scope R_scope.

(** Indices of the entries with a finite distance. *)
Definition found (r : list (option R * nat)) : list nat := map snd (filter (fun q => match fst q with Some _ => true | None => false end) r).
(** What scipy's KD-tree promises for query(p, k=4, distance_upper_bound=bound): four entries; those with a finite distance are different
    points closer than the bound, none farther than a point left out; the others only when no other point is closer than the bound. *)
Definition near_query (query : list (R * R) -> R -> R * R -> list (option R * nat)) : Prop :=
  forall cat bound p, let r := query cat bound p in
    length r = 4%nat /\ NoDup (found r) /\
    (forall d j, In (Some d, j) r -> exists q, nth_error cat j = Some q /\ d = distance p q /\ d < bound) /\
    (forall j q, nth_error cat j = Some q -> distance p q < bound -> ~ In j (found r) ->
       length (found r) = 4%nat /\ forall d i, In (Some d, i) r -> d <= distance p q).

(** At least four spots (one of them may be at [c] itself) are closer than [sep] to [c]. *)
Definition crowded (xy : list (R * R)) (sep : R) (c : R * R) : Prop :=
  exists ks, NoDup ks /\ length ks = 4%nat /\ forall k, In k ks -> exists q, nth_error xy k = Some q /\ distance c q < sep.
(** [c] is a crowded spot nearest to [p]. *)
Definition nearest_crowded (xy : list (R * R)) (sep : R) (p c : R * R) : Prop :=
  In c xy /\ crowded xy sep c /\ forall c', In c' xy -> crowded xy sep c' -> distance p c <= distance p c'.

(** A map (x, y) -> (a + b x + c y, d + e x + f y). *)
Definition affine_map (A : R * R -> R * R) : Prop :=
  exists a b c d e f, forall p, A p = (a + b * fst p + c * snd p, d + e * fst p + f * snd p).

Definition mean_point (l : list (R * R)) : R * R :=
  (fold_right Rplus 0 (map fst l) / INR (length l), fold_right Rplus 0 (map snd l) / INR (length l)).
(** [p] is the first of the points closest to their mean. *)
Definition central (l : list (R * R)) (p : R * R) : Prop :=
  exists i, nth_error l i = Some p /\ forall j q, nth_error l j = Some q ->
    distance p (mean_point l) <= distance q (mean_point l) /\ (distance q (mean_point l) = distance p (mean_point l) -> (i <= j)%nat).
