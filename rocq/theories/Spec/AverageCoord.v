(** Averaging the spots of several images. *)
From Coq Require Import List Reals Sorted.
From Verif.Spec Require Import LinAlg Match SimpleCorr.
Import ListNotations.
Local Open Scope R_scope.

Definition spot (l : list (R * R)) (k : nat) : R * R := nth k l (0, 0).

(** Of the spots [S] of the first image (numbers of spots), [S'] are those paired with a spot of
    the image [t], [m] giving its number: a nearest one, less than 5 apart, not used twice; and
    the others are 5 or more away from their nearest spot, or lost it to a paired spot at least as
    close. *)
Record paired (first t : list (R * R)) (S S' : list nat) (m : nat -> nat) : Prop := {
  paired_incl : incl S' S;
  paired_sorted : StronglySorted lt S -> StronglySorted lt S';
  paired_exists : forall k, In k S' -> (m k < length t)%nat /\ nearest t (spot first k) (spot t (m k)) /\ distance (spot first k) (spot t (m k)) < 5;
  paired_inj : forall k k', In k S' -> In k' S' -> m k = m k' -> k = k';
  paired_lost : forall k, In k S -> ~ In k S' ->
    (forall q, In q t -> 5 <= distance (spot first k) q) \/
    exists k', In k' S' /\ k' <> k /\ nearest t (spot first k) (spot t (m k')) /\
      distance (spot first k') (spot t (m k')) <= distance (spot first k) (spot t (m k')) }.

(** [averaging first images S gs]: [S] are the spots of the first image paired in turn with a
    spot of each of the images, and [gs] the positions of each spot, as seen in the first image
    and in each image after the least squares affine map onto the first image. *)
Inductive averaging (first : list (R * R)) : list (list (R * R)) -> list nat -> list (nat -> R * R) -> Prop :=
| averaging_first : averaging first [] (seq 0 (length first)) [spot first]
| averaging_next : forall images S gs t S' m ax ay,
    averaging first images S gs -> paired first t S S' m ->
    let data := map (fun k => (spot t (m k), spot first k)) S' in
    not_collinear data -> least_squares 3 (x_samples data) ax -> least_squares 3 (y_samples data) ay ->
    averaging first (images ++ [t]) S' (gs ++ [fun k => affine ax ay (spot t (m k))]).

Definition mean_position (l : list (R * R)) : R * R :=
  (fold_right Rplus 0 (map fst l) / INR (length l), fold_right Rplus 0 (map snd l) / INR (length l)).

(** The image [t] shows the spots of the first image, in the same order: an affine map (its linear
    part with trace not 0) brings them there, each spot is less than 5 from its own image and
    strictly farther from those of others, and they are not on one line. *)
Record aligned (first t : list (R * R)) : Prop := {
  al_length : length first = length t;
  al_spread : not_collinear (combine t first);
  al_map : exists ax ay, length ax = 3%nat /\ length ay = 3%nat /\ nth 1 ax 0 + nth 2 ay 0 <> 0 /\
    forall k, (k < length first)%nat -> affine ax ay (spot t k) = spot first k;
  al_near : forall k k', (k < length first)%nat -> (k' < length t)%nat ->
    distance (spot first k) (spot t k) < 5 /\
    (k <> k' -> distance (spot first k) (spot t k) < distance (spot first k) (spot t k')) }.
