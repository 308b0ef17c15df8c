(** A concrete nearest neighbour search (linear scan), used to show that the promises assumed
    of scipy's KD-tree can be met. *)
From Verif.Model Require Export RealNum.

Fixpoint scan {A} (f : A -> R) (l : list A) (k : nat) (best : option R * nat) : option R * nat :=
  match l with
  | [] => best
  | a :: r => scan f r (S k) (if edist_ltb (Some (f a)) (fst best) then (Some (f a), k) else best)
  end.
Definition scan_query {A} (dist : A -> A -> R) (cat : list A) (p : A) : option R * nat :=
  scan (dist p) cat 0 (None, 0%nat).
