(** Ascending tables and the row meant by a time. *)
From Coq Require Import List Reals Sorted.
Import ListNotations.
Local Open Scope R_scope.
Definition ascending (l : list R) : Prop := StronglySorted Rle l.
(** The first row at or after t, or the last row when there is none. *)
Definition row_of (times : list R) (t : R) (k : nat) : Prop :=
  (k < length times)%nat /\ (forall i, (i < k)%nat -> nth i times 0 < t) /\ (t <= nth k times 0 \/ k = (length times - 1)%nat).
