(** Groups of positioners whose members are far from each other. *)
From Coq Require Import Reals Sorted Ascii String List.
From Verif.Spec Require Import Match FindFiducials.
Import ListNotations.
Local Open Scope R_scope.
Local Open Scope list_scope.

(** What scipy's KD-tree promises for query(p, k=7): seven entries; those with a finite distance are different points, none farther than a
    point left out; the others only when there are no more points. *)
Definition seven_nearest (query : list (R * R) -> R * R -> list (option R * nat)) : Prop :=
  forall cat p, let r := query cat p in
    length r = 7%nat /\ NoDup (found r) /\
    (forall d j, In (Some d, j) r -> exists q, nth_error cat j = Some q /\ d = distance p q) /\
    (forall j q, nth_error cat j = Some q -> ~ In j (found r) -> length (found r) = 7%nat /\ forall d i, In (Some d, i) r -> d <= distance p q).

(** [j] is nearer than 12 mm to [i], but not at the same place. *)
Definition beside (xy : list (R * R)) (i j : nat) : Prop :=
  exists p q, nth_error xy i = Some p /\ nth_error xy j = Some q /\ 0 < distance p q < 12.
(** At most six others are nearer than 12 mm to [i]. *)
Definition uncrowded (xy : list (R * R)) (i : nat) : Prop :=
  forall p ks, nth_error xy i = Some p -> NoDup ks -> (forall k, In k ks -> k <> i /\ exists q, nth_error xy k = Some q /\ distance p q < 12) -> (length ks <= 6)%nat.
(** Members of a group: those not in an earlier group and not next to an earlier member of the same group. *)
Definition greedy (linked : nat -> nat -> Prop) (n : nat) (earlier group : list nat) : Prop :=
  StronglySorted lt group /\
  forall i, In i group <-> (i < n)%nat /\ ~ In i earlier /\ forall j, (j < i)%nat -> In j group -> ~ linked j i.
(** Python's notation of a list of strings, one line. *)
Definition list_line (ids : list string) : string := ("[" ++ String.concat "," (map (fun s => "'" ++ s ++ "'") ids) ++ "]" ++ String "010"%char EmptyString)%string.
