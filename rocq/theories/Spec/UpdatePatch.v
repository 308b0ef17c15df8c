(** Sightings of a device of the focal plane in tables of spots. *)
From Coq Require Import ZArith Reals List.
From Verif.Model Require Import UpdatePatch.
Import ListNotations.
Local Open Scope list_scope.

(** A spot of a device: petal, device on the petal, pinhole; LOCATION is 1000 times the petal plus the device. *)
Definition spots_of (t : spot_table) (petal device pinhole : Z) : list (R * R) :=
  match t with
  | WithLocation rows => map snd (filter (fun '(l, p, _) => (l =? 1000 * petal + device)%Z && (p =? pinhole)%Z)%bool rows)
  | WithPetal rows => map snd (filter (fun '(c, d, p, _) => (c =? petal)%Z && (d =? device)%Z && (p =? pinhole)%Z)%bool rows)
  end.
(** One position for each table with exactly one spot of the device. *)
Definition sightings (files : list spot_table) (petal device pinhole : Z) : list (R * R) :=
  flat_map (fun t => match spots_of t petal device pinhole with [xy] => [xy] | _ => [] end) files.
(** Pinholes have one digit, devices three. *)
Definition three_one (device pinhole : Z) : Prop := (0 <= device < 1000 /\ 0 <= pinhole < 10)%Z.
Definition digits (t : spot_table) : Prop :=
  match t with WithLocation rows => Forall (fun '(_, p, _) => (0 <= p < 10)%Z) rows | WithPetal rows => Forall (fun '(_, d, p, _) => three_one d p) rows end.
