(** The data the rotation rate is fitted to. *)
From Verif.Model Require Import RotationRate.
From Verif.Spec Require Export LinAlg.
Local Open Scope R_scope.
Local Open Scope list_scope.

(** before the rotation was turned on, with a rate, and well measured *)
Definition good (mjd_split : R) (g : guide) : Prop := g_mjd g < mjd_split /\ g_rate g <> 0 /\ g_rms g < 200 /\ (30 < g_iterations g)%Z /\ g_std g < 0.2.
(** The cubic in the sine x of the hour angle and y = (Dec-30)/30, in the order of the terms printed *)
Definition cubic (c : list R) (g : guide) : R :=
  let x := sin (PI / 180 * g_ha g) in let y := (g_dec g - 30) / 30 in
  nth 0 c 0 + nth 1 c 0 * x + nth 2 c 0 * y + nth 3 c 0 * (x * y) + nth 4 c 0 * x ^ 2 + nth 5 c 0 * y ^ 2 +
  nth 6 c 0 * x ^ 3 + nth 7 c 0 * (x ^ 2 * y) + nth 8 c 0 * (x * y ^ 2) + nth 9 c 0 * y ^ 3.
Definition squares (l : list guide) (c : list R) : R := fold_right Rplus 0 (map (fun g => (g_rate g - cubic c g) ^ 2) l).
(** The one cubic with the smallest sum of squares *)
Definition best_cubic (l : list guide) (c : list R) : Prop := length c = 10%nat /\ forall q, length q = 10%nat -> q <> c -> squares l c < squares l q.
(** No cubic but 0 is 0 at all of them *)
Definition spread (l : list guide) : Prop := forall c, length c = 10%nat -> (forall g, In g l -> cubic c g = 0) -> c = repeat 0 10.
(** [c] is [p] cut to three decimals, towards 0 *)
Definition cut3 (p c : R) : Prop := (exists k, c = IZR k / 1000) /\ Rabs c <= Rabs p < Rabs c + 0.001 /\ 0 <= c * p.
(** [m] is the entries of [l] with [P], in order *)
Inductive kept {A} (P : A -> Prop) : list A -> list A -> Prop :=
| kept_nil : kept P [] []
| kept_yes x l m : P x -> kept P l m -> kept P (x :: l) (x :: m)
| kept_no x l m : ~ P x -> kept P l m -> kept P (x :: l) m.
