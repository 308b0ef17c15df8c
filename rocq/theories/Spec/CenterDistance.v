(** The spots of a device, and counting. *)
From Verif.Model Require Import CenterDistance.
Local Open Scope list_scope.

(** [v] is the first row of the metrology at the location of the matched spot [s] *)
Definition seen_as (m : list device) (s : spot) (v : device) : Prop :=
  (0 <= s_loc s)%Z /\ exists a b, m = a ++ v :: b /\ d_loc v = s_loc s /\ Forall (fun w => d_loc w <> s_loc s) a.
Definition asked (posids : option (list string)) (p : string) : Prop := match posids with Some l => In p l | None => True end.
Inductive how_many {A} (P : A -> Prop) : list A -> Z -> Prop :=
| hm_none : how_many P [] 0
| hm_yes x l n : P x -> how_many P l n -> how_many P (x :: l) (n + 1)
| hm_no x l n : ~ P x -> how_many P l n -> how_many P (x :: l) n.
