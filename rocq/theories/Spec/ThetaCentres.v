(** The place a circle is to have. *)
From Verif.Model Require Import ThetaCentres.
Local Open Scope R_scope.
Local Open Scope list_scope.

(** The last row of the other metrology with the location and the pinhole of the circle, the origin if there is none *)
Definition target (other : option (list pinhole)) (r : circle) (q : R * R) : Prop :=
  match other with
  | None => q = c_metro r
  | Some o => (exists a h b, o = a ++ h :: b /\ h_loc h = c_loc r /\ h_pin h = c_pin r /\ Forall (fun g => ~ (h_loc g = c_loc r /\ h_pin g = c_pin r)) b /\ q = h_fp h) \/
              (Forall (fun g => ~ (h_loc g = c_loc r /\ h_pin g = c_pin r)) o /\ q = (0, 0))
  end.
(** The files that are there *)
Definition present (files : list (option circles)) : list circles := flat_map (fun f => match f with Some t => [t] | None => [] end) files.
(** The rows of all of them, in order *)
Definition all_circles (files : list (option circles)) : list circle := flat_map c_rows (present files).
Definition one_digit (p : Z) : Prop := (0 <= p < 10)%Z.
