(** C12, C13: angles. *)
From Verif.Model Require Import Trig.
From Verif.Spec Require Import Trig.
From Verif.Proofs Require Trig.
From Coq Require Import Lra.
Local Open Scope R_scope.

(** [put360] gives the only representative of the angle in [0,360). *)
Theorem C12_put360 :
  forall a, (0 <= put360 a < 360 /\ same_angle (put360 a) a) /\
            forall b, 0 <= b < 360 -> same_angle b a -> b = put360 a.
Proof.
  intros a. split; [split; [apply Trig.put360_range|apply Trig.put360_same]|].
  intros b Hb Ha. apply Trig.same_angle_eq; [|exact Hb|apply Trig.put360_range].
  eapply Trig.same_angle_trans; [exact Ha|]. apply Trig.same_angle_sym, Trig.put360_same.
Qed.
Print Assumptions C12_put360.

(** [arctan2d y x] is in [0,360) and the angle of the vector (x,y), the only one if (x,y) <> 0. *)
Theorem C12_arctan2d :
  forall x y, (0 <= arctan2d y x < 360 /\ points_to (arctan2d y x) x y) /\
              forall a, x <> 0 \/ y <> 0 -> 0 <= a < 360 -> points_to a x y -> a = arctan2d y x.
Proof.
  intros x y. split; [split; [apply Trig.arctan2d_range|apply Trig.arctan2d_points]|].
  intros a H Ha Hp. apply Trig.same_angle_eq; [|exact Ha|apply Trig.arctan2d_range].
  apply (Trig.points_to_unique a _ x y H Hp), Trig.arctan2d_points.
Qed.
Print Assumptions C12_arctan2d.

(** [mjd2lst] is in [0,360) and equal, up to whole turns, to the sidereal time polynomial at the
    Mayall longitude with the calibrated offset. *)
Theorem C12_mjd2lst :
  forall mjd, 0 <= mjd2lst mjd < 360 /\
    let d := mjd - 51544.5 in let T := d / 36525 in
    same_angle (mjd2lst mjd)
      (280.46061837 + 360.98564736629 * d + 0.000387933 * T ^ 2 - T ^ 3 / 38710000 - 111.59989 - 0.16035388).
Proof.
  intros mjd. split; [apply Trig.mjd2lst_range|]. cbv zeta. unfold mjd2lst.
  eapply Trig.same_angle_trans; [apply Trig.put360_same|]. exists 0%Z. unfold sidereal_theta.
  replace 51544.5 with (515445 / 10) by lra. replace 280.46061837 with (28046061837 / 100000000) by lra.
  replace 360.98564736629 with (36098564736629 / 100000000000) by lra. replace 0.000387933 with (387933 / 1000000000) by lra.
  replace 111.59989 with (11159989 / 100000) by lra. replace 0.16035388 with (16035388 / 100000000) by lra. field.
Qed.
Print Assumptions C12_mjd2lst.

(** The two exposures quoted in the source: 338.0197 and 199.2415 degrees. *)
Example C12_example :
  Rabs (mjd2lst 58789.135177 - 338.01969167) < 1 / 1000 /\ Rabs (mjd2lst 58865.540489 - 199.24148750) < 2 / 1000 /\
  put360 (-10) = 350 /\ put360 725 = 5.
Proof.
  unfold mjd2lst, put360, pymod, sidereal_theta.
  repeat split.
  - rewrite (Trig.Rfloor_unique _ 7264) by lra. apply Rabs_def1; lra.
  - rewrite (Trig.Rfloor_unique _ 7341) by lra. apply Rabs_def1; lra.
  - rewrite (Trig.Rfloor_unique _ (-1)) by lra. lra.
  - rewrite (Trig.Rfloor_unique _ 2) by lra. lra.
Qed.

Theorem C13_average_symmetric : forall a b, average_angles_deg a b = average_angles_deg b a.
Proof. exact Trig.average_sym. Qed.
Print Assumptions C13_average_symmetric.

Theorem C13_average_ignores_turns : forall a a' b b', same_angle a a' -> same_angle b b' ->
  average_angles_deg a b = average_angles_deg a' b'.
Proof. exact Trig.average_same. Qed.
Print Assumptions C13_average_ignores_turns.

Theorem C13_average_in_range : forall a b, 0 <= average_angles_deg a b < 360.
Proof. exact Trig.average_range. Qed.
Print Assumptions C13_average_in_range.

(** Directions less than half a turn apart, however they are written: the middle of the short
    arc. *)
Theorem C13_average_is_midpoint : forall a b m d, -90 < d < 90 -> same_angle a (m - d) -> same_angle b (m + d) ->
  same_angle (average_angles_deg a b) m.
Proof.
  intros a b m d Hd Ha Hb. rewrite (Trig.average_same _ _ _ _ Ha Hb), (Trig.average_mid m d Hd). apply Trig.put360_same.
Qed.
Print Assumptions C13_average_is_midpoint.

Example C13_example : average_angles_deg 350 20 = 5.
Proof.
  rewrite (Trig.average_same 350 (5 - 15) 20 (5 + 15)).
  - rewrite Trig.average_mid by lra. apply Trig.put360_id. lra.
  - exists 1%Z. lra.
  - exists 0%Z. lra.
Qed.
