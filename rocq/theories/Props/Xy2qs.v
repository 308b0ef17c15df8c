(** C21: radius along the tangent plane and along the focal surface. *)
From Verif.Model Require Import Xy2qs.
From Verif.Spec Require Import Trig Match.
From Verif.Proofs Require Trig Xy2qs.
From Coq Require Import Lra.
Local Open Scope R_scope.

(** Within 4.05 micrometres on the whole focal plane, 0.76 micrometres from 25 mm outwards. *)
Theorem C21_radii_invert :
  forall r, 0 <= r <= 420 ->
  Rabs (s2r (r2s r) - r) < 0.00405 /\ Rabs (r2s (s2r r) - r) < 0.00405 /\
  (25 <= r -> Rabs (s2r (r2s r) - r) < 0.00076 /\ Rabs (r2s (s2r r) - r) < 0.00076).
Proof.
  intros r H. split; [now apply Xy2qs.s2r_r2s|]. split; [now apply Xy2qs.r2s_s2r|]. intros H'.
  split; [apply Xy2qs.s2r_r2s_outer|apply Xy2qs.r2s_s2r_outer]; lra.
Qed.
Print Assumptions C21_radii_invert.
Theorem C21_strictly_increasing :
  forall a b, 0 <= a -> a < b -> b <= 421 -> 0 < r2s a /\ r2s a < r2s b /\ 0 < s2r a /\ s2r a < s2r b.
Proof.
  intros a b Ha Hab Hb. pose proof (Xy2qs.r2s_increasing a b Ha Hab Hb). pose proof (Xy2qs.s2r_increasing a b Ha Hab Hb).
  split; [apply Xy2qs.r2s_pos; lra|]. split; [lra|]. split; [apply Xy2qs.s2r_pos; lra|lra].
Qed.
Print Assumptions C21_strictly_increasing.
(** The two dimensional conversions, there and back, in both orders. *)
Theorem C21_positions_round_trip :
  forall x y, sqrt (x ^ 2 + y ^ 2) <= 420 ->
  distance (let '(a, b) := ptl2flat x y in flat2ptl a b) (x, y) < 0.00405 /\
  distance (let '(a, b) := flat2ptl x y in ptl2flat a b) (x, y) < 0.00405 /\
  distance (let '(q, s) := xy2qs x y in qs2xy q s) (x, y) < 0.00405 /\
  distance (let '(u, v) := xy2uv x y in uv2xy u v) (x, y) < 0.00405.
Proof.
  intros x y H. change (sqrt (x ^ 2 + y ^ 2)) with (hypot x y) in H. pose proof (Trig.hyp_nonneg x y) as P. change (Trig.hyp x y) with (hypot x y) in P.
  rewrite Xy2qs.flat2ptl_ptl2flat, Xy2qs.ptl2flat_flat2ptl, Xy2qs.qs2xy_xy2qs, Xy2qs.uv2xy_xy2uv by exact H.
  pose proof (Xy2qs.s2r_r2s _ (conj P H)). pose proof (Xy2qs.r2s_s2r _ (conj P H)). auto.
Qed.
Print Assumptions C21_positions_round_trip.
Theorem C21_qs_round_trip :
  forall q s q' s', 0 <= s <= 420 -> (let '(x, y) := qs2xy q s in xy2qs x y) = (q', s') ->
  same_angle q' q /\ 0 <= q' < 360 /\ Rabs (s' - s) < 0.00405.
Proof.
  intros q s q' s' H E. pose proof (Xy2qs.xy2qs_qs2xy q s H) as F. destruct (qs2xy q s) as [x y]. rewrite F in E. injection E as <- <-.
  split; [apply Trig.put360_same|]. split; [apply Trig.put360_range|now apply Xy2qs.r2s_s2r].
Qed.
Print Assumptions C21_qs_round_trip.
(** q is the direction of the point and s the arc length of its radius; the conversions of positions keep the direction. *)
Theorem C21_polar :
  forall x y, let r := sqrt (x ^ 2 + y ^ 2) in
  (exists q, xy2qs x y = (q, r2s r) /\ 0 <= q < 360 /\ points_to q x y) /\
  (forall q s, qs2xy q s = (s2r s * cos (PI * q / 180), s2r s * sin (PI * q / 180))) /\
  (0 < r -> ptl2flat x y = (r2s r * (x / r), r2s r * (y / r)) /\ xy2uv x y = (r2s r * (x / r), r2s r * (y / r)) /\
            flat2ptl x y = (s2r r * (x / r), s2r r * (y / r)) /\ uv2xy x y = (s2r r * (x / r), s2r r * (y / r))).
Proof.
  intros x y r. split; [|split].
  - exists (arctan2d y x). split; [reflexivity|]. split; [apply Trig.arctan2d_range|apply Trig.arctan2d_points].
  - intros q s. unfold qs2xy, cosdeg, sindeg. now rewrite Trig.deg_rad.
  - intros Hr. assert (NZ : x <> 0 \/ y <> 0).
    { destruct (Req_dec x 0) as [->|]; [|now left]. destruct (Req_dec y 0) as [->|]; [|now right]. exfalso. revert Hr. unfold r. replace (0 ^ 2 + 0 ^ 2) with 0 by ring. rewrite sqrt_0. lra. }
    destruct (Trig.atan2_spec y x NZ) as [Ec Es]. destruct (Xy2qs.arctan2d_polar_xy y x) as [Dc Ds]. change (Trig.hyp x y) with r in *.
    assert (Qc : cosdeg (arctan2d y x) = x / r) by (rewrite Dc at 2; field; lra).
    assert (Qs : sindeg (arctan2d y x) = y / r) by (rewrite Ds at 2; field; lra).
    unfold ptl2flat, flat2ptl, xy2uv, uv2xy, xy2qs, qs2xy. change (hypot x y) with r. rewrite Ec, Es, Qc, Qs.
    assert (Rc : forall a, cos (radians a) = cosdeg a) by (intros a; unfold radians, cosdeg; rewrite Trig.deg_rad; f_equal; unfold D2R; field).
    assert (Rs : forall a, sin (radians a) = sindeg a) by (intros a; unfold radians, sindeg; rewrite Trig.deg_rad; f_equal; unfold D2R; field).
    rewrite Rc, Rs, Qc, Qs. auto.
Qed.
Print Assumptions C21_polar.
(** The comment "residuals are < 0.4 microns" does not extend to the centre. *)
Theorem C21_submicron_refuted : 0.0036 < r2s 0 /\ 0.0003 < s2r 0.
Proof. split; [apply Xy2qs.r2s_zero|apply Xy2qs.s2r_zero]. Qed.
Print Assumptions C21_submicron_refuted.
Example C21_example : sqrt (300 ^ 2 + (-200) ^ 2) <= 420.
Proof. replace 420 with (sqrt (420 * 420)) by (apply sqrt_square; lra). apply sqrt_le_1; lra. Qed.
