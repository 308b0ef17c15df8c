From Verif.Model Require Import Radec2tan.
From Verif.Spec Require Import Trig Sphere.
From Verif.Proofs Require Import RealNum Trig Sphere Radec2tan.
From Coq Require Import Lra.
From Interval Require Import Tactic.
Local Open Scope R_scope.

Definition rc : R := REFRACTION_AT_30DEG_ELEVATION / 3600 * (sindeg 30 / cosdeg 30).
Definition cotd (a : R) : R := cosdeg a / sindeg a.
Lemma D2R_eq a : D2R * a = a * PI / 180.
Proof. unfold D2R. lra. Qed.
Lemma rc_bounds : 0 < rc < 0.0127.
Proof. unfold rc, REFRACTION_AT_30DEG_ELEVATION, sindeg, cosdeg, D2R. split; interval. Qed.
Lemma K_bound : rc * D2R < 0.000222.
Proof. unfold rc, REFRACTION_AT_30DEG_ELEVATION, sindeg, cosdeg, D2R. interval. Qed.
Lemma sind_pos a : 0 < a < 180 -> 0 < sindeg a.
Proof. intros H. unfold sindeg. pose proof PI_RGT_0. apply sin_gt_0; unfold D2R; nra. Qed.
Lemma sind_ge a x : 0 < a <= 90 -> a <= x <= 180 - a -> sindeg a <= sindeg x.
Proof.
  intros Ha Hx. unfold sindeg. pose proof PI_RGT_0. destruct (Rle_dec x 90).
  - apply sin_incr_1; unfold D2R; nra.
  - replace (sin (D2R * x)) with (sin (D2R * (180 - x))). { apply sin_incr_1; unfold D2R; nra. }
    rewrite <- (sin_PI_x (D2R * x)). f_equal. unfold D2R. lra.
Qed.
Lemma sin_le_self x : 0 <= x -> sin x <= x.
Proof. intros [H|<-]; [left; now apply sin_lt_x|rewrite sin_0; lra]. Qed.
Lemma cotd_diff x y : sindeg x <> 0 -> sindeg y <> 0 -> cotd x - cotd y = sindeg (y - x) / (sindeg x * sindeg y).
Proof. intros. unfold cotd, Rminus. rewrite sind_plus, cosd_neg, sind_neg. field. auto. Qed.
(** cot decreases, with slope at most D2R/sin^2 a between a and 180-a. *)
Lemma cotd_slope a x y : 0 < a <= 90 -> a <= x -> x <= y -> y <= 180 - a ->
  0 <= cotd x - cotd y <= D2R / (sindeg a) ^ 2 * (y - x) /\ (x < y -> 0 < cotd x - cotd y).
Proof.
  intros Ha Hx Hxy Hy. pose proof (sind_ge a x Ha ltac:(lra)) as Sx. pose proof (sind_ge a y Ha ltac:(lra)) as Sy. pose proof (sind_pos a ltac:(lra)) as Sa. pose proof PI_RGT_0.
  rewrite cotd_diff by lra. assert (P : 0 < sindeg x * sindeg y) by nra. pose proof D2R_pos.
  assert (S1 : 0 <= sindeg (y - x)) by (unfold sindeg; apply sin_ge_0; unfold D2R; nra).
  assert (S2 : sindeg (y - x) <= D2R * (y - x)) by (unfold sindeg; apply sin_le_self; nra).
  split; [split|].
  - apply Rmult_le_pos; [exact S1|left; now apply Rinv_0_lt_compat].
  - assert (Q : 0 < sindeg a ^ 2) by nra. apply Rle_trans with (D2R * (y - x) / (sindeg x * sindeg y)).
    + unfold Rdiv. apply Rmult_le_compat_r; [left; now apply Rinv_0_lt_compat|exact S2].
    + unfold Rdiv. replace (D2R * / sindeg a ^ 2 * (y - x)) with (D2R * (y - x) * / sindeg a ^ 2) by ring. apply Rmult_le_compat_l; [nra|]. apply Rinv_le_contravar; [exact Q|]. nra.
  - intros L. apply Rdiv_lt_0_compat; [|exact P]. apply sind_pos. lra.
Qed.

Section Undo.
Variable a : R.
Hypothesis Ha : 1 <= a <= 90.
Let A := a + rc * cotd a.
Lemma apply_refraction_Ok x : 0 < x < 180 -> apply_refraction x = Ok (x + rc * cotd x).
Proof.
  intros H. unfold apply_refraction. pose proof (sind_pos x H) as S. destruct (Reqb _ 0) eqn:E; [apply Reqb_true in E; lra|]. reflexivity.
Qed.
Lemma sin1 : 0.017 < sindeg 1.
Proof. unfold sindeg, D2R. interval. Qed.
Lemma sina : 0.017 < sindeg a.
Proof. pose proof (sind_ge 1 a ltac:(lra) ltac:(lra)). pose proof sin1. lra. Qed.
Lemma refracted_range : a <= A <= 90 /\ (a < 90 -> a < A < 90) /\ A - a <= 90 - a.
Proof.
  unfold A. pose proof sina as S. pose proof rc_bounds as C. pose proof K_bound as K. pose proof D2R_pos as D.
  assert (E : rc * cotd a = rc * sindeg (90 - a) / sindeg a). { unfold cotd, Rminus. rewrite sind_plus, cosd_neg, sind_neg, cosd90, sind90. field. lra. }
  assert (S1 : 0 <= sindeg (90 - a) <= D2R * (90 - a)). { pose proof PI_RGT_0. unfold sindeg. split; [apply sin_ge_0; unfold D2R; nra|apply sin_le_self; nra]. }
  assert (B : 0 <= rc * sindeg (90 - a) <= 0.000222 * (90 - a)) by (split; nra).
  assert (B2 : 0 <= rc * sindeg (90 - a) / sindeg a <= 0.5 * (90 - a)).
  { split; [apply Rmult_le_pos; [lra|left; apply Rinv_0_lt_compat; lra]|]. apply (Rmult_le_reg_r (sindeg a)); [lra|]. unfold Rdiv. rewrite Rmult_assoc, Rinv_l by lra. nra. }
  rewrite E. split; [lra|]. split; [|lra]. intros L. split; [|lra]. assert (0 < rc * sindeg (90 - a) / sindeg a); [|lra]. apply Rdiv_lt_0_compat; [|lra]. apply Rmult_lt_0_compat; [lra|]. apply sind_pos. lra.
Qed.
Lemma undo_refraction_bound : exists b, undo_refraction A = Ok b /\
  0 <= b - a <= (rc * D2R / sindeg a ^ 2) ^ 2 * (rc * cotd a) /\ (a < 90 -> a < b) /\ b <= 90.
Proof.
  destruct refracted_range as (RA & RS & _). pose proof rc_bounds as C. pose proof sina as S.
  set (q := rc * D2R / sindeg a ^ 2).
  assert (Step : forall x, a <= x <= A -> let y := A - rc * cotd x in a <= y <= A /\ y - a <= q * (x - a) /\ (a < x -> a < y)).
  { intros x Hx. cbv zeta. destruct (cotd_slope a a x ltac:(lra) ltac:(lra) ltac:(lra) ltac:(lra)) as [[L1 L2] L3].
    assert (0 <= cotd x). { unfold cotd. apply Rmult_le_pos; [|left; apply Rinv_0_lt_compat; apply sind_pos; lra]. unfold cosdeg. pose proof PI_RGT_0. apply cos_ge_0; unfold D2R; nra. }
    assert (E : A - rc * cotd x - a = rc * (cotd a - cotd x)) by (unfold A; ring).
    split; [split; [nra|nra]|]. split; [|intros L; specialize (L3 L); nra].
    rewrite E. unfold q. replace (rc * D2R / sindeg a ^ 2 * (x - a)) with (rc * (D2R / sindeg a ^ 2 * (x - a))) by (unfold Rdiv; ring). apply Rmult_le_compat_l; lra. }
  unfold undo_refraction. rewrite apply_refraction_Ok by lra. cbn [rbind].
  replace (A - (A + rc * cotd A - A - 0)) with (A - rc * cotd A) by ring. set (a1 := A - rc * cotd A) in *.
  destruct (Step A ltac:(lra)) as (R1 & Q1 & S1). fold a1 in R1, Q1, S1. rewrite apply_refraction_Ok by lra. cbn [rbind].
  destruct (Step a1 R1) as (R2 & Q2 & S2). exists (A - rc * cotd a1). split; [f_equal; unfold a1; ring|].
  assert (Q : 0 <= q) by (unfold q; pose proof D2R_pos; apply Rmult_le_pos; [nra|left; apply Rinv_0_lt_compat; nra]).
  split; [split; [lra|]|split; [intros L; destruct (RS L); auto|lra]].
  eapply Rle_trans; [exact Q2|]. replace (q ^ 2 * (rc * cotd a)) with (q * (q * (A - a))) by (unfold A; ring). apply Rmult_le_compat_l; lra.
Qed.
(** Above 30 degrees the error is below 2e-8 degrees. *)
Lemma undo_refraction_small : 30 <= a -> (rc * D2R / sindeg a ^ 2) ^ 2 * (rc * cotd a) <= 2e-8.
Proof.
  intros H. pose proof (sind_ge 30 a ltac:(lra) ltac:(lra)) as Sg. assert (S30 : 0.49999 < sindeg 30) by (unfold sindeg, D2R; interval).
  destruct (cotd_slope 30 30 a ltac:(lra) ltac:(lra) ltac:(lra) ltac:(lra)) as [[L _] _].
  assert (C30 : rc * cotd 30 < 0.02195) by (unfold rc, cotd, REFRACTION_AT_30DEG_ELEVATION, sindeg, cosdeg, D2R; interval).
  pose proof rc_bounds. pose proof K_bound. pose proof D2R_pos.
  assert (0 <= cotd a). { unfold cotd. apply Rmult_le_pos; [|left; apply Rinv_0_lt_compat; apply sind_pos; lra]. unfold cosdeg. pose proof PI_RGT_0. apply cos_ge_0; unfold D2R; nra. }
  assert (Q : 0 <= rc * D2R / sindeg a ^ 2 <= 0.00089).
  { assert (0.24999 < sindeg a ^ 2) by nra. split; [apply Rmult_le_pos; [nra|left; apply Rinv_0_lt_compat; lra]|]. apply (Rmult_le_reg_r (sindeg a ^ 2)); [lra|]. unfold Rdiv. rewrite Rmult_assoc, Rinv_l by lra. nra. }
  set (q := rc * D2R / sindeg a ^ 2) in *. assert (rc * cotd a <= 0.02195) by nra. assert (0 <= rc * cotd a) by nra. assert (q ^ 2 <= 0.00089 ^ 2) by (apply pow_incr; lra).
  apply Rle_trans with (0.00089 ^ 2 * 0.02195); [apply Rmult_le_compat; try lra; apply pow2_ge_0|lra].
Qed.
End Undo.
