(** C103: the Echo22 transformation between tangent plane and focal plane. *)
From Coq Require Import Lra Lia.
From Interval Require Import Tactic.
From Verif.Model Require Import Echo22.
From Verif.Spec Require Import LinAlg.
From Verif.Proofs Require Import RealNum LinAlg Trig Echo22 Echo22Bounds.
Local Open Scope R_scope.

(** Any point of the focal plane (415 mm) taken to the tangent plane and back returns to within 0.7 microns. *)
Theorem C103_round_trip x y : x ^ 2 + y ^ 2 <= 415 ^ 2 ->
  exists t q, fp2tan x y = Ok t /\ tan2fp (fst t) (snd t) = Ok q /\ (fst q - x) ^ 2 + (snd q - y) ^ 2 < 0.000683 ^ 2.
Proof.
  intros B. destruct (azimuth_of x y) as (r & a & A & N & -> & ->). pose proof (azimuth_nonneg _ _ A) as P.
  assert (R2 : r * r <= 415 ^ 2). { replace (r * r) with (r * r * (Rsqr (sin a) + Rsqr (cos a))) by (rewrite sin2_cos2; ring). unfold Rsqr. lra. }
  assert (r <= 415) by nra. assert (X : 0 <= r / 415 <= 1) by lra. destruct (theta_bounds _ X) as [T1 T2].
  rewrite fp2tan_polar by exact A. do 2 eexists. split; [reflexivity|]. cbn [fst snd]. rewrite tan2fp_polar; [|apply (azimuth_grow r a _ A), sindeg_pos; lra|lra].
  split; [reflexivity|]. cbn [fst snd]. rewrite polar_dist. apply sq_lt. pose proof (there_back _ X) as Q. replace (415 * (r / 415)) with r in Q by lra. exact Q.
Qed.
Print Assumptions C103_round_trip.

(** Any point of the tangent plane inside the field (angle of the last row used) taken to the focal plane and back returns to within
    4.32e-8, that is 0.009 arcsec. *)
Theorem C103_round_trip_sky x y : sqrt (x ^ 2 + y ^ 2) <= sindeg 1.632955347 ->
  exists t q, tan2fp x y = Ok t /\ fp2tan (fst t) (snd t) = Ok q /\ (fst q - x) ^ 2 + (snd q - y) ^ 2 < 0.0000000432 ^ 2.
Proof.
  intros B. destruct (azimuth_of x y) as (r & a & A & N & X & Y). pose proof (azimuth_nonneg _ _ A) as P.
  replace (x ^ 2 + y ^ 2) with (x * x + y * y) in B by ring. rewrite <- N in B. assert (r <= 1) by (pose proof (SIN_bound (D2R * 1.632955347)); unfold sindeg in B; lra).
  set (t := arcsind r). assert (S : sindeg t = r) by (apply sindeg_arcsind; lra).
  assert (T0 : 0 <= t) by (rewrite <- arcsind_0; apply arcsind_le; lra).
  assert (T1 : t <= 1.633).
  { apply Rle_trans with (arcsind (sindeg 1.632955347)); [|rewrite arcsind_sindeg by lra; lra]. pose proof (SIN_bound (D2R * 1.632955347)). unfold sindeg in *. apply arcsind_le; lra. }
  rewrite X, Y, <- S. rewrite <- S in A. rewrite tan2fp_polar; [|exact A|lra]. do 2 eexists. split; [reflexivity|]. cbn [fst snd]. destruct (radius_bounds t (conj T0 T1)) as [R1 R2].
  rewrite fp2tan_polar by (apply (azimuth_grow _ a _ A); lra). split; [reflexivity|]. cbn [fst snd]. rewrite polar_dist. apply sq_lt.
  eapply Rle_lt_trans; [apply sindeg_lipschitz|]. pose proof (back_there t (conj T0 T1)). apply Rle_lt_trans with (D2R * 0.00000247); [|unfold D2R; interval].
  apply Rmult_le_compat_l; [unfold D2R; pose proof PI_RGT_0; lra|lra].
Qed.
Print Assumptions C103_round_trip_sky.

(** Every row of the table with radius at most 415 mm is reproduced to 2.16e-6 degrees (0.008 arcsec) and to 0.7 microns. *)
Theorem C103_table r t : In (r, t) echo22_platescale -> (r <= 415)%Z ->
  exists theta radius, radius2theta (IZR r) = Ok theta /\ Rabs (theta - IZR t / 1000000000) < 0.00000216 /\
    theta2radius (IZR t / 1000000000) = Ok radius /\ Rabs (radius - IZR r) < 0.000682.
Proof.
  intros H L. assert (U : In (r, t) used) by (apply filter_In; split; [exact H|now apply Z.leb_le]).
  do 2 eexists. split; [apply radius2theta_value|]. split; [|split; [apply theta2radius_value|]].
  - pose proof r2t_rows as Q. rewrite forallb_forall in Q. specialize (Q _ U). eapply Rlt_le_trans; [apply (row_near r2t_num r2t_den 415 1000000000 2160 1 (r, t)); try reflexivity; try lra; exact Q|lra].
  - pose proof t2r_rows as Q. rewrite forallb_forall in Q. specialize (Q (t, r) (in_map swap _ _ U)).
    replace (IZR r) with (IZR (snd (t, r)) / 1) by (cbn; lra). eapply Rlt_le_trans; [apply (row_near t2r_num t2r_den 1000000000 1 682 1000000 (t, r)); try reflexivity; try lra; exact Q|lra].
Qed.
Print Assumptions C103_table.

(** The two polynomials of degree 5 are the unique least squares fits to the 416 rows. *)
Theorem C103_fit : exists p q,
  (forall r, radius2theta r = Ok (combination p (map (fun k => (r / 415) ^ k) [5; 4; 3; 2; 1; 0]%nat))) /\
  (forall t, theta2radius t = Ok (combination q (map (fun k => t ^ k) [5; 4; 3; 2; 1; 0]%nat))) /\
  let rows := filter (fun r => Z.leb (fst r) 415) echo22_platescale in List.length rows = 416%nat /\
  least_squares 6 (map (fun r => (map (fun k => (IZR (fst r) / 415) ^ k) [5; 4; 3; 2; 1; 0]%nat, IZR (snd r) / 1000000000)) rows) p /\
  least_squares 6 (map (fun r => (map (fun k => (IZR (snd r) / 1000000000) ^ k) [5; 4; 3; 2; 1; 0]%nat, IZR (fst r))) rows) q.
Proof.
  exists r2t, t2r. split; [intros r; rewrite radius2theta_value; f_equal; rewrite polyval_dot by reflexivity; symmetry; apply combination_dot|].
  split; [intros r; rewrite theta2radius_value; f_equal; rewrite polyval_dot by reflexivity; symmetry; apply combination_dot|]. intros rows. assert (U : rows = used) by (unfold rows, used; reflexivity). clearbody rows. subst rows. split; [vm_compute; reflexivity|].
  assert (G : forall xs ys p, length xs = length ys -> polyfit xs ys 5 = Ok p -> least_squares 6 (map (fun s => (map (fun k => fst s ^ k) (powers 5), snd s)) (combine xs ys)) p).
  { intros xs ys p L E. unfold polyfit in E. apply (normal_fit_Ok (vander 5 xs) ys p) in E as [E _]; [|unfold vander; rewrite Forall_map; apply Forall_forall; intros k _; now rewrite map_length].
    unfold vander at 2 in E. rewrite samples_powers in E by exact L. exact E. }
  split.
  - pose proof (polyfit_ints 5 used r2t_num r2t_den 415 1000000000 ltac:(lra) ltac:(lra) ltac:(discriminate) eq_refl r2t_independent r2t_normal) as E. cbv zeta in E.
    apply G in E; [|now rewrite !map_length]. rewrite combine_map, map_map, powers5 in E. exact E.
  - pose proof (polyfit_ints 5 (map swap used) t2r_num t2r_den 1000000000 1 ltac:(lra) ltac:(lra) ltac:(discriminate) eq_refl t2r_independent t2r_normal) as E. cbv zeta in E.
    apply G in E; [|now rewrite !map_length]. rewrite combine_map, !map_map, powers5 in E. cbn [fst snd swap] in E.
    erewrite map_ext; [exact E|]. intros [a b]. cbn [fst snd]. f_equal. lra.
Qed.
Print Assumptions C103_fit.

(** A larger radius is a larger angle from the axis, and conversely. *)
Theorem C103_increasing a b : 0 <= a -> a < b ->
  (b <= 415 -> exists s t, radius2theta a = Ok s /\ radius2theta b = Ok t /\ 0 < s < t /\ t < 1.633) /\
  (b <= 1.633 -> exists s t, theta2radius a = Ok s /\ theta2radius b = Ok t /\ 0 < s < t /\ t < 415.1).
Proof.
  intros A L. split; intros B.
  - do 2 eexists. split; [apply radius2theta_value|]. split; [apply radius2theta_value|]. destruct (theta_bounds (a / 415)) as [? ?]; [lra|]. destruct (theta_bounds (b / 415)) as [? ?]; [lra|].
    pose proof (r2t_increasing (a / 415) (b / 415)). lra.
  - do 2 eexists. split; [apply theta2radius_value|]. split; [apply theta2radius_value|]. destruct (radius_bounds a) as [? ?]; [lra|]. destruct (radius_bounds b) as [? ?]; [lra|].
    pose proof (t2r_increasing a b). lra.
Qed.
Print Assumptions C103_increasing.

(** Both directions commute with turning about the axis, for any point off the axis. *)
Definition turned (a : R) (p : R * R) : R * R := (cos a * fst p - sin a * snd p, sin a * fst p + cos a * snd p).
Theorem C103_turn a x y : x <> 0 \/ y <> 0 ->
  fp2tan (fst (turned a (x, y))) (snd (turned a (x, y))) = rmap (turned a) (fp2tan x y) /\
  tan2fp (fst (turned a (x, y))) (snd (turned a (x, y))) = rmap (turned a) (tan2fp x y).
Proof.
  intros N. destruct (azimuth_of x y) as (r & b & A & E & X & Y). pose proof (azimuth_nonneg _ _ A) as P.
  assert (Q : 0 < r). { destruct A as [[Q _]|[Q _]]; [exact Q|]. exfalso. rewrite Q in X, Y. rewrite Rmult_0_l in X, Y. tauto. }
  assert (TX : fst (turned a (x, y)) = r * cos (b + a)) by (unfold turned; cbn [fst snd]; rewrite cos_plus, X at 1; rewrite Y at 1; ring).
  assert (TY : snd (turned a (x, y)) = r * sin (b + a)) by (unfold turned; cbn [fst snd]; rewrite sin_plus, X at 1; rewrite Y at 1; ring).
  rewrite TX, TY. clear TX TY. rewrite X, Y. rewrite X, Y in E. clear X Y N. destruct (atan2_of_polar r (b + a) Q) as [k K].
  assert (C : cos (atan2 (r * sin (b + a)) (r * cos (b + a))) = cos (b + a)) by (rewrite K; apply cos_add_turns).
  assert (S : sin (atan2 (r * sin (b + a)) (r * cos (b + a))) = sin (b + a)) by (rewrite K; apply sin_add_turns).
  split.
  - unfold fp2tan. cbv zeta. rewrite C, S, (atan2_azimuth r b A), !polar_norm by exact P. rewrite radius2theta_value. cbn [rbind rmap]. f_equal. unfold turned. cbn [fst snd]. rewrite cos_plus, sin_plus. f_equal; ring.
  - unfold tan2fp. cbv zeta. rewrite C, S, (atan2_azimuth r b A), !polar_norm by exact P. destruct (Rltb 1 r); [reflexivity|]. rewrite theta2radius_value. cbn [rbind rmap]. f_equal. unfold turned. cbn [fst snd]. rewrite cos_plus, sin_plus. f_equal; ring.
Qed.
Print Assumptions C103_turn.

(** The axis itself is not kept: the constant terms of the fitted polynomials put it 0.1 microns along x, and the centre of the focal plane at
    1.8e-6 degrees; so the equation for turning fails there, and no rotation of the focal plane keeps the image of the axis. *)
Theorem C103_axis_refuted : ~ (tan2fp 0 0 = Ok (0, 0)) /\ ~ (forall a, tan2fp (fst (turned a (0, 0))) (snd (turned a (0, 0))) = rmap (turned a) (tan2fp 0 0)) /\
  exists r, tan2fp 0 0 = Ok (r, 0) /\ 0.0001018 < r < 0.0001019.
Proof.
  assert (E : tan2fp 0 0 = Ok (polyval t2r 0, 0)).
  { pose proof (tan2fp_polar 0 0) as T. assert (S0 : sindeg 0 = 0) by (unfold sindeg; rewrite Rmult_0_r; apply sin_0). rewrite S0 in T. rewrite cos_0, sin_0, !Rmult_0_l, !Rmult_0_r, Rmult_1_r in T. apply T; [right; auto|lra]. }
  assert (B : 0.0001018 < polyval t2r 0 < 0.0001019) by (opened; lra).
  rewrite E. split; [intros H; injection H as H; lra|]. split; [|exists (polyval t2r 0); auto].
  intros H. specialize (H PI). unfold turned in H. cbn [fst snd rmap] in H. rewrite !Rmult_0_r, Rminus_0_r, Rplus_0_r in H. rewrite E in H. cbn [fst snd rmap] in H. injection H as H _. rewrite cos_PI in H. lra.
Qed.
Print Assumptions C103_axis_refuted.

(** A point at (300, -200) mm, and one at 1 degree from the axis along y. *)
Example C103_example : 300 ^ 2 + (-200) ^ 2 <= 415 ^ 2 /\ sqrt (0 ^ 2 + sindeg 1 ^ 2) <= sindeg 1.632955347 /\ In (100, 410328527)%Z echo22_platescale.
Proof.
  split; [lra|]. split.
  - replace (0 ^ 2 + sindeg 1 ^ 2) with (Rsqr (sindeg 1)) by (unfold Rsqr; ring). rewrite sqrt_Rsqr by (apply Rlt_le, sindeg_pos; lra). unfold sindeg, D2R. pose proof PI_RGT_0. apply sin_incr_1; lra.
  - apply (nth_error_In _ 100). reflexivity.
Qed.
