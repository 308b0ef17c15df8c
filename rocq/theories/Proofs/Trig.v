From Verif.Model Require Import Trig.
From Verif.Spec Require Import Trig.
From Verif.Proofs Require Import RealNum.
From Coq Require Import Lra.
Local Open Scope R_scope.

(** *** Floor and modulo *)
Lemma Rfloor_spec x : IZR (Rfloor x) <= x < IZR (Rfloor x) + 1.
Proof. unfold Rfloor. destruct (base_Int_part x). lra. Qed.
Lemma Rfloor_unique x k : IZR k <= x < IZR k + 1 -> Rfloor x = k.
Proof.
  intros H. pose proof (Rfloor_spec x) as F.
  assert (IZR k < IZR (Rfloor x) + 1) by lra. assert (IZR (Rfloor x) < IZR k + 1) by lra.
  rewrite <- plus_IZR in *. apply lt_IZR in H0, H1. lia.
Qed.
Lemma pymod_range x m : 0 < m -> 0 <= pymod x m < m.
Proof.
  intros Hm. unfold pymod. pose proof (Rfloor_spec (x / m)) as [F1 F2].
  assert (E : x = m * (x / m)) by (field; lra). split.
  - apply Rmult_le_compat_l with (r := m) in F1; lra.
  - apply Rmult_lt_compat_l with (r := m) in F2; lra.
Qed.
Lemma pymod_id x m : 0 <= x < m -> pymod x m = x.
Proof.
  intros [H1 H2]. unfold pymod. rewrite (Rfloor_unique (x / m) 0); [lra|]. split.
  - apply Rmult_le_pos; [exact H1|]. left. apply Rinv_0_lt_compat. lra.
  - rewrite Rplus_0_l. apply Rmult_lt_reg_r with m; [lra|]. unfold Rdiv. rewrite Rmult_assoc, Rinv_l; lra.
Qed.
Lemma pymod_add x m k : 0 < m -> pymod (x + m * IZR k) m = pymod x m.
Proof.
  intros Hm. unfold pymod. rewrite (Rfloor_unique ((x + m * IZR k) / m) (Rfloor (x / m) + k)).
  - rewrite plus_IZR. lra.
  - replace ((x + m * IZR k) / m) with (x / m + IZR k) by (field; lra). rewrite plus_IZR. pose proof (Rfloor_spec (x / m)). lra.
Qed.

(** *** Same angle *)
Lemma same_angle_refl a : same_angle a a.
Proof. exists 0%Z. lra. Qed.
Lemma same_angle_sym a b : same_angle a b -> same_angle b a.
Proof. intros [k ->]. exists (- k)%Z. rewrite opp_IZR. lra. Qed.
Lemma same_angle_trans a b c : same_angle a b -> same_angle b c -> same_angle a c.
Proof. intros [k ->] [l ->]. exists (l + k)%Z. rewrite plus_IZR. lra. Qed.
Lemma same_angle_plus a b c d : same_angle a b -> same_angle c d -> same_angle (a + c) (b + d).
Proof. intros [k ->] [l ->]. exists (l + k)%Z. rewrite plus_IZR. lra. Qed.
Lemma same_angle_opp a b : same_angle a b -> same_angle (- a) (- b).
Proof. intros [k ->]. exists (- k)%Z. rewrite opp_IZR. lra. Qed.
Lemma same_angle_eq a b : same_angle a b -> 0 <= a < 360 -> 0 <= b < 360 -> a = b.
Proof.
  intros [k ->] H1 H2. assert (IZR k < 1) by lra. assert (-1 < IZR k) by lra.
  apply lt_IZR in H, H0. replace k with 0%Z by lia. lra.
Qed.
Lemma put360_same d : same_angle (put360 d) d.
Proof. exists (- Rfloor (d / 360))%Z. unfold put360, pymod. rewrite opp_IZR. lra. Qed.
Lemma put360_range d : 0 <= put360 d < 360.
Proof. apply pymod_range. lra. Qed.
Lemma put360_congr a b : same_angle a b -> put360 a = put360 b.
Proof. intros [k ->]. apply pymod_add. lra. Qed.
Lemma put360_id a : 0 <= a < 360 -> put360 a = a.
Proof. apply pymod_id. Qed.
Lemma put360_eq_iff a b : put360 a = put360 b <-> same_angle a b.
Proof.
  split; [|apply put360_congr]. intros H. eapply same_angle_trans; [apply same_angle_sym, put360_same|]. rewrite H. apply put360_same.
Qed.

(** *** Trigonometry in degrees *)
Lemma deg_rad d : D2R * d = PI * d / 180.
Proof. unfold D2R. lra. Qed.
Lemma D2R_pos : 0 < D2R.
Proof. unfold D2R. pose proof PI_RGT_0. lra. Qed.
Lemma R2D_pos : 0 < R2D.
Proof. unfold R2D. apply Rdiv_lt_0_compat; [lra|apply D2R_pos]. Qed.
Lemma D2R_R2D : D2R * R2D = 1.
Proof. unfold R2D. pose proof D2R_pos. field. lra. Qed.
Lemma rad_of_deg r : D2R * (r * R2D) = r.
Proof. rewrite (Rmult_comm r), <- Rmult_assoc, D2R_R2D. lra. Qed.
Lemma cosdeg_deg r : cosdeg (r * R2D) = cos r.
Proof. unfold cosdeg. now rewrite rad_of_deg. Qed.
Lemma sindeg_deg r : sindeg (r * R2D) = sin r.
Proof. unfold sindeg. now rewrite rad_of_deg. Qed.

Lemma cos_add_turns x k : cos (x + 2 * IZR k * PI) = cos x.
Proof.
  destruct (Z_le_dec 0 k) as [H|H].
  - rewrite <- (Z2Nat.id k) by exact H. rewrite <- INR_IZR_INZ. apply cos_period.
  - rewrite <- (cos_period (x + 2 * IZR k * PI) (Z.to_nat (- k))). rewrite INR_IZR_INZ, Z2Nat.id by lia.
    rewrite opp_IZR. f_equal. lra.
Qed.
Lemma sin_add_turns x k : sin (x + 2 * IZR k * PI) = sin x.
Proof.
  destruct (Z_le_dec 0 k) as [H|H].
  - rewrite <- (Z2Nat.id k) by exact H. rewrite <- INR_IZR_INZ. apply sin_period.
  - rewrite <- (sin_period (x + 2 * IZR k * PI) (Z.to_nat (- k))). rewrite INR_IZR_INZ, Z2Nat.id by lia.
    rewrite opp_IZR. f_equal. lra.
Qed.
Lemma cosd_same a b : same_angle a b -> cosdeg a = cosdeg b.
Proof. intros [k ->]. unfold cosdeg. rewrite <- (cos_add_turns (D2R * b) k). f_equal. unfold D2R. lra. Qed.
Lemma sind_same a b : same_angle a b -> sindeg a = sindeg b.
Proof. intros [k ->]. unfold sindeg. rewrite <- (sin_add_turns (D2R * b) k). f_equal. unfold D2R. lra. Qed.
Lemma sincosd_one a : sindeg a * sindeg a + cosdeg a * cosdeg a = 1.
Proof. unfold sindeg, cosdeg. pose proof (sin2_cos2 (D2R * a)) as H. unfold Rsqr in H. exact H. Qed.

(** Equal sine and cosine: same angle. *)
Lemma sincos_inj x y : cos x = cos y -> sin x = sin y -> exists k : Z, x = y + 2 * IZR k * PI.
Proof.
  intros Hc Hs.
  assert (C : cos (x - y) = 1). { rewrite cos_minus, Hc, Hs. pose proof (sin2_cos2 y) as H. unfold Rsqr in H. lra. }
  assert (S : sin ((x - y) / 2) = 0).
  { replace (x - y) with (2 * ((x - y) / 2)) in C by lra. rewrite cos_2a_sin in C.
    assert (sin ((x - y) / 2) * sin ((x - y) / 2) = 0) as Z0 by lra. apply Rmult_integral in Z0. tauto. }
  apply sin_eq_0_0 in S as [k Hk]. exists k. lra.
Qed.
Lemma sincosd_inj a b : cosdeg a = cosdeg b -> sindeg a = sindeg b -> same_angle a b.
Proof.
  unfold cosdeg, sindeg. intros Hc Hs. destruct (sincos_inj _ _ Hc Hs) as [k Hk]. exists k.
  pose proof D2R_pos. apply Rmult_eq_reg_l with D2R; [|lra]. rewrite Hk. unfold D2R. lra.
Qed.

(** *** atan2 *)
Definition hyp (x y : R) : R := sqrt (x ^ 2 + y ^ 2).
Lemma hyp_nonneg x y : 0 <= hyp x y.
Proof. apply sqrt_pos. Qed.
Lemma hyp_sq x y : hyp x y * hyp x y = x ^ 2 + y ^ 2.
Proof. unfold hyp. apply sqrt_sqrt. nra. Qed.
Lemma hyp_pos x y : x <> 0 \/ y <> 0 -> 0 < hyp x y.
Proof. intros H. apply sqrt_lt_R0. destruct H as [H|H]; [assert (0 < x * x) by nra|assert (0 < y * y) by nra]; nra. Qed.
Lemma sqrt_atan x y : x <> 0 -> sqrt (1 + (y / x) ^ 2) = hyp x y / Rabs x.
Proof.
  intros Hx. assert (0 < Rabs x) by (apply Rabs_pos_lt; exact Hx).
  assert (A : Rabs x * Rabs x = x ^ 2) by (rewrite <- Rabs_mult, Rabs_right; nra).
  apply sqrt_lem_1.
  - assert (0 <= (y / x) ^ 2) by nra. lra.
  - apply Rmult_le_pos; [apply hyp_nonneg|]. left. now apply Rinv_0_lt_compat.
  - unfold Rdiv. replace (hyp x y * / Rabs x * (hyp x y * / Rabs x)) with (hyp x y * hyp x y * / (Rabs x * Rabs x)) by (rewrite Rinv_mult; ring).
    rewrite hyp_sq, A. field. exact Hx.
Qed.
Lemma cos_sin_atan x y : x <> 0 -> cos (atan (y / x)) = Rabs x / hyp x y /\ sin (atan (y / x)) = y / x * (Rabs x / hyp x y).
Proof.
  intros Hx. assert (0 < hyp x y) by (apply hyp_pos; now left). assert (0 < Rabs x) by (apply Rabs_pos_lt; exact Hx).
  assert (S : sqrt (1 + (y / x) ^ 2) = hyp x y / Rabs x) by (now apply sqrt_atan).
  rewrite cos_atan, sin_atan. unfold Rsqr. replace (y / x * (y / x)) with ((y / x) ^ 2) by ring. rewrite S.
  split; field; repeat split; lra.
Qed.
Lemma atan2_spec y x : x <> 0 \/ y <> 0 -> cos (atan2 y x) = x / hyp x y /\ sin (atan2 y x) = y / hyp x y.
Proof.
  intros H. pose proof (hyp_pos _ _ H) as Hp. unfold atan2.
  destruct (Rltb 0 x) eqn:E1.
  - apply Rltb_true in E1. destruct (cos_sin_atan x y) as [-> ->]; [lra|]. rewrite Rabs_right by lra. split; field; lra.
  - apply Rltb_false in E1. destruct (Rltb x 0) eqn:E2.
    + apply Rltb_true in E2. destruct (cos_sin_atan x y) as [C S]; [lra|]. rewrite Rabs_left in C, S by lra.
      destruct (Rltb y 0).
      * replace (atan (y / x) - PI) with (- (PI - atan (y / x))) by lra. rewrite cos_neg, sin_neg, sin_PI_x, cos_minus, cos_PI, sin_PI, C, S.
        split; field; lra.
      * rewrite neg_cos, neg_sin, C, S. split; field; lra.
    + apply Rltb_false in E2. assert (x = 0) by lra. subst x. destruct H as [H|H]; [lra|].
      assert (HA : hyp 0 y = Rabs y). { unfold hyp. replace (0 ^ 2 + y ^ 2) with (Rsqr y) by (unfold Rsqr; ring). apply sqrt_Rsqr_abs. }
      rewrite HA. destruct (Rltb 0 y) eqn:E3.
      * apply Rltb_true in E3. rewrite cos_PI2, sin_PI2, Rabs_right by lra. split; field; lra.
      * apply Rltb_false in E3. destruct (Rltb y 0) eqn:E4; [|apply Rltb_false in E4; lra]. apply Rltb_true in E4.
        rewrite cos_neg, sin_neg, cos_PI2, sin_PI2, Rabs_left by lra. split; field; lra.
Qed.
Lemma atan2_00 : atan2 0 0 = 0.
Proof. unfold atan2. destruct (Rltb 0 0) eqn:E; [apply Rltb_true in E; lra|reflexivity]. Qed.
Lemma atan2_polar y x : x = hyp x y * cos (atan2 y x) /\ y = hyp x y * sin (atan2 y x).
Proof.
  destruct (Req_dec x 0) as [Hx|Hx].
  - destruct (Req_dec y 0) as [Hy|Hy].
    + subst. unfold hyp. replace (0 ^ 2 + 0 ^ 2) with 0 by ring. rewrite sqrt_0. split; ring.
    + destruct (atan2_spec y x) as [C S]; [auto|]. pose proof (hyp_pos x y (or_intror Hy)). rewrite C, S. split; field; lra.
  - destruct (atan2_spec y x) as [C S]; [auto|]. pose proof (hyp_pos x y (or_introl Hx)). rewrite C, S. split; field; lra.
Qed.
Lemma atan2_range y x : - PI < atan2 y x <= PI.
Proof.
  pose proof PI_RGT_0. unfold atan2. pose proof (atan_bound (y / x)) as [B1 B2].
  destruct (Rltb 0 x) eqn:E1; [lra|]. apply Rltb_false in E1. destruct (Rltb x 0) eqn:E2.
  - apply Rltb_true in E2. destruct (Rltb y 0) eqn:E3.
    + apply Rltb_true in E3. assert (0 < y / x). { replace (y / x) with ((- y) * / (- x)) by (field; lra). apply Rmult_lt_0_compat; [lra|]. apply Rinv_0_lt_compat; lra. }
      pose proof (atan_increasing 0 (y / x) H0) as I. rewrite atan_0 in I. lra.
    + apply Rltb_false in E3. assert (y / x <= 0). { replace (y / x) with (- (y * / (- x))) by (field; lra). assert (0 <= y * / - x); [|lra]. apply Rmult_le_pos; [lra|]. left. apply Rinv_0_lt_compat; lra. }
      assert (atan (y / x) <= 0); [|lra]. destruct H0 as [H0|H0]; [left; rewrite <- atan_0; now apply atan_increasing|rewrite H0, atan_0; lra].
  - destruct (Rltb 0 y); [lra|]. destruct (Rltb y 0); lra.
Qed.
(** Angle of a vector given in polar form. *)
Lemma hyp_polar r a : 0 <= r -> hyp (r * cos a) (r * sin a) = r.
Proof.
  intros H. unfold hyp. replace ((r * cos a) ^ 2 + (r * sin a) ^ 2) with (Rsqr r * (Rsqr (sin a) + Rsqr (cos a))) by (unfold Rsqr; ring).
  rewrite sin2_cos2, Rmult_1_r. now apply sqrt_Rsqr.
Qed.
Lemma atan2_of_polar r a : 0 < r -> exists k : Z, atan2 (r * sin a) (r * cos a) = a + 2 * IZR k * PI.
Proof.
  intros H. destruct (atan2_polar (r * sin a) (r * cos a)) as [C S]. rewrite hyp_polar in C, S by lra.
  apply sincos_inj; [apply Rmult_eq_reg_l with r; lra|apply Rmult_eq_reg_l with r; lra].
Qed.
Lemma atan2_unique r a : 0 < r -> - PI < a <= PI -> atan2 (r * sin a) (r * cos a) = a.
Proof.
  intros H Ha. destruct (atan2_of_polar r a H) as [k Hk]. pose proof (atan2_range (r * sin a) (r * cos a)) as B. rewrite Hk in B. pose proof PI_RGT_0.
  assert (IZR k < 1) by nra. assert (-1 < IZR k) by nra. apply lt_IZR in H1, H2. replace k with 0%Z in Hk by lia. lra.
Qed.
Lemma arctan2d_points y x : points_to (arctan2d y x) x y.
Proof.
  unfold points_to. rewrite <- deg_rad. change (cos (D2R * arctan2d y x)) with (cosdeg (arctan2d y x)). change (sin (D2R * arctan2d y x)) with (sindeg (arctan2d y x)).
  unfold arctan2d. rewrite (cosd_same _ _ (put360_same _)), (sind_same _ _ (put360_same _)), cosdeg_deg, sindeg_deg. fold (hyp x y). apply atan2_polar.
Qed.
Lemma arctan2d_range y x : 0 <= arctan2d y x < 360.
Proof. apply put360_range. Qed.
Lemma points_to_unique a b x y : x <> 0 \/ y <> 0 -> points_to a x y -> points_to b x y -> same_angle a b.
Proof.
  unfold points_to. rewrite <- !deg_rad. fold (hyp x y). fold (cosdeg a) (sindeg a) (cosdeg b) (sindeg b).
  intros H [A1 A2] [B1 B2]. apply hyp_pos in H. apply sincosd_inj; apply Rmult_eq_reg_l with (hyp x y); lra.
Qed.
Lemma arctan2d_polar r a : 0 < r -> arctan2d (r * sindeg a) (r * cosdeg a) = put360 a.
Proof.
  intros H. unfold arctan2d. apply put360_congr. unfold sindeg, cosdeg. destruct (atan2_of_polar r (D2R * a) H) as [k ->].
  exists k. pose proof D2R_pos. unfold R2D. rewrite Rmult_plus_distr_r. replace (2 * IZR k * PI) with (360 * IZR k * D2R) by (unfold D2R; lra). field. lra.
Qed.

(** *** Average of angles *)
Lemma cosd_plus a b : cosdeg (a + b) = cosdeg a * cosdeg b - sindeg a * sindeg b.
Proof. unfold cosdeg, sindeg. rewrite Rmult_plus_distr_l. apply cos_plus. Qed.
Lemma sind_plus a b : sindeg (a + b) = sindeg a * cosdeg b + cosdeg a * sindeg b.
Proof. unfold cosdeg, sindeg. rewrite Rmult_plus_distr_l. apply sin_plus. Qed.
Lemma cosd_neg a : cosdeg (- a) = cosdeg a.
Proof. unfold cosdeg. rewrite <- cos_neg. f_equal. ring. Qed.
Lemma sind_neg a : sindeg (- a) = - sindeg a.
Proof. unfold sindeg. rewrite <- sin_neg. f_equal. ring. Qed.
Lemma cosd_pos d : - 90 < d < 90 -> 0 < cosdeg d.
Proof. intros H. unfold cosdeg. pose proof PI_RGT_0. apply cos_gt_0; unfold D2R; nra. Qed.
Lemma average_mid m d : - 90 < d < 90 -> average_angles_deg (m - d) (m + d) = put360 m.
Proof.
  intros Hd. unfold average_angles_deg.
  replace (cosdeg (m - d) + cosdeg (m + d)) with (2 * cosdeg d * cosdeg m) by (unfold Rminus; rewrite !cosd_plus, cosd_neg, sind_neg; ring).
  replace (sindeg (m - d) + sindeg (m + d)) with (2 * cosdeg d * sindeg m) by (unfold Rminus; rewrite !sind_plus, cosd_neg, sind_neg; ring).
  apply arctan2d_polar. pose proof (cosd_pos d Hd). lra.
Qed.
Lemma average_sym a b : average_angles_deg a b = average_angles_deg b a.
Proof. unfold average_angles_deg. f_equal; lra. Qed.
Lemma average_same a a' b b' : same_angle a a' -> same_angle b b' -> average_angles_deg a b = average_angles_deg a' b'.
Proof. intros Ha Hb. unfold average_angles_deg. now rewrite (cosd_same _ _ Ha), (cosd_same _ _ Hb), (sind_same _ _ Ha), (sind_same _ _ Hb). Qed.
Lemma average_range a b : 0 <= average_angles_deg a b < 360.
Proof. apply put360_range. Qed.
Lemma average_bisects a b : Rabs (b - a) < 180 -> average_angles_deg a b = put360 ((a + b) / 2).
Proof.
  intros H. apply Rabs_def2 in H. replace a with ((a + b) / 2 - (b - a) / 2) at 1 by lra. replace b with ((a + b) / 2 + (b - a) / 2) at 3 by lra.
  apply average_mid. lra.
Qed.

(** *** Sidereal time *)
Lemma mjd2lst_range t : 0 <= mjd2lst t < 360.
Proof. apply pymod_range. lra. Qed.
