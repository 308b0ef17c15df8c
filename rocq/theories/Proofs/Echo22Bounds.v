(** Proofs about the Echo22 transformation: accuracy of the two polynomials, over the whole focal plane. *)
From Coq Require Import Lra Lia.
From Interval Require Import Tactic.
From Verif.Model Require Import Echo22.
From Verif.Proofs Require Import RealNum Trig Echo22.
Local Open Scope R_scope.

Definition near (c m : R) : Prop := m - 1e-12 <= c <= m + 1e-12.
Lemma r2t_near : exists a5 a4 a3 a2 a1 a0, r2t = [a5; a4; a3; a2; a1; a0] /\
  near a5 0.0035827951495 /\ near a4 0.0079112925095 /\ near a3 (-0.0870852409204) /\ near a2 0.0009938678061 /\ near a1 1.7075527587633 /\ near a0 0.0000018431275.
Proof.
  do 6 eexists. split; [reflexivity|]. unfold near, r2t_den. repeat split; lra.
Qed.
Lemma t2r_near : exists a5 a4 a3 a2 a1 a0, t2r = [a5; a4; a3; a2; a1; a0] /\
  near a5 0.0598116114061 /\ near a4 (-0.0327335083827) /\ near a3 4.0639081894526 /\ near a2 (-0.0017741293466) /\ near a1 243.0240232293612 /\ near a0 0.0001018423607.
Proof.
  do 6 eexists. split; [reflexivity|]. unfold near, t2r_den. repeat split; lra.
Qed.

Ltac opened :=
  destruct r2t_near as (a5 & a4 & a3 & a2 & a1 & a0 & E1 & ? & ? & ? & ? & ? & ?); destruct t2r_near as (b5 & b4 & b3 & b2 & b1 & b0 & E2 & ? & ? & ? & ? & ? & ?);
  rewrite ?E1, ?E2; clear E1 E2; unfold near in *; unfold polyval; cbn [fold_left].

Lemma theta_bounds x : 0 <= x <= 1 -> 0.0000018 < polyval r2t x < 1.63296.
Proof. intros H. opened. split; [|interval with (i_bisect x, i_taylor x)]. 
  assert (0 <= x * (1.6 + x * (a2 + x * (a3 + x * (a4 + x * a5)) ))). { apply Rmult_le_pos; [lra|]. interval. } nra.
Qed.
Lemma radius_bounds t : 0 <= t <= 1.633 -> 0.0001 < polyval t2r t < 415.02.
Proof. intros H. opened. split; [|interval with (i_bisect t, i_taylor t)].
  assert (0 <= t * (240 + t * (b2 + t * (b3 + t * (b4 + t * b5)) ))). { apply Rmult_le_pos; [lra|]. interval. } nra.
Qed.
Lemma there_back x : 0 <= x <= 1 -> Rabs (polyval t2r (polyval r2t x) - 415 * x) < 0.000683.
Proof. intros H. opened. apply Rabs_def1; interval with (i_bisect x, i_taylor x, i_degree 12, i_depth 20). Qed.
Lemma back_there t : 0 <= t <= 1.633 -> Rabs (polyval r2t (polyval t2r t / 415) - t) < 0.00000247.
Proof. intros H. opened. apply Rabs_def1; interval with (i_bisect t, i_taylor t, i_degree 12, i_depth 20). Qed.

(** Both are increasing. *)
Lemma r2t_increasing x y : 0 <= x -> x < y -> y <= 1 -> polyval r2t x < polyval r2t y.
Proof.
  intros Hx L Hy. assert (0 <= y) by lra. match type of Hy with _ <= ?m => assert (x <= m) by lra end. opened.
  assert (0 < (y - x) * (a1 + a2 * (x + y) + a3 * (x * x + x * y + y * y) + a4 * ((x + y) * (x * x + y * y)) + a5 * (x ^ 4 + x ^ 3 * y + x ^ 2 * y ^ 2 + x * y ^ 3 + y ^ 4))); [|nra].
  apply Rmult_lt_0_compat; [lra|]. interval.
Qed.
Lemma t2r_increasing x y : 0 <= x -> x < y -> y <= 1.633 -> polyval t2r x < polyval t2r y.
Proof.
  intros Hx L Hy. assert (0 <= y) by lra. match type of Hy with _ <= ?m => assert (x <= m) by lra end. opened.
  assert (0 < (y - x) * (b1 + b2 * (x + y) + b3 * (x * x + x * y + y * y) + b4 * ((x + y) * (x * x + y * y)) + b5 * (x ^ 4 + x ^ 3 * y + x ^ 2 * y ^ 2 + x * y ^ 3 + y ^ 4))); [|nra].
  apply Rmult_lt_0_compat; [lra|]. interval.
Qed.

(** ** The rows of the table *)
Lemma polyval_dot p x : length p = 6%nat -> polyval p x = dot p (map (fun k => x ^ k) (powers 5)).
Proof. intros L. do 6 (destruct p as [|? p]; [discriminate|]). destruct p; [|discriminate]. rewrite powers5. unfold polyval. cbn [fold_left map dot pow]. ring. Qed.
Definition row_ok (num : list Z) (den tol unit : Z) (p : Z * Z) : bool := (Z.abs (zeval num (powers 5) (fst p) - den * snd p) * unit <? tol * den)%Z.
Lemma row_near num den s u tol unit p : length num = 6%nat -> s <> 0 -> 0 < u -> (0 < den)%Z -> (0 < unit)%Z -> row_ok num den tol unit p = true ->
  Rabs (polyval (coefs num (powers 5) s (IZR den * u)) (IZR (fst p) / s) - IZR (snd p) / u) < IZR tol / (IZR unit * u).
Proof.
  intros L Hs Hu Hd Hn H. unfold row_ok in H. apply Z.ltb_lt, IZR_lt in H. rewrite !mult_IZR, abs_IZR, minus_IZR, mult_IZR in H. apply IZR_lt in Hd, Hn.
  rewrite polyval_dot by now rewrite coefs_length. rewrite dot_coefs by nra. set (e := IZR (zeval num (powers 5) (fst p))) in *.
  replace (e / (IZR den * u) - IZR (snd p) / u) with ((e - IZR den * IZR (snd p)) * / (IZR den * u)) by (field; lra).
  rewrite Rabs_mult. rewrite (Rabs_right (/ _)) by (apply Rle_ge, Rlt_le, Rinv_0_lt_compat, Rmult_lt_0_compat; assumption).
  apply Rmult_lt_reg_r with (IZR den * u * IZR unit); [repeat apply Rmult_lt_0_compat; assumption|].
  replace (Rabs (e - IZR den * IZR (snd p)) * / (IZR den * u) * (IZR den * u * IZR unit)) with (Rabs (e - IZR den * IZR (snd p)) * IZR unit) by (field; lra).
  replace (IZR tol / (IZR unit * u) * (IZR den * u * IZR unit)) with (IZR tol * IZR den) by (field; lra). exact H.
Qed.
Lemma r2t_rows : forallb (row_ok r2t_num r2t_den 2160 1) used = true.
Proof. vm_cast_no_check (eq_refl true). Qed.
Lemma t2r_rows : forallb (row_ok t2r_num t2r_den 682 1000000) (map swap used) = true.
Proof. vm_cast_no_check (eq_refl true). Qed.

(** ** In the plane *)
Lemma radius2theta_value r : radius2theta r = Ok (polyval r2t (r / 415)).
Proof. unfold radius2theta. rewrite fit_values. reflexivity. Qed.
Lemma theta2radius_value t : theta2radius t = Ok (polyval t2r t).
Proof. unfold theta2radius. rewrite fit_values. reflexivity. Qed.
Lemma polar_norm r a : 0 <= r -> sqrt (r * cos a * (r * cos a) + r * sin a * (r * sin a)) = r.
Proof.
  intros H. replace (r * cos a * (r * cos a) + r * sin a * (r * sin a)) with (r * r * (Rsqr (sin a) + Rsqr (cos a))) by (unfold Rsqr; ring).
  rewrite sin2_cos2, Rmult_1_r. now apply sqrt_square.
Qed.
Lemma arcsind_sindeg t : -90 <= t <= 90 -> arcsind (sindeg t) = t.
Proof.
  intros H. unfold arcsind, sindeg. pose proof PI_RGT_0. rewrite asin_sin; [unfold R2D, D2R; field; lra|]. unfold D2R. split; nra.
Qed.
Lemma sindeg_arcsind x : -1 <= x <= 1 -> sindeg (arcsind x) = x.
Proof.
  intros H. unfold arcsind, sindeg. pose proof PI_RGT_0. replace (D2R * (asin x * R2D)) with (asin x) by (unfold R2D, D2R; field; lra). now apply sin_asin.
Qed.
Definition azimuth (r a : R) : Prop := 0 < r /\ - PI < a <= PI \/ r = 0 /\ a = 0.
Lemma atan2_azimuth r a : azimuth r a -> atan2 (r * sin a) (r * cos a) = a.
Proof. intros [[Hr Ha]|[-> ->]]; [now apply atan2_unique|]. rewrite !Rmult_0_l. apply atan2_00. Qed.
Lemma azimuth_of x y : exists r a, azimuth r a /\ r = sqrt (x * x + y * y) /\ x = r * cos a /\ y = r * sin a.
Proof.
  destruct (atan2_polar y x) as [X Y]. pose proof (atan2_range y x) as A. exists (sqrt (x * x + y * y)), (atan2 y x).
  assert (E : sqrt (x * x + y * y) = hyp x y) by (unfold hyp; f_equal; ring). rewrite E. split; [|auto].
  destruct (Rle_lt_or_eq_dec _ _ (hyp_nonneg x y)) as [P|P]; [left; auto|]. right. split; [auto|]. rewrite <- P in X, Y. rewrite Rmult_0_l in X, Y. subst. apply atan2_00.
Qed.
Lemma azimuth_nonneg r a : azimuth r a -> 0 <= r.
Proof. intros [[H _]|[-> _]]; lra. Qed.
Lemma azimuth_grow r a s : azimuth r a -> 0 < s -> azimuth s a.
Proof. intros [[_ H]|[_ ->]] Hs; left; (split; [exact Hs|]); [exact H|]. pose proof PI_RGT_0. lra. Qed.
Lemma fp2tan_polar r a : azimuth r a -> fp2tan (r * cos a) (r * sin a) = Ok (sindeg (polyval r2t (r / 415)) * cos a, sindeg (polyval r2t (r / 415)) * sin a).
Proof. intros H. unfold fp2tan. cbv zeta. rewrite (atan2_azimuth r a H), polar_norm by now apply azimuth_nonneg in H. rewrite radius2theta_value. reflexivity. Qed.
Lemma tan2fp_polar t a : azimuth (sindeg t) a -> 0 <= t <= 90 -> tan2fp (sindeg t * cos a) (sindeg t * sin a) = Ok (polyval t2r t * cos a, polyval t2r t * sin a).
Proof.
  intros H B. unfold tan2fp. cbv zeta. rewrite (atan2_azimuth _ a H), polar_norm by now apply azimuth_nonneg in H.
  destruct (Rltb 1 (sindeg t)) eqn:E; [apply Rltb_true in E; unfold sindeg in E; pose proof (SIN_bound (D2R * t)); lra|]. rewrite arcsind_sindeg by lra. rewrite theta2radius_value. reflexivity.
Qed.
Lemma polar_dist r s a : (r * cos a - s * cos a) ^ 2 + (r * sin a - s * sin a) ^ 2 = (r - s) ^ 2.
Proof. replace ((r * cos a - s * cos a) ^ 2 + (r * sin a - s * sin a) ^ 2) with ((r - s) ^ 2 * (Rsqr (sin a) + Rsqr (cos a))) by (unfold Rsqr; ring). rewrite sin2_cos2. ring. Qed.
Lemma sindeg_pos t : 0 < t <= 90 -> 0 < sindeg t.
Proof. intros H. unfold sindeg, D2R. pose proof PI_RGT_0. apply sin_gt_0; nra. Qed.
Lemma sq_lt a b : Rabs a < b -> a ^ 2 < b ^ 2.
Proof. intros H. rewrite <- (pow2_abs a). pose proof (Rabs_pos a). nra. Qed.
Lemma sindeg_lipschitz s t : Rabs (sindeg s - sindeg t) <= D2R * Rabs (s - t).
Proof.
  unfold sindeg. destruct (MVT_abs sin cos (D2R * t) (D2R * s)) as (c & E & _); [intros; apply derivable_pt_lim_sin|]. rewrite E.
  replace (D2R * s - D2R * t) with (D2R * (s - t)) by ring. rewrite Rabs_mult. assert (0 < D2R) by (unfold D2R; pose proof PI_RGT_0; lra). rewrite (Rabs_right D2R) by lra.
  pose proof (Rabs_pos (s - t)). assert (Rabs (cos c) <= 1) by (apply Rabs_le; apply COS_bound). 
  rewrite <- (Rmult_1_l (D2R * Rabs (s - t))) at 2. apply Rmult_le_compat_r; [apply Rmult_le_pos; lra|assumption].
Qed.
Lemma arcsind_le a b : -1 <= a -> a <= b -> b <= 1 -> arcsind a <= arcsind b.
Proof.
  intros A L B. unfold arcsind. pose proof PI_RGT_0. apply Rmult_le_compat_r; [unfold R2D, D2R; apply Rlt_le, Rdiv_lt_0_compat; lra|].
  pose proof (asin_bound a). pose proof (asin_bound b). apply sin_incr_0; try lra. rewrite !sin_asin by lra. exact L.
Qed.
Lemma arcsind_0 : arcsind 0 = 0.
Proof. unfold arcsind. rewrite asin_0. ring. Qed.
