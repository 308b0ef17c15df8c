From Verif.Model Require Import GuideStars.
From Verif.Spec Require Import Trig Sphere LinAlg SimpleCorr TanPlane GuideStars.
From Verif.Proofs Require Import Prelude RealNum Trig Sphere LinAlg SimpleCorr Radec2tan FieldModel.
From Verif.Proofs Require Fiberassign.
From Verif Require Spec.Fiberassign.
From Verif.Props Require Import FieldModel.
From Coq Require Import Lra Lia Psatz.
From Interval Require Import Tactic.
Local Open Scope R_scope.

Lemma chosen_fun {A B} (P : A -> B -> Prop) : (forall a b b', P a b -> P a b' -> b = b') -> forall l r r', chosen P l r -> chosen P l r' -> r = r'.
Proof.
  intros F l r r' C. revert r'. induction C as [|a b l r Pa C IH|a l r N C IH]; intros r' C'; inversion C'; subst; auto; try (exfalso; eapply N; eassumption); try (exfalso; match goal with H : forall _, ~ _ |- _ => eapply H; eassumption end).
  f_equal; [f_equal; eapply F; eassumption|auto].
Qed.

Lemma moved_spec year s : match moved_position year s with Some g => at_year year s g | None => forall g, ~ at_year year s g end.
Proof.
  unfold moved_position, at_year. cbv zeta. unfold cosdeg. rewrite deg_rad. destruct (Reqb _ 0) eqn:E; [apply Reqb_true in E|apply Reqb_false in E].
  - intros g (N & _). contradiction.
  - cbn [fst snd]. split; [exact E|]. fold (known (s_pmra s)) (known (s_pmdec s)). split; [field; exact E|field].
Qed.
Lemma at_year_fun year s g g' : at_year year s g -> at_year year s g' -> g = g'.
Proof.
  intros (N & A & B) (_ & A' & B'). destruct g as [a b], g' as [a' b']. cbn [fst snd] in *. f_equal; [|lra].
  assert ((a - a') * cos (PI * s_dec_gaia s / 180) = 0) by (replace ((a - a') * _) with ((a - s_ra_gaia s) * cos (PI * s_dec_gaia s / 180) - (a' - s_ra_gaia s) * cos (PI * s_dec_gaia s / 180)) by ring; lra).
  apply Rmult_integral in H as [H|H]; [lra|contradiction].
Qed.
Lemma good_match_spec sep s g : good_match sep s (Some g) = true <-> flat_separation (s_ra s, s_dec s) g < sep.
Proof.
  destruct g as [ra dec]. unfold good_match, flat_separation. cbv zeta. cbn [fst snd]. unfold cosdeg. rewrite deg_rad. set (c := cos _).
  replace (((s_ra s - ra) * c * 3600) ^ 2 + ((s_dec s - dec) * 3600) ^ 2) with (3600 ^ 2 * (((s_ra s - ra) * c) ^ 2 + (s_dec s - dec) ^ 2)) by ring.
  rewrite sqrt_mult by (try (apply Rplus_le_le_0_compat; apply pow2_ge_0); lra). replace (3600 ^ 2) with (3600 * 3600) by ring. rewrite sqrt_square by lra. apply Rltb_true.
Qed.
Lemma selected_chosen sep position (Q : star -> R * R -> Prop) : (forall s, match position s with Some g => Q s g | None => forall g, ~ Q s g end) -> (forall s g g', Q s g -> Q s g' -> g = g') ->
  forall l, chosen (fun s g => Q s g /\ flat_separation (s_ra s, s_dec s) g < sep) l (selected sep position l).
Proof.
  intros P F. induction l as [|s l IH]; [constructor|]. unfold selected. cbn [flat_map]. fold (selected sep position l). specialize (P s). destruct (position s) as [g|] eqn:E.
  - destruct (good_match sep s (Some g)) eqn:G.
    + cbn [app]. constructor; [|exact IH]. split; [exact P|]. now apply good_match_spec.
    + cbn [app]. apply chosen_drop; [|exact IH]. intros g' (Q' & L). rewrite (F _ _ _ Q' P) in L. apply good_match_spec in L. congruence.
  - cbn [good_match app]. apply chosen_drop; [|exact IH]. intros g (Q' & _). exact (P g Q').
Qed.

(** *** the fit *)
Lemma data_combine (a b : list (R * R)) : length a = length b -> map fst a = xs1 (combine a b) /\ map snd a = ys1 (combine a b) /\ map fst b = xs2 (combine a b) /\ map snd b = ys2 (combine a b).
Proof. unfold xs1, ys1, xs2, ys2. revert b. induction a as [|x a IH]; intros [|y b] L; try discriminate; cbn; auto. destruct (IH b) as (A & B & C & D); [now injection L|]. now rewrite A, B, C, D. Qed.
Lemma tan_fit_fitted data c : tan_fit (xs1 data) (ys1 data) (xs2 data) (ys2 data) = Ok c -> fitted data c.
Proof.
  intros E. assert (ND : data <> []) by (intros ->; cbn in E; discriminate).
  assert (HD : Forall (fun d => in_disk (fst d)) data).
  { apply Forall_forall. intros d Hd. destruct (Rle_dec (fst (fst d) ^ 2 + snd (fst d) ^ 2) 1) as [H|H]; [exact H|]. exfalso.
    destruct C72_refused as (_ & _ & R3). rewrite R3 in E; [discriminate|]. apply Exists_exists. exists d. split; [exact Hd|exact H]. }
  destruct (C72_fit data ND HD) as (p & P0 & St & F). cbv zeta in F. destruct F as (F1 & F2).
  assert (N : not_collinear (sources_from (p 4%nat) data)) by (destruct (Classical_Prop.classic (not_collinear (sources_from (p 4%nat) data))) as [N|N]; [exact N|rewrite F1 in E by exact N; discriminate]).
  destruct (F2 N) as (ax & ay & Lx & Ly & G1 & G2).
  destruct (Req_dec (nth 1 ax 0 + nth 2 ay 0) 0) as [Z|Z]; [rewrite G1 in E by (left; exact Z); discriminate|].
  destruct (Req_dec (nth 1 ay 0) (nth 2 ax 0)) as [Y|Y]; [rewrite G1 in E by (right; exact Y); discriminate|].
  destruct (G2 Z Y) as (t & E' & T); rewrite E in E'; injection E' as <-; destruct T as (T1 & T2 & T3 & T4 & T5 & T6 & T7).
  exists p, ax, ay; cbv zeta; repeat (split; [assumption|]); assumption.
Qed.
Lemma fit_pass_refit o mjd lst hexrot meas sky tel r : fit_pass o mjd lst hexrot meas sky tel = Ok r -> refit o mjd lst hexrot meas sky tel (snd r) (fst r) /\ t_nstars (snd r) = length meas /\ length meas = length sky.
Proof.
  unfold fit_pass. destruct (rmapM _ sky) as [gaia|] eqn:E; [|discriminate]. cbn [rbind]. apply rmapM_Ok_Forall2 in E. destruct (tan_fit _ _ _ _) as [c|] eqn:F; [|discriminate]. cbn [rbind].
  assert (L : length meas = length gaia).
  { destruct (Nat.eq_dec (length meas) (length gaia)) as [L|L]; [exact L|]. exfalso. destruct C72_refused as (R1 & _). rewrite R1 in F; [discriminate|]. rewrite !map_length. intros (_ & H & _). auto. }
  destruct (data_combine meas gaia L) as (A & B & C & D). rewrite A, B, C, D in F. apply tan_fit_fitted in F.
  destruct (Reqb _ 0) eqn:Z; [discriminate|]. intros H. injection H as <-. cbn [fst snd]. apply Reqb_false in Z. unfold cosdeg in *. rewrite deg_rad in *.
  split; [|split].
  - exists gaia. split; [exact E|]. split; [exact L|]. split; [exact F|]. cbn [fst snd]. split; [reflexivity|]. split; [exact Z|]. field. exact Z.
  - destruct F as (p & ax & ay & _ & _ & _ & _ & _ & _ & _ & _ & _ & _ & _ & _ & -> & _). rewrite combine_length, <- L. apply Nat.min_id.
  - rewrite L. symmetry. clear - E; induction E; cbn; congruence.
Qed.

Lemma sum_linear (data : list ((R * R) * (R * R))) (f : (R * R) * (R * R) -> R) a b : Forall (fun d => f d = a * fst (fst d) + b * snd (fst d)) data ->
  fold_right Rplus 0 (map f data) = a * fold_right Rplus 0 (xs1 data) + b * fold_right Rplus 0 (ys1 data).
Proof. unfold xs1, ys1. induction 1 as [|d l H F IH]; cbn [map fold_right]; [ring|]. rewrite H, IH. ring. Qed.
(** A rotation followed by a symmetric matrix of positive trace determines both. *)
Lemma polar_unique sxx syy sxy r sxx' syy' sxy' r' : (forall q, mat2 sxx sxy sxy syy (rot2deg r q) = mat2 sxx' sxy' sxy' syy' (rot2deg r' q)) ->
  0 < sxx + syy -> 0 < sxx' + syy' -> 0 <= r < 360 -> 0 <= r' < 360 -> sxx = sxx' /\ syy = syy' /\ sxy = sxy' /\ r = r'.
Proof.
  intros H P P' I I'. pose proof (H (1, 0)) as A. pose proof (H (0, 1)) as B. unfold mat2, rot2deg in A, B. cbn [fst snd] in A, B.
  pose proof (f_equal fst A) as A1. pose proof (f_equal snd A) as A2. pose proof (f_equal fst B) as B1. pose proof (f_equal snd B) as B2. cbn [fst snd] in *. clear A B H.
  pose proof (sincosd_one r) as U. pose proof (sincosd_one r') as U'. set (c := cosdeg r) in *. set (s := sindeg r) in *. set (c' := cosdeg r') in *. set (s' := sindeg r') in *.
  set (N := sxx + syy) in *. set (N' := sxx' + syy') in *.
  assert (C : N * c = N' * c') by (unfold N, N'; lra). assert (Sn : N * s = N' * s') by (unfold N, N'; lra).
  assert (NN : N = N').
  { assert (N * N = N' * N') by (replace (N * N) with ((N * c) * (N * c) + (N * s) * (N * s)) by (transitivity (N * N * (s * s + c * c)); [ring|rewrite U; ring]); rewrite C, Sn; transitivity (N' * N' * (s' * s' + c' * c')); [ring|rewrite U'; ring]).
    nra. }
  rewrite <- NN in C, Sn. apply Rmult_eq_reg_l in C; [|lra]. apply Rmult_eq_reg_l in Sn; [|lra].
  assert (Er : r = r').
  { pose proof (arctan2d_polar 1 r ltac:(lra)) as Q. pose proof (arctan2d_polar 1 r' ltac:(lra)) as Q'. fold c s in Q. fold c' s' in Q'. rewrite C, Sn, Q' in Q. unfold put360 in Q. rewrite !pymod_id in Q by lra. now symmetry. }
  rewrite <- C, <- Sn in *. clear C Sn U'.
  assert (X : sxx * c + sxy * s = sxx' * c + sxy' * s) by lra. assert (X' : - sxx * s + sxy * c = - sxx' * s + sxy' * c) by lra.
  assert (Y : sxy * c + syy * s = sxy' * c + syy' * s) by lra. assert (Y' : - sxy * s + syy * c = - sxy' * s + syy' * c) by lra.
  assert (E : forall a b a' b', a * c + b * s = a' * c + b' * s -> - a * s + b * c = - a' * s + b' * c -> a = a' /\ b = b').
  { intros a b a' b' E1 E2. split.
    - transitivity ((a * c + b * s) * c - (- a * s + b * c) * s); [transitivity (a * (s * s + c * c)); [rewrite U; ring|ring]|]. rewrite E1, E2. transitivity (a' * (s * s + c * c)); [ring|rewrite U; ring].
    - transitivity ((a * c + b * s) * s + (- a * s + b * c) * c); [transitivity (b * (s * s + c * c)); [rewrite U; ring|ring]|]. rewrite E1, E2. transitivity (b' * (s * s + c * c)); [ring|rewrite U; ring]. }
  destruct (E _ _ _ _ X X') as [-> ->]. destruct (E _ _ _ _ Y Y') as [_ ->]. auto.
Qed.
Lemma exact_fit data sxx syy sxy rho : data <> [] -> Forall (fun d => in_disk (fst d)) data -> not_collinear data ->
  fold_right Rplus 0 (xs1 data) = 0 -> fold_right Rplus 0 (ys1 data) = 0 ->
  Forall (fun d => snd d = mat2 sxx sxy sxy syy (rot2deg rho (fst d))) data ->
  0 < sxx + syy -> sindeg rho <> 0 -> cosdeg rho <> 0 -> 0 <= rho < 360 ->
  tan_fit (xs1 data) (ys1 data) (xs2 data) (ys2 data) = Ok {| t_dha := 0; t_ddec := 0; t_sxx := sxx; t_syy := syy; t_sxy := sxy; t_rot_deg := rho; t_nstars := length data; t_rms_arcsec := 0 |}.
Proof.
  intros ND HD NC X0 Y0 M P Sn Cn I. set (c := cosdeg rho) in *. set (s := sindeg rho) in *.
  assert (Mx : Forall (fun d => fst (snd d) = (sxx * c + sxy * s) * fst (fst d) + (- sxx * s + sxy * c) * snd (fst d)) data) by (eapply Forall_impl; [|exact M]; intros d ->; unfold mat2, rot2deg; cbn [fst snd]; fold c s; ring).
  assert (My : Forall (fun d => snd (snd d) = (sxy * c + syy * s) * fst (fst d) + (- sxy * s + syy * c) * snd (fst d)) data) by (eapply Forall_impl; [|exact M]; intros d ->; unfold mat2, rot2deg; cbn [fst snd]; fold c s; ring).
  destruct (C72_fit data ND HD) as (p & P0 & St & _ & F).
  assert (St0 : forall k, (k <= 4)%nat -> p k = (0, 0)).
  { induction k as [|k IH]; intros Hk; [exact P0|]. specialize (IH ltac:(lia)). destruct (St k ltac:(lia)) as [A B]. rewrite IH in A, B. cbn [fst snd] in A, B.
    assert (Ax : average (map (fun d => fst (snd d) - fst (seen_from (0, 0) (fst d))) data) = 0).
    { unfold average. rewrite (sum_linear _ _ ((sxx * c + sxy * s) - 1) (- sxx * s + sxy * c)), X0, Y0; [unfold Rdiv; ring|]. eapply Forall_impl; [|exact Mx]. intros d ->. rewrite seen_from_0. ring. }
    assert (Ay : average (map (fun d => snd (snd d) - snd (seen_from (0, 0) (fst d))) data) = 0).
    { unfold average. rewrite (sum_linear _ _ (sxy * c + syy * s) ((- sxy * s + syy * c) - 1)), X0, Y0; [unfold Rdiv; ring|]. eapply Forall_impl; [|exact My]. intros d ->. rewrite seen_from_0. ring. }
    rewrite Ax in A. rewrite Ay in B. rewrite (surjective_pairing (p (S k))), A, B. f_equal; ring. }
  assert (S4 : sources_from (p 4%nat) data = data) by (rewrite St0 by lia; unfold sources_from; rewrite <- (map_id data) at 2; apply map_ext; intros [q q']; cbn; now rewrite seen_from_0).
  rewrite S4 in F. destruct (F NC) as (ax & ay & Lx & Ly & _ & F2). clear F.
  assert (Ex : ax = [0; sxx * c + sxy * s; - sxx * s + sxy * c]). { apply (least_squares_exact 3 (x_samples data)); [exact Lx|reflexivity|]. intros q Hq. unfold x_samples in Hq. apply in_map_iff in Hq as (d & <- & Hd). rewrite Forall_forall in Mx. cbn [fst snd]. rewrite (Mx d Hd). cbn. ring. }
  assert (Ey : ay = [0; sxy * c + syy * s; - sxy * s + syy * c]). { apply (least_squares_exact 3 (y_samples data)); [exact Ly|reflexivity|]. intros q Hq. unfold y_samples in Hq. apply in_map_iff in Hq as (d & <- & Hd). rewrite Forall_forall in My. cbn [fst snd]. rewrite (My d Hd). cbn. ring. }
  rewrite Ex, Ey in F2. cbn [nth] in F2. destruct F2 as (t & E & T1 & T2 & T3 & T4 & T5 & T6 & T7).
  { replace (sxx * c + sxy * s + (- sxy * s + syy * c)) with ((sxx + syy) * c) by ring. intros Z. apply Rmult_integral in Z. lra. }
  { intros Z. assert (Z' : (sxx + syy) * s = 0) by lra. apply Rmult_integral in Z'. lra. }
  rewrite E. f_equal.
  assert (Q : forall q, mat2 (t_sxx t) (t_sxy t) (t_sxy t) (t_syy t) (rot2deg (t_rot_deg t) q) = mat2 sxx sxy sxy syy (rot2deg rho q)).
  { intros q. specialize (T3 q). destruct (mat2 (t_sxx t) _ _ _ _) as [u v]. pose proof (f_equal fst T3) as E1. pose proof (f_equal snd T3) as E2. unfold affine in E1, E2. cbn [fst snd combination] in E1, E2.
    unfold mat2, rot2deg. cbn [fst snd]. fold c s. f_equal; lra. }
  destruct (polar_unique _ _ _ _ _ _ _ _ Q T4 P T5 I) as (Q1 & Q2 & Q3 & Q4).
  assert (Z : misfit (affine [0; sxx * c + sxy * s; - sxx * s + sxy * c] [0; sxy * c + syy * s; - sxy * s + syy * c]) data = 0).
  { unfold misfit. clear - Mx My. induction data as [|d l IH]; [reflexivity|]. inversion Mx as [|? ? M1 M2]; inversion My as [|? ? M3 M4]; subst. cbn [map fold_right]. rewrite IH by assumption. rewrite M1, M3. unfold affine. cbn [fst snd combination]. ring. }
  rewrite Z in T7. unfold Rdiv in T7 at 2. rewrite Rmult_0_l, sqrt_0, Rmult_0_r in T7.
  rewrite St0 in T1, T2 by lia. cbn [fst snd] in T1, T2. destruct t. cbn in *. subst. f_equal; ring.
Qed.

(** *** separations *)
Lemma chord d1 d2 l : 1 - (sin d1 * sin d2 + cos d1 * cos d2 * cos l) <= ((d1 - d2) ^ 2 + Rabs (cos d1 * cos d2) * l ^ 2) / 2.
Proof.
  assert (H : forall x, 0 <= 1 - cos x <= x ^ 2 / 2).
  { intros x. assert (E : 1 - cos x = 2 * (sin (x / 2) * sin (x / 2))) by (pose proof (cos_2a_sin (x / 2)) as C; replace (2 * (x / 2)) with x in C by field; lra).
    assert (A : Rabs (sin (x / 2)) <= Rabs (x / 2)).
    { destruct (Rle_lt_dec 0 (x / 2)) as [P|P].
      - rewrite (Rabs_pos_eq (x / 2)) by lra. apply Rabs_le. destruct (Req_dec (x / 2) 0) as [->|N]; [rewrite sin_0; lra|]. pose proof (sin_lt_x (x / 2) ltac:(lra)). destruct (Rle_dec (x / 2) PI) as [Q|Q]; [pose proof (sin_ge_0 (x / 2) ltac:(lra) Q); lra|]. pose proof (SIN_bound (x / 2)). pose proof PI2_3_2. pose proof PI_RGT_0. lra.
      - rewrite (Rabs_left (x / 2)) by lra. apply Rabs_le. pose proof (sin_lt_x (- (x / 2)) ltac:(lra)) as S. rewrite sin_neg in S. destruct (Rle_dec (- (x / 2)) PI) as [Q|Q]; [pose proof (sin_ge_0 (- (x / 2)) ltac:(lra) Q) as G; rewrite sin_neg in G; lra|]. pose proof (SIN_bound (x / 2)). pose proof PI2_3_2. lra. }
    assert (B : sin (x / 2) * sin (x / 2) <= x / 2 * (x / 2)) by (apply Rsqr_le_abs_1 in A; exact A). pose proof (Rle_0_sqr (sin (x / 2))) as G. unfold Rsqr in G. split; [lra|]. rewrite E. lra. }
  pose proof (H (d1 - d2)) as A. rewrite cos_minus in A. pose proof (H l) as B.
  assert (C : cos d1 * cos d2 * (1 - cos l) <= Rabs (cos d1 * cos d2) * (l ^ 2 / 2)).
  { eapply Rle_trans; [apply Rmult_le_compat_r; [lra|apply Rle_abs]|]. apply Rmult_le_compat_l; [apply Rabs_pos|lra]. }
  lra.
Qed.
Lemma cos_lipschitz a b : Rabs (cos a - cos b) <= Rabs (a - b).
Proof.
  destruct (Req_dec a b) as [->|N]; [replace (cos b - cos b) with 0 by ring; replace (b - b) with 0 by ring; lra|].
  assert (W : forall a b, a < b -> Rabs (cos b - cos a) <= Rabs (b - a)).
  { clear. intros a b L. destruct (MVT_cor2 cos (fun t => - sin t) a b L) as (c & E & _); [intros c _; apply derivable_pt_lim_cos|]. rewrite E, Rabs_mult, Rabs_Ropp. pose proof (SIN_bound c). assert (Rabs (sin c) <= 1) by (apply Rabs_le; lra). pose proof (Rabs_pos (b - a)). nra. }
  destruct (Rtotal_order a b) as [L|[L|L]]; [|contradiction|auto]. rewrite (Rabs_minus_sym (cos a)), (Rabs_minus_sym a). auto.
Qed.
Lemma separation_bound a g sep : sep <= 2 -> -89 <= snd g <= 89 -> flat_separation a g < sep ->
  cos (PI / 180 * (1.001 * sep / 3600)) <= inner (unit_vector (fst a) (snd a)) (unit_vector (fst g) (snd g)).
Proof.
  intros S2 Hd L. set (k := PI / 180). assert (K : 0 < k) by (unfold k; pose proof PI_RGT_0; lra). assert (K1 : k < 0.018) by (unfold k; interval).
  set (d1 := k * snd a). set (d2 := k * snd g). set (l := k * (fst a - fst g)).
  assert (I : inner (unit_vector (fst a) (snd a)) (unit_vector (fst g) (snd g)) = sin d1 * sin d2 + cos d1 * cos d2 * cos l).
  { unfold unit_vector, inner. replace (PI * snd a / 180) with d1 by (unfold d1, k; field). replace (PI * snd g / 180) with d2 by (unfold d2, k; field). replace l with (PI * fst a / 180 - PI * fst g / 180) by (unfold l, k; field). rewrite cos_minus. ring. }
  rewrite I. pose proof (chord d1 d2 l) as C.
  unfold flat_separation in L. replace (PI * snd g / 180) with d2 in L by (unfold d2, k; field).
  set (w := (fst a - fst g) * cos d2) in L. set (v := snd a - snd g) in L.
  assert (S0 : 0 <= sqrt (w ^ 2 + v ^ 2)) by apply sqrt_pos. assert (Q : w ^ 2 + v ^ 2 <= (sep / 3600) ^ 2).
  { assert (E : sqrt (w ^ 2 + v ^ 2) * sqrt (w ^ 2 + v ^ 2) = w ^ 2 + v ^ 2) by (apply sqrt_sqrt; apply Rplus_le_le_0_compat; apply pow2_ge_0). rewrite <- E. nra. }
  assert (Sp : 0 < sep) by lra. set (t := k * (sep / 3600)). assert (T0 : 0 < t) by (unfold t; apply Rmult_lt_0_compat; lra). assert (T1 : t <= 1.1e-5) by (unfold t; nra).
  assert (Q' : (k * w) ^ 2 + (k * v) ^ 2 <= t ^ 2) by (unfold t; replace ((k * w) ^ 2 + (k * v) ^ 2) with (k ^ 2 * (w ^ 2 + v ^ 2)) by ring; replace ((k * (sep / 3600)) ^ 2) with (k ^ 2 * (sep / 3600) ^ 2) by ring; apply Rmult_le_compat_l; [apply pow2_ge_0|exact Q]).
  assert (V : Rabs (d1 - d2) <= t) by (replace (d1 - d2) with (k * v) by (unfold d1, d2, v; ring); apply Rabs_le; split; nra).
  assert (G : 0.017 <= cos d2).
  { assert (N : cos (k * 89) <= cos d2).
    { rewrite <- (Rabs_pos_eq (k * 89)) by nra. unfold d2. destruct (Rle_dec 0 (snd g)) as [P|P].
      - rewrite Rabs_pos_eq by nra. apply cos_decr_1; unfold k in *; pose proof PI_RGT_0; nra.
      - rewrite Rabs_pos_eq by nra. rewrite <- cos_neg. rewrite <- (cos_neg (k * snd g)). rewrite cos_neg. apply cos_decr_1; unfold k in *; pose proof PI_RGT_0; nra. }
    assert (0.017 <= cos (k * 89)) by (unfold k; interval). lra. }
  assert (G1 : Rabs (cos d1) <= cos d2 + t). { pose proof (cos_lipschitz d1 d2) as CL. replace (cos d1) with (cos d2 + (cos d1 - cos d2)) by ring. eapply Rle_trans; [apply Rabs_triang|]. rewrite (Rabs_pos_eq (cos d2)) by lra. lra. }
  assert (B : ((d1 - d2) ^ 2 + Rabs (cos d1 * cos d2) * l ^ 2) / 2 <= t ^ 2 * (1 + t / 0.017) / 2).
  { replace (d1 - d2) with (k * v) by (unfold d1, d2, v; ring). rewrite Rabs_mult, (Rabs_pos_eq (cos d2)) by lra.
    assert (W : Rabs (cos d1) * cos d2 * l ^ 2 <= (k * w) ^ 2 * (1 + t / 0.017)).
    { replace ((k * w) ^ 2) with (cos d2 * cos d2 * l ^ 2) by (unfold l, w; ring). replace (cos d2 * cos d2 * l ^ 2 * (1 + t / 0.017)) with ((cos d2 * (1 + t / 0.017)) * cos d2 * l ^ 2) by ring.
      apply Rmult_le_compat_r; [apply pow2_ge_0|]. apply Rmult_le_compat_r; [lra|]. eapply Rle_trans; [exact G1|]. unfold Rdiv. assert (t <= cos d2 * (t * / 0.017)); [|lra]. assert (0 <= t * (cos d2 * / 0.017 - 1)); [|lra]. apply Rmult_le_pos; [lra|]. assert (1 <= cos d2 * / 0.017); [|lra]. lra. }
    assert ((k * v) ^ 2 <= (k * v) ^ 2 * (1 + t / 0.017)) by (pose proof (pow2_ge_0 (k * v)); nra).
    assert (((k * w) ^ 2 + (k * v) ^ 2) * (1 + t / 0.017) <= t ^ 2 * (1 + t / 0.017)) by (apply Rmult_le_compat_r; [lra|exact Q']). lra. }
  replace (k * (1.001 * sep / 3600)) with (1.001 * t) by (unfold t; field). set (x := 1.001 * t).
  assert (U : cos x <= 1 - x ^ 2 / 2 * (1 - 1e-9)).
  { assert (E : cos x = 1 - 2 * (sin (x / 2) * sin (x / 2))) by (pose proof (cos_2a_sin (x / 2)) as C2; replace (2 * (x / 2)) with x in C2 by field; lra).
    pose proof (Fiberassign.sin_near (x / 2)) as N. rewrite (Rabs_pos_eq (x / 2)) in N by (unfold x; lra). assert (X0 : 0 < x <= 1.2e-5) by (unfold x; lra).
    assert (P : x / 2 * (1 - 1e-10) <= sin (x / 2)). { pose proof (Rle_abs (x / 2 - sin (x / 2))). assert ((x / 2) ^ 3 / 6 <= x / 2 * 1e-10) by (replace ((x / 2) ^ 3 / 6) with (x / 2 * (x * x / 24)) by field; apply Rmult_le_compat_l; nra). lra. }
    assert (0 <= x / 2 * (1 - 1e-10)) by lra. assert ((x / 2 * (1 - 1e-10)) * (x / 2 * (1 - 1e-10)) <= sin (x / 2) * sin (x / 2)) by (apply Rmult_le_compat; lra). nra. }
  assert (F : t ^ 2 * (1 + t / 0.017) / 2 <= x ^ 2 / 2 * (1 - 1e-9)) by (unfold x; replace ((1.001 * t) ^ 2 / 2 * (1 - 1e-9)) with (t ^ 2 * (1.001 ^ 2 * (1 - 1e-9)) / 2) by field; pose proof (pow2_ge_0 t); assert (t ^ 2 * (1 + t / 0.017) <= t ^ 2 * (1.001 ^ 2 * (1 - 1e-9))) by (apply Rmult_le_compat_l; lra); lra).
  lra.
Qed.

(** *** field rotation *)
Definition term (d : point * point) : res R :=
  let '(a, b) := d in let n := sqrt ((fst a ^ 2 + snd a ^ 2) * (fst b ^ 2 + snd b ^ 2)) in
  if Reqb n 0 then Err NonFinite else Ok ((snd a * fst b - fst a * snd b) / n).
Lemma offset_lst lst c g : hadec2xy (lst - fst g) (snd g) (lst - fst c) (snd c) = Spec.Fiberassign.sky_offset c g.
Proof.
  rewrite hadec2xy_components. unfold Spec.Fiberassign.sky_offset, unit_vector, inner.
  replace (PI * (lst - fst c + 90) / 180) with (PI * lst / 180 + PI * (- fst c + 90) / 180) by field. replace (PI * (lst - fst c) / 180) with (PI * lst / 180 + PI * (- fst c) / 180) by field. replace (PI * (lst - fst g) / 180) with (PI * lst / 180 + PI * (- fst g) / 180) by field.
  rewrite !cos_plus, !sin_plus. pose proof (sin2_cos2 (PI * lst / 180)) as U. unfold Rsqr in U. set (cl := cos (PI * lst / 180)) in *. set (sl := sin (PI * lst / 180)) in *.
  set (a := cos (PI * - fst g / 180)). set (b := sin (PI * - fst g / 180)). f_equal.
  - set (e := cos (PI * (- fst c + 90) / 180)). set (h := sin (PI * (- fst c + 90) / 180)). set (cg := cos (PI * snd g / 180)). set (c0 := cos (PI * 0 / 180)). set (s0 := sin (PI * 0 / 180)). set (sg := sin (PI * snd g / 180)).
    transitivity ((sl * sl + cl * cl) * ((a * e + b * h) * cg * c0) + sg * s0); [ring|]. rewrite U. ring.
  - set (e := cos (PI * - fst c / 180)). set (h := sin (PI * - fst c / 180)). set (cg := cos (PI * snd g / 180)). set (sg := sin (PI * snd g / 180)). set (cn := cos (PI * (snd c + 90) / 180)). set (sn := sin (PI * (snd c + 90) / 180)).
    transitivity ((sl * sl + cl * cl) * ((a * e + b * h) * cg * cn) + sg * sn); [ring|]. rewrite U. ring.
Qed.
Lemma term_sine c s a : a <> (0, 0) -> term (a, Spec.Fiberassign.sky_offset c s) = if Req_EM_T (fst (Spec.Fiberassign.sky_offset c s) ^ 2 + snd (Spec.Fiberassign.sky_offset c s) ^ 2) 0 then Err NonFinite else Ok (Fiberassign.sine c (s, a)).
Proof.
  intros N. unfold term, Fiberassign.sine. cbv zeta. cbn [fst snd]. destruct (Spec.Fiberassign.sky_offset c s) as [x y]. destruct a as [u v]. cbn [fst snd].
  assert (P : 0 < u ^ 2 + v ^ 2). { pose proof (pow2_ge_0 u). pose proof (pow2_ge_0 v). destruct (Req_dec (u ^ 2 + v ^ 2) 0) as [Z|Z]; [|lra]. exfalso. apply N. f_equal; nra. }
  destruct (Req_EM_T (x ^ 2 + y ^ 2) 0) as [Z|Z].
  - rewrite Z, Rmult_0_r, sqrt_0. assert (Reqb 0 0 = true) as -> by now apply Reqb_true. reflexivity.
  - assert (Q : 0 < x ^ 2 + y ^ 2) by (pose proof (pow2_ge_0 x); pose proof (pow2_ge_0 y); lra).
    assert (Reqb (sqrt ((u ^ 2 + v ^ 2) * (x ^ 2 + y ^ 2))) 0 = false) as ->; [|reflexivity]. apply Reqb_false. pose proof (sqrt_lt_R0 _ (Rmult_lt_0_compat _ _ P Q)). lra.
Qed.
Lemma turned_exists d a : a <> (0, 0) -> d <> (0, 0) -> exists theta, Spec.Fiberassign.turned_from theta d a.
Proof.
  destruct d as [x y], a as [u v]. intros Na Nd.
  assert (NZ : forall p q : R, (p, q) <> (0, 0) -> 0 < p ^ 2 + q ^ 2) by (intros p q N; pose proof (pow2_ge_0 p); pose proof (pow2_ge_0 q); destruct (Req_dec (p ^ 2 + q ^ 2) 0) as [Z|Z]; [exfalso; apply N; f_equal; nra|lra]).
  apply NZ in Na. apply NZ in Nd. clear NZ. set (p := x * u + y * v). set (q := x * v - y * u).
  destruct (arctan2d_points q p) as [P1 P2]. exists (PI * arctan2d q p / 180). set (th := PI * arctan2d q p / 180) in *.
  assert (I : p ^ 2 + q ^ 2 = (x ^ 2 + y ^ 2) * (u ^ 2 + v ^ 2)) by (unfold p, q; ring).
  set (n := sqrt (p ^ 2 + q ^ 2)) in *. assert (Hn : 0 < n) by (apply sqrt_lt_R0; rewrite I; now apply Rmult_lt_0_compat).
  exists (n / (x ^ 2 + y ^ 2)). split; [now apply Rdiv_lt_0_compat|]. cbn [fst snd].
  assert (E1 : n * cos th = p) by lra. assert (E2 : n * sin th = q) by lra.
  f_equal.
  - replace (n / (x ^ 2 + y ^ 2) * (cos th * x - sin th * y)) with ((n * cos th * x - n * sin th * y) / (x ^ 2 + y ^ 2)) by (field; lra). rewrite E1, E2. unfold p, q. field. lra.
  - replace (n / (x ^ 2 + y ^ 2) * (sin th * x + cos th * y)) with ((n * sin th * x + n * cos th * y) / (x ^ 2 + y ^ 2)) by (field; lra). rewrite E1, E2. unfold p, q. field. lra.
Qed.

(** *** the zenith *)
Lemma cot_bound a : 60 <= a <= 90 -> 0 <= cosdeg a / sindeg a <= 1 /\ 0 < sindeg a.
Proof.
  intros H. assert (E : a = D2R * a * R2D) by (pose proof D2R_R2D; replace (D2R * a * R2D) with (D2R * R2D * a) by ring; rewrite H0; ring).
  assert (S : 0.8 <= sindeg a). { unfold sindeg. assert (sin (PI / 3) <= sin (D2R * a)) by (unfold D2R; apply sin_incr_1; pose proof PI_RGT_0; nra). assert (0.8 <= sin (PI / 3)) by interval. lra. }
  assert (C : 0 <= cosdeg a). { unfold cosdeg, D2R. apply cos_ge_0; pose proof PI_RGT_0; nra. }
  assert (C1 : cosdeg a <= 0.8). { pose proof (sincosd_one a). nra. }
  split; [|lra]. split; [apply Rmult_le_pos; [lra|left; apply Rinv_0_lt_compat; lra]|]. apply (Rmult_le_reg_r (sindeg a)); [lra|]. unfold Rdiv. rewrite Rmult_assoc, Rinv_l by lra. lra.
Qed.
Lemma undo_high alt : 70 <= alt <= 90 -> exists b, undo_refraction alt = Ok b /\ 69 <= b <= 90 /\ (alt < 90 -> b < 90) /\ (alt = 90 -> b = 90).
Proof.
  intros H. set (K := REFRACTION_AT_30DEG_ELEVATION / 3600 * (sindeg 30 / cosdeg 30)). assert (HK : 0 < K < 0.02) by (unfold K, REFRACTION_AT_30DEG_ELEVATION, sindeg, cosdeg, D2R; split; interval).
  assert (A : forall a, 60 <= a <= 90 -> exists d, apply_refraction a = Ok (a + d) /\ 0 <= d <= 0.02 /\ (a = 90 -> d = 0)).
  { intros a Ha. destruct (cot_bound a Ha) as [B S]. exists (K * (cosdeg a / sindeg a)). unfold apply_refraction. assert (Reqb (sindeg a) 0 = false) as -> by (apply Reqb_false; lra). split; [reflexivity|]. split; [nra|]. intros ->. rewrite cosd90. unfold Rdiv. ring. }
  destruct (A alt ltac:(lra)) as (d & E1 & D1 & Z1). destruct (A (alt - d) ltac:(lra)) as (d2 & E2 & D2 & Z2).
  exists (alt - d2). unfold undo_refraction. rewrite E1. cbn [rbind]. cbv zeta. replace (alt - (alt + d - alt - 0)) with (alt - d) by ring. rewrite E2. cbn [rbind]. split; [f_equal; ring|]. split; [lra|]. split; [lra|]. intros ->. rewrite Z1 in * by reflexivity. rewrite Z2 by lra. lra.
Qed.
Definition plain_options : options := {| precession := false; aberration := false; polar_misalignment := false; hardcoded_polmis := false |}.
Lemma horizon_zenith : horizon_map (0, 0, 1) = unit_vector 0 LATITUDE.
Proof. rewrite <- getXYZ_unit. unfold getXYZ, horizon_map. rewrite cosd0, sind0. apply triple_eq; ring. Qed.
Lemma lat_range : -90 < LATITUDE < 90.
Proof. unfold LATITUDE. lra. Qed.
Lemma to_zenith az : altaz2hadec 90 az = (0, LATITUDE).
Proof.
  pose proof (altaz2hadec_direction 90 az) as D. destruct (altaz2hadec 90 az) as [ha dec]. destruct D as (R1 & R2 & D). pose proof lat_range as L.
  assert (Z : unit_vector az 90 = (0, 0, 1)) by (rewrite <- getXYZ_unit; unfold getXYZ; rewrite cosd90, sind90; apply triple_eq; ring). rewrite Z, horizon_zenith in D.
  assert (dec = LATITUDE) by (apply (unit_vector_lat ha dec 0 LATITUDE); [lra|lra|exact D]). subst dec. f_equal.
  destruct (unit_vector_lon ha LATITUDE 0 LATITUDE L ltac:(lra) D) as [k E]. assert (0 <= IZR k < 1) by lra. destruct H as [H1 H2]. apply le_IZR in H1. apply lt_IZR in H2. assert (k = 0%Z) by lia. subst k. lra.
Qed.
Lemma refract_zenith : refract 0 LATITUDE = Ok (0, LATITUDE).
Proof.
  unfold refract. pose proof (hadec2altaz_direction 0 LATITUDE) as D. destruct (hadec2altaz 0 LATITUDE) as [alt az]. destruct D as (R1 & _ & C & D).
  rewrite <- horizon_zenith, horizon_map_involutive in D. rewrite <- getXYZ_unit in D. unfold getXYZ in D. pose proof (f_equal snd D) as S. cbn [snd] in S.
  assert (alt = 90). { destruct (altitude_range alt R1 C) as [H|H]; [|exfalso; assert (sindeg alt <= 0) by (unfold sindeg, D2R; apply sin_le_0; pose proof PI_RGT_0; nra); lra].
    pose proof (sincosd_one alt). assert (cosdeg alt = 0) by (rewrite S in *; nra). destruct (Req_dec alt 90); [assumption|]. pose proof (cosd_pos alt ltac:(lra)). lra. }
  subst alt. unfold apply_refraction. rewrite sind90, cosd90. assert (Reqb 1 0 = false) as -> by (apply Reqb_false; lra). cbn [rbind].
  replace (90 + REFRACTION_AT_30DEG_ELEVATION / 3600 * (sindeg 30 / cosdeg 30) * (0 / 1)) with 90 by (unfold Rdiv; ring). now rewrite to_zenith.
Qed.
Lemma zenith_point lst mjd hexrot x y : x ^ 2 + y ^ 2 <= 1 / 10 -> exists ra dec, tan2radec plain_options x y lst LATITUDE mjd lst hexrot = Ok (ra, dec) /\ ((x, y) = (0, 0) -> (ra, dec) = (lst, LATITUDE)) /\
  exists k, 0 < k /\ Spec.Fiberassign.sky_offset (lst, LATITUDE) (ra, dec) = (k * (cosdeg hexrot * x + sindeg hexrot * y), k * (- sindeg hexrot * x + cosdeg hexrot * y)).
Proof.
  intros H. unfold tan2radec, to_mount, plain_options. cbn [precession aberration polar_misalignment]. replace (lst - lst) with 0 by ring. rewrite refract_zenith. cbn [rbind].
  set (X := cosdeg hexrot * x + sindeg hexrot * y). set (Y := - sindeg hexrot * x + cosdeg hexrot * y).
  assert (N : X ^ 2 + Y ^ 2 = x ^ 2 + y ^ 2) by (unfold X, Y; transitivity ((sindeg hexrot * sindeg hexrot + cosdeg hexrot * cosdeg hexrot) * (x ^ 2 + y ^ 2)); [ring|rewrite sincosd_one; ring]).
  destruct (xy2hadec_combo X Y 0 LATITUDE ltac:(lra)) as (ha & dec & -> & _ & _ & D). cbn [rbind].
  set (z := sqrt (1 - X ^ 2 - Y ^ 2)) in *. assert (Z : z * z = 1 - X ^ 2 - Y ^ 2) by (apply sqrt_sqrt; lra). assert (Z0 : 0 <= z) by apply sqrt_pos. assert (Z1 : 0.94 < z) by nra.
  assert (HC : horizon_map (combo 0 LATITUDE X Y z) = (Y, - X, z)).
  { unfold combo. rewrite east, north, cosd0, sind0. rewrite <- getXYZ_unit. unfold getXYZ. rewrite cosd0, sind0. unfold plus, times, horizon_map. pose proof (sincosd_one LATITUDE) as U. apply triple_eq.
    - transitivity (Y * (sindeg LATITUDE * sindeg LATITUDE + cosdeg LATITUDE * cosdeg LATITUDE)); [ring|rewrite U; ring].
    - ring.
    - transitivity (z * (sindeg LATITUDE * sindeg LATITUDE + cosdeg LATITUDE * cosdeg LATITUDE)); [ring|rewrite U; ring]. }
  pose proof (hadec2altaz_direction ha dec) as A. destruct (hadec2altaz ha dec) as [alt az]. destruct A as (R1 & _ & C & A). rewrite D, HC in A. rewrite <- getXYZ_unit in A. unfold getXYZ in A.
  pose proof (f_equal (fun v => fst (fst v)) A) as A1. pose proof (f_equal (fun v => snd (fst v)) A) as A2. pose proof (f_equal snd A) as A3. cbn [fst snd] in A1, A2, A3. clear A.
  assert (Ha : 70 <= alt <= 90).
  { destruct (altitude_range alt R1 C) as [I|I]; [|exfalso; assert (sindeg alt <= 0) by (unfold sindeg, D2R; apply sin_le_0; pose proof PI_RGT_0; nra); lra].
    split; [|lra]. destruct (Rle_dec 70 alt) as [L|L]; [exact L|]. exfalso. assert (sindeg alt <= sin (PI * 70 / 180)) by (unfold sindeg, D2R; apply sin_incr_1; pose proof PI_RGT_0; nra). assert (sin (PI * 70 / 180) <= 0.9398) by interval. lra. }
  destruct (undo_high alt Ha) as (b & -> & Hb & Lb & Eb). cbn [rbind]. pose proof (altaz2hadec_direction b az) as Q.
  assert (Z90 : alt = 90 -> altaz2hadec b az = (0, LATITUDE)) by (intros E; rewrite (Eb E); apply to_zenith).
  destruct (altaz2hadec b az) as [ha' dec'] eqn:E'. destruct Q as (_ & _ & Q). exists (lst - ha'), dec'. split; [reflexivity|].
  assert (OFF : Spec.Fiberassign.sky_offset (lst, LATITUDE) (lst - ha', dec') = (- (sindeg az * cosdeg b), cosdeg az * cosdeg b)).
  { rewrite <- (offset_lst lst). cbn [fst snd]. replace (lst - (lst - ha')) with ha' by ring. replace (lst - lst) with 0 by ring. rewrite hadec2xy_components, Q, <- getXYZ_unit. unfold getXYZ. rewrite east, north, cosd0, sind0. unfold horizon_map, inner. pose proof (sincosd_one LATITUDE) as U. f_equal.
    - ring.
    - transitivity (cosdeg az * cosdeg b * (sindeg LATITUDE * sindeg LATITUDE + cosdeg LATITUDE * cosdeg LATITUDE)); [ring|rewrite U; ring]. }
  destruct (Req_dec alt 90) as [E90|N90].
  - specialize (Z90 E90). injection Z90 as -> ->. replace (lst - 0) with lst in * by ring. split; [reflexivity|]. exists 1. split; [lra|]. subst alt. rewrite (Eb eq_refl) in OFF. rewrite OFF. rewrite <- A1. replace X with (- (sindeg az * cosdeg 90)) by lra. f_equal; ring.
  - assert (Cp : 0 < cosdeg alt) by (apply cosd_pos; lra). assert (Cb : 0 < cosdeg b) by (apply cosd_pos; specialize (Lb ltac:(lra)); lra). split.
    + intros E. injection E as -> ->. exfalso. unfold X, Y in *. assert (z = 1) by nra. pose proof (sincosd_one alt). nra.
    + exists (cosdeg b / cosdeg alt). split; [now apply Rdiv_lt_0_compat|]. rewrite OFF. fold X Y. rewrite <- A1. replace X with (- (sindeg az * cosdeg alt)) by lra. f_equal; field; lra.
Qed.
