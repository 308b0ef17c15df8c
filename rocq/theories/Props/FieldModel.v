(** Tangent plane corrections and the field rotation rate (C40, C41, C72). *)
From Verif.Model Require Import FieldModel.
From Verif.Spec Require Import Trig Sphere LinAlg SimpleCorr TanPlane.
From Verif.Proofs Require Import RealNum Trig Sphere LinAlg SimpleCorr Radec2tan FieldModel.
From Coq Require Import Lra Lia.
Local Open Scope R_scope.

(** *** C40: the corrections of a FieldModel *)
(** A point of the unit disk stands for a direction; a correction looks at it from another pointing, rotates and stretches. *)
Theorem C40_apply t x y :
  (1 < x ^ 2 + y ^ 2 -> tan_apply t (x, y) = Err NonFinite) /\
  (x ^ 2 + y ^ 2 <= 1 -> exists u v, tan_apply t (x, y) = Ok (u, v) /\
    let '(a, b) := seen_from (t_dha t, t_ddec t) (x, y) in
    let c := cos (PI * t_rot_deg t / 180) in let s := sin (PI * t_rot_deg t / 180) in
    u = t_sxx t * (c * a - s * b) + t_sxy t * (s * a + c * b) /\ v = t_sxy t * (c * a - s * b) + t_syy t * (s * a + c * b)).
Proof.
  rewrite tan_apply_seen. cbn [fst snd]. split; intros H.
  - assert (Rltb (1 - x ^ 2 - y ^ 2) 0 = true) as -> by (apply Rltb_true; lra). reflexivity.
  - assert (Rltb (1 - x ^ 2 - y ^ 2) 0 = false) as -> by (apply Rltb_false; lra). destruct (seen_from _ _) as [a b].
    eexists _, _. split; [unfold mat2, rot2deg; cbn [fst snd]; reflexivity|]. unfold cosdeg, sindeg. rewrite !deg_rad. split; ring.
Qed.
Print Assumptions C40_apply.
Theorem C40_field_inverse f p q : f_sxx f * f_syy f <> f_sxy f ^ 2 -> in_disk p -> in_disk q ->
  (tancorr_inst2sky f p = Ok q <-> tancorr_sky2inst f q = Ok p).
Proof.
  intros D Hp Hq. unfold tancorr_inst2sky, tancorr_sky2inst. rewrite tan_apply_seen, tan_apply_inverse_seen by exact D. unfold in_disk in *.
  assert (Rltb (1 - fst p ^ 2 - snd p ^ 2) 0 = false) as -> by (apply Rltb_false; lra). assert (Rltb (1 - fst q ^ 2 - snd q ^ 2) 0 = false) as -> by (apply Rltb_false; lra).
  cbn [field_corr t_sxx t_sxy t_syy t_rot_deg t_dha t_ddec]. rewrite !seen_from_0. cbv zeta.
  pose (c := {| c_dx := 0; c_dy := 0; c_sxx := f_sxx f; c_syy := f_syy f; c_sxy := f_sxy f; c_rot_deg := f_fieldrot_zp_deg f; c_nmatch := 0; c_rms := 0 |}).
  assert (Z : forall v : point, (fst v + 0, snd v + 0) = v /\ (fst v - 0, snd v - 0) = v) by (intros [a b]; cbn; split; f_equal; ring).
  assert (A : mat2 (f_sxx f) (f_sxy f) (f_sxy f) (f_syy f) (rot2deg (f_fieldrot_zp_deg f) p) = corr_apply c p) by (unfold corr_apply; cbn [c c_sxx c_sxy c_syy c_rot_deg c_dx c_dy]; symmetry; apply Z).
  set (back := Ok (rot2deg _ _)). assert (B : back = corr_apply_inverse c q).
  { unfold corr_apply_inverse. cbn [c c_sxx c_sxy c_syy c_rot_deg c_dx c_dy]. assert (Reqb (f_sxx f * f_syy f - f_sxy f ^ 2) 0 = false) as -> by (apply Reqb_false; lra). unfold back. rewrite (proj2 (Z q)). reflexivity. }
  rewrite A, B. split; intros E.
  - injection E as <-. now apply apply_inverse_apply.
  - f_equal. eapply apply_apply_inverse. exact E.
Qed.
Print Assumptions C40_field_inverse.
(** A fitted correction with an offset in pointing is not undone: the inverse moves the pointing the same way again. *)
Theorem C40_offset_refuted : exists t p q p', t_sxx t * t_syy t <> t_sxy t ^ 2 /\ in_disk p /\ tan_apply t p = Ok q /\ in_disk q /\ tan_apply_inverse t q = Ok p' /\ p' <> p.
Proof.
  pose (t := {| t_dha := 10; t_ddec := 0; t_sxx := 1; t_syy := 1; t_sxy := 0; t_rot_deg := 0; t_nstars := 0; t_rms_arcsec := 0 |}).
  assert (D : t_sxx t * t_syy t <> t_sxy t ^ 2) by (cbn; lra). assert (P0 : in_disk (0, 0)) by (unfold in_disk; cbn; lra).
  assert (S1 : forall x y, in_disk (x, y) -> seen_from (10, 0) (x, y) = (cosdeg 10 * x - sindeg 10 * sqrt (1 - x ^ 2 - y ^ 2), y)).
  { intros x y _. unfold seen_from. cbn [fst snd]. rewrite east, north, cosd0, sind0. unfold direction. cbn [fst snd inner]. f_equal; ring. }
  assert (SP : 0 < sindeg 10) by (unfold sindeg, D2R; apply sin_gt_0; pose proof PI_RGT_0; lra).
  assert (CP : 0 < cosdeg 10) by (apply cosd_pos; lra). pose proof (sincosd_one 10) as SC.
  pose (q := (- sindeg 10, 0)). assert (Q : in_disk q) by (unfold in_disk; cbn [q fst snd]; nra).
  assert (SQ : sqrt (1 - (- sindeg 10) ^ 2 - 0 ^ 2) = cosdeg 10) by (replace (1 - (- sindeg 10) ^ 2 - 0 ^ 2) with (cosdeg 10 * cosdeg 10) by lra; apply sqrt_square; lra).
  exists t, (0, 0), q, (- 2 * (sindeg 10 * cosdeg 10), 0). split; [exact D|]. split; [exact P0|]. split; [|split; [exact Q|split]].
  - rewrite tan_apply_seen. cbn [t t_sxx t_sxy t_syy t_rot_deg t_dha t_ddec]. rewrite S1 by exact P0. cbn [fst snd]. assert (Rltb (1 - 0 ^ 2 - 0 ^ 2) 0 = false) as -> by (apply Rltb_false; lra).
    replace (1 - 0 ^ 2 - 0 ^ 2) with 1 by ring. rewrite sqrt_1. unfold mat2, rot2deg, q. cbn [fst snd]. rewrite cosd0, sind0. f_equal. f_equal; ring.
  - rewrite tan_apply_inverse_seen by exact D. unfold q. cbn [t t_sxx t_sxy t_syy t_rot_deg t_dha t_ddec]. rewrite S1 by exact Q. cbn [fst snd]. rewrite SQ. assert (Rltb (1 - (- sindeg 10) ^ 2 - 0 ^ 2) 0 = false) as -> by (apply Rltb_false; nra).
    unfold mat2, rot2deg. cbn [fst snd]. rewrite Ropp_0, cosd0, sind0. f_equal. f_equal; field.
  - intros E. injection E as E. nra.
Qed.
Print Assumptions C40_offset_refuted.
Example C40_example : let f := {| f_sxx := 2; f_syy := 1; f_sxy := 0; f_fieldrot_zp_deg := 90 |} in
  tancorr_inst2sky f (0, 0.1) = Ok (-0.2, 0) /\ tancorr_sky2inst f (-0.2, 0) = Ok (0, 0.1).
Proof.
  cbv zeta. set (f := {| f_sxx := 2 |}). assert (A : tancorr_inst2sky f (0, 0.1) = Ok (-0.2, 0)).
  { unfold tancorr_inst2sky. rewrite tan_apply_seen. cbn [f field_corr t_sxx t_sxy t_syy t_rot_deg t_dha t_ddec f_sxx f_syy f_sxy f_fieldrot_zp_deg fst snd]. rewrite seen_from_0.
    assert (Rltb (1 - 0 ^ 2 - 0.1 ^ 2) 0 = false) as -> by (apply Rltb_false; lra). unfold mat2, rot2deg. cbn [fst snd]. rewrite cosd90, sind90. f_equal. f_equal; lra. }
  split; [exact A|]. apply C40_field_inverse; [cbn; lra|unfold in_disk; cbn; lra|unfold in_disk; cbn; lra|exact A].
Qed.

(** *** C41: field rotation rate *)
Theorem C41_range ra dec lst : (90 < Rabs dec -> dfieldrotdt_empirical_model ra dec lst = Err ValueError) /\
  (Rabs dec <= 90 -> exists rate, dfieldrotdt_empirical_model ra dec lst = Ok rate /\ -1.5 <= rate <= 1.5).
Proof.
  unfold dfieldrotdt_empirical_model. split; intros H.
  - assert (Rltb 90 (Rabs dec) = true) as -> by (apply Rltb_true; lra). reflexivity.
  - assert (Rltb 90 (Rabs dec) = false) as -> by (apply Rltb_false; lra). eexists. split; [reflexivity|]. cbv zeta.
    set (r := _ - 0.043 * _). clearbody r. destruct (Rltb r (-1.5)) eqn:E1; [apply Rltb_true in E1|apply Rltb_false in E1].
    + assert (Rltb 1.5 (-1.5) = false) as -> by (apply Rltb_false; lra). lra.
    + destruct (Rltb 1.5 r) eqn:E2; [lra|]. apply Rltb_false in E2. lra.
Qed.
Print Assumptions C41_range.
(** The hour angle between -180 (excluded) and 180, and the saturated polynomial in it and in dec. *)
Theorem C41_value ra dec lst ha : Rabs dec <= 90 -> same_angle ha (lst - ra) -> -180 < ha <= 180 ->
  dfieldrotdt_empirical_model ra dec lst = Ok (Rmax (-1.5) (Rmin 1.5
    (let x := ha / 60 in let y := (dec - 30) / 30 in
     -0.447 + 0.065 * x - 0.067 * y + 0.382 * x ^ 2 + 0.021 * x * y - 0.121 * y ^ 2 - 0.031 * x ^ 3 + 0.196 * x ^ 2 * y + 0.096 * x * y ^ 2 - 0.043 * y ^ 3))).
Proof.
  intros H S Hh. unfold dfieldrotdt_empirical_model. assert (Rltb 90 (Rabs dec) = false) as -> by (apply Rltb_false; lra). cbv zeta.
  assert (E : (if Rltb 180 (pymod (lst - ra) 360) then pymod (lst - ra) 360 - 360 else pymod (lst - ra) 360) = ha).
  { destruct S as [k ->]. set (d := lst - ra) in *. destruct (Rle_dec 0 (d + 360 * IZR k)) as [P|P].
    - assert (pymod d 360 = d + 360 * IZR k) as -> by (rewrite <- (pymod_add d 360 k) by lra; apply pymod_id; lra).
      destruct (Rltb 180 _) eqn:E; [apply Rltb_true in E; lra|reflexivity].
    - assert (pymod d 360 = d + 360 * IZR (k + 1)) as -> by (rewrite <- (pymod_add d 360 (k + 1)) by lra; apply pymod_id; rewrite plus_IZR; lra).
      rewrite plus_IZR. destruct (Rltb 180 _) eqn:E; [lra|apply Rltb_false in E; lra]. }
  rewrite E. set (r := _ - 0.043 * _). clearbody r. f_equal. unfold Rmax, Rmin.
  destruct (Rltb r (-1.5)) eqn:E1; [apply Rltb_true in E1|apply Rltb_false in E1].
  - assert (Rltb 1.5 (-1.5) = false) as -> by (apply Rltb_false; lra). repeat destruct (Rle_dec _ _); lra.
  - destruct (Rltb 1.5 r) eqn:E2; [apply Rltb_true in E2|apply Rltb_false in E2]; repeat destruct (Rle_dec _ _); lra.
Qed.
Print Assumptions C41_value.
Theorem C41_periodic ra dec lst ra' lst' : same_angle ra ra' -> same_angle lst lst' ->
  dfieldrotdt_empirical_model ra dec lst = dfieldrotdt_empirical_model ra' dec lst'.
Proof.
  intros [k ->] [j ->]. unfold dfieldrotdt_empirical_model. replace (lst' + 360 * IZR j - (ra' + 360 * IZR k)) with (lst' - ra' + 360 * IZR (j - k)) by (rewrite minus_IZR; ring).
  rewrite pymod_add by lra. reflexivity.
Qed.
Print Assumptions C41_periodic.
(** The rate depends on the hour angle only. *)
Theorem C41_hour_angle ra dec lst d : dfieldrotdt_empirical_model (ra + d) dec (lst + d) = dfieldrotdt_empirical_model ra dec lst.
Proof. unfold dfieldrotdt_empirical_model. replace (lst + d - (ra + d)) with (lst - ra) by ring. reflexivity. Qed.
Print Assumptions C41_hour_angle.
Example C41_example : dfieldrotdt_empirical_model 350 30 50 = Ok (-0.031) /\ dfieldrotdt_empirical_model 0 91 0 = Err ValueError.
Proof.
  split.
  - rewrite (C41_value 350 30 50 60); [|rewrite Rabs_right; lra|exists 1%Z; lra|lra]. cbv zeta. f_equal. unfold Rmax, Rmin. repeat destruct (Rle_dec _ _); lra.
  - apply C41_range. rewrite Rabs_right; lra.
Qed.

(** *** C72: fit of a tangent plane correction *)
Theorem C72_fit data : data <> [] -> Forall (fun d => in_disk (fst d)) data ->
  exists o : nat -> R * R, o 0%nat = (0, 0) /\ (forall k, (k < 4)%nat -> pointing_step data (o k) (o (S k))) /\
  let src := sources_from (o 4%nat) data in let fit := tan_fit (xs1 data) (ys1 data) (xs2 data) (ys2 data) in
  (~ not_collinear src -> fit = Err LinAlgError) /\
  (not_collinear src -> exists ax ay, least_squares 3 (x_samples src) ax /\ least_squares 3 (y_samples src) ay /\
    (nth 1 ax 0 + nth 2 ay 0 = 0 \/ nth 1 ay 0 = nth 2 ax 0 -> fit = Err NonFinite) /\
    (nth 1 ax 0 + nth 2 ay 0 <> 0 -> nth 1 ay 0 <> nth 2 ax 0 -> exists t, fit = Ok t /\
      t_dha t = fst (o 4%nat) - 180 / PI * nth 0 ax 0 /\ t_ddec t = snd (o 4%nat) - 180 / PI * nth 0 ay 0 /\
      (forall p, let '(u, v) := mat2 (t_sxx t) (t_sxy t) (t_sxy t) (t_syy t) (rot2deg (t_rot_deg t) p) in (nth 0 ax 0 + u, nth 0 ay 0 + v) = affine ax ay p) /\ 0 < t_sxx t + t_syy t /\ 0 <= t_rot_deg t < 360 /\
      t_nstars t = length data /\ t_rms_arcsec t = 180 / PI * 3600 * sqrt (misfit (affine ax ay) src / INR (length data)))).
Proof.
  intros ND HD. destruct (hd_seen data HD) as (hd & Eh & Lh & P). destruct (pointing_steps data hd ND P 4 (0, 0)) as (o & O0 & St & Ep). exists o. split; [exact O0|]. split; [exact St|]. cbv zeta.
  set (src := sources_from (o 4%nat) data). destruct (xs_sources (o 4%nat) data) as (X1 & Y1 & X2 & Y2). fold src in X1, Y1, X2, Y2.
  assert (F : tan_fit (xs1 data) (ys1 data) (xs2 data) (ys2 data) =
    let H := [repeat 1 (length (xs1 src)); xs1 src; ys1 src] in
    rbind (linalg_solve (gram H) (matvec H (map (fun d => fst (snd d)) src))) (fun ax =>
    rbind (linalg_solve (gram H) (matvec H (map (fun d => snd (snd d)) src))) (fun ay =>
    rbind (tan_decompose (nth 1 ax 0) (nth 2 ax 0) (nth 1 ay 0) (nth 2 ay 0)) (fun '(sxx, syy, sxy, rot) =>
    Ok {| t_dha := fst (o 4%nat) + - rad2deg (nth 0 ax 0); t_ddec := snd (o 4%nat) + - rad2deg (nth 0 ay 0); t_sxx := sxx; t_syy := syy; t_sxy := sxy;
          t_rot_deg := rot; t_nstars := length (xs1 src); t_rms_arcsec := rad2deg (fit_rms ax ay (xs1 src) (ys1 src) (xs2 src) (ys2 src)) * 3600 |})))).
  { unfold tan_fit. rewrite shapes_data. cbn [negb]. assert (Nat.eqb (length (xs1 data)) 0 = false) as -> by (apply Nat.eqb_neq; unfold xs1; rewrite map_length; destruct data; [contradiction|discriminate]).
    rewrite Eh. cbn [rbind]. change (fst (0, 0)) with 0 in Ep. change (snd (0, 0)) with 0 in Ep. rewrite Ep. cbn [rbind]. rewrite (surjective_pairing (o 4%nat)) at 1. rewrite P, X1, Y1, X2, Y2. reflexivity. }
  assert (L : length (xs1 src) = length data) by (unfold xs1, src, sources_from; now rewrite !map_length). assert (L' : length src = length data) by (unfold src, sources_from; now rewrite map_length).
  rewrite F. cbv zeta. split; intros N.
  - rewrite solve_collinear by exact N. reflexivity.
  - rewrite !normal_x. destruct (fit_solution src (fun d => fst (snd d)) N) as (ax & -> & Lx). destruct (fit_solution src (fun d => snd (snd d)) N) as (ay & -> & Ly). cbn [rbind].
    exists ax, ay. split; [exact Lx|]. split; [exact Ly|]. pose proof (tan_decompose_spec (nth 1 ax 0) (nth 2 ax 0) (nth 1 ay 0) (nth 2 ay 0)) as D.
    destruct (tan_decompose _ _ _ _) as [[[[sxx syy] sxy] r]|e]; cbn [rbind].
    + destruct D as (D1 & D2 & D3 & D4 & D5). split; [tauto|]. intros _ _. eexists. split; [reflexivity|]. cbn [t_dha t_ddec t_sxx t_sxy t_syy t_rot_deg t_nstars t_rms_arcsec].
      split; [unfold rad2deg; ring|]. split; [unfold rad2deg; ring|]. split; [|split; [exact D4|split; [exact D5|split; [exact L|]]]].
      * intros p. rewrite D3, affine_predict by (apply Lx || apply Ly). reflexivity.
      * rewrite fit_rms_misfit, L' by (apply Lx || apply Ly). unfold rad2deg. ring.
    + destruct D as [-> D]. split; [reflexivity|]. intros ? ?. tauto.
Qed.
Print Assumptions C72_fit.
Theorem C72_refused :
  (forall x1 y1 x2 y2, ~ (length x1 = length y1 /\ length x1 = length x2 /\ length x1 = length y2) -> tan_fit x1 y1 x2 y2 = Err AssertionError) /\
  tan_fit [] [] [] [] = Err LinAlgError /\
  (forall data, Exists (fun d => ~ in_disk (fst d)) data -> tan_fit (xs1 data) (ys1 data) (xs2 data) (ys2 data) = Err NonFinite).
Proof.
  split; [|split; [reflexivity|]].
  - intros x1 y1 x2 y2 H. unfold tan_fit, same_shapes. destruct (Nat.eqb_spec (length x1) (length y1)), (Nat.eqb_spec (length x2) (length y2)), (Nat.eqb_spec (length x1) (length x2)); try reflexivity. exfalso. apply H. lia.
  - intros data H. unfold tan_fit. rewrite shapes_data. cbn [negb]. assert (Nat.eqb (length (xs1 data)) 0 = false) as -> by (apply Nat.eqb_neq; unfold xs1; rewrite map_length; destruct data; [inversion H|discriminate]).
    rewrite hd_outside by exact H. reflexivity.
Qed.
Print Assumptions C72_refused.
(** Stars found exactly where they are expected do not give the identity but values that are not numbers. *)
Theorem C72_identity_refuted pts : Forall in_disk pts -> not_collinear (map (fun p => (p, p)) pts) ->
  tan_fit (map fst pts) (map snd pts) (map fst pts) (map snd pts) = Err NonFinite.
Proof.
  intros HD N. set (data := map (fun p => (p, p)) pts) in *. assert (ND : data <> []).
  { intros E. rewrite E in N. destruct (N 1 0 0) as (? & _); [intros d []|lra]. }
  assert (HD' : Forall (fun d => in_disk (fst d)) data) by (unfold data; rewrite Forall_map; exact HD).
  destruct (C72_fit data ND HD') as (o & O0 & St & _ & F). 
  assert (St0 : forall k, (k <= 4)%nat -> o k = (0, 0)).
  { induction k as [|k IH]; intros Hk; [exact O0|]. specialize (IH ltac:(lia)). destruct (St k ltac:(lia)) as [A B]. rewrite IH in A, B. cbn [fst snd] in A, B.
    assert (Z : forall f : R * R -> R, average (map (fun d : (R * R) * (R * R) => f (snd d) - f (seen_from (0, 0) (fst d))) data) = 0).
    { intros f. unfold average, data. rewrite map_map. cbn [fst snd]. assert (Y : fold_right Rplus 0 (map (fun p => f p - f (seen_from (0, 0) p)) pts) = 0); [|rewrite Y; unfold Rdiv; ring].
      clear. induction pts as [|p l IH]; cbn; [reflexivity|]. rewrite IH, seen_from_0. ring. }
    rewrite (Z fst) in A. rewrite (Z snd) in B. rewrite (surjective_pairing (o (S k))), A, B. f_equal; ring. }
  assert (S4 : sources_from (o 4%nat) data = data) by (rewrite St0 by lia; unfold sources_from; rewrite <- (map_id data) at 2; apply map_ext; intros [p q]; cbn; now rewrite seen_from_0).
  rewrite S4 in F. destruct (F N) as (ax & ay & Lx & Ly & F1 & _).
  assert (Ex : ax = [0; 1; 0]). { apply (least_squares_exact 3 (x_samples data)); [exact Lx|reflexivity|]. intros s Hs. unfold x_samples, data in Hs. rewrite map_map in Hs. apply in_map_iff in Hs as (p & <- & _). cbn. ring. }
  assert (Ey : ay = [0; 0; 1]). { apply (least_squares_exact 3 (y_samples data)); [exact Ly|reflexivity|]. intros s Hs. unfold y_samples, data in Hs. rewrite map_map in Hs. apply in_map_iff in Hs as (p & <- & _). cbn. ring. }
  subst ax ay. assert (M : forall f : R * R -> R, map f pts = map (fun d => f (fst d)) data /\ map f pts = map (fun d => f (snd d)) data) by (intros f; unfold data; rewrite !map_map; split; reflexivity).
  replace (tan_fit (map fst pts) (map snd pts) (map fst pts) (map snd pts)) with (tan_fit (xs1 data) (ys1 data) (xs2 data) (ys2 data)); [apply F1; cbn; lra|].
  unfold xs1, ys1, xs2, ys2. f_equal; symmetry; apply M.
Qed.
Print Assumptions C72_identity_refuted.
Example C72_example : exists t, tan_fit [0.1; -0.1; 0; 0] [0; 0; 0.1; -0.1] [0.08; -0.08; -0.06; 0.06] [0.06; -0.06; 0.08; -0.08] = Ok t /\
  t_dha t = 0 /\ t_ddec t = 0 /\ t_nstars t = 4%nat /\ t_rms_arcsec t = 0.
Proof.
  pose (data := [((0.1, 0), (0.08, 0.06)); ((-0.1, 0), (-0.08, -0.06)); ((0, 0.1), (-0.06, 0.08)); ((0, -0.1), (0.06, -0.08))]).
  destruct (C72_fit data) as (o & O0 & St & _ & F); [discriminate|repeat constructor; unfold in_disk; cbn; lra|].
  assert (St0 : forall k, (k <= 4)%nat -> o k = (0, 0)).
  { induction k as [|k IH]; intros Hk; [exact O0|]. specialize (IH ltac:(lia)). destruct (St k ltac:(lia)) as [A B]. rewrite IH in A, B.
    unfold data, average in A, B. cbn [map fst snd] in A, B. rewrite !seen_from_0 in A, B. cbn [fold_right fst snd length] in A, B.
    rewrite (surjective_pairing (o (S k))), A, B. f_equal; lra. }
  assert (S4 : sources_from (o 4%nat) data = data) by (rewrite St0 by lia; unfold sources_from; rewrite <- (map_id data) at 2; apply map_ext; intros [p q]; cbn; now rewrite seen_from_0).
  rewrite S4 in F. destruct F as (ax & ay & Lx & Ly & _ & F).
  { intros a b c H. pose proof (H _ (or_introl eq_refl)) as H1. pose proof (H _ (or_intror (or_introl eq_refl))) as H2. pose proof (H _ (or_intror (or_intror (or_introl eq_refl)))) as H3. cbn in H1, H2, H3. lra. }
  assert (Ex : ax = [0; 0.8; -0.6]). { apply (least_squares_exact 3 (x_samples data)); [exact Lx|reflexivity|]. intros s [<-|[<-|[<-|[<-|[]]]]]; cbn; lra. }
  assert (Ey : ay = [0; 0.6; 0.8]). { apply (least_squares_exact 3 (y_samples data)); [exact Ly|reflexivity|]. intros s [<-|[<-|[<-|[<-|[]]]]]; cbn; lra. }
  subst ax ay. destruct F as (t & E & F1 & F2 & _ & _ & _ & F3 & F4); [cbn; lra|cbn; lra|]. exists t. split; [exact E|]. rewrite F1, F2, F4, St0 by lia. cbn [fst snd nth]. split; [ring|]. split; [ring|]. split; [exact F3|].
  assert (misfit (affine [0; 0.8; -0.6] [0; 0.6; 0.8]) data = 0) as -> by (unfold misfit, affine, data; cbn [map fst snd fold_right combination]; lra).
  unfold Rdiv. rewrite Rmult_0_l, sqrt_0. ring.
Qed.
