(** C25 to C27: linear corrections and their fits. *)
From Verif.Model Require Import SimpleCorr.
From Verif.Spec Require Import LinAlg Trig SimpleCorr.
From Verif.Proofs Require Import Trig RealNum.
From Verif.Proofs Require SimpleCorr RotOff.
From Coq Require Import Lra.
Local Open Scope R_scope.

Theorem C25_apply_inverse_undoes_apply :
  forall c p, c_sxx c * c_syy c <> c_sxy c ^ 2 -> corr_apply_inverse c (corr_apply c p) = Ok p.
Proof. exact SimpleCorr.apply_inverse_apply. Qed.
Print Assumptions C25_apply_inverse_undoes_apply.
Theorem C25_apply_undoes_apply_inverse :
  forall c p, c_sxx c * c_syy c <> c_sxy c ^ 2 -> exists q, corr_apply_inverse c p = Ok q /\ corr_apply c q = p.
Proof. intros c p H. destruct (SimpleCorr.apply_inverse_Ok c p H) as [q E]. exists q. split; [exact E|exact (SimpleCorr.apply_apply_inverse c p q E)]. Qed.
Print Assumptions C25_apply_undoes_apply_inverse.
(** [apply] is the scale matrix times the rotation plus the offset. *)
Theorem C25_apply_formula : forall c x y,
  let q := rigid (c_rot_deg c) 0 0 (x, y) in
  corr_apply c (x, y) = (c_sxx c * fst q + c_sxy c * snd q + c_dx c, c_sxy c * fst q + c_syy c * snd q + c_dy c).
Proof.
  intros c x y. cbv zeta. rewrite RotOff.rigid_similar. unfold corr_apply, RotOff.similar, mat2, rot2deg. cbn [fst snd]. f_equal; ring.
Qed.
Print Assumptions C25_apply_formula.
Example C25_example :
  let c := {| c_dx := 3; c_dy := -1; c_sxx := 2; c_syy := 1; c_sxy := 1/2; c_rot_deg := 30; c_nmatch := 0; c_rms := 0 |} in
  c_sxx c * c_syy c <> c_sxy c ^ 2.
Proof. cbn. lra. Qed.

(** The fit on a data set whose sources are not on a line: [ax], [ay] are the least squares
    affine coefficients; nan when the linear part has trace zero; otherwise [apply] is the least
    squares map exactly when the linear part is not symmetric or the object had a zero rotation
    before. *)
Theorem C26_fit_outcome :
  forall data c, not_collinear data ->
  exists ax ay, least_squares 3 (x_samples data) ax /\ least_squares 3 (y_samples data) ay /\
    (nth 1 ax 0 + nth 2 ay 0 = 0 -> corr_fit c (xs1 data) (ys1 data) (xs2 data) (ys2 data) false = Err NonFinite) /\
    (nth 1 ax 0 + nth 2 ay 0 <> 0 ->
     exists c', corr_fit c (xs1 data) (ys1 data) (xs2 data) (ys2 data) false = Ok c' /\
       ((forall p, corr_apply c' p = affine ax ay p) <-> nth 1 ay 0 <> nth 2 ax 0 \/ same_angle (c_rot_deg c) 0) /\
       c_nmatch c' = length data /\
       c_rms c' = sqrt (misfit (affine ax ay) data / INR (length data))).
Proof. exact SimpleCorr.fit_affine_spec. Qed.
Print Assumptions C26_fit_outcome.
Theorem C26_collinear_sources_fail :
  forall data c, ~ not_collinear data -> corr_fit c (xs1 data) (ys1 data) (xs2 data) (ys2 data) false = Err LinAlgError.
Proof. exact SimpleCorr.fit_collinear. Qed.
Print Assumptions C26_collinear_sources_fail.

(** A new object, trace not zero: the least squares affine map. *)
Theorem C26_new_object :
  forall data ax ay, not_collinear data -> least_squares 3 (x_samples data) ax -> least_squares 3 (y_samples data) ay ->
  nth 1 ax 0 + nth 2 ay 0 <> 0 ->
  exists c', corr_fit simplecorr_init (xs1 data) (ys1 data) (xs2 data) (ys2 data) false = Ok c' /\ forall p, corr_apply c' p = affine ax ay p.
Proof.
  intros data ax ay N Lx Ly T. destruct (SimpleCorr.fit_affine_spec data simplecorr_init N) as (ax' & ay' & Lx' & Ly' & _ & H).
  rewrite (SimpleCorr.least_squares_unique _ _ _ _ Lx' Lx), (SimpleCorr.least_squares_unique _ _ _ _ Ly' Ly) in H.
  destruct (H T) as (c' & E & F & _). exists c'. split; [exact E|]. apply F. right. exists 0%Z. cbn. lra.
Qed.
Print Assumptions C26_new_object.

Definition corners (f : point -> point) : list (point * point) := map (fun p => (p, f p)) [(0, 0); (1, 0); (0, 1)].
Lemma corners_not_collinear f : not_collinear (corners f).
Proof.
  intros a b c H. unfold corners in H. cbn in H.
  pose proof (H _ (or_introl eq_refl)) as H1. pose proof (H _ (or_intror (or_introl eq_refl))) as H2. pose proof (H _ (or_intror (or_intror (or_introl eq_refl)))) as H3.
  cbn in *. lra.
Qed.
Lemma corners_fit ax ay c :
  least_squares 3 (x_samples (corners (affine ax ay))) c -> length ax = 3%nat -> c = ax.
Proof.
  intros L E. eapply SimpleCorr.least_squares_exact; [exact L|exact E|]. intros s Hs. unfold x_samples, corners in Hs. rewrite map_map in Hs. apply in_map_iff in Hs as (p & <- & _). reflexivity.
Qed.
Lemma corners_fit_y ax ay c :
  least_squares 3 (y_samples (corners (affine ax ay))) c -> length ay = 3%nat -> c = ay.
Proof.
  intros L E. eapply SimpleCorr.least_squares_exact; [exact L|exact E|]. intros s Hs. unfold y_samples, corners in Hs. rewrite map_map in Hs. apply in_map_iff in Hs as (p & <- & _). reflexivity.
Qed.

(** "[apply] is the least squares map whatever the object was used for before" is false: fitting
    the identity with an object that holds a rotation keeps that rotation. *)
Theorem C26_used_object_refuted :
  ~ (forall data c ax ay, not_collinear data -> least_squares 3 (x_samples data) ax -> least_squares 3 (y_samples data) ay ->
     nth 1 ax 0 + nth 2 ay 0 <> 0 ->
     exists c', corr_fit c (xs1 data) (ys1 data) (xs2 data) (ys2 data) false = Ok c' /\ forall p, corr_apply c' p = affine ax ay p).
Proof.
  intros H. set (ax := [0; 1; 0]). set (ay := [0; 0; 1]). set (data := corners (affine ax ay)).
  set (c := {| c_dx := 0; c_dy := 0; c_sxx := 1; c_syy := 1; c_sxy := 0; c_rot_deg := 90; c_nmatch := 0; c_rms := 0 |}).
  pose proof (corners_not_collinear (affine ax ay)) as N.
  destruct (SimpleCorr.fit_affine_spec data c N) as (ax' & ay' & Lx & Ly & _ & F).
  assert (ax' = ax) by (eapply corners_fit; [exact Lx|reflexivity]). assert (ay' = ay) by (eapply corners_fit_y; [exact Ly|reflexivity]). subst ax' ay'.
  assert (T : nth 1 ax 0 + nth 2 ay 0 <> 0) by (cbn; lra).
  destruct (F T) as (c' & E & G & _). destruct (H data c ax ay N Lx Ly T) as (c'' & E' & G'). rewrite E in E'. injection E' as <-.
  apply G in G'. cbn in G'. destruct G' as [G'|[k Hk]]; [lra|]. assert (4 * IZR k = 1) by lra. rewrite <- mult_IZR in H0. apply eq_IZR in H0. lia.
Qed.
Print Assumptions C26_used_object_refuted.

(** "The fit gives a finite correction on non-degenerate data" is false, already for an exact
    rotation by 90 degrees. *)
Theorem C26_finite_refuted :
  ~ (forall data, not_collinear data -> exists c', corr_fit simplecorr_init (xs1 data) (ys1 data) (xs2 data) (ys2 data) false = Ok c').
Proof.
  intros H. set (ax := [0; 0; -1]). set (ay := [0; 1; 0]). set (data := corners (affine ax ay)).
  pose proof (corners_not_collinear (affine ax ay)) as N.
  destruct (SimpleCorr.fit_affine_spec data simplecorr_init N) as (ax' & ay' & Lx & Ly & F & _).
  assert (ax' = ax) by (eapply corners_fit; [exact Lx|reflexivity]). assert (ay' = ay) by (eapply corners_fit_y; [exact Ly|reflexivity]). subst ax' ay'.
  destruct (H data N) as [c' E]. rewrite F in E by (cbn; lra). discriminate.
Qed.
Print Assumptions C26_finite_refuted.

(** The square, stretched along x and sheared: a case with trace 3 and a non symmetric part. *)
Example C26_example :
  let ax := [5; 2; 1/2] in let ay := [-1; 1/4; 1] in let data := corners (affine ax ay) in
  not_collinear data /\ (exists c', corr_fit simplecorr_init (xs1 data) (ys1 data) (xs2 data) (ys2 data) false = Ok c' /\ corr_apply c' (2, 2) = (10, 3/2)).
Proof.
  cbv zeta. split; [apply corners_not_collinear|]. set (ax := [5; 2; 1/2]). set (ay := [-1; 1/4; 1]).
  destruct (SimpleCorr.fit_affine_spec (corners (affine ax ay)) simplecorr_init (corners_not_collinear _)) as (ax' & ay' & Lx & Ly & _ & F).
  assert (ax' = ax) by (eapply corners_fit; [exact Lx|reflexivity]). assert (ay' = ay) by (eapply corners_fit_y; [exact Ly|reflexivity]). subst ax' ay'.
  destruct (F ltac:(cbn; lra)) as (c' & E & G & _). exists c'. split; [exact E|]. rewrite (proj2 G) by (left; cbn; lra). unfold affine, ax, ay. cbn. f_equal; lra.
Qed.

(** Rotation and offset. Sources not all equal: the scales are 1, [apply] is a rigid motion; for
    data which are exactly a similarity (rotation, scale, offset) its rotation and offset are
    recovered, and in general the rotation is that of the best rigid motion. *)
Theorem C27_fit_rotoff :
  forall c data, (exists d d', In d data /\ In d' data /\ fst d <> fst d') ->
  exists c', corr_fit c (xs1 data) (ys1 data) (xs2 data) (ys2 data) true = Ok c' /\
    c_sxx c' = 1 /\ c_syy c' = 1 /\ c_sxy c' = 0 /\
    (forall p, corr_apply c' p = rigid (c_rot_deg c') (c_dx c') (c_dy c') p) /\
    (forall s deg dx dy, 0 < s ->
      (forall d, In d data -> snd d = (s * fst (rigid deg 0 0 (fst d)) + dx, s * snd (rigid deg 0 0 (fst d)) + dy)) ->
      same_angle (c_rot_deg c') deg /\ c_dx c' = dx /\ c_dy c' = dy) /\
    (forall deg dx dy, exists dx' dy', misfit (rigid (c_rot_deg c') dx' dy') data <= misfit (rigid deg dx dy) data).
Proof. exact RotOff.fit_rotoff_spec. Qed.
Print Assumptions C27_fit_rotoff.
Theorem C27_equal_sources_fail :
  forall c data, ~ (exists d d', In d data /\ In d' data /\ fst d <> fst d') ->
  corr_fit c (xs1 data) (ys1 data) (xs2 data) (ys2 data) true = Err LinAlgError.
Proof. exact RotOff.fit_rotoff_degenerate. Qed.
Print Assumptions C27_equal_sources_fail.

(** "The result is the best rotation plus offset" is false: the offset is that of the fit with a
    free scale. *)
Theorem C27_best_rigid_motion_refuted :
  ~ (forall c data c', (exists d d', In d data /\ In d' data /\ fst d <> fst d') ->
     corr_fit c (xs1 data) (ys1 data) (xs2 data) (ys2 data) true = Ok c' ->
     forall deg dx dy, misfit (corr_apply c') data <= misfit (rigid deg dx dy) data).
Proof.
  intros H. set (data := [((1, 0), (2, 0)); ((3, 0), (6, 0))]).
  assert (D : exists d d', In d data /\ In d' data /\ fst d <> fst d').
  { exists ((1, 0), (2, 0)), ((3, 0), (6, 0)). cbn. split; [auto|]. split; [auto|]. intros E. injection E. lra. }
  destruct (RotOff.fit_rotoff_spec simplecorr_init data D) as (c' & E & _ & _ & _ & A & S & _).
  specialize (H simplecorr_init data c' D E 0 2 0).
  assert (C0 : cos (PI * 0 / 180) = 1) by (replace (PI * 0 / 180) with 0 by lra; apply cos_0). assert (S0 : sin (PI * 0 / 180) = 0) by (replace (PI * 0 / 180) with 0 by lra; apply sin_0).
  destruct (S 2 0 0 0) as (R & X & Y); [lra| |].
  { intros d [<-|[<-|[]]]; unfold rigid; cbn [fst snd]; rewrite C0, S0; f_equal; lra. }
  assert (I : forall p, corr_apply c' p = p).
  { intros [x y]. rewrite A, X, Y. rewrite RotOff.rigid_similar. unfold RotOff.similar. rewrite (cosd_same _ _ R), (sind_same _ _ R). unfold cosdeg, sindeg. rewrite Rmult_0_r, cos_0, sin_0. cbn [fst snd]. f_equal; ring. }
  rewrite (RotOff.misfit_ext _ (fun p => p) data I) in H. unfold misfit, rigid, data in H. cbn [map fold_right fst snd] in H. rewrite C0, S0 in H. lra.
Qed.
Print Assumptions C27_best_rigid_motion_refuted.
Example C27_example : exists d d', In d (corners (rigid 30 1 2)) /\ In d' (corners (rigid 30 1 2)) /\ fst d <> fst d'.
Proof. exists ((0, 0), rigid 30 1 2 (0, 0)), ((1, 0), rigid 30 1 2 (1, 0)). unfold corners. cbn [map]. split; [now left|]. split; [right; now left|]. cbn. intros E. injection E. lra. Qed.
