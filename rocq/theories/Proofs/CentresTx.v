From Verif.Model Require Import CentresTx.
From Verif.Spec Require Import LinAlg Numpy ZhaoBurge SimpleCorr Fvc2fp CentresTx.
From Verif.Proofs Require Import Prelude RealNum LinAlg ZhaoBurge Fvc2fp.
From Verif.Props Require Import ZhaoBurge.
From Coq Require Import Lra Lia.
Local Open Scope R_scope.
Local Open Scope list_scope.

Definition params (t : tx) := (tx_scale t, tx_rotation t, tx_offset_x t, tx_offset_y t).
Definition reduced_map (t : tx) : R * R -> R * R := full_map (tx_polids t) (tx_coeffs t) (params t).
Definition rx (t : tx) (p : R * R) : R * R := ((fst p - xfvc_offset t) / xfvc_scale t, (snd p - yfvc_offset t) / yfvc_scale t).
Definition camera_ok (t : tx) := xfvc_scale t <> 0 /\ yfvc_scale t <> 0.

Lemma reduce_rx t p : camera_ok t -> reduce_xyfvc t p = Ok (rx t p).
Proof. intros [X Y]. unfold reduce_xyfvc. apply Reqb_false in X, Y. now rewrite X, Y. Qed.
Lemma fvc2fp_map t pix : Forall valid_id (tx_polids t) -> camera_ok t -> fvc2fp t pix = Ok (map (fun p => expand_xyfp (reduced_map t (rx t p))) pix).
Proof.
  intros V C. unfold fvc2fp. apply rmapM_total. intros p _. rewrite reduce_rx by exact C. cbn [rbind]. rewrite transform_similarity by exact V. reflexivity.
Qed.
Lemma image_map t p : Forall valid_id (tx_polids t) -> camera_ok t -> image t p = expand_xyfp (reduced_map t (rx t p)).
Proof. intros V C. unfold image. rewrite fvc2fp_map by assumption. reflexivity. Qed.
Lemma fvc2fp_image t pix : Forall valid_id (tx_polids t) -> camera_ok t -> fvc2fp t pix = Ok (map (image t) pix).
Proof. intros V C. rewrite fvc2fp_map by assumption. f_equal. apply map_ext. intros p. now rewrite image_map. Qed.
Lemma misfit_image t l : Forall valid_id (tx_polids t) -> camera_ok t ->
  misfit (image t) l = 420 ^ 2 * misfit (reduced_map t) (map (fun d => (rx t (fst d), reduce_xyfp (snd d))) l).
Proof.
  intros V C. unfold misfit. induction l as [|[p q] l IH]; cbn [map fold_right]; [ring|]. rewrite IH, image_map by assumption. cbn [fst snd]. set (u := reduced_map t (rx t p)). unfold expand_xyfp, reduce_xyfp. cbn [fst snd].
  replace (fst q - fst u * 420.0) with (420 * (fst q / 420.0 - fst u)) by lra. replace (snd q - snd u * 420.0) with (420 * (snd q / 420.0 - snd u)) by lra. ring.
Qed.
Lemma misfit_nonneg f l : 0 <= misfit f l.
Proof. unfold misfit. apply (Rsum_nonneg (map _ l)). rewrite Forall_map. apply Forall_forall. intros. apply Rplus_le_le_0_compat; apply pow2_ge_0. Qed.

(** A refit: the terms stay, the coefficients are the best for the new parameters, and independent *)
Lemma refit_spec minimize t D t' : Forall valid_id (tx_polids t) -> refit minimize t (map fst D) (map snd D) = Ok t' ->
  same_camera t' t /\ tx_polids t' = tx_polids t /\ length (tx_coeffs t') = length (tx_polids t) /\
  minimize (fit_func (Some (tx_polids t)) (Some (tx_coeffs t)) None None (map fst D) (map snd D)) (1, 0, 0, 0) = Ok (params t') /\
  let D' := map (fun d => (similarity (tx_scale t') (tx_rotation t') (fst (fst d) + tx_offset_x t', snd (fst d) + tx_offset_y t'), snd d)) D in
  (forall c, length c = length (tx_polids t) -> (forall d, In d D' -> getZhaoBurgeXY (tx_polids t) c (fst (fst d)) (snd (fst d)) = Ok (0, 0)) -> c = repeat 0 (length (tx_polids t))) /\
  (forall c, length c = length (tx_polids t) -> c <> tx_coeffs t' -> misfit (reduced_map t') D < misfit (reduced_map (with_coeffs t' c)) D) /\
  (forall c, length c = length (tx_polids t) -> (forall d, In d D -> snd d = reduced_map (with_coeffs t' c) (fst d)) -> c = tx_coeffs t').
Proof.
  intros V E. unfold refit, fit_scale_rotation_offset in E. destruct (minimize _ (1, 0, 0, 0)) as [[[[s r] ox] oy]|] eqn:M; [|discriminate]. cbn [rbind or_fixed] in E.
  rewrite (rmapM_total _ (fun p => similarity s r (fst p + ox, snd p + oy))) in E by (intros; apply transform_plain). cbn [rbind] in E.
  set (D' := map (fun d => (similarity s r (fst (fst d) + ox, snd (fst d) + oy), snd d)) D).
  assert (E1 : map (fun p => similarity s r (fst p + ox, snd p + oy)) (map fst D) = map fst D') by (unfold D'; rewrite !map_map; reflexivity).
  assert (E2 : map snd D = map snd D') by (unfold D'; rewrite !map_map; reflexivity). rewrite E1, E2 in E.
  destruct (fitZhaoBurge (map fst D') (map snd D') (Some (tx_polids t))) as [zc|e] eqn:F; [|discriminate]. cbn [rbind] in E.
  pose proof (proj1 (zb_independent (tx_polids t) D' V) (fit_Ok_inv D' (tx_polids t) zc V F)) as I.
  destruct (proj1 (C35_zhao_burge_fit D' (tx_polids t) V) I) as (c & F' & L & O & U). rewrite F in F'. injection F' as ->. injection E as <-. cbn [tx_polids tx_coeffs params tx_scale tx_rotation tx_offset_x tx_offset_y]. fold D'.
  split; [repeat split|]. split; [reflexivity|]. split; [exact L|]. split; [reflexivity|]. split; [exact I|].
  assert (G : forall c0, reduced_map (with_coeffs {| xfvc_scale := xfvc_scale t; yfvc_scale := yfvc_scale t; xfvc_offset := xfvc_offset t; yfvc_offset := yfvc_offset t; tx_scale := s; tx_rotation := r; tx_offset_x := ox; tx_offset_y := oy; tx_polids := tx_polids t; tx_coeffs := c |} c0) = full_map (tx_polids t) c0 (s, r, ox, oy)) by reflexivity.
  split.
  - intros c' L' N. rewrite G. change (reduced_map _) with (full_map (tx_polids t) c (s, r, ox, oy)). pose proof (full_map_misfit (tx_polids t) c (s, r, ox, oy) D) as M1. pose proof (full_map_misfit (tx_polids t) c' (s, r, ox, oy) D) as M2. cbn beta iota in M1, M2. rewrite M1, M2. now apply O.
  - intros c' L' H. apply U; [exact L'|]. intros d Id. apply in_map_iff in Id as (d0 & <- & I0). rewrite (H d0 I0), G. reflexivity.
Qed.
(** Coefficients of one term *)
Lemma unit_coeffs polids z : Forall valid_id polids -> In z polids -> exists e, length e = length polids /\
  forall x y, getZhaoBurgeXY polids e x y = Ok (vx_of (getZhaoBurgeTerm z x y), vy_of (getZhaoBurgeTerm z x y)).
Proof.
  intros V I. apply in_split in I as (a & b & ->). exists (repeat 0 (length a) ++ 1 :: repeat 0 (length b)). split; [rewrite !app_length; cbn; now rewrite !repeat_length|]. intros x y. rewrite XY_Ok by exact V.
  assert (Z0 : forall n h, combination (repeat 0 n) h = 0) by (induction n as [|n IH]; intros [|u h]; cbn; [reflexivity..|]; rewrite IH; ring).
  unfold vxs, vys. rewrite !map_app. cbn [map]. rewrite !combination_app by (now rewrite map_length, repeat_length). cbn [combination]. rewrite !Z0. f_equal. f_equal; ring.
Qed.
(** With the terms 0, 1, 2 and 27 there are coefficients for every displacement z -> alpha z + beta (complex) *)
Lemma linear_coeffs polids : Forall valid_id polids -> Forall (fun z => In z polids) [0; 1; 2; 27]%Z -> forall a b e f, exists c, length c = length polids /\
  forall x y, getZhaoBurgeXY polids c x y = Ok (a * x + b * y + e, a * y - b * x + f).
Proof.
  intros V I a b e f. inversion I as [|? ? I0 I']; subst. inversion I' as [|? ? I1 I'']; subst. inversion I'' as [|? ? I2 I3]; subst. inversion I3 as [|? ? I27 _]; subst.
  destruct (unit_coeffs polids 0 V I0) as (u0 & L0 & E0). destruct (unit_coeffs polids 1 V I1) as (u1 & L1 & E1). destruct (unit_coeffs polids 2 V I2) as (u2 & L2 & E2). destruct (unit_coeffs polids 27 V I27) as (u3 & L3 & E3).
  assert (LC : forall p u q v, length u = length v -> length (lin_comb p u q v) = length u).
  { intros p u q. induction u as [|? u IH]; intros [|? v] L; cbn in *; try discriminate; [reflexivity|]. f_equal. apply IH. lia. }
  exists (lin_comb 1 (lin_comb (a / sqrt 2) u2 (b / sqrt 2) u3) 1 (lin_comb e u0 f u1)). assert (S2 : 0 < sqrt 2) by (apply sqrt_lt_R0; lra). split; [rewrite LC; rewrite ?LC; congruence|].
  intros x y. destruct (C36_linear polids V) as [Lin _].
  assert (Q : forall u v p q vx vy wx wy, length u = length v -> getZhaoBurgeXY polids u x y = Ok (vx, vy) -> getZhaoBurgeXY polids v x y = Ok (wx, wy) -> getZhaoBurgeXY polids (lin_comb p u q v) x y = Ok (p * vx + q * wx, p * vy + q * wy)).
  { intros u v p q vx vy wx wy L Hu Hv. destruct (Lin u v p q x y L) as (dx & dy & ex & ey & H1 & H2 & ->). congruence. }
  assert (T0 : getZhaoBurgeXY polids u0 x y = Ok (1, 0)) by (rewrite E0; cbn [getZhaoBurgeTerm vx_of vy_of]; now rewrite getZ1).
  assert (T1 : getZhaoBurgeXY polids u1 x y = Ok (0, 1)) by (rewrite E1; cbn [getZhaoBurgeTerm vx_of vy_of]; now rewrite getZ1).
  assert (T2 : getZhaoBurgeXY polids u2 x y = Ok (sqrt 2 * x, sqrt 2 * y)) by (rewrite E2, (proj1 (S4_T4 x y)); reflexivity).
  assert (T3 : getZhaoBurgeXY polids u3 x y = Ok (sqrt 2 * y, - (sqrt 2 * x))) by (rewrite E3, (proj2 (S4_T4 x y)); reflexivity).
  assert (N1 : length u2 = length u3) by congruence. assert (N2 : length u0 = length u1) by congruence.
  assert (N3 : length (lin_comb (a / sqrt 2) u2 (b / sqrt 2) u3) = length (lin_comb e u0 f u1)) by (rewrite !LC by assumption; congruence).
  pose proof (Q u2 u3 (a / sqrt 2) (b / sqrt 2) _ _ _ _ N1 T2 T3) as K1. pose proof (Q u0 u1 e f _ _ _ _ N2 T0 T1) as K2. pose proof (Q _ _ 1 1 _ _ _ _ N3 K1 K2) as K3. etransitivity; [exact K3|].
  f_equal. f_equal; field; lra.
Qed.
(** A refit of data that follow a similarity gives that similarity, everywhere *)
Lemma refit_exact minimize t D t' s r ox oy : Forall valid_id (tx_polids t) -> Forall (fun z => In z (tx_polids t)) [0; 1; 2; 27]%Z ->
  refit minimize t (map fst D) (map snd D) = Ok t' -> (forall d, In d D -> snd d = similarity s r (fst (fst d) + ox, snd (fst d) + oy)) ->
  forall p, reduced_map t' p = similarity s r (fst p + ox, snd p + oy).
Proof.
  intros V M E H. destruct (refit_spec minimize t D t' V E) as (_ & P & L & _ & I & _ & U). set (s' := tx_scale t') in *. set (r' := tx_rotation t') in *. set (ox' := tx_offset_x t') in *. set (oy' := tx_offset_y t') in *.
  assert (Ns : s' <> 0).
  { intros Z. inversion M as [|? ? _ M1]; subst. inversion M1 as [|? ? _ M2]; subst. inversion M2 as [|? ? I2 _]; subst. destruct (unit_coeffs (tx_polids t) 2 V I2) as (u & Lu & Eu).
    assert (X : u = repeat 0 (length (tx_polids t))). { apply I; [exact Lu|]. intros d Id. apply in_map_iff in Id as (d0 & <- & _). cbn [fst snd]. rewrite Eu, (proj1 (S4_T4 _ _)). cbn [vx_of vy_of]. unfold similarity. rewrite Z. cbn [fst snd]. f_equal. f_equal; ring. }
    assert (Y : getZhaoBurgeXY (tx_polids t) u 1 0 = Ok (0, 0)). { rewrite X, XY_Ok by exact V. assert (Z0 : forall n h, combination (repeat 0 n) h = 0) by (induction n as [|n IH]; intros [|w h]; cbn; [reflexivity..|]; rewrite IH; ring). now rewrite !Z0. }
    rewrite Eu, (proj1 (S4_T4 _ _)) in Y. cbn [vx_of vy_of] in Y. injection Y as Y _. assert (0 < sqrt 2) by (apply sqrt_lt_R0; lra). lra. }
  (* the displacement from the one similarity to the other *)
  set (ca := s / s' * cos (r - r')). set (sa := s / s' * sin (r - r')).
  assert (SS : forall p, similarity s r (fst p + ox, snd p + oy) = let q := similarity s' r' (fst p + ox', snd p + oy') in
     (fst q + ((ca - 1) * fst q + (- sa) * snd q + s * ((ox - ox') * cos r - (oy - oy') * sin r)), snd q + ((ca - 1) * snd q - (- sa) * fst q + s * ((ox - ox') * sin r + (oy - oy') * cos r)))).
  { intros [x y]. cbn [fst snd]. unfold similarity, ca, sa. cbn [fst snd].
    assert (C : forall X Y, s / s' * cos (r - r') * (s' * (X * cos r' - Y * sin r')) - s / s' * sin (r - r') * (s' * (X * sin r' + Y * cos r')) = s * (X * cos r - Y * sin r)).
    { intros X Y. replace (cos r) with (cos ((r - r') + r')) by (f_equal; ring). replace (sin r) with (sin ((r - r') + r')) by (f_equal; ring). rewrite cos_plus, sin_plus. field. exact Ns. }
    assert (K : forall X Y, s / s' * cos (r - r') * (s' * (X * sin r' + Y * cos r')) + s / s' * sin (r - r') * (s' * (X * cos r' - Y * sin r')) = s * (X * sin r + Y * cos r)).
    { intros X Y. replace (cos r) with (cos ((r - r') + r')) by (f_equal; ring). replace (sin r) with (sin ((r - r') + r')) by (f_equal; ring). rewrite cos_plus, sin_plus. field. exact Ns. }
    specialize (C (x + ox') (y + oy')). specialize (K (x + ox') (y + oy')). f_equal; lra. }
  destruct (linear_coeffs (tx_polids t) V M (ca - 1) (- sa) (s * ((ox - ox') * cos r - (oy - oy') * sin r)) (s * ((ox - ox') * sin r + (oy - oy') * cos r))) as (c & Lc & Ec).
  assert (G : forall p, reduced_map (with_coeffs t' c) p = similarity s r (fst p + ox, snd p + oy)).
  { intros p. rewrite SS. unfold reduced_map, full_map, params. cbn [with_coeffs tx_polids tx_coeffs tx_scale tx_rotation tx_offset_x tx_offset_y]. fold s' r' ox' oy'. rewrite P. cbv zeta. rewrite Ec. reflexivity. }
  assert (c = tx_coeffs t') as ->. { apply U; [exact Lc|]. intros d Id. rewrite G. now apply H. }
  intros p. rewrite <- G. destruct t'. reflexivity.
Qed.
