From Verif.Model Require Import Radec2tan.
From Verif.Spec Require Import Trig Sphere.
From Verif.Proofs Require Import RealNum Trig Sphere Radec2tan Refraction SkyChain SkyAberration.
From Coq Require Import Lra.
From Interval Require Import Tactic.
Local Open Scope R_scope.

(** *** C37: tangent plane projection *)
(** x is the component towards increasing hour angle, y the one towards the north; with the component along the pointing they make a unit vector. *)
Theorem C37_components ha dec tel_ha tel_dec : exists x y, hadec2xy ha dec tel_ha tel_dec = (x, y) /\
  x = inner (unit_vector ha dec) (unit_vector (tel_ha + 90) 0) /\ y = inner (unit_vector ha dec) (unit_vector tel_ha (tel_dec + 90)) /\
  x ^ 2 + y ^ 2 = 1 - inner (unit_vector ha dec) (unit_vector tel_ha tel_dec) ^ 2.
Proof.
  eexists _, _. split; [apply hadec2xy_components|]. split; [reflexivity|]. split; [reflexivity|].
  pose proof (basis_norm tel_ha tel_dec (unit_vector ha dec)) as N. rewrite unit_norm in N. lra.
Qed.
Print Assumptions C37_components.
Theorem C37_pointing tel_ha tel_dec : hadec2xy tel_ha tel_dec tel_ha tel_dec = (0, 0).
Proof.
  rewrite hadec2xy_components. destruct (basis_ortho tel_ha tel_dec) as (_ & _ & _ & _ & ET & NT). f_equal; rewrite inner_sym; assumption.
Qed.
Print Assumptions C37_pointing.
(** From the plane to the sky and back, for every point of the unit disk; outside the result is not a number. *)
Theorem C37_plane_round_trip x y tel_ha tel_dec :
  (x ^ 2 + y ^ 2 <= 1 -> exists ha dec, xy2hadec x y tel_ha tel_dec = Ok (ha, dec) /\ 0 <= ha < 360 /\ -90 <= dec <= 90 /\
     hadec2xy ha dec tel_ha tel_dec = (x, y) /\ 0 <= inner (unit_vector ha dec) (unit_vector tel_ha tel_dec)) /\
  (1 < x ^ 2 + y ^ 2 -> xy2hadec x y tel_ha tel_dec = Err NonFinite).
Proof.
  split; intros H.
  - destruct (xy2hadec_combo x y tel_ha tel_dec H) as (ha & dec & E & R1 & R2 & D). exists ha, dec. split; [exact E|]. split; [exact R1|]. split; [exact R2|].
    rewrite hadec2xy_components, D. destruct (combo_inner tel_ha tel_dec x y (sqrt (1 - x ^ 2 - y ^ 2))) as (-> & -> & -> & _). split; [reflexivity|apply sqrt_pos].
  - unfold xy2hadec. destruct (Rltb _ 0) eqn:E; [reflexivity|]. apply Rltb_false in E. lra.
Qed.
Print Assumptions C37_plane_round_trip.
(** From the sky to the plane and back, within 90 degrees of the pointing. *)
Theorem C37_sky_round_trip ha dec tel_ha tel_dec : -90 <= dec <= 90 -> 0 <= inner (unit_vector ha dec) (unit_vector tel_ha tel_dec) ->
  let '(x, y) := hadec2xy ha dec tel_ha tel_dec in exists ha' dec', xy2hadec x y tel_ha tel_dec = Ok (ha', dec') /\ dec' = dec /\ (-90 < dec < 90 -> same_angle ha' ha).
Proof.
  intros Hd F. pose proof (xy_back ha dec tel_ha tel_dec F) as B. destruct (hadec2xy ha dec tel_ha tel_dec) as [x y]. destruct B as (ha' & dec' & E & _ & R2 & D).
  exists ha', dec'. split; [exact E|]. assert (dec' = dec) by (apply (unit_vector_lat ha' dec' ha dec); assumption). split; [assumption|]. subst dec'. intros Hs. apply (unit_vector_lon ha' dec ha dec); assumption.
Qed.
Print Assumptions C37_sky_round_trip.
(** Behind the pointing the round trip gives the mirror image, another direction. *)
Theorem C37_behind_refuted ha dec tel_ha tel_dec : inner (unit_vector ha dec) (unit_vector tel_ha tel_dec) < 0 ->
  let '(x, y) := hadec2xy ha dec tel_ha tel_dec in exists ha' dec', xy2hadec x y tel_ha tel_dec = Ok (ha', dec') /\
    unit_vector ha' dec' = mirrored (unit_vector tel_ha tel_dec) (unit_vector ha dec) /\ unit_vector ha' dec' <> unit_vector ha dec.
Proof.
  intros F. rewrite hadec2xy_components. pose proof (basis_norm tel_ha tel_dec (unit_vector ha dec)) as N. rewrite unit_norm in N. set (x := inner _ (unit_vector (tel_ha + 90) 0)) in *. set (y := inner _ (unit_vector tel_ha (tel_dec + 90))) in *. set (z := inner _ (unit_vector tel_ha tel_dec)) in *.
  destruct (xy2hadec_combo x y tel_ha tel_dec) as (ha' & dec' & E & _ & _ & D); [pose proof (pow2_ge_0 z); lra|]. exists ha', dec'. split; [exact E|].
  replace (1 - x ^ 2 - y ^ 2) with (Rsqr (- z)) in D by (unfold Rsqr; lra). rewrite sqrt_Rsqr in D by lra.
  assert (M : unit_vector ha' dec' = mirrored (unit_vector tel_ha tel_dec) (unit_vector ha dec)).
  { rewrite D. unfold mirrored. fold z. pose proof (basis tel_ha tel_dec (unit_vector ha dec)) as B. fold x y z in B. unfold combo. set (u := unit_vector ha dec) in *. clearbody x y z.
    destruct (unit_vector (tel_ha + 90) 0) as [[? ?] ?], (unit_vector tel_ha (tel_dec + 90)) as [[? ?] ?], (unit_vector tel_ha tel_dec) as [[? ?] ?], u as [[u1 u2] u3]. cbn in B |- *. injection B as B1 B2 B3. apply triple_eq; lra. }
  split; [exact M|]. intros Q. assert (inner (unit_vector ha' dec') (unit_vector tel_ha tel_dec) = - z) as I. { rewrite D. apply combo_inner. } rewrite Q in I. fold z in I. lra.
Qed.
Print Assumptions C37_behind_refuted.
Example C37_example : hadec2xy 10 0 0 0 = (sindeg 10, 0) /\ inner (unit_vector 10 0) (unit_vector 0 0) > 0 /\ inner (unit_vector 180 0) (unit_vector 0 0) < 0.
Proof.
  split; [|split].
  - rewrite hadec2xy_components. replace (0 + 90) with 90 by ring. rewrite <- !getXYZ_unit. unfold getXYZ. rewrite cosd90, sind90, cosd0, sind0. cbn. f_equal; ring.
  - rewrite <- !getXYZ_unit. unfold getXYZ. rewrite cosd0, sind0. cbn. pose proof (cosd_pos 10 ltac:(lra)). lra.
  - rewrite <- !getXYZ_unit. unfold getXYZ. rewrite cosd0, sind0. cbn. unfold cosdeg. replace (D2R * 180) with PI by (unfold D2R; lra). rewrite cos_PI. lra.
Qed.

(** *** C38: horizontal coordinates *)
Lemma horizon_map_horizontal v : horizon_map v = horizontal 31.96403 v.
Proof.
  assert (E : unit_vector 180 (90 - 31.96403) = (- sindeg 31.96403, 0, cosdeg 31.96403) /\ unit_vector (-90) 0 = (0, -1, 0) /\ unit_vector 0 31.96403 = (cosdeg 31.96403, 0, sindeg 31.96403)).
  { rewrite <- !getXYZ_unit. unfold getXYZ, Rminus. rewrite cosd_plus, sind_plus, !cosd_neg, !sind_neg, cosd90, sind90, cosd0, sind0.
    assert (C : cosdeg 180 = -1) by (unfold cosdeg; replace (D2R * 180) with PI by (unfold D2R; lra); apply cos_PI). assert (S : sindeg 180 = 0) by (unfold sindeg; replace (D2R * 180) with PI by (unfold D2R; lra); apply sin_PI).
    change (-90) with (Ropp 90). rewrite C, S, cosd_neg, sind_neg, cosd90, sind90. repeat split; apply triple_eq; ring. }
  destruct E as (E1 & E2 & E3). unfold horizontal. rewrite E1, E2, E3. destruct v as [[x y] z]. unfold horizon_map, LATITUDE, inner. apply triple_eq; ring.
Qed.
Theorem C38_altaz_back ha dec : -90 <= dec <= 90 -> let '(alt, az) := hadec2altaz ha dec in let '(ha', dec') := altaz2hadec alt az in
  (0 <= alt <= 90 \/ 270 <= alt < 360) /\ 0 <= az < 360 /\ sin (PI * alt / 180) = inner (unit_vector ha dec) (unit_vector 0 LATITUDE) /\
  dec' = dec /\ 0 <= ha' < 360 /\ (-90 < dec < 90 -> same_angle ha' ha).
Proof.
  intros Hd. pose proof (hadec2altaz_direction ha dec) as D. destruct (hadec2altaz ha dec) as [alt az]. destruct D as (R1 & R2 & C & D).
  pose proof (altaz2hadec_direction alt az) as D2. destruct (altaz2hadec alt az) as [ha' dec']. destruct D2 as (R3 & R4 & D2). rewrite D, horizon_map_involutive in D2.
  split; [now apply altitude_range|]. split; [exact R2|]. split. { pose proof (zenith ha dec) as Z. rewrite <- D in Z. exact Z. }
  assert (dec' = dec) by (apply (unit_vector_lat ha' dec' ha dec); assumption). split; [assumption|]. split; [exact R3|]. subst dec'. intros Hs. apply (unit_vector_lon ha' dec ha dec); assumption.
Qed.
Print Assumptions C38_altaz_back.
Theorem C38_hadec_back alt az : -90 <= alt <= 90 -> let '(ha, dec) := altaz2hadec alt az in let '(alt', az') := hadec2altaz ha dec in
  0 <= ha < 360 /\ -90 <= dec <= 90 /\ alt' = (if Rlt_dec alt 0 then alt + 360 else alt) /\ 0 <= az' < 360 /\ (-90 < alt < 90 -> same_angle az' az).
Proof.
  intros Ha. pose proof (altaz2hadec_direction alt az) as D2. destruct (altaz2hadec alt az) as [ha dec]. destruct D2 as (R3 & R4 & D2).
  pose proof (hadec2altaz_direction ha dec) as D. destruct (hadec2altaz ha dec) as [alt' az']. destruct D as (R1 & R2 & C & D). rewrite D2, horizon_map_involutive in D.
  assert (E : exists b, -90 <= b <= 90 /\ same_angle alt' b /\ alt' = (if Rlt_dec b 0 then b + 360 else b)).
  { destruct (altitude_range alt' R1 C) as [L|L]; [exists alt'|exists (alt' - 360)]; (split; [lra|split; [|destruct (Rlt_dec _ 0); lra]]); [apply same_angle_refl|exists 1%Z; lra]. }
  destruct E as (b & Rb & Sb & Eb). assert (Db : unit_vector az' b = unit_vector az alt) by (rewrite <- D; apply unit_vector_same; [apply same_angle_refl|now apply same_angle_sym]).
  assert (b = alt) by (apply (unit_vector_lat az' b az alt); assumption). subst b. repeat (split; [assumption|]). intros Hs. apply (unit_vector_lon az' alt az alt); try assumption.
Qed.
Print Assumptions C38_hadec_back.
(** The altitude given back for a direction below the horizon is not the altitude given. *)
Theorem C38_below_horizon_refuted : exists ha dec, altaz2hadec (-10) 0 = (ha, dec) /\ fst (hadec2altaz ha dec) = 350.
Proof.
  pose proof (C38_hadec_back (-10) 0 ltac:(lra)) as H. destruct (altaz2hadec (-10) 0) as [ha dec]. exists ha, dec. split; [reflexivity|]. destruct (hadec2altaz ha dec) as [alt az]. destruct H as (_ & _ & -> & _). cbn. destruct (Rlt_dec (-10) 0); lra.
Qed.
Print Assumptions C38_below_horizon_refuted.
(** Azimuth from the north towards the east, at latitude 31.96403. *)
Theorem C38_axes : (forall ha dec, let '(alt, az) := hadec2altaz ha dec in unit_vector az alt = horizontal 31.96403 (unit_vector ha dec)) /\
  (forall alt az, let '(ha, dec) := altaz2hadec alt az in unit_vector az alt = horizontal 31.96403 (unit_vector ha dec)).
Proof.
  split.
  - intros ha dec. pose proof (hadec2altaz_direction ha dec) as D. destruct (hadec2altaz ha dec) as [alt az]. destruct D as (_ & _ & _ & ->). apply horizon_map_horizontal.
  - intros alt az. pose proof (altaz2hadec_direction alt az) as D. destruct (altaz2hadec alt az) as [ha dec]. destruct D as (_ & _ & D). rewrite <- horizon_map_horizontal, D. symmetry. apply horizon_map_involutive.
Qed.
Print Assumptions C38_axes.
Example C38_example : -90 <= 20 <= 90 /\ (let '(ha, dec) := altaz2hadec 45 30 in fst (hadec2altaz ha dec) = 45).
Proof.
  split; [lra|]. pose proof (C38_hadec_back 45 30 ltac:(lra)) as H. destruct (altaz2hadec 45 30) as [ha dec]. destruct (hadec2altaz ha dec) as [alt az]. destruct H as (_ & _ & -> & _). cbn. destruct (Rlt_dec 45 0); lra.
Qed.

(** *** C39: rotations and precession *)
Theorem C39_rotations d axis theta me ma : inner axis axis = 1 ->
  Forall is_rotation [vecX d; vecY d; vecZ d; refX d; refY d; refZ d; rotation_matrix axis theta; compute_polar_misalignment_rotation_matrix me ma].
Proof.
  intros N. unfold refX, refY, refZ. repeat (apply Forall_cons; [first [apply vecX_rotation|apply vecY_rotation|apply vecZ_rotation|now apply rotation_matrix_rotation|apply polar_rotation]|]). apply Forall_nil.
Qed.
Print Assumptions C39_rotations.
Theorem C39_rotation_undone m : is_rotation m -> forall u v, mv (transposed m) (mv m v) = v /\ mv m (mv (transposed m) v) = v /\ inner (mv m u) (mv m v) = inner u v.
Proof. intros H u v. rewrite !mv_act. split; [now apply rotation_inverse|]. split; [now apply inverse_rotation|now apply rotation_inner]. Qed.
Print Assumptions C39_rotation_undone.
(** rotation_matrix keeps its axis and turns by theta, counter-clockwise seen from the tip of the axis. *)
Theorem C39_rotation_matrix axis theta v : inner axis axis = 1 -> inner axis v = 0 ->
  mv (rotation_matrix axis theta) axis = axis /\ mv (rotation_matrix axis theta) v = plus (times (cos theta) v) (times (sin theta) (cross axis v)).
Proof.
  destruct axis as [[a b] c], v as [[x y] z]. cbn. intros N O. split; apply triple_eq.
  - transitivity (cos theta * a + (1 - cos theta) * a * (a * a + b * b + c * c)); [ring|]. rewrite N. ring.
  - transitivity (cos theta * b + (1 - cos theta) * b * (a * a + b * b + c * c)); [ring|]. rewrite N. ring.
  - transitivity (cos theta * c + (1 - cos theta) * c * (a * a + b * b + c * c)); [ring|]. rewrite N. ring.
  - transitivity (cos theta * x + sin theta * (b * z - c * y) + (1 - cos theta) * a * (a * x + b * y + c * z)); [ring|]. rewrite O. ring.
  - transitivity (cos theta * y + sin theta * (c * x - a * z) + (1 - cos theta) * b * (a * x + b * y + c * z)); [ring|]. rewrite O. ring.
  - transitivity (cos theta * z + sin theta * (a * y - b * x) + (1 - cos theta) * c * (a * x + b * y + c * z)); [ring|]. rewrite O. ring.
Qed.
Print Assumptions C39_rotation_matrix.
(** The misalignment matrix brings the pole of the mount, at altitude LATITUDE - me and azimuth ma, to the celestial pole, turning around the horizontal axis between them. *)
Theorem C39_polar_pole me ma : let '(ha, dec) := altaz2hadec (LATITUDE - me / 3600) (ma / 3600) in 0 <= dec ->
  mv (compute_polar_misalignment_rotation_matrix me ma) (unit_vector ha dec) = (0, 0, 1) /\
  mv (compute_polar_misalignment_rotation_matrix me ma) (unit_vector (ha + 90) 0) = unit_vector (ha + 90) 0.
Proof.
  pose proof (altaz2hadec_direction (LATITUDE - me / 3600) (ma / 3600)) as D. destruct (altaz2hadec _ _) as [ha dec]. destruct D as (_ & Rd & D). intros P.
  assert (U : unit_vector ha dec = (cosdeg ha * cosdeg dec, sindeg ha * cosdeg dec, sindeg dec)) by (rewrite <- getXYZ_unit; reflexivity).
  pose proof (sincosd_one ha) as H1. pose proof (sincosd_one dec) as H2.
  assert (0 <= sindeg dec) by (unfold sindeg; pose proof PI_RGT_0; apply sin_ge_0; unfold D2R; nra).
  rewrite (polar_entries me ma _ _ _ (eq_trans (eq_sym D) U)) by assumption. rewrite U, east, !mv_act. cbn.
  set (c := cosdeg ha) in *. set (s := sindeg ha) in *. set (C := cosdeg dec) in *. set (S := sindeg dec) in *. clearbody c s C S.
  assert (Q : C * C = (1 - S) * (1 + S)) by (ring_simplify; lra).
  split; apply triple_eq.
  - transitivity (c * C * (1 - S - (s * s + c * c) * (C * C) / (1 + S))); [field; lra|]. rewrite H1, Q. field. lra.
  - transitivity (s * C * (1 - S - (s * s + c * c) * (C * C) / (1 + S))); [field; lra|]. rewrite H1, Q. field. lra.
  - transitivity ((s * s + c * c) * (C * C) + S * S); [ring|]. rewrite H1. lra.
  - field. lra.
  - field. lra.
  - ring.
Qed.
Print Assumptions C39_polar_pole.
(** The hard coded matrices are the ones computed with the misalignment of the mount, to 1e-12. *)
Theorem C39_hardcoded : close9 1e-12 (compute_polar_misalignment_rotation_matrix ME_ARCSEC MA_ARCSEC) (get_hardcoded_polmis_rotmat false) /\
  close9 1e-12 (compute_polar_misalignment_rotation_matrix (- ME_ARCSEC) (- MA_ARCSEC)) (get_hardcoded_polmis_rotmat true).
Proof. split; [exact P1_hardcoded|exact P2_hardcoded]. Qed.
Print Assumptions C39_hardcoded.
(** Negating both misalignments does not give the inverse rotation; it gives one within 6e-9 of it. *)
Theorem C39_negated_misalignment_refuted :
  compute_polar_misalignment_rotation_matrix (- ME_ARCSEC) (- MA_ARCSEC) <> transposed (compute_polar_misalignment_rotation_matrix ME_ARCSEC MA_ARCSEC) /\
  close9 6e-9 (compute_polar_misalignment_rotation_matrix (- ME_ARCSEC) (- MA_ARCSEC)) (transposed (compute_polar_misalignment_rotation_matrix ME_ARCSEC MA_ARCSEC)).
Proof. split; [exact P2_not_inverse|exact P2_transposed]. Qed.
Print Assumptions C39_negated_misalignment_refuted.
(** Precession adds to the ecliptic longitude 360 degrees in 25771.5753382206 years, and keeps the ecliptic latitude. *)
Lemma from_ecliptic_act v : from_ecliptic OBLIQ v = act (refX (- OBLIQ)) v.
Proof. destruct v as [[x y] z]. unfold from_ecliptic, refX, vecX. rewrite Ropp_involutive. cbn. unfold cosdeg, sindeg. rewrite <- !deg_rad. apply triple_eq; ring. Qed.
Theorem C39_precession ra dec lon lat years : unit_vector ra dec = from_ecliptic OBLIQ (unit_vector lon lat) ->
  let '(ra', dec') := apply_precession ra dec years in 0 <= ra' < 360 /\ -90 <= dec' <= 90 /\
    unit_vector ra' dec' = from_ecliptic OBLIQ (unit_vector (lon + 360 * (years / PRECESSION_PERIOD_IN_YEARS)) lat).
Proof.
  intros H. pose proof (precession_direction ra dec years) as D. destruct (apply_precession ra dec years) as [ra' dec']. destruct D as (R1 & R2 & D). split; [exact R1|]. split; [exact R2|].
  rewrite D, H, !from_ecliptic_act. unfold precess. rewrite refX_obliq'. f_equal. rewrite <- !getXYZ_unit. unfold getXYZ. rewrite cosd_plus, sind_plus. cbn. apply triple_eq; ring.
Qed.
Print Assumptions C39_precession.
(** From ICRS (epoch J2000, MJD 51544.5) to the date, with the numbers. *)
Theorem C39_from_icrs ra dec lon lat mjd : unit_vector ra dec = from_ecliptic 23.439279444444445 (unit_vector lon lat) ->
  let '(ra', dec') := apply_precession_from_icrs ra dec mjd in
    unit_vector ra' dec' = from_ecliptic 23.439279444444445 (unit_vector (lon + 360 * ((mjd - 51544.5) / 365.256363004 / 25771.5753382206)) lat).
Proof.
  intros H. unfold apply_precession_from_icrs. pose proof (C39_precession ra dec lon lat ((mjd - ICRS_MJD) / DAYS_PER_YEAR) H) as P. destruct (apply_precession _ _ _) as [ra' dec']. destruct P as (_ & _ & P). exact P.
Qed.
Print Assumptions C39_from_icrs.
Theorem C39_precession_undone ra dec mjd : -90 <= dec <= 90 -> let '(ra1, dec1) := apply_precession_from_icrs ra dec mjd in let '(ra2, dec2) := undo_precession_from_icrs ra1 dec1 mjd in
  dec2 = dec /\ 0 <= ra2 < 360 /\ (-90 < dec < 90 -> same_angle ra2 ra).
Proof.
  intros Hd. unfold apply_precession_from_icrs, undo_precession_from_icrs. pose proof (precession_direction ra dec ((mjd - ICRS_MJD) / DAYS_PER_YEAR)) as D1. destruct (apply_precession ra dec _) as [ra1 dec1]. destruct D1 as (_ & _ & D1).
  pose proof (precession_direction ra1 dec1 ((ICRS_MJD - mjd) / DAYS_PER_YEAR)) as D2. destruct (apply_precession ra1 dec1 _) as [ra2 dec2]. destruct D2 as (R1 & R2 & D2).
  rewrite D1, precess_add in D2. replace ((ICRS_MJD - mjd) / DAYS_PER_YEAR + (mjd - ICRS_MJD) / DAYS_PER_YEAR) with 0 in D2 by (unfold Rdiv; ring). rewrite precess_0 in D2.
  assert (dec2 = dec) by (apply (unit_vector_lat ra2 dec2 ra dec); assumption). split; [assumption|]. split; [exact R1|]. subst dec2. intros Hs. now apply (unit_vector_lon ra2 dec ra dec).
Qed.
Print Assumptions C39_precession_undone.
Theorem C39_precession_separation ra dec ra' dec' years : let '(r1, d1) := apply_precession ra dec years in let '(r2, d2) := apply_precession ra' dec' years in
  inner (unit_vector r1 d1) (unit_vector r2 d2) = inner (unit_vector ra dec) (unit_vector ra' dec').
Proof.
  pose proof (precession_direction ra dec years) as D1. destruct (apply_precession ra dec years) as [r1 d1]. destruct D1 as (_ & _ & ->). pose proof (precession_direction ra' dec' years) as D2. destruct (apply_precession ra' dec' years) as [r2 d2]. destruct D2 as (_ & _ & ->). apply precess_inner.
Qed.
Print Assumptions C39_precession_separation.
Example C39_example : inner (0, 0.6, 0.8) (0, 0.6, 0.8) = 1 /\ unit_vector 0 0 = from_ecliptic OBLIQ (unit_vector 0 0) /\ 0 <= snd (altaz2hadec (LATITUDE - 0 / 3600) (0 / 3600)).
Proof.
  split; [cbn; lra|]. split.
  - rewrite from_ecliptic_act, <- getXYZ_unit. unfold getXYZ, refX, vecX. rewrite cosd0, sind0. cbn. apply triple_eq; ring.
  - pose proof true_pole as T. replace (LATITUDE - 0 / 3600) with LATITUDE by (unfold Rdiv; ring). replace (0 / 3600) with 0 by (unfold Rdiv; ring). pose proof (altaz2hadec_direction LATITUDE 0) as D. destruct (altaz2hadec LATITUDE 0) as [ha dec]. destruct D as (_ & Rd & _). cbn.
    destruct (Rle_dec 0 dec) as [|N]; [assumption|exfalso]. rewrite <- getXYZ_unit in T. unfold getXYZ in T. injection T as _ _ T. pose proof (sind_neg (- dec)) as Q. rewrite Ropp_involutive in Q. pose proof (sind_pos (- dec) ltac:(lra)). lra.
Qed.

(** *** C68: radec2tan *)
Theorem C68_pointing o ra dec mjd lst hexrot r : radec2tan o ra dec ra dec mjd lst hexrot = Ok r -> r = (0, 0).
Proof.
  unfold radec2tan. destruct (to_mount o ra dec mjd lst) as [ha d]. destruct (refract ha d) as [[ha' d']|]; [|discriminate]. cbn [rbind]. rewrite C37_pointing. intros E. injection E as <-. f_equal; ring.
Qed.
Print Assumptions C68_pointing.
Theorem C68_disk o ra dec tel_ra tel_dec mjd lst hexrot x y : radec2tan o ra dec tel_ra tel_dec mjd lst hexrot = Ok (x, y) -> x ^ 2 + y ^ 2 <= 1.
Proof.
  unfold radec2tan. destruct (to_mount o ra dec mjd lst) as [ha d]. destruct (to_mount o tel_ra tel_dec mjd lst) as [th td]. destruct (refract ha d) as [[ha' d']|]; [|discriminate]. destruct (refract th td) as [[th' td']|]; [|discriminate]. cbn [rbind].
  destruct (C37_components ha' d' th' td') as (u & v & -> & _ & _ & N). intros E. injection E as <- <-. pose proof (sincosd_one hexrot) as H. pose proof (pow2_ge_0 (inner (unit_vector ha' d') (unit_vector th' td'))).
  replace ((cosdeg hexrot * u - sindeg hexrot * v) ^ 2 + (sindeg hexrot * u + cosdeg hexrot * v) ^ 2) with ((sindeg hexrot * sindeg hexrot + cosdeg hexrot * cosdeg hexrot) * (u ^ 2 + v ^ 2)) by ring. rewrite H. lra.
Qed.
Print Assumptions C68_disk.
(** The hexapod rotation turns the whole field by the same angle. *)
Theorem C68_hexapod o ra dec tel_ra tel_dec mjd lst hexrot x y : radec2tan o ra dec tel_ra tel_dec mjd lst 0 = Ok (x, y) ->
  radec2tan o ra dec tel_ra tel_dec mjd lst hexrot = Ok (cos (PI * hexrot / 180) * x - sin (PI * hexrot / 180) * y, sin (PI * hexrot / 180) * x + cos (PI * hexrot / 180) * y).
Proof.
  unfold radec2tan. destruct (to_mount o ra dec mjd lst) as [ha d]. destruct (to_mount o tel_ra tel_dec mjd lst) as [th td]. destruct (refract ha d) as [[ha' d']|]; [|discriminate]. destruct (refract th td) as [[th' td']|]; [|discriminate]. cbn [rbind].
  destruct (hadec2xy ha' d' th' td') as [u v]. rewrite cosd0, sind0. intros E. injection E as <- <-. unfold cosdeg, sindeg. rewrite !deg_rad. f_equal. f_equal; ring.
Qed.
Print Assumptions C68_hexapod.
(** Only the hour angle matters: turning the sky and the sidereal time by the same angle changes nothing (no precession or aberration). *)
Theorem C68_sidereal o ra dec tel_ra tel_dec mjd lst hexrot t : precession o = false -> aberration o = false ->
  radec2tan o (ra + t) dec (tel_ra + t) tel_dec mjd (lst + t) hexrot = radec2tan o ra dec tel_ra tel_dec mjd lst hexrot.
Proof. intros P A. unfold radec2tan, to_mount. rewrite P, A. replace (lst + t - (ra + t)) with (lst - ra) by ring. replace (lst + t - (tel_ra + t)) with (lst - tel_ra) by ring. reflexivity. Qed.
Print Assumptions C68_sidereal.
(** The direction of a target as the mount sees it: precession, then aberration, then hour angle, then polar misalignment (120 and 2 arcsec). *)
Definition apparent (o : options) (ra dec mjd lst : R) : R * R * R :=
  let '(ra, dec) := if precession o then apply_precession_from_icrs ra dec mjd else (ra, dec) in
  let '(ra, dec) := if aberration o then apply_aberration ra dec mjd else (ra, dec) in
  let v := unit_vector (lst - ra) dec in if polar_misalignment o then act (compute_polar_misalignment_rotation_matrix (-120) (-2)) v else v.
(** [v] is [u] moved by refraction towards the zenith. *)
Definition lifted (u v : R * R * R) : Prop := exists alt az alt', 0 < alt <= 90 /\ horizontal 31.96403 u = unit_vector az alt /\ apply_refraction alt = Ok alt' /\ horizontal 31.96403 v = unit_vector az alt'.
Lemma to_mount_apparent o ra dec mjd lst : hardcoded_polmis o = false -> let '(ha, d) := to_mount o ra dec mjd lst in unit_vector ha d = apparent o ra dec mjd lst.
Proof.
  intros H. unfold to_mount, apparent. rewrite H. destruct (if precession o then _ else _) as [ra1 d1]. destruct (if aberration o then _ else _) as [ra2 d2]. destruct (polar_misalignment o); [|reflexivity].
  rewrite mv_act, getXYZ_unit. change (-120) with ME_ARCSEC. change (-2) with MA_ARCSEC. pose proof (getLONLAT_unit (act (compute_polar_misalignment_rotation_matrix ME_ARCSEC MA_ARCSEC) (unit_vector (lst - ra2) d2))) as G.
  rewrite (rotation_inner _ _ _ (polar_rotation ME_ARCSEC MA_ARCSEC)) in G. specialize (G (unit_norm _ _)). destruct (getLONLAT _) as [ha d]. exact G.
Qed.
Lemma refract_lifted ha d : 0 < inner (unit_vector ha d) (unit_vector 0 31.96403) -> exists ha' d', refract ha d = Ok (ha', d') /\ -90 <= d' <= 90 /\ lifted (unit_vector ha d) (unit_vector ha' d').
Proof.
  intros H. pose proof (hadec2altaz_up ha d _ H (Rle_refl _)) as U. unfold refract. destruct (hadec2altaz ha d) as [alt az]. destruct U as (U1 & _ & U3). rewrite apply_refraction_Ok by lra. cbn [rbind].
  pose proof (altaz2hadec_direction (alt + rc * cotd alt) az) as D. destruct (altaz2hadec _ _) as [ha' d']. destruct D as (_ & Rd & D). exists ha', d'. split; [reflexivity|]. split; [exact Rd|].
  exists alt, az, (alt + rc * cotd alt). split; [exact U1|]. split; [rewrite <- horizon_map_horizontal; symmetry; exact U3|]. split; [apply apply_refraction_Ok; lra|]. rewrite <- horizon_map_horizontal, D. apply horizon_map_involutive.
Qed.
(** The chain: both directions as the mount sees them are moved by refraction, and the target is projected on the plane tangent at the pointing. *)
Theorem C68_chain o ra dec tel_ra tel_dec mjd lst : hardcoded_polmis o = false ->
  0 < inner (apparent o ra dec mjd lst) (unit_vector 0 31.96403) -> 0 < inner (apparent o tel_ra tel_dec mjd lst) (unit_vector 0 31.96403) ->
  exists u th td x y, lifted (apparent o ra dec mjd lst) u /\ lifted (apparent o tel_ra tel_dec mjd lst) (unit_vector th td) /\ -90 <= td <= 90 /\
    radec2tan o ra dec tel_ra tel_dec mjd lst 0 = Ok (x, y) /\ x = inner u (unit_vector (th + 90) 0) /\ y = inner u (unit_vector th (td + 90)).
Proof.
  intros H U1 U2. unfold radec2tan. pose proof (to_mount_apparent o ra dec mjd lst H) as A1. pose proof (to_mount_apparent o tel_ra tel_dec mjd lst H) as A2.
  destruct (to_mount o ra dec mjd lst) as [ha d]. destruct (to_mount o tel_ra tel_dec mjd lst) as [th0 td0]. rewrite <- A1 in *. rewrite <- A2 in *.
  destruct (refract_lifted ha d U1) as (ha' & d' & -> & _ & L1). destruct (refract_lifted th0 td0 U2) as (th & td & -> & R2 & L2). cbn [rbind]. destruct (C37_components ha' d' th td) as (x & y & -> & X & Y & _).
  exists (unit_vector ha' d'), th, td, x, y. split; [exact L1|]. split; [exact L2|]. split; [exact R2|]. rewrite cosd0, sind0. split; [f_equal; f_equal; ring|]. split; [exact X|exact Y].
Qed.
Print Assumptions C68_chain.
(** With every correction off the mount sees the hour angle lst - ra; a target on the meridian at the latitude is at the zenith. *)
Example C68_example : let o := {| precession := false; aberration := false; polar_misalignment := false; hardcoded_polmis := false |} in
  apparent o 30 20 59000 100 = unit_vector 70 20 /\ 0 < inner (apparent o 30 20 59000 100) (unit_vector 0 31.96403).
Proof. cbv zeta. split; [unfold apparent; cbn; f_equal; lra|]. unfold apparent, inner, unit_vector; cbn. interval. Qed.

(** *** C69: aberration *)
(** The apparent longitude of the sun: it moves with the mean longitude, 0.9856474 degrees a day from 280.46 at J2000, within 1.94 degrees. *)
Theorem C69_sun mjd : let g := 357.528 + 0.9856003 * (mjd - 51544.5) in exists L, same_angle (getSunLon mjd) L /\ 0 <= getSunLon mjd < 360 /\
  L - (280.46 + 0.9856474 * (mjd - 51544.5)) = 1.915 * sin (PI * g / 180) + 0.02 * sin (2 * (PI * g / 180)) /\ Rabs (L - (280.46 + 0.9856474 * (mjd - 51544.5))) < 1.94.
Proof.
  cbv zeta. unfold getSunLon. set (g := 357.528 + 0.9856003 * (mjd - 51544.5)). eexists. split; [apply put360_same|]. split; [apply put360_range|].
  match goal with |- ?a = _ /\ Rabs ?a < _ => assert (E : a = 1.915 * sin (PI * g / 180) + 0.02 * sin (2 * (PI * g / 180))) end.
  { unfold sindeg. rewrite !deg_rad. replace (PI * (2 * g) / 180) with (2 * (PI * g / 180)) by lra. lra. }
  rewrite E. split; [reflexivity|]. pose proof (SIN_bound (PI * g / 180)). pose proof (SIN_bound (2 * (PI * g / 180))). apply Rabs_def1; lra.
Qed.
Print Assumptions C69_sun.
(** The displaced direction lies between the target and the apex of the motion of the earth, 90 degrees behind the sun on the ecliptic; the tangent of the displacement is 0.99365e-4 times the sine of their separation. *)
Theorem C69_aberration ra dec mjd : let '(ra', dec') := apply_aberration ra dec mjd in
  let T := unit_vector ra dec in let A := from_ecliptic OBLIQ (unit_vector (getSunLon mjd - 90) 0) in
  0 <= ra' < 360 /\ -90 <= dec' <= 90 /\
  exists n, 0 < n /\ n ^ 2 = 1 + 0.99365e-4 ^ 2 * (1 - inner T A ^ 2) /\ times n (unit_vector ra' dec') = plus T (times 0.99365e-4 (plus A (times (- inner T A) T))).
Proof.
  pose proof (aberration_direction ra dec mjd) as D. destruct (apply_aberration ra dec mjd) as [ra' dec']. cbv zeta in *. rewrite from_ecliptic_act. fold (apex mjd). destruct D as (R1 & R2 & n & P & N & E). split; [exact R1|]. split; [exact R2|].
  exists n. split; [exact P|]. split; [exact N|]. rewrite E. fold kappa. destruct (unit_vector ra dec) as [[? ?] ?], (apex mjd) as [[? ?] ?]. cbn. apply triple_eq; ring.
Qed.
Print Assumptions C69_aberration.
Theorem C69_size ra dec mjd : let '(ra', dec') := apply_aberration ra dec mjd in
  1 / sqrt (1 + 0.99365e-4 ^ 2) <= inner (unit_vector ra dec) (unit_vector ra' dec') <= 1.
Proof.
  pose proof (aberration_direction ra dec mjd) as D. destruct (apply_aberration ra dec mjd) as [ra' dec']. cbv zeta in D. destruct D as (_ & _ & n & P & N & E). fold kappa.
  assert (I : n * inner (unit_vector ra dec) (unit_vector ra' dec') = 1). { rewrite <- inner_times_r, E, inner_plus_r, !inner_times_r, unit_norm. ring. }
  set (i := inner (unit_vector ra dec) (unit_vector ra' dec')) in *. set (a := inner (unit_vector ra dec) (apex mjd)) in *.
  assert (Ca : a ^ 2 <= 1). { pose proof (cauchy (unit_vector ra dec) (apex mjd)) as C. rewrite unit_norm in C. unfold apex in C at 2 3. rewrite refX_inner, unit_norm in C. fold a in C. lra. }
  pose proof (pow2_ge_0 kappa) as K. pose proof (pow2_ge_0 a) as A0. assert (1 <= n ^ 2 <= 1 + kappa ^ 2) by (rewrite N; nra). set (s := sqrt (1 + kappa ^ 2)). assert (Hs : s * s = 1 + kappa ^ 2) by (apply sqrt_sqrt; lra). assert (0 < s) by (apply sqrt_lt_R0; lra).
  assert (i = 1 / n) by (field_simplify_eq; lra). assert (1 <= n) by nra. assert (n <= s) by nra. rewrite H1. split.
  - unfold Rdiv. rewrite !Rmult_1_l. apply Rinv_le_contravar; lra.
  - unfold Rdiv. rewrite Rmult_1_l, <- Rinv_1. apply Rinv_le_contravar; lra.
Qed.
Print Assumptions C69_size.

(** *** C70: refraction *)
(** The refraction is 79 arcsec times tan 30 / tan alt: 79 arcsec at 30 degrees, 0 at the zenith, decreasing with altitude. *)
Theorem C70_refraction alt : 0 < alt <= 90 -> exists r, apply_refraction alt = Ok r /\
  (alt < 90 -> (r - alt) * 3600 * tan (PI * alt / 180) = 79 * tan (PI * 30 / 180)) /\ (alt = 90 -> r = 90) /\ (alt < 90 -> alt < r).
Proof.
  intros H. exists (alt + rc * cotd alt). split; [apply apply_refraction_Ok; lra|]. pose proof (sind_pos alt ltac:(lra)) as S. pose proof rc_bounds. split; [|split].
  - intros L. rewrite <- !deg_rad. unfold rc, cotd, REFRACTION_AT_30DEG_ELEVATION, tan. fold (sindeg alt) (cosdeg alt) (sindeg 30) (cosdeg 30). pose proof (cosd_pos alt ltac:(lra)). pose proof (cosd_pos 30 ltac:(lra)). field. lra.
  - intros ->. unfold cotd. rewrite cosd90. unfold Rdiv. ring.
  - intros L. assert (0 < cotd alt); [|nra]. unfold cotd. apply Rdiv_lt_0_compat; [apply cosd_pos; lra|exact S].
Qed.
Print Assumptions C70_refraction.
Theorem C70_monotone a b ra rb : 0 < a < b -> b < 180 -> apply_refraction a = Ok ra -> apply_refraction b = Ok rb -> rb - b < ra - a.
Proof.
  intros H B. rewrite !apply_refraction_Ok by lra. intros E1 E2. injection E1 as <-. injection E2 as <-. pose proof rc_bounds.
  assert (cotd b < cotd a); [|nra]. destruct (cotd_slope (Rmin (Rmin a 90) (180 - b)) a b) as [_ L].
  - unfold Rmin. repeat destruct (Rle_dec _ _); lra.
  - unfold Rmin. repeat destruct (Rle_dec _ _); lra.
  - lra.
  - unfold Rmin. repeat destruct (Rle_dec _ _); lra.
  - specialize (L ltac:(lra)). lra.
Qed.
Print Assumptions C70_monotone.
(** Two iterations of undo_refraction leave an error that is of third order, never negative, and at most 2e-8 degrees above 30 degrees. *)
Theorem C70_undo alt : 1 <= alt <= 90 -> exists r b, apply_refraction alt = Ok r /\ undo_refraction r = Ok b /\ alt <= b <= r /\ r <= 90 /\
  b - alt <= ((79 / 3600 * tan (PI * 30 / 180) * (PI / 180)) / sin (PI * alt / 180) ^ 2) ^ 2 * (r - alt) /\ (30 <= alt -> b - alt <= 2e-8).
Proof.
  intros H. exists (alt + rc * cotd alt). destruct (undo_refraction_bound alt H) as (b & E & [B1 B2] & _ & B4). destruct (refracted_range alt H) as (RA & _ & _).
  exists b. split; [apply apply_refraction_Ok; lra|]. split; [exact E|].
  assert (Q : rc * D2R / sindeg alt ^ 2 <= 1).
  { pose proof (sina alt H). pose proof K_bound. pose proof rc_bounds. pose proof D2R_pos. apply (Rmult_le_reg_r (sindeg alt ^ 2)); [nra|]. unfold Rdiv. rewrite Rmult_assoc, Rinv_l by nra. nra. }
  assert (Q0 : 0 <= rc * D2R / sindeg alt ^ 2). { pose proof (sina alt H). pose proof rc_bounds. pose proof D2R_pos. apply Rmult_le_pos; [nra|left; apply Rinv_0_lt_compat; nra]. }
  split; [split; [lra|]|].
  - assert ((rc * D2R / sindeg alt ^ 2) ^ 2 <= 1) by nra. nra.
  - split; [lra|]. split.
    + replace (alt + rc * cotd alt - alt) with (rc * cotd alt) by ring. replace (79 / 3600 * tan (PI * 30 / 180) * (PI / 180) / sin (PI * alt / 180) ^ 2) with (rc * D2R / sindeg alt ^ 2); [exact B2|]. rewrite <- !deg_rad. unfold rc, tan, REFRACTION_AT_30DEG_ELEVATION. reflexivity.
    + intros L. pose proof (undo_refraction_small alt H L). lra.
Qed.
Print Assumptions C70_undo.
(** The inverse is not exact below the zenith. *)
Theorem C70_undo_exact_refuted alt : 1 <= alt < 90 -> exists r b, apply_refraction alt = Ok r /\ undo_refraction r = Ok b /\ alt < b.
Proof.
  intros H. exists (alt + rc * cotd alt). destruct (undo_refraction_bound alt ltac:(lra)) as (b & E & _ & B3 & _). exists b. split; [apply apply_refraction_Ok; lra|]. split; [exact E|]. apply B3. lra.
Qed.
Print Assumptions C70_undo_exact_refuted.
Theorem C70_horizon_refuted : apply_refraction 0 = Err NonFinite.
Proof. unfold apply_refraction. rewrite sind0. destruct (Reqb 0 0) eqn:E; [reflexivity|]. apply Reqb_false in E. lra. Qed.
Print Assumptions C70_horizon_refuted.

(** *** C86: undoing the aberration *)
(** Away from the poles the inverse leaves an error of second order in the speed 0.99365e-4 of the earth, larger near the poles. *)
Theorem C86_undo ra dec mjd : let '(ra1, dec1) := apply_aberration ra dec mjd in let '(ra2, dec2) := undo_aberration ra1 dec1 mjd in
  0.14 <= cos (PI * dec1 / 180) -> 2 - 2 * inner (unit_vector ra dec) (unit_vector ra2 dec2) <= (3 * 0.99365e-4 ^ 2 * (1 + 1 / cos (PI * dec1 / 180))) ^ 2.
Proof.
  pose proof (undo_aberration_near ra dec) as U. pose proof (aberration_step ra dec mjd) as S. destruct (apply_aberration ra dec mjd) as [ra1 dec1] eqn:E. cbv zeta in S. destruct S as (R1 & _).
  specialize (U ra1 dec1 mjd 0 (Rle_refl 0) R1). rewrite E, dist_refl in U. destruct (undo_aberration ra1 dec1 mjd) as [ra2 dec2]. intros C. rewrite <- deg_rad in *. fold (cosdeg dec1) in *. specialize (U C (Rle_refl 0)).
  rewrite <- (dist_chord _ _ (unit_norm _ _) (unit_norm _ _)). pose proof (dist_nonneg (unit_vector ra dec) (unit_vector ra2 dec2)). fold kappa.
  replace ((1 + 2 * kappa) * 0 + 3 * kappa ^ 2 + 3 * kappa ^ 2 / cosdeg dec1) with (3 * kappa ^ 2 * (1 + 1 / cosdeg dec1)) in U by (field; lra).
  replace ((3 * kappa ^ 2 * (1 + 1 / cosdeg dec1)) ^ 2) with ((3 * kappa ^ 2 * (1 + 1 / cosdeg dec1)) * (3 * kappa ^ 2 * (1 + 1 / cosdeg dec1))) by ring. apply Rmult_le_compat; assumption.
Qed.
Print Assumptions C86_undo.
(** At the pole the declination given back is always beyond 90 degrees. *)
Theorem C86_pole_refuted ra mjd : 90 < snd (undo_aberration ra 90 mjd).
Proof.
  unfold undo_aberration. pose proof (aberration_direction ra 90 mjd) as D. destruct (apply_aberration ra 90 mjd) as [ra2 dec2]. cbv zeta in D. destruct D as (_ & R2 & n & P & N & E). cbn.
  assert (dec2 <> 90); [|lra]. intros ->.
  assert (Pole : forall r, unit_vector r 90 = (0, 0, 1)) by (intros r; rewrite <- getXYZ_unit; unfold getXYZ; rewrite cosd90, sind90; apply triple_eq; ring).
  rewrite !Pole in *. unfold apex, refX, vecX in *. rewrite Ropp_involutive in *. rewrite <- getXYZ_unit in *. unfold getXYZ in *. rewrite cosd0, sind0 in *. set (l := getSunLon mjd - 90) in *.
  assert (CO : 0 < cosdeg OBLIQ) by (apply cosd_pos; unfold OBLIQ; lra). assert (SO : 0 < sindeg OBLIQ) by (apply sind_pos; unfold OBLIQ; lra). pose proof (sincosd_one l) as Hl. pose proof kappa_bounds as K.
  cbn in E. injection E as E1 E2 _. assert (cosdeg l = 0) by nra. assert (sindeg l = 0); [|nra].
  assert (Q : kappa * (cosdeg OBLIQ * sindeg l) = 0) by lra. apply Rmult_integral in Q. destruct Q as [Q|Q]; [lra|]. apply Rmult_integral in Q. destruct Q; lra.
Qed.
Print Assumptions C86_pole_refuted.
Example C86_example : 0.14 <= cos (PI * 60 / 180).
Proof. interval. Qed.

(** *** C71: sky to tangent plane and back. [ha], [d], [th], [td]: hour angle and declination of target and pointing for the mount, both at least 30 degrees above the horizon, the target within 80 degrees of the equator if aberration is corrected. *)
Theorem C71_round_trip o ra dec tel_ra tel_dec mjd lst hexrot ha d th td :
  to_mount o ra dec mjd lst = (ha, d) -> to_mount o tel_ra tel_dec mjd lst = (th, td) ->
  sin (PI * 30 / 180) <= inner (unit_vector ha d) (unit_vector 0 LATITUDE) -> sin (PI * 30 / 180) <= inner (unit_vector th td) (unit_vector 0 LATITUDE) ->
  cos (PI * 89.9 / 180) <= inner (unit_vector ra dec) (unit_vector tel_ra tel_dec) -> (aberration o = true -> -80 <= d <= 80) ->
  exists x y ra' dec', radec2tan o ra dec tel_ra tel_dec mjd lst hexrot = Ok (x, y) /\ tan2radec o x y tel_ra tel_dec mjd lst hexrot = Ok (ra', dec') /\
    cos (PI * (if aberration o then 2e-5 else if polar_misalignment o then 3e-6 else 3e-8) / 180) <= inner (unit_vector ra dec) (unit_vector ra' dec').
Proof.
  intros M1 M2 U1 U2 F A. replace (PI * 30 / 180) with (PI / 6) in U1, U2 by lra. rewrite sin_PI6 in U1, U2.
  assert (1.7e-3 <= cos (PI * 89.9 / 180)) by interval.
  assert (Low : aberration o = true -> Rabs (sindeg d) <= 0.985).
  { intros Ha. specialize (A Ha). assert (S80 : sindeg 80 <= 0.985) by (unfold sindeg, D2R; interval). pose proof PI_RGT_0. assert (M : forall x, x <= 80 -> -80 <= x -> sindeg x <= sindeg 80) by (intros x X1 X2; unfold sindeg; apply sin_incr_1; unfold D2R; nra).
    pose proof (M d ltac:(lra) ltac:(lra)). pose proof (M (- d) ltac:(lra) ltac:(lra)) as Q. rewrite sind_neg in Q. apply Rabs_le. lra. }
  destruct (round_trip o ra dec tel_ra tel_dec mjd lst hexrot ha d th td M1 M2 U1 U2 ltac:(lra) Low) as (x & y & ra' & dec' & E1 & E2 & D).
  exists x, y, ra', dec'. split; [exact E1|]. split; [exact E2|]. pose proof (dist_chord _ _ (unit_norm ra dec) (unit_norm ra' dec')) as C. pose proof (dist_nonneg (unit_vector ra dec) (unit_vector ra' dec')) as N.
  unfold limit in D. destruct (aberration o); [|destruct (polar_misalignment o)].
  - assert (cos (PI * 2e-5 / 180) <= 1 - 3e-7 * 3e-7 / 2) by (interval with (i_prec 150)). nra.
  - assert (cos (PI * 3e-6 / 180) <= 1 - 4.1e-8 * 4.1e-8 / 2) by (interval with (i_prec 150)). nra.
  - assert (cos (PI * 3e-8 / 180) <= 1 - 4e-10 * 4e-10 / 2) by (interval with (i_prec 150)). nra.
Qed.
Print Assumptions C71_round_trip.
(** A target one degree from a pointing at the zenith of latitude. *)
Example C71_example : let o := {| precession := false; aberration := false; polar_misalignment := false; hardcoded_polmis := false |} in
  to_mount o 101 LATITUDE 59000 100 = (100 - 101, LATITUDE) /\ sin (PI * 30 / 180) <= inner (unit_vector (100 - 101) LATITUDE) (unit_vector 0 LATITUDE) /\
  cos (PI * 89.9 / 180) <= inner (unit_vector 101 LATITUDE) (unit_vector 100 LATITUDE).
Proof. cbv zeta. split; [reflexivity|]. unfold inner, unit_vector, LATITUDE. split; interval. Qed.
(** The same with aberration. *)
Example C71_example_aberration : let o := {| precession := false; aberration := true; polar_misalignment := false; hardcoded_polmis := false |} in
  exists ha d, to_mount o 101 LATITUDE 59000 100 = (ha, d) /\ sin (PI * 30 / 180) <= inner (unit_vector ha d) (unit_vector 0 LATITUDE) /\ -80 <= d <= 80.
Proof.
  cbv zeta. unfold to_mount. cbn [precession aberration polar_misalignment]. pose proof (aberration_step 101 LATITUDE 59000) as S. destruct (apply_aberration 101 LATITUDE 59000) as [r2 d2]. cbv zeta in S. destruct S as (R2 & n & _ & _ & _ & S & _). pose proof kappa_bounds as K.
  exists (100 - r2), d2. split; [reflexivity|]. rewrite <- (dist_longitude 100) in S.
  assert (Z1 : Rabs (inner (unit_vector (100 - 101) LATITUDE) (unit_vector 0 LATITUDE) - inner (unit_vector (100 - r2) d2) (unit_vector 0 LATITUDE)) <= kappa) by (eapply Rle_trans; [apply dist_inner, size_unit|exact S]).
  assert (Z2 : Rabs (inner (unit_vector (100 - 101) LATITUDE) (unit_vector 0 90) - inner (unit_vector (100 - r2) d2) (unit_vector 0 90)) <= kappa) by (eapply Rle_trans; [apply dist_inner, size_unit|exact S]).
  apply Rabs_bounds in Z1, Z2. assert (0.9 <= inner (unit_vector (100 - 101) LATITUDE) (unit_vector 0 LATITUDE)) by (unfold inner, unit_vector, LATITUDE; interval).
  assert (sin (PI * 30 / 180) <= 0.6) by interval. split; [lra|]. rewrite <- !sind_inner in Z2. assert (0.4 <= sindeg LATITUDE <= 0.6) by (unfold sindeg, D2R, LATITUDE; interval).
  assert (0.9 <= sindeg 80) by (unfold sindeg, D2R; interval). pose proof PI_RGT_0. split.
  - destruct (Rle_lt_dec (-80) d2) as [|L]; [assumption|exfalso]. assert (sindeg d2 <= 0); [|lra]. replace d2 with (- - d2) by ring. rewrite sind_neg. assert (0 <= sindeg (- d2)); [|lra]. unfold sindeg. apply sin_ge_0; unfold D2R; nra.
  - destruct (Rle_lt_dec d2 80) as [|L]; [assumption|exfalso]. assert (sindeg 80 <= sindeg d2); [|lra]. unfold sindeg. apply sin_incr_1; unfold D2R; nra.
Qed.
