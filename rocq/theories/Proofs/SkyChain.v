From Verif.Model Require Import Radec2tan.
From Verif.Spec Require Import Trig Sphere.
From Verif.Proofs Require Import RealNum Trig Sphere Radec2tan Refraction.
From Coq Require Import Lra.
From Interval Require Import Tactic.
Local Open Scope R_scope.

(** *** Inner products *)
Lemma inner_plus_l u v w : inner (plus u v) w = inner u w + inner v w.
Proof. destruct u as [[? ?] ?], v as [[? ?] ?], w as [[? ?] ?]. cbn. ring. Qed.
Lemma inner_plus_r u v w : inner w (plus u v) = inner w u + inner w v.
Proof. destruct u as [[? ?] ?], v as [[? ?] ?], w as [[? ?] ?]. cbn. ring. Qed.
Lemma cauchy u v : inner u v ^ 2 <= inner u u * inner v v.
Proof.
  destruct u as [[a b] c], v as [[x y] z]. cbn [inner].
  assert (0 <= (a * y - b * x) ^ 2 + (a * z - c * x) ^ 2 + (b * z - c * y) ^ 2) by (pose proof (pow2_ge_0 (a * y - b * x)); pose proof (pow2_ge_0 (a * z - c * x)); pose proof (pow2_ge_0 (b * z - c * y)); lra).
  replace ((a * a + b * b + c * c) * (x * x + y * y + z * z)) with ((a * x + b * y + c * z) ^ 2 + ((a * y - b * x) ^ 2 + (a * z - c * x) ^ 2 + (b * z - c * y) ^ 2)) by ring. lra.
Qed.
Definition gap (u v : R * R * R) := plus u (times (-1) v).
Lemma gap_sq u v : inner u u = 1 -> inner v v = 1 -> inner (gap u v) (gap u v) = 2 - 2 * inner u v.
Proof. destruct u as [[? ?] ?], v as [[? ?] ?]. cbn. lra. Qed.
Lemma inner_moved u v w : inner u u = 1 -> inner v v = 1 -> inner w w = 1 -> (inner u w - inner v w) ^ 2 <= 2 - 2 * inner u v.
Proof.
  intros U V W. rewrite <- (gap_sq u v U V). replace (inner u w - inner v w) with (inner (gap u v) w). { pose proof (cauchy (gap u v) w) as C. rewrite W in C. lra. }
  unfold gap. rewrite inner_plus_l, inner_times_l. lra.
Qed.
Lemma inner_meridian lon a b : inner (unit_vector lon a) (unit_vector lon b) = cosdeg (a - b).
Proof.
  rewrite <- !getXYZ_unit. unfold getXYZ, Rminus. rewrite cosd_plus, cosd_neg, sind_neg. cbn. pose proof (sincosd_one lon) as H.
  transitivity ((sindeg lon * sindeg lon + cosdeg lon * cosdeg lon) * (cosdeg a * cosdeg b) + sindeg a * sindeg b); [ring|]. rewrite H. ring.
Qed.
Lemma inner_longitude lst a d b e : inner (unit_vector (lst - a) d) (unit_vector (lst - b) e) = inner (unit_vector a d) (unit_vector b e).
Proof.
  rewrite <- !getXYZ_unit. unfold getXYZ, Rminus. rewrite !cosd_plus, !sind_plus, !cosd_neg, !sind_neg. cbn. pose proof (sincosd_one lst) as H.
  transitivity ((sindeg lst * sindeg lst + cosdeg lst * cosdeg lst) * (cosdeg d * cosdeg e * (cosdeg a * cosdeg b + sindeg a * sindeg b)) + sindeg d * sindeg e); [ring|]. rewrite H. ring.
Qed.
Lemma cosd_chord d : 2 - 2 * cosdeg d <= (D2R * d) ^ 2.
Proof.
  unfold cosdeg. set (x := D2R * d). replace (cos x) with (cos (2 * (x / 2))) by (f_equal; lra). rewrite cos_2a_sin.
  assert (sin (x / 2) ^ 2 <= (x / 2) ^ 2); [|lra]. destruct (Rle_dec 0 x).
  - destruct (Rle_dec (x / 2) PI) as [P|P].
    + apply pow_incr. split; [apply sin_ge_0; lra|apply sin_le_self; lra].
    + pose proof (SIN_bound (x / 2)). pose proof PI2_3_2. pose proof PI_RGT_0. pose proof PI_4. assert (1 <= x / 2) by lra. nra.
  - replace (sin (x / 2) ^ 2) with (sin (- (x / 2)) ^ 2) by (rewrite sin_neg; ring). replace ((x / 2) ^ 2) with ((- (x / 2)) ^ 2) by ring. set (y := - (x / 2)). assert (0 <= y) by (unfold y; lra). destruct (Rle_dec y PI) as [P|P].
    + apply pow_incr. split; [apply sin_ge_0; lra|apply sin_le_self; lra].
    + pose proof (SIN_bound y). pose proof PI2_3_2. assert (1 <= y) by lra. nra.
Qed.

(** *** Altitude: the third coordinate in the horizontal frame is the inner product with the zenith. *)
Lemma zenith ha dec : let '(x, y, z) := horizon_map (unit_vector ha dec) in z = inner (unit_vector ha dec) (unit_vector 0 LATITUDE).
Proof. rewrite <- !getXYZ_unit. unfold horizon_map, getXYZ. rewrite cosd0, sind0. cbn. ring. Qed.
Lemma hadec2altaz_up ha dec s : 0 < s -> s <= inner (unit_vector ha dec) (unit_vector 0 LATITUDE) ->
  let '(alt, az) := hadec2altaz ha dec in 0 < alt <= 90 /\ s <= sindeg alt /\ unit_vector az alt = horizon_map (unit_vector ha dec).
Proof.
  intros Hs H. pose proof (hadec2altaz_direction ha dec) as D. destruct (hadec2altaz ha dec) as [alt az]. destruct D as (R1 & _ & C & D).
  pose proof (zenith ha dec) as Z. rewrite <- D, <- getXYZ_unit in Z. unfold getXYZ in Z. rewrite <- Z in H. split; [|now rewrite D].
  destruct (altitude_range alt R1 C) as [L|L].
  - destruct (Req_dec alt 0) as [->|]; [rewrite sind0 in H; lra|lra].
  - exfalso. pose proof PI_RGT_0. assert (sindeg alt <= 0); [|lra]. replace alt with (- (360 - alt) + 360) by lra. rewrite (sind_same (- (360 - alt) + 360) (- (360 - alt))) by (exists 1%Z; lra). rewrite sind_neg.
    assert (0 <= sindeg (360 - alt)); [|lra]. unfold sindeg. apply sin_ge_0; unfold D2R; nra.
Qed.
Lemma sind_half a : 0 < a <= 90 -> 1 / 2 <= sindeg a -> 30 <= a.
Proof.
  intros H S. destruct (Rle_lt_dec 30 a); [assumption|exfalso]. assert (sindeg a < sindeg 30). { unfold sindeg. pose proof PI_RGT_0. apply sin_increasing_1; unfold D2R; nra. }
  assert (sindeg 30 = 1 / 2). { unfold sindeg. replace (D2R * 30) with (PI / 6) by (unfold D2R; lra). apply sin_PI6. } lra.
Qed.
(** Refraction of a direction at least 30 degrees above the horizon. *)
Lemma refract_up ha dec : 1 / 2 <= inner (unit_vector ha dec) (unit_vector 0 LATITUDE) ->
  exists alt az ha' dec', hadec2altaz ha dec = (alt, az) /\ 30 <= alt <= 90 /\ unit_vector az alt = horizon_map (unit_vector ha dec) /\
    refract ha dec = Ok (ha', dec') /\ unit_vector ha' dec' = horizon_map (unit_vector az (alt + rc * cotd alt)) /\
    inner (unit_vector ha dec) (unit_vector ha' dec') = cosdeg (rc * cotd alt) /\ 0 <= rc * cotd alt <= 0.02195.
Proof.
  intros H. pose proof (hadec2altaz_up ha dec (1 / 2) ltac:(lra) H) as U. unfold refract. destruct (hadec2altaz ha dec) as [alt az]. destruct U as (U1 & U2 & U3). pose proof (sind_half alt U1 U2) as A30.
  rewrite apply_refraction_Ok by lra. cbn [rbind]. pose proof (altaz2hadec_direction (alt + rc * cotd alt) az) as D. destruct (altaz2hadec _ _) as [ha' dec']. destruct D as (_ & _ & D).
  exists alt, az, ha', dec'. split; [reflexivity|]. split; [lra|]. split; [exact U3|]. split; [reflexivity|]. split; [exact D|]. split.
  - rewrite D, <- (horizon_map_involutive (unit_vector ha dec)), horizon_map_inner, <- U3, inner_meridian. rewrite <- cosd_neg. f_equal. ring.
  - destruct (refracted_range alt ltac:(lra)) as (Q & _ & _). split; [lra|].
    destruct (cotd_slope 30 30 alt ltac:(lra) ltac:(lra) ltac:(lra) ltac:(lra)) as [[L _] _]. pose proof rc_bounds. assert (rc * cotd 30 < 0.02195) by (unfold rc, cotd, REFRACTION_AT_30DEG_ELEVATION, sindeg, cosdeg, D2R; interval). nra.
Qed.
(** A direction in front of the pointing is recovered from its projection. *)
Lemma xy_back ha dec th td : 0 <= inner (unit_vector ha dec) (unit_vector th td) ->
  let '(x, y) := hadec2xy ha dec th td in exists ha' dec', xy2hadec x y th td = Ok (ha', dec') /\ 0 <= ha' < 360 /\ -90 <= dec' <= 90 /\ unit_vector ha' dec' = unit_vector ha dec.
Proof.
  intros F. rewrite hadec2xy_components. pose proof (basis_norm th td (unit_vector ha dec)) as N. rewrite unit_norm in N. set (x := inner _ (unit_vector (th + 90) 0)) in *. set (y := inner _ (unit_vector th (td + 90))) in *. set (z := inner _ (unit_vector th td)) in *.
  destruct (xy2hadec_combo x y th td) as (ha' & dec' & E & R1 & R2 & D); [pose proof (pow2_ge_0 z); lra|]. exists ha', dec'. split; [exact E|]. split; [exact R1|]. split; [exact R2|]. rewrite D.
  replace (1 - x ^ 2 - y ^ 2) with (z ^ 2) by lra. rewrite <- Rsqr_pow2, sqrt_Rsqr by exact F. unfold combo. rewrite (basis th td (unit_vector ha dec)) at 1. reflexivity.
Qed.
(** Removing refraction from a refracted direction. *)
Lemma unrefract ha dec az alt : 30 <= alt <= 90 -> unit_vector ha dec = horizon_map (unit_vector az (alt + rc * cotd alt)) ->
  let '(alt', az') := hadec2altaz ha dec in exists b, undo_refraction alt' = Ok b /\ 0 <= b - alt <= 2e-8 /\ b <= 90 /\ unit_vector az' b = unit_vector az b.
Proof.
  intros H E. destruct (refracted_range alt ltac:(lra)) as (RA & RS & _). destruct (undo_refraction_bound alt ltac:(lra)) as (b & B1 & B2 & _ & B3). pose proof (undo_refraction_small alt ltac:(lra) ltac:(lra)) as B4.
  set (A := alt + rc * cotd alt) in *. pose proof (hadec2altaz_up ha dec (sindeg A) (sind_pos A ltac:(lra))) as U.
  assert (Z : inner (unit_vector ha dec) (unit_vector 0 LATITUDE) = sindeg A). { pose proof (zenith ha dec) as Z. rewrite E, horizon_map_involutive, <- getXYZ_unit in Z. unfold getXYZ in Z. rewrite E, <- (getXYZ_unit az A). unfold getXYZ. now symmetry. }
  rewrite Z in U. specialize (U (Rle_refl _)). destruct (hadec2altaz ha dec) as [alt' az']. destruct U as (U1 & _ & U3). rewrite E, horizon_map_involutive in U3.
  assert (EA : alt' = A) by (apply (unit_vector_lat az' alt' az A); [lra|lra|exact U3]). subst alt'. exists b. split; [exact B1|]. split; [lra|]. split; [exact B3|].
  destruct (Rlt_dec alt 90) as [L|L].
  - apply unit_vector_same; [|exists 0%Z; lra]. apply (unit_vector_lon az' A az A); [specialize (RS L); lra|lra|exact U3].
  - assert (Eb : b = 90) by lra. subst b. rewrite <- !getXYZ_unit. unfold getXYZ. rewrite cosd90. apply triple_eq; ring.
Qed.

(** From the mount to the tangent plane and back. *)
Lemma mount_round_trip ha d th td :
  1 / 2 <= inner (unit_vector ha d) (unit_vector 0 LATITUDE) -> 1 / 2 <= inner (unit_vector th td) (unit_vector 0 LATITUDE) ->
  1 / 1000 <= inner (unit_vector ha d) (unit_vector th td) ->
  exists ha1 d1 th1 td1 ha2 d2 alt az b ha3 d3 e,
    refract ha d = Ok (ha1, d1) /\ refract th td = Ok (th1, td1) /\
    (let '(x, y) := hadec2xy ha1 d1 th1 td1 in xy2hadec x y th1 td1 = Ok (ha2, d2)) /\
    hadec2altaz ha2 d2 = (alt, az) /\ undo_refraction alt = Ok b /\ altaz2hadec b az = (ha3, d3) /\
    0 <= e <= 2e-8 /\ -90 <= d3 <= 90 /\ inner (unit_vector ha d) (unit_vector ha3 d3) = cosdeg e.
Proof.
  intros Up1 Up2 Front.
  destruct (refract_up _ _ Up1) as (alt & az & ha' & d' & H1 & A1 & U1 & E1 & D1 & I1 & B1).
  destruct (refract_up _ _ Up2) as (talt & taz & th' & td' & H2 & A2 & U2 & E2 & D2 & I2 & B2).
  assert (F2 : 0 <= inner (unit_vector ha' d') (unit_vector th' td')).
  { pose proof (inner_moved _ _ (unit_vector th' td') (unit_norm ha d) (unit_norm ha' d') (unit_norm th' td')) as X. rewrite I1 in X.
    pose proof (inner_moved _ _ (unit_vector ha d) (unit_norm th td) (unit_norm th' td') (unit_norm ha d)) as Y. rewrite I2 in Y.
    rewrite (inner_sym (unit_vector th td)), (inner_sym (unit_vector th' td')) in Y.
    pose proof (cosd_chord (rc * cotd alt)) as C1. pose proof (cosd_chord (rc * cotd talt)) as C2.
    assert (DD : D2R < 0.01746) by (unfold D2R; interval). pose proof D2R_pos.
    assert (S1 : (D2R * (rc * cotd alt)) ^ 2 <= 0.0004 ^ 2) by (apply pow_incr; split; [nra|]; nra).
    assert (S2 : (D2R * (rc * cotd talt)) ^ 2 <= 0.0004 ^ 2) by (apply pow_incr; split; [nra|]; nra).
    set (p := inner (unit_vector ha d) (unit_vector th' td')) in *. set (q := inner (unit_vector ha' d') (unit_vector th' td')) in *. set (s := inner (unit_vector ha d) (unit_vector th td)) in *.
    assert (Sq : forall t, t ^ 2 <= 0.0004 ^ 2 -> t <= 0.0004) by (intros t Ht; nra).
    assert (p - q <= 0.0004) by (apply Sq; lra). assert (s - p <= 0.0004) by (apply Sq; lra). lra. }
  pose proof (xy_back _ _ _ _ F2) as XB. destruct (hadec2xy ha' d' th' td') as [x y] eqn:Ex. destruct XB as (ha2 & d2 & E3 & _ & _ & D3).
  rewrite D1 in D3. pose proof (unrefract ha2 d2 az alt A1 D3) as UR. destruct (hadec2altaz ha2 d2) as [alt' az'] eqn:Eh. destruct UR as (b & E4 & B4 & B5 & D4).
  pose proof (altaz2hadec_direction b az') as D5. destruct (altaz2hadec b az') as [ha3 d3] eqn:E5. destruct D5 as (_ & R5 & D5). rewrite D4 in D5.
  exists ha', d', th', td', ha2, d2, alt', az', b, ha3, d3, (b - alt). rewrite Ex. repeat (split; [assumption|]).
  rewrite D5, <- (horizon_map_involutive (unit_vector ha d)), horizon_map_inner, <- U1, inner_meridian, <- cosd_neg. f_equal. ring.
Qed.
(** The same through radec2tan and tan2radec, whatever the last steps of tan2radec are. *)
Lemma tan_round_trip o ra dec tel_ra tel_dec mjd lst hexrot ha d th td :
  to_mount o ra dec mjd lst = (ha, d) -> to_mount o tel_ra tel_dec mjd lst = (th, td) ->
  1 / 2 <= inner (unit_vector ha d) (unit_vector 0 LATITUDE) -> 1 / 2 <= inner (unit_vector th td) (unit_vector 0 LATITUDE) ->
  1 / 1000 <= inner (unit_vector ha d) (unit_vector th td) ->
  exists x y ha3 d3 e, radec2tan o ra dec tel_ra tel_dec mjd lst hexrot = Ok (x, y) /\ 0 <= e <= 2e-8 /\ -90 <= d3 <= 90 /\ inner (unit_vector ha d) (unit_vector ha3 d3) = cosdeg e /\
   tan2radec o x y tel_ra tel_dec mjd lst hexrot =
    (let '(ha, dec) := if polar_misalignment o then
      getLONLAT (mv (if hardcoded_polmis o then get_hardcoded_polmis_rotmat true else compute_polar_misalignment_rotation_matrix (- ME_ARCSEC) (- MA_ARCSEC)) (getXYZ ha3 d3))
    else (ha3, d3) in
    let ra := lst - ha in
    let '(ra, dec) := if aberration o then undo_aberration ra dec mjd else (ra, dec) in
    let '(ra, dec) := if precession o then undo_precession_from_icrs ra dec mjd else (ra, dec) in Ok (ra, dec)).
Proof.
  intros M1 M2 Up1 Up2 Front. destruct (mount_round_trip ha d th td Up1 Up2 Front) as (ha1 & d1 & th1 & td1 & ha2 & d2 & alt & az & b & ha3 & d3 & e & E1 & E2 & E3 & E4 & E5 & E6 & B & R3 & I).
  unfold radec2tan, tan2radec. rewrite M1, M2, E1, E2. cbn [rbind]. destruct (hadec2xy ha1 d1 th1 td1) as [x y].
  exists (cosdeg hexrot * x - sindeg hexrot * y), (sindeg hexrot * x + cosdeg hexrot * y), ha3, d3, e. split; [reflexivity|]. split; [exact B|]. split; [exact R3|]. split; [exact I|].
  pose proof (sincosd_one hexrot) as SC.
  replace (cosdeg hexrot * (cosdeg hexrot * x - sindeg hexrot * y) + sindeg hexrot * (sindeg hexrot * x + cosdeg hexrot * y)) with x.
  2:{ transitivity ((sindeg hexrot * sindeg hexrot + cosdeg hexrot * cosdeg hexrot) * x); [rewrite SC|]; ring. }
  replace (- sindeg hexrot * (cosdeg hexrot * x - sindeg hexrot * y) + cosdeg hexrot * (sindeg hexrot * x + cosdeg hexrot * y)) with y.
  2:{ transitivity ((sindeg hexrot * sindeg hexrot + cosdeg hexrot * cosdeg hexrot) * y); [rewrite SC|]; ring. }
  rewrite E3. cbn [rbind]. rewrite E4, E5. cbn [rbind]. rewrite E6. reflexivity.
Qed.
(** *** Polar misalignment matrices with the code's constants *)
Definition P1 := compute_polar_misalignment_rotation_matrix ME_ARCSEC MA_ARCSEC.
Definition P2 := compute_polar_misalignment_rotation_matrix (- ME_ARCSEC) (- MA_ARCSEC).
(** The matrix from the direction of the mount's pole, without square root or arcsine. *)
Lemma polar_entries me ma x y z : horizon_map (unit_vector (ma / 3600) (LATITUDE - me / 3600)) = (x, y, z) -> 0 <= z ->
  compute_polar_misalignment_rotation_matrix me ma = ((1 - x * x / (1 + z), - (x * y) / (1 + z), - x), (- (x * y) / (1 + z), 1 - y * y / (1 + z), - y), (x, y, z)).
Proof.
  intros E Z. destruct (polar_matrix me ma) as (x' & y' & z' & E' & N & ->). rewrite E in E'. injection E' as <- <- <-.
  destruct (cos_asin_sqrt x y z N) as [C S]. rewrite Rabs_right in C by lra. set (r := sqrt (y ^ 2 + x ^ 2)) in *. assert (Hr : r * r = y ^ 2 + x ^ 2) by (apply sqrt_sqrt; nra).
  destruct (Rltb 0 r) eqn:L.
  - apply Rltb_true in L. unfold rotation_matrix. rewrite C, S.
    assert (K : (1 - z) / (r * r) = 1 / (1 + z)). { rewrite Hr. assert (y ^ 2 + x ^ 2 = (1 - z) * (1 + z)) by (ring_simplify; lra). rewrite H. assert (1 - z <> 0) by (intros Q; rewrite Q in H; nra). field. split; lra. }
    assert (Q : forall a b, (1 - z) * (a / r * (b / r)) = a * b / (1 + z)). { intros a b. transitivity ((1 - z) / (r * r) * (a * b)); [field; lra|]. rewrite K. field. lra. }
    rewrite !Q. assert (x * x + y * y = (1 - z) * (1 + z)) by (ring_simplify; lra).
    apply triple_eq; apply triple_eq; try (unfold Rdiv; ring); try (field; lra).
    + apply (Rmult_eq_reg_r (1 + z)); [|lra]. transitivity (z * (1 + z) + y * y); [field; lra|]. transitivity (1 + z - x * x); [lra|field; lra].
    + apply (Rmult_eq_reg_r (1 + z)); [|lra]. transitivity (z * (1 + z) + x * x); [field; lra|]. transitivity (1 + z - y * y); [lra|field; lra].
  - apply Rltb_false in L. assert (0 <= r) by apply sqrt_pos. assert (r = 0) by lra. rewrite H0 in Hr. assert (X : x = 0) by nra. assert (Y : y = 0) by nra. assert (Z1 : z = 1) by nra. rewrite X, Y, Z1. apply triple_eq; apply triple_eq; try ring; field.
Qed.
Definition near (eps a b : R) := Rabs (a - b) <= eps.
Ltac entry := interval with (i_prec 120).
Lemma P1_hardcoded : close9 1e-12 P1 (get_hardcoded_polmis_rotmat false).
Proof.
  unfold P1. erewrite polar_entries; [|unfold horizon_map, unit_vector; reflexivity|unfold LATITUDE, ME_ARCSEC, MA_ARCSEC, sindeg, cosdeg, D2R; interval].
  unfold LATITUDE, ME_ARCSEC, MA_ARCSEC, sindeg, cosdeg, D2R. cbn. repeat split; entry.
Qed.
Lemma P2_hardcoded : close9 1e-12 P2 (get_hardcoded_polmis_rotmat true).
Proof.
  unfold P2. erewrite polar_entries; [|unfold horizon_map, unit_vector; reflexivity|unfold LATITUDE, ME_ARCSEC, MA_ARCSEC, sindeg, cosdeg, D2R; interval].
  unfold LATITUDE, ME_ARCSEC, MA_ARCSEC, sindeg, cosdeg, D2R. cbn. repeat split; entry.
Qed.
(** *** Aberration *)
Definition kappa : R := 0.99365e-4.
Definition apex (mjd : R) := act (refX (- OBLIQ)) (unit_vector (getSunLon mjd - 90) 0).
Lemma refX_inner d u v : inner (act (refX d) u) (act (refX d) v) = inner u v.
Proof. apply rotation_inner. apply vecX_rotation. Qed.
Lemma refX_obliq' d v : act (refX d) (act (refX (- d)) v) = v.
Proof. pose proof (refX_obliq (- d) v) as H. now rewrite Ropp_involutive in H. Qed.
Lemma act_linear m k u l v : act m (plus (times k u) (times l v)) = plus (times k (act m u)) (times l (act m v)).
Proof. destruct m as [[[[? ?] ?] [[? ?] ?]] [[? ?] ?]], u as [[? ?] ?], v as [[? ?] ?]. cbn. apply triple_eq; ring. Qed.
Lemma act_times m k v : act m (times k v) = times k (act m v).
Proof. destruct m as [[[[? ?] ?] [[? ?] ?]] [[? ?] ?]], v as [[? ?] ?]. cbn. apply triple_eq; ring. Qed.
Lemma triple_product t v : inner t t = 1 -> cross t (cross v t) = plus (times 1 v) (times (- inner t v) t).
Proof.
  destruct t as [[a b] c], v as [[x y] z]. cbn. intros H. apply triple_eq.
  - transitivity ((a * a + b * b + c * c) * x - (a * x + b * y + c * z) * a); [ring|]. rewrite H. ring.
  - transitivity ((a * a + b * b + c * c) * y - (a * x + b * y + c * z) * b); [ring|]. rewrite H. ring.
  - transitivity ((a * a + b * b + c * c) * z - (a * x + b * y + c * z) * c); [ring|]. rewrite H. ring.
Qed.
Lemma aberration_direction ra dec mjd : let '(ra', dec') := apply_aberration ra dec mjd in let T := unit_vector ra dec in let V := apex mjd in
  0 <= ra' < 360 /\ -90 <= dec' <= 90 /\
  exists n, 0 < n /\ n ^ 2 = 1 + kappa ^ 2 * (1 - inner T V ^ 2) /\ times n (unit_vector ra' dec') = plus (times (1 - kappa * inner T V) T) (times kappa V).
Proof.
  unfold apply_aberration. pose proof (radec2eclip_direction ra dec) as D0. destruct (radec2eclip ra dec) as [lon lat]. unfold compute_aberration. rewrite !getXYZ_unit.
  set (t := unit_vector lon lat) in *. set (v := unit_vector (getSunLon mjd - 90) 0). assert (Nt : inner t t = 1) by apply unit_norm. assert (Nv : inner v v = 1) by apply unit_norm.
  pose proof (triple_product t v Nt) as TP. destruct t as [[t1 t2] t3] eqn:Et. rewrite TP. rewrite <- Et in *. clear TP.
  set (w := plus (times (1 - kappa * inner t v) t) (times kappa v)).
  destruct (plus (times 1 v) (times (- inner t v) t)) as [[a1 a2] a3] eqn:Ea.
  replace (t1 + 1 * (0.99365e-4 * a1), t2 + 1 * (0.99365e-4 * a2), t3 + 1 * (0.99365e-4 * a3)) with w.
  2:{ unfold w. set (k := inner t v) in *. fold kappa. rewrite Et in *. destruct v as [[v1 v2] v3]. cbn in Ea |- *. injection Ea as <- <- <-. apply triple_eq; ring. }
  assert (Nw : inner w w = 1 + kappa ^ 2 * (1 - inner t v ^ 2)).
  { unfold w. rewrite inner_plus_l, !inner_plus_r, !inner_times_l, !inner_times_r, Nt, Nv, (inner_sym v t). ring. }
  assert (Pw : 1 <= inner w w). { rewrite Nw. pose proof (cauchy t v) as C. rewrite Nt, Nv in C. pose proof (pow2_ge_0 kappa). nra. }
  pose proof (getLONLAT_unit _ (normalized_unit w ltac:(lra))) as D1. destruct (getLONLAT (getNormalized w)) as [lon2 lat2].
  pose proof (eclip2radec_direction lon2 lat2) as D2. destruct (eclip2radec lon2 lat2) as [ra' dec']. destruct D2 as (R1 & R2 & D2). cbv zeta. split; [exact R1|]. split; [exact R2|].
  assert (IT : inner (unit_vector ra dec) (apex mjd) = inner t v). { unfold apex. rewrite <- (refX_inner OBLIQ), refX_obliq'. fold v. now rewrite <- D0. }
  exists (getNorm w). split; [apply getNorm_pos; lra|]. split. { rewrite IT, <- Nw, <- getNorm_sq. ring. }
  rewrite D2, D1, getNormalized_times, act_times, IT. pose proof (getNorm_pos w ltac:(lra)) as P.
  assert (TT : forall a b u, times a (times b u) = times (a * b) u) by (intros a b [[? ?] ?]; cbn; apply triple_eq; ring).
  rewrite TT, Rinv_r, times_1 by lra. unfold w. rewrite act_linear. fold v. f_equal. f_equal. rewrite D0. apply refX_obliq.
Qed.

Lemma Rabs_bounds x a : Rabs x <= a -> - a <= x <= a.
Proof. intros H. unfold Rabs in H. destruct (Rcase_abs x); lra. Qed.
(** Undoing with the second matrix is not exact, but close. *)
Lemma P1_rotation : is_rotation P1.
Proof. apply polar_rotation. Qed.
Lemma P2_rotation : is_rotation P2.
Proof. apply polar_rotation. Qed.
Lemma near_row e r r' v : close3 e r r' -> inner v v = 1 -> near (3 * e) (inner r v) (inner r' v).
Proof.
  destruct r as [[a b] c], r' as [[a' b'] c'], v as [[x y] z]. unfold near. cbn. intros (A & B & C) N.
  assert (Rabs x <= 1) by (apply Rabs_le; nra). assert (Rabs y <= 1) by (apply Rabs_le; nra). assert (Rabs z <= 1) by (apply Rabs_le; nra).
  replace (a * x + b * y + c * z - (a' * x + b' * y + c' * z)) with ((a - a') * x + (b - b') * y + (c - c') * z) by ring.
  eapply Rle_trans; [apply Rabs_triang|]. eapply Rle_trans; [apply Rplus_le_compat_r, Rabs_triang|]. rewrite !Rabs_mult.
  assert (M : forall p q, Rabs p <= e -> Rabs q <= 1 -> Rabs p * Rabs q <= e). { intros p q P Q. pose proof (Rabs_pos p). pose proof (Rabs_pos q). nra. }
  pose proof (M _ _ A H). pose proof (M _ _ B H0). pose proof (M _ _ C H1). lra.
Qed.
Lemma P2_transposed : close9 6e-9 P2 (transposed P1).
Proof.
  pose proof P1_hardcoded as A. pose proof P2_hardcoded as B. destruct P1 as [[[[? ?] ?] [[? ?] ?]] [[? ?] ?]], P2 as [[[[? ?] ?] [[? ?] ?]] [[? ?] ?]].
  cbn in *. unfold near in *. destruct A as ((A1 & A2 & A3) & (A4 & A5 & A6) & (A7 & A8 & A9)), B as ((B1 & B2 & B3) & (B4 & B5 & B6) & (B7 & B8 & B9)).
  apply Rabs_bounds in A1, A2, A3, A4, A5, A6, A7, A8, A9, B1, B2, B3, B4, B5, B6, B7, B8, B9. repeat split; apply Rabs_le; lra.
Qed.
Lemma P2_not_inverse : P2 <> transposed P1.
Proof.
  pose proof P1_hardcoded as A. pose proof P2_hardcoded as B. destruct P1 as [[[[? ?] ?] [[? ?] ?]] [[? ?] ?]], P2 as [[[[? ?] ?] [[? ?] ?]] [[? ?] ?]].
  cbn in *. unfold near in *. destruct A as ((A1 & A2 & A3) & (A4 & A5 & A6) & (A7 & A8 & A9)), B as ((B1 & B2 & B3) & (B4 & B5 & B6) & (B7 & B8 & B9)).
  apply Rabs_bounds in A7, B3. intros E. injection E as E1 E2 E3 _. lra.
Qed.
(** Difference between undoing with P2 and the direction itself. *)
Lemma polar_undo u w : inner u u = 1 -> inner w w = 1 -> forall c, 0 <= c -> 2 - 2 * inner (act P1 u) w <= c ^ 2 -> 2 - 2 * inner u (act P2 w) <= (c + 4e-8) ^ 2.
Proof.
  intros U W c Hc H. assert (E1 : inner (act P1 u) (act P1 u) = 1) by (rewrite (rotation_inner P1); auto using P1_rotation).
  assert (E2 : inner (act P2 w) (act P2 w) = 1) by (rewrite (rotation_inner P2); auto using P2_rotation).
  assert (E3 : inner (act (transposed P1) w) (act (transposed P1) w) = 1) by (rewrite <- (rotation_inner P1 _ _ P1_rotation), !(inverse_rotation P1 _ P1_rotation); exact W).
  assert (H1 : 2 - 2 * inner u (act (transposed P1) w) <= c ^ 2) by (rewrite <- (rotation_inner P1 _ _ P1_rotation), (inverse_rotation P1 _ P1_rotation); exact H).
  set (a := act (transposed P1) w) in *. set (b := act P2 w) in *.
  assert (N3 : close3 (3 * 6e-9) b a). { pose proof P2_transposed as T. unfold a, b. destruct P2 as [[r1 r2] r3], (transposed P1) as [[s1 s2] s3]. cbn in T |- *. destruct T as (T1 & T2 & T3). repeat split; apply near_row; assumption. }
  assert (G2 : inner (gap b a) (gap b a) <= 4e-8 ^ 2).
  { destruct b as [[b1 b2] b3], a as [[a1 a2] a3]. cbn in N3 |- *. destruct N3 as (Q1 & Q2 & Q3). unfold near in *. apply Rabs_bounds in Q1, Q2, Q3. nra. }
  assert (G1 : inner (gap u a) (gap u a) <= c ^ 2) by (rewrite gap_sq by assumption; exact H1).
  rewrite <- gap_sq by assumption.
  assert (EG : gap u b = plus (gap u a) (times (-1) (gap b a))) by (destruct u as [[? ?] ?], a as [[? ?] ?], b as [[? ?] ?]; cbn; apply triple_eq; ring).
  rewrite EG, inner_plus_l, !inner_plus_r, !inner_times_l, !inner_times_r, (inner_sym (gap b a) (gap u a)). pose proof (cauchy (gap u a) (gap b a)) as CS.
  set (p := inner (gap u a) (gap u a)) in *. set (q := inner (gap b a) (gap b a)) in *. set (r := inner (gap u a) (gap b a)) in *.
  assert (0 <= p) by (unfold p; destruct (gap u a) as [[? ?] ?]; cbn; nra). assert (0 <= q) by (unfold q; destruct (gap b a) as [[? ?] ?]; cbn; nra).
  assert (r ^ 2 <= (c * 4e-8) ^ 2). { eapply Rle_trans; [exact CS|]. replace ((c * 4e-8) ^ 2) with (c ^ 2 * 4e-8 ^ 2) by ring. apply Rmult_le_compat; lra. }
  assert (- r <= c * 4e-8) by nra. nra.
Qed.

Definition moved (o : options) (mjd : R) (v : R * R * R) := if precession o then precess ((mjd - ICRS_MJD) / DAYS_PER_YEAR) v else v.
Lemma moved_inner o mjd u v : inner (moved o mjd u) (moved o mjd v) = inner u v.
Proof. unfold moved. destruct (precession o); [apply precess_inner|reflexivity]. Qed.
Lemma cosd_decr a b : 0 <= a <= b -> b <= 180 -> cosdeg b <= cosdeg a.
Proof. intros H B. unfold cosdeg. pose proof PI_RGT_0. apply cos_decr_1; unfold D2R; nra. Qed.
