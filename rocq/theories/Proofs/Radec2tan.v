From Verif.Model Require Import Radec2tan.
From Verif.Spec Require Import Trig Sphere.
From Verif.Proofs Require Import RealNum Trig Sphere.
From Coq Require Import Lra.
Local Open Scope R_scope.

(** *** Tangent plane *)
Lemma cosd90 : cosdeg 90 = 0.
Proof. unfold cosdeg, D2R. replace (PI / 180 * 90) with (PI / 2) by lra. apply cos_PI2. Qed.
Lemma sind90 : sindeg 90 = 1.
Proof. unfold sindeg, D2R. replace (PI / 180 * 90) with (PI / 2) by lra. apply sin_PI2. Qed.
Lemma cosd0 : cosdeg 0 = 1.
Proof. unfold cosdeg. rewrite Rmult_0_r. apply cos_0. Qed.
Lemma sind0 : sindeg 0 = 0.
Proof. unfold sindeg. rewrite Rmult_0_r. apply sin_0. Qed.
Lemma east h : unit_vector (h + 90) 0 = (- sindeg h, cosdeg h, 0).
Proof. rewrite <- getXYZ_unit. unfold getXYZ. rewrite cosd_plus, sind_plus, cosd90, sind90, cosd0, sind0. apply triple_eq; ring. Qed.
Lemma north h d : unit_vector h (d + 90) = (- (cosdeg h * sindeg d), - (sindeg h * sindeg d), cosdeg d).
Proof. rewrite <- getXYZ_unit. unfold getXYZ. rewrite cosd_plus, sind_plus, cosd90, sind90. apply triple_eq; ring. Qed.
Lemma hadec2xy_components ha dec th td :
  hadec2xy ha dec th td = (inner (unit_vector ha dec) (unit_vector (th + 90) 0), inner (unit_vector ha dec) (unit_vector th (td + 90))).
Proof. rewrite east, north, <- getXYZ_unit. unfold hadec2xy, getXYZ, mv, vdot. cbn. f_equal; ring. Qed.
(** East, north and the pointing are an orthonormal basis. *)
Lemma basis th td v : v = plus (times (inner v (unit_vector (th + 90) 0)) (unit_vector (th + 90) 0))
  (plus (times (inner v (unit_vector th (td + 90))) (unit_vector th (td + 90))) (times (inner v (unit_vector th td)) (unit_vector th td))).
Proof.
  rewrite east, north, <- getXYZ_unit. unfold getXYZ. destruct v as [[x y] z]. cbn. pose proof (sincosd_one th) as H. pose proof (sincosd_one td) as D.
  set (s := sindeg th) in *. set (c := cosdeg th) in *. set (S := sindeg td) in *. set (C := cosdeg td) in *.
  assert (Hs : s * s = 1 - c * c) by lra. assert (HS : S * S = 1 - C * C) by lra.
  apply triple_eq.
  - transitivity (x * (s * s + c * c * (S * S + C * C)) + y * (s * c) * (S * S + C * C - 1) + z * c * (C * S - S * C)); [|ring]. rewrite D. replace (s * s + c * c * 1) with 1 by lra. ring.
  - transitivity (y * (c * c + s * s * (S * S + C * C)) + x * (s * c) * (S * S + C * C - 1) + z * s * (C * S - S * C)); [|ring]. rewrite D. replace (c * c + s * s * 1) with 1 by lra. ring.
  - transitivity (z * (S * S + C * C)); [rewrite D; ring|]. ring.
Qed.
Lemma basis_norm th td v : inner v v = inner v (unit_vector (th + 90) 0) ^ 2 + inner v (unit_vector th (td + 90)) ^ 2 + inner v (unit_vector th td) ^ 2.
Proof.
  rewrite (basis th td v) at 2. destruct (unit_vector (th + 90) 0) as [[a b] c], (unit_vector th (td + 90)) as [[d e] f], (unit_vector th td) as [[g h] i], v as [[x y] z]. cbn. ring.
Qed.
Lemma basis_ortho th td : let E := unit_vector (th + 90) 0 in let N := unit_vector th (td + 90) in let T := unit_vector th td in
  inner E E = 1 /\ inner N N = 1 /\ inner T T = 1 /\ inner E N = 0 /\ inner E T = 0 /\ inner N T = 0.
Proof.
  cbv zeta. rewrite !unit_norm. repeat split; try reflexivity.
  - rewrite east, north. cbn. ring.
  - rewrite east, <- getXYZ_unit. cbn. ring.
  - rewrite north, <- getXYZ_unit. cbn. pose proof (sincosd_one th). transitivity (cosdeg td * sindeg td * (1 - (sindeg th * sindeg th + cosdeg th * cosdeg th))); [ring|]. rewrite H. ring.
Qed.
Definition combo th td x y z := plus (times x (unit_vector (th + 90) 0)) (plus (times y (unit_vector th (td + 90))) (times z (unit_vector th td))).
Lemma combo_inner th td x y z : inner (combo th td x y z) (unit_vector (th + 90) 0) = x /\ inner (combo th td x y z) (unit_vector th (td + 90)) = y /\
  inner (combo th td x y z) (unit_vector th td) = z /\ inner (combo th td x y z) (combo th td x y z) = x ^ 2 + y ^ 2 + z ^ 2.
Proof.
  destruct (basis_ortho th td) as (EE & NN & TT & EN & ET & NT). unfold combo. set (E := unit_vector (th + 90) 0) in *. set (N := unit_vector th (td + 90)) in *. set (T := unit_vector th td) in *.
  assert (A : forall w, inner (plus (times x E) (plus (times y N) (times z T))) w = x * inner E w + y * inner N w + z * inner T w) by (intros w; destruct E as [[? ?] ?], N as [[? ?] ?], T as [[? ?] ?], w as [[? ?] ?]; cbn; ring).
  rewrite !A, !(inner_sym _ (plus _ _)), !A, EE, NN, TT, !(inner_sym T), !(inner_sym N E), EN, ET, NT. repeat split; ring.
Qed.
Lemma xy2hadec_combo x y th td : x ^ 2 + y ^ 2 <= 1 ->
  exists ha dec, xy2hadec x y th td = Ok (ha, dec) /\ 0 <= ha < 360 /\ -90 <= dec <= 90 /\ unit_vector ha dec = combo th td x y (sqrt (1 - x ^ 2 - y ^ 2)).
Proof.
  intros H. unfold xy2hadec. destruct (Rltb _ 0) eqn:E; [apply Rltb_true in E; lra|]. set (z := sqrt _).
  assert (V : mv ((cosdeg th, - sindeg th, 0), (sindeg th, cosdeg th, 0), (0, 0, 1)) (mv ((sindeg td, 0, cosdeg td), (0, 1, 0), (- cosdeg td, 0, sindeg td)) (- y, x, z)) = combo th td x y z).
  { unfold combo. rewrite east, north, <- getXYZ_unit. unfold getXYZ, mv, vdot. cbn. apply triple_eq; ring. }
  rewrite V. assert (N : inner (combo th td x y z) (combo th td x y z) = 1). { destruct (combo_inner th td x y z) as (_ & _ & _ & ->). unfold z. rewrite <- (Rsqr_pow2 (sqrt _)), Rsqr_sqrt by lra. ring. }
  pose proof (getLONLAT_unit _ N) as D. pose proof (getLONLAT_range (combo th td x y z)) as Rg. destruct (getLONLAT (combo th td x y z)) as [ha dec]. exists ha, dec. tauto.
Qed.

(** *** Horizontal coordinates *)
Definition horizon_map (v : R * R * R) : R * R * R :=
  let '(x, y, z) := v in (- x * sindeg LATITUDE + z * cosdeg LATITUDE, - y, x * cosdeg LATITUDE + z * sindeg LATITUDE).
Lemma horizon_map_involutive v : horizon_map (horizon_map v) = v.
Proof.
  destruct v as [[x y] z]. cbn. pose proof (sincosd_one LATITUDE) as H. apply triple_eq; [|ring|].
  - transitivity (x * (sindeg LATITUDE * sindeg LATITUDE + cosdeg LATITUDE * cosdeg LATITUDE)); [ring|]. rewrite H. ring.
  - transitivity (z * (sindeg LATITUDE * sindeg LATITUDE + cosdeg LATITUDE * cosdeg LATITUDE)); [ring|]. rewrite H. ring.
Qed.
Lemma horizon_map_inner u v : inner (horizon_map u) (horizon_map v) = inner u v.
Proof.
  destruct u as [[a b] c], v as [[x y] z]. cbn. pose proof (sincosd_one LATITUDE) as H.
  transitivity ((a * x + c * z) * (sindeg LATITUDE * sindeg LATITUDE + cosdeg LATITUDE * cosdeg LATITUDE) + b * y); [ring|]. rewrite H. ring.
Qed.
Lemma altaz2hadec_direction alt az : let '(ha, dec) := altaz2hadec alt az in 0 <= ha < 360 /\ -90 <= dec <= 90 /\ unit_vector ha dec = horizon_map (unit_vector az alt).
Proof.
  unfold altaz2hadec. split; [apply arctan2d_range|]. split; [apply arcsind_range|].
  rewrite <- getXYZ_unit, lonlat_of_unit.
  - rewrite <- getXYZ_unit. unfold getXYZ, horizon_map. apply triple_eq; ring.
  - transitivity (inner (horizon_map (getXYZ az alt)) (horizon_map (getXYZ az alt))); [unfold getXYZ, horizon_map; cbn; ring|]. rewrite horizon_map_inner, getXYZ_unit. apply unit_norm.
Qed.
(** The altitude of a vector is computed with arctan2d from the horizontal distance. *)
Lemma altitude_direction x y z : x * x + y * y + z * z = 1 -> let alt := arctan2d z (sqrt (x ^ 2 + y ^ 2)) in
  unit_vector (arctan2d y x) alt = (x, y, z) /\ sindeg alt = z /\ cosdeg alt = sqrt (x ^ 2 + y ^ 2).
Proof.
  intros H. cbv zeta. set (r := sqrt (x ^ 2 + y ^ 2)). assert (Hr : r * r = x ^ 2 + y ^ 2) by (apply sqrt_sqrt; nra).
  assert (Hh : hyp r z = 1). { unfold hyp. replace (r ^ 2 + z ^ 2) with 1 by nra. apply sqrt_1. }
  destruct (arctan2d_points z r) as [R1 Z1]. rewrite <- deg_rad in R1, Z1. fold (hyp r z) in R1, Z1. rewrite Hh in R1, Z1. fold (cosdeg (arctan2d z r)) in R1. fold (sindeg (arctan2d z r)) in Z1.
  destruct (arctan2d_points y x) as [X Y]. rewrite <- deg_rad in X, Y. fold (hyp x y) in X, Y. fold (cosdeg (arctan2d y x)) in X. fold (sindeg (arctan2d y x)) in Y.
  change (hyp x y) with r in X, Y. split; [|split; lra]. rewrite <- getXYZ_unit. unfold getXYZ. apply triple_eq; nra.
Qed.
Lemma hadec2altaz_direction ha dec : let '(alt, az) := hadec2altaz ha dec in 0 <= alt < 360 /\ 0 <= az < 360 /\ 0 <= cosdeg alt /\ unit_vector az alt = horizon_map (unit_vector ha dec).
Proof.
  unfold hadec2altaz. split; [apply arctan2d_range|]. split; [apply arctan2d_range|].
  set (x := - cosdeg ha * cosdeg dec * sindeg LATITUDE + sindeg dec * cosdeg LATITUDE). set (y := - sindeg ha * cosdeg dec). set (z := cosdeg ha * cosdeg dec * cosdeg LATITUDE + sindeg dec * sindeg LATITUDE).
  assert (E : (x, y, z) = horizon_map (unit_vector ha dec)) by (rewrite <- getXYZ_unit; unfold getXYZ, horizon_map, x, y, z; apply triple_eq; ring).
  assert (N : x * x + y * y + z * z = 1). { change (inner (x, y, z) (x, y, z) = 1). rewrite E, horizon_map_inner. apply unit_norm. }
  destruct (altitude_direction x y z N) as (U & _ & C). split; [rewrite C; apply sqrt_pos|]. now rewrite U, E.
Qed.
(** With a cosine that is not negative, the altitude is at most 90, or at least 270. *)
Lemma altitude_range a : 0 <= a < 360 -> 0 <= cosdeg a -> 0 <= a <= 90 \/ 270 <= a < 360.
Proof.
  intros H C. destruct (Rle_dec a 90); [left; lra|]. destruct (Rle_dec 270 a); [right; lra|]. exfalso. unfold cosdeg in C. pose proof PI_RGT_0.
  assert (cos (D2R * a) < 0); [|lra]. apply cos_lt_0; unfold D2R; nra.
Qed.

(** *** Precession *)
Lemma refX_obliq d v : act (refX (- d)) (act (refX d) v) = v.
Proof.
  unfold refX. rewrite Ropp_involutive. rewrite <- (rotation_inverse (vecX (- d)) v) at 2 by apply vecX_rotation. f_equal. unfold vecX. cbn. rewrite cosd_neg, sind_neg, Ropp_involutive. reflexivity.
Qed.
Lemma radec2eclip_direction ra dec : let '(lon, lat) := radec2eclip ra dec in unit_vector lon lat = act (refX OBLIQ) (unit_vector ra dec).
Proof. unfold radec2eclip. rewrite mv_act, getXYZ_unit. apply getLONLAT_unit. rewrite rotation_inner by apply vecX_rotation. apply unit_norm. Qed.
Lemma eclip2radec_direction lon lat : let '(ra, dec) := eclip2radec lon lat in 0 <= ra < 360 /\ -90 <= dec <= 90 /\ unit_vector ra dec = act (refX (- OBLIQ)) (unit_vector lon lat).
Proof.
  unfold eclip2radec. rewrite mv_act, getXYZ_unit. set (v := act _ _). pose proof (getLONLAT_range v) as Rg. assert (N : inner v v = 1) by (unfold v; rewrite rotation_inner by apply vecX_rotation; apply unit_norm).
  pose proof (getLONLAT_unit v N) as D. destruct (getLONLAT v). tauto.
Qed.
Definition precess (years : R) (v : R * R * R) : R * R * R := act (refX (- OBLIQ)) (act (vecZ (360 * (years / PRECESSION_PERIOD_IN_YEARS))) (act (refX OBLIQ) v)).
Lemma precession_direction ra dec years : let '(ra', dec') := apply_precession ra dec years in 0 <= ra' < 360 /\ -90 <= dec' <= 90 /\ unit_vector ra' dec' = precess years (unit_vector ra dec).
Proof.
  unfold apply_precession. pose proof (radec2eclip_direction ra dec) as D1. destruct (radec2eclip ra dec) as [lon lat]. rewrite mv_act, getXYZ_unit.
  set (v := act (vecZ _) _). assert (N : inner v v = 1) by (unfold v; rewrite rotation_inner by apply vecZ_rotation; apply unit_norm). pose proof (getLONLAT_unit v N) as D2. destruct (getLONLAT v) as [lon2 lat2].
  pose proof (eclip2radec_direction lon2 lat2) as D3. destruct (eclip2radec lon2 lat2) as [ra' dec']. destruct D3 as (? & ? & D3). repeat split; try lra. rewrite D3, D2. unfold precess, v. now rewrite D1.
Qed.
Lemma vecZ_add a b v : act (vecZ a) (act (vecZ b) v) = act (vecZ (a + b)) v.
Proof. destruct v as [[x y] z]. unfold vecZ. cbn. rewrite cosd_plus, sind_plus. apply triple_eq; ring. Qed.
Lemma vecZ_0 v : act (vecZ 0) v = v.
Proof. destruct v as [[x y] z]. unfold vecZ. cbn. rewrite cosd0, sind0. apply triple_eq; ring. Qed.
Lemma precess_add a b v : precess a (precess b v) = precess (a + b) v.
Proof.
  unfold precess. assert (E : forall w, act (refX OBLIQ) (act (refX (- OBLIQ)) w) = w) by (intros w; rewrite <- (Ropp_involutive OBLIQ) at 1; apply refX_obliq).
  rewrite E, vecZ_add. do 2 f_equal. f_equal. unfold PRECESSION_PERIOD_IN_YEARS. field; lra.
Qed.
Lemma precess_0 v : precess 0 v = v.
Proof. unfold precess. replace (360 * (0 / PRECESSION_PERIOD_IN_YEARS)) with 0 by (unfold Rdiv; ring). rewrite vecZ_0. apply refX_obliq. Qed.
Lemma precess_inner a u v : inner (precess a u) (precess a v) = inner u v.
Proof. unfold precess. rewrite !rotation_inner by (apply vecX_rotation || apply vecZ_rotation). reflexivity. Qed.

(** *** Polar misalignment *)
Lemma true_pole : let '(ha, dec) := altaz2hadec LATITUDE 0 in unit_vector ha dec = (0, 0, 1).
Proof.
  pose proof (altaz2hadec_direction LATITUDE 0) as D. destruct (altaz2hadec LATITUDE 0) as [ha dec]. destruct D as (_ & _ & ->). rewrite <- getXYZ_unit. unfold getXYZ, horizon_map. rewrite cosd0, sind0.
  pose proof (sincosd_one LATITUDE). apply triple_eq; lra.
Qed.
Section Polar.
Variables me ma : R.
Let p1 := horizon_map (unit_vector (ma / 3600) (LATITUDE - me / 3600)).
Lemma polar_matrix : exists x y z, p1 = (x, y, z) /\ x * x + y * y + z * z = 1 /\
  compute_polar_misalignment_rotation_matrix me ma =
    (if Rltb 0 (sqrt (y ^ 2 + x ^ 2)) then rotation_matrix (y / sqrt (y ^ 2 + x ^ 2), - x / sqrt (y ^ 2 + x ^ 2), 0) (asin (sqrt (y ^ 2 + x ^ 2))) else ((1, 0, 0), (0, 1, 0), (0, 0, 1))).
Proof.
  assert (N : inner p1 p1 = 1) by (unfold p1; rewrite horizon_map_inner; apply unit_norm).
  unfold compute_polar_misalignment_rotation_matrix. pose proof (altaz2hadec_direction (LATITUDE - me / 3600) (ma / 3600)) as D. destruct (altaz2hadec (LATITUDE - me / 3600) (ma / 3600)) as [ha1 dec1]. destruct D as (_ & _ & D).
  pose proof true_pole as Q. destruct (altaz2hadec LATITUDE 0) as [ha2 dec2]. rewrite !getXYZ_unit, D, Q. fold p1. destruct p1 as [[x y] z] eqn:E. exists x, y, z. split; [reflexivity|]. split; [exact N|].
  cbn [cross]. replace (y * 1 - z * 0) with y by ring. replace (z * 0 - x * 1) with (- x) by ring. replace (x * 0 - y * 0) with 0 by ring.
  replace (y ^ 2 + (- x) ^ 2 + 0 ^ 2) with (y ^ 2 + x ^ 2) by ring. replace (0 / sqrt (y ^ 2 + x ^ 2)) with 0 by (unfold Rdiv; ring). reflexivity.
Qed.
Lemma polar_rotation : is_rotation (compute_polar_misalignment_rotation_matrix me ma).
Proof.
  destruct polar_matrix as (x & y & z & E & N & ->). destruct (Rltb 0 _) eqn:L.
  - apply Rltb_true in L. apply rotation_matrix_rotation. set (r := sqrt _) in *. assert (r * r = y ^ 2 + x ^ 2) by (apply sqrt_sqrt; nra). cbn. transitivity ((y ^ 2 + x ^ 2) / (r * r)); [field; lra|]. rewrite <- H. field. lra.
  - cbn. repeat split; ring.
Qed.
Lemma cos_asin_sqrt x y z : x * x + y * y + z * z = 1 -> cos (asin (sqrt (y ^ 2 + x ^ 2))) = Rabs z /\ sin (asin (sqrt (y ^ 2 + x ^ 2))) = sqrt (y ^ 2 + x ^ 2).
Proof.
  intros N. set (r := sqrt _). assert (Hr : r * r = y ^ 2 + x ^ 2) by (apply sqrt_sqrt; nra). assert (0 <= r) by apply sqrt_pos. assert (r <= 1) by nra.
  split; [|apply sin_asin; lra]. rewrite cos_asin by lra. unfold Rsqr. replace (1 - r * r) with (Rsqr z) by (unfold Rsqr; lra). apply sqrt_Rsqr_abs.
Qed.
(** The matrix and its transpose at the pole. *)
Lemma polar_pole : exists x y z, p1 = (x, y, z) /\
  (0 <= z -> act (compute_polar_misalignment_rotation_matrix me ma) p1 = (0, 0, 1) /\ act (compute_polar_misalignment_rotation_matrix me ma) (0, 0, 1) = (- x, - y, z)).
Proof.
  destruct polar_matrix as (x & y & z & E & N & ->). exists x, y, z. split; [exact E|]. intros Z. rewrite E. destruct (cos_asin_sqrt x y z N) as [C S]. rewrite Rabs_right in C by lra.
  set (r := sqrt (y ^ 2 + x ^ 2)) in *. assert (Hr : r * r = y ^ 2 + x ^ 2) by (apply sqrt_sqrt; nra).
  destruct (Rltb 0 r) eqn:L.
  - apply Rltb_true in L. unfold rotation_matrix. rewrite C, S. cbn.
    assert (Q : (y ^ 2 + x ^ 2) / (r * r) = 1) by (rewrite <- Hr; field; lra).
    split; (apply triple_eq); try (field; lra).
    + transitivity (z * z + (x * x + y * y)); [field; lra|lra].
  - apply Rltb_false in L. assert (0 <= r) by apply sqrt_pos. assert (r = 0) by lra. rewrite H0 in Hr. assert (X : x = 0) by nra. assert (Y : y = 0) by nra. assert (Z1 : z = 1) by nra. rewrite X, Y, Z1. cbn. split; apply triple_eq; ring.
Qed.
End Polar.
