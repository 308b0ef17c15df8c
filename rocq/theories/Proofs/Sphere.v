From Verif.Model Require Import Radec2tan.
From Verif.Spec Require Import Trig Sphere.
From Verif.Proofs Require Import RealNum Trig.
From Coq Require Import Lra.
Local Open Scope R_scope.

Lemma triple_eq {A} (a b c x y z : A) : a = x -> b = y -> c = z -> (a, b, c) = (x, y, z).
Proof. now intros -> -> ->. Qed.
Lemma getXYZ_unit lon lat : getXYZ lon lat = unit_vector lon lat.
Proof. unfold getXYZ, unit_vector, cosdeg, sindeg. now rewrite !deg_rad. Qed.
Lemma vdot_inner u v : vdot u v = inner u v.
Proof. reflexivity. Qed.
Lemma mv_act m v : mv m v = act m v.
Proof. destruct m as [[[[? ?] ?] [[? ?] ?]] [[? ?] ?]]. reflexivity. Qed.
Lemma inner_sym u v : inner u v = inner v u.
Proof. destruct u as [[a b] c], v as [[x y] z]. cbn. ring. Qed.
Lemma unit_norm lon lat : inner (unit_vector lon lat) (unit_vector lon lat) = 1.
Proof.
  rewrite <- getXYZ_unit. unfold getXYZ. cbn. pose proof (sincosd_one lon) as H1. pose proof (sincosd_one lat) as H2.
  replace (_ + _ + _) with ((sindeg lon * sindeg lon + cosdeg lon * cosdeg lon) * (cosdeg lat * cosdeg lat) + sindeg lat * sindeg lat) by ring. rewrite H1. lra.
Qed.

Section Rotation.
Variables a b c d e f g h i : R.
Let m := ((a, b, c), (d, e, f), (g, h, i)).
Hypothesis Rm : is_rotation m.
Lemma sq3_zero x y z : x ^ 2 + y ^ 2 + z ^ 2 = 0 -> x = 0 /\ y = 0 /\ z = 0.
Proof. intros H. pose proof (pow2_ge_0 x). pose proof (pow2_ge_0 y). pose proof (pow2_ge_0 z). assert (x * x = 0) by lra. assert (y * y = 0) by lra. assert (z * z = 0) by lra. repeat split; match goal with |- ?v = 0 => destruct (Rmult_integral v v ltac:(assumption)); assumption end. Qed.
Lemma rows_cross : (b * f - c * e = g /\ c * d - a * f = h /\ a * e - b * d = i) /\ (e * i - f * h = a /\ f * g - d * i = b /\ d * h - e * g = c) /\ (h * c - i * b = d /\ i * a - g * c = e /\ g * b - h * a = f).
Proof.
  destruct Rm as (H1 & H2 & H3 & H12 & H13 & H23 & Hd). cbn in H1, H2, H3, H12, H13, H23. split; [|split].
  - destruct (sq3_zero (b * f - c * e - g) (c * d - a * f - h) (a * e - b * d - i)) as (X & Y & Z); [|repeat split; lra].
    transitivity ((a * a + b * b + c * c) * (d * d + e * e + f * f) - (a * d + b * e + c * f) ^ 2 - 2 * (a * (e * i - f * h) - b * (d * i - f * g) + c * (d * h - e * g)) + (g * g + h * h + i * i)); [ring|]. rewrite H1, H2, H3, H12, Hd. ring.
  - destruct (sq3_zero (e * i - f * h - a) (f * g - d * i - b) (d * h - e * g - c)) as (X & Y & Z); [|repeat split; lra].
    transitivity ((d * d + e * e + f * f) * (g * g + h * h + i * i) - (d * g + e * h + f * i) ^ 2 - 2 * (a * (e * i - f * h) - b * (d * i - f * g) + c * (d * h - e * g)) + (a * a + b * b + c * c)); [ring|]. rewrite H1, H2, H3, H23, Hd. ring.
  - destruct (sq3_zero (h * c - i * b - d) (i * a - g * c - e) (g * b - h * a - f)) as (X & Y & Z); [|repeat split; lra].
    transitivity ((g * g + h * h + i * i) * (a * a + b * b + c * c) - (a * g + b * h + c * i) ^ 2 - 2 * (a * (e * i - f * h) - b * (d * i - f * g) + c * (d * h - e * g)) + (d * d + e * e + f * f)); [ring|]. rewrite H1, H2, H3, H13, Hd. ring.
Qed.
Lemma columns : a * a + d * d + g * g = 1 /\ b * b + e * e + h * h = 1 /\ c * c + f * f + i * i = 1 /\ a * b + d * e + g * h = 0 /\ a * c + d * f + g * i = 0 /\ b * c + e * f + h * i = 0.
Proof.
  destruct rows_cross as ((G & H & I) & (A & B & C) & (D & E & F)). destruct Rm as (_ & _ & _ & _ & _ & _ & Hd).
  repeat split.
  - rewrite <- A at 1. rewrite <- D at 1. rewrite <- G at 1. lra.
  - rewrite <- B at 1. rewrite <- E at 1. rewrite <- H at 1. lra.
  - rewrite <- C at 1. rewrite <- F at 1. rewrite <- I at 1. lra.
  - rewrite <- A at 1. rewrite <- D at 1. rewrite <- G at 1. ring.
  - rewrite <- A at 1. rewrite <- D at 1. rewrite <- G at 1. ring.
  - rewrite <- B at 1. rewrite <- E at 1. rewrite <- H at 1. ring.
Qed.
Lemma rotation_inverse_aux v : act (transposed m) (act m v) = v.
Proof.
  destruct columns as (K1 & K2 & K3 & K4 & K5 & K6). destruct v as [[x y] z]. cbn. f_equal; [f_equal|].
  - transitivity ((a * a + d * d + g * g) * x + (a * b + d * e + g * h) * y + (a * c + d * f + g * i) * z); [ring|]. rewrite K1, K4, K5. ring.
  - transitivity ((a * b + d * e + g * h) * x + (b * b + e * e + h * h) * y + (b * c + e * f + h * i) * z); [ring|]. rewrite K2, K4, K6. ring.
  - transitivity ((a * c + d * f + g * i) * x + (b * c + e * f + h * i) * y + (c * c + f * f + i * i) * z); [ring|]. rewrite K3, K5, K6. ring.
Qed.
Lemma inverse_rotation_aux v : act m (act (transposed m) v) = v.
Proof.
  destruct Rm as (H1 & H2 & H3 & H12 & H13 & H23 & _). cbn in H1, H2, H3, H12, H13, H23. destruct v as [[x y] z]. cbn. f_equal; [f_equal|].
  - transitivity ((a * a + b * b + c * c) * x + (a * d + b * e + c * f) * y + (a * g + b * h + c * i) * z); [ring|]. rewrite H1, H12, H13. ring.
  - transitivity ((a * d + b * e + c * f) * x + (d * d + e * e + f * f) * y + (d * g + e * h + f * i) * z); [ring|]. rewrite H2, H12, H23. ring.
  - transitivity ((a * g + b * h + c * i) * x + (d * g + e * h + f * i) * y + (g * g + h * h + i * i) * z); [ring|]. rewrite H3, H13, H23. ring.
Qed.
Lemma rotation_inner_aux u v : inner (act m u) (act m v) = inner u v.
Proof.
  destruct columns as (K1 & K2 & K3 & K4 & K5 & K6). destruct u as [[p q] r], v as [[x y] z]. cbn.
  transitivity ((a * a + d * d + g * g) * p * x + (b * b + e * e + h * h) * q * y + (c * c + f * f + i * i) * r * z + (a * b + d * e + g * h) * (p * y + q * x) + (a * c + d * f + g * i) * (p * z + r * x) + (b * c + e * f + h * i) * (q * z + r * y)); [ring|].
  rewrite K1, K2, K3, K4, K5, K6. ring.
Qed.
End Rotation.
Lemma rotation_inverse m v : is_rotation m -> act (transposed m) (act m v) = v.
Proof. destruct m as [[[[? ?] ?] [[? ?] ?]] [[? ?] ?]]. intros H. now apply rotation_inverse_aux. Qed.
Lemma inverse_rotation m v : is_rotation m -> act m (act (transposed m) v) = v.
Proof. destruct m as [[[[? ?] ?] [[? ?] ?]] [[? ?] ?]]. intros H. now apply inverse_rotation_aux. Qed.
Lemma rotation_inner m u v : is_rotation m -> inner (act m u) (act m v) = inner u v.
Proof. destruct m as [[[[? ?] ?] [[? ?] ?]] [[? ?] ?]]. intros H. now apply rotation_inner_aux. Qed.

(** *** Longitude and latitude *)
Lemma getNormalized_unit v : inner v v = 1 -> getNormalized v = v.
Proof.
  destruct v as [[x y] z]. cbn [inner]. intros H. unfold getNormalized, getNorm. replace (x ^ 2 + y ^ 2 + z ^ 2) with 1 by lra. rewrite sqrt_1. f_equal; [f_equal|]; field.
Qed.
Lemma getNorm_pos v : 0 < inner v v -> 0 < getNorm v.
Proof. destruct v as [[x y] z]. cbn. intros H. apply sqrt_lt_R0. lra. Qed.
Lemma getNorm_sq v : getNorm v * getNorm v = inner v v.
Proof. destruct v as [[x y] z]. cbn. unfold getNorm. rewrite sqrt_sqrt; [ring|]. pose proof (pow2_ge_0 x). pose proof (pow2_ge_0 y). pose proof (pow2_ge_0 z). lra. Qed.
Lemma getNormalized_times v : getNormalized v = times (/ getNorm v) v.
Proof. destruct v as [[x y] z]. cbn. unfold Rdiv. f_equal; [f_equal|]; ring. Qed.
Lemma inner_times_l k u v : inner (times k u) v = k * inner u v.
Proof. destruct u as [[a b] c], v as [[x y] z]. cbn. ring. Qed.
Lemma inner_times_r k u v : inner u (times k v) = k * inner u v.
Proof. destruct u as [[a b] c], v as [[x y] z]. cbn. ring. Qed.
Lemma normalized_unit v : 0 < inner v v -> inner (getNormalized v) (getNormalized v) = 1.
Proof. intros H. rewrite getNormalized_times, inner_times_l, inner_times_r, <- getNorm_sq. pose proof (getNorm_pos v H). field. lra. Qed.

Lemma lonlat_of_unit x y z : x * x + y * y + z * z = 1 -> getXYZ (arctan2d y x) (arcsind z) = (x, y, z).
Proof.
  intros H. assert (-1 <= z <= 1) by nra. unfold getXYZ, arcsind. rewrite cosdeg_deg, sindeg_deg, sin_asin, cos_asin by assumption.
  destruct (arctan2d_points y x) as [X Y]. rewrite <- deg_rad in X, Y. fold (hyp x y) in X, Y. fold (cosdeg (arctan2d y x)) in X. fold (sindeg (arctan2d y x)) in Y.
  assert (E : sqrt (1 - z²) = hyp x y) by (unfold hyp, Rsqr; f_equal; lra). rewrite E. f_equal. f_equal; lra.
Qed.
Lemma getLONLAT_direction v : 0 < inner v v -> let '(lon, lat) := getLONLAT v in unit_vector lon lat = getNormalized v.
Proof.
  intros H. pose proof (normalized_unit v H) as N. unfold getLONLAT. destruct (getNormalized v) as [[x y] z] eqn:E. cbn in N. rewrite <- getXYZ_unit. now apply lonlat_of_unit.
Qed.
Lemma getLONLAT_unit v : inner v v = 1 -> let '(lon, lat) := getLONLAT v in unit_vector lon lat = v.
Proof. intros H. pose proof (getLONLAT_direction v ltac:(lra)) as D. destruct (getLONLAT v). now rewrite D, getNormalized_unit. Qed.
Lemma arcsind_range z : -90 <= arcsind z <= 90.
Proof.
  unfold arcsind, R2D, D2R. pose proof (asin_bound z) as B. pose proof PI_RGT_0.
  replace (asin z * (1 / (PI / 180))) with (asin z * (180 / PI)) by (field; lra). assert (P : 0 < 180 / PI) by (apply Rdiv_lt_0_compat; lra).
  assert (E : PI / 2 * (180 / PI) = 90) by (field; lra). split; nra.
Qed.
Lemma getLONLAT_range v : let '(lon, lat) := getLONLAT v in 0 <= lon < 360 /\ -90 <= lat <= 90.
Proof. unfold getLONLAT. destruct (getNormalized v) as [[x y] z]. split; [apply arctan2d_range|apply arcsind_range]. Qed.

(** A direction determines its latitude, and its longitude away from the poles. *)
Lemma unit_vector_lat lon lat lon' lat' : -90 <= lat <= 90 -> -90 <= lat' <= 90 -> unit_vector lon lat = unit_vector lon' lat' -> lat = lat'.
Proof.
  rewrite <- !getXYZ_unit. unfold getXYZ. intros H H' E. injection E as _ _ E. unfold sindeg in E. pose proof PI_RGT_0.
  assert (D2R * lat = D2R * lat'). { assert (-(PI/2) <= D2R * lat <= PI / 2) by (unfold D2R; nra). assert (-(PI/2) <= D2R * lat' <= PI / 2) by (unfold D2R; nra). apply sin_inj; assumption. }
  pose proof D2R_pos. apply Rmult_eq_reg_l with D2R; lra.
Qed.
Lemma unit_vector_lon lon lat lon' lat' : -90 < lat < 90 -> -90 <= lat' <= 90 -> unit_vector lon lat = unit_vector lon' lat' -> same_angle lon lon'.
Proof.
  intros H H' E. assert (lat = lat') by (apply (unit_vector_lat lon lat lon' lat'); try lra; exact E). subst lat'. rewrite <- !getXYZ_unit in E. unfold getXYZ in E. injection E as E1 E2.
  pose proof (cosd_pos lat H). apply sincosd_inj; apply Rmult_eq_reg_r with (cosdeg lat); lra.
Qed.
Lemma unit_vector_same lon lat lon' lat' : same_angle lon lon' -> same_angle lat lat' -> unit_vector lon lat = unit_vector lon' lat'.
Proof. intros H H'. rewrite <- !getXYZ_unit. unfold getXYZ. now rewrite (cosd_same _ _ H), (sind_same _ _ H), (cosd_same _ _ H'), (sind_same _ _ H'). Qed.

(** *** The matrices of the code *)
Ltac rot := cbn; repeat split; try ring.
Lemma vecX_rotation t : is_rotation (vecX t).
Proof. pose proof (sincosd_one t). rot; lra. Qed.
Lemma vecY_rotation t : is_rotation (vecY t).
Proof. pose proof (sincosd_one t). rot; lra. Qed.
Lemma vecZ_rotation t : is_rotation (vecZ t).
Proof. pose proof (sincosd_one t). rot; lra. Qed.
Lemma rotation_matrix_rotation u t : inner u u = 1 -> is_rotation (rotation_matrix u t).
Proof.
  destruct u as [[p q] r]. cbn. intros H. pose proof (sin2_cos2 t) as T. unfold Rsqr in T. set (C := cos t) in *. set (S := sin t) in *.
  assert (Hp : p * p = 1 - q * q - r * r) by lra. assert (Hs : S * S = 1 - C * C) by lra.
  repeat split.
  - transitivity (C * C + 2 * C * (1 - C) * (p * p) + S * S * (q * q + r * r) + (1 - C) * (1 - C) * (p * p) * (p * p + q * q + r * r)); [ring|]. rewrite H, Hs. replace (q * q + r * r) with (1 - p * p) by lra. ring.
  - transitivity (C * C + 2 * C * (1 - C) * (q * q) + S * S * (p * p + r * r) + (1 - C) * (1 - C) * (q * q) * (p * p + q * q + r * r)); [ring|]. rewrite H, Hs. replace (p * p + r * r) with (1 - q * q) by lra. ring.
  - transitivity (C * C + 2 * C * (1 - C) * (r * r) + S * S * (p * p + q * q) + (1 - C) * (1 - C) * (r * r) * (p * p + q * q + r * r)); [ring|]. rewrite H, Hs. replace (p * p + q * q) with (1 - r * r) by lra. ring.
  - transitivity (p * q * (2 * C * (1 - C) - S * S + (1 - C) * (1 - C) * (p * p + q * q + r * r))); [ring|]. rewrite H, Hs. ring.
  - transitivity (p * r * (2 * C * (1 - C) - S * S + (1 - C) * (1 - C) * (p * p + q * q + r * r))); [ring|]. rewrite H, Hs. ring.
  - transitivity (q * r * (2 * C * (1 - C) - S * S + (1 - C) * (1 - C) * (p * p + q * q + r * r))); [ring|]. rewrite H, Hs. ring.
  - transitivity (C ^ 3 + C * (S * S) * (p * p + q * q + r * r) + (1 - C) * (C * C) * (p * p + q * q + r * r) + (1 - C) * (S * S) * (p * p + q * q + r * r) ^ 2); [ring|]. rewrite H, Hs. ring.
Qed.
Lemma times_1 v : times 1 v = v.
Proof. destruct v as [[x y] z]. cbn. f_equal; [f_equal|]; ring. Qed.
