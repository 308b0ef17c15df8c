From Verif.Model Require Import Radec2tan.
From Verif.Spec Require Import Trig Sphere.
From Verif.Proofs Require Import RealNum Trig Sphere Radec2tan Refraction SkyChain.
From Coq Require Import Lra.
From Interval Require Import Tactic.
Local Open Scope R_scope.

(** *** Distances between vectors *)
Definition size (v : R * R * R) : R := sqrt (inner v v).
Definition dist (u v : R * R * R) : R := size (gap u v).
Lemma inner_nonneg v : 0 <= inner v v.
Proof. destruct v as [[a b] c]. cbn. nra. Qed.
Lemma size_nonneg v : 0 <= size v.
Proof. apply sqrt_pos. Qed.
Lemma size_sq v : size v * size v = inner v v.
Proof. apply sqrt_sqrt, inner_nonneg. Qed.
Lemma size_le v e : 0 <= e -> inner v v <= e ^ 2 -> size v <= e.
Proof. intros E H. pose proof (size_nonneg v). pose proof (size_sq v). nra. Qed.
Lemma inner_size u v : Rabs (inner u v) <= size u * size v.
Proof.
  pose proof (cauchy u v) as C. rewrite <- !size_sq in C. pose proof (size_nonneg u). pose proof (size_nonneg v). assert (0 <= size u * size v) by nra.
  apply Rabs_le. split; nra.
Qed.
Lemma size_plus u v : size (plus u v) <= size u + size v.
Proof.
  pose proof (size_nonneg u). pose proof (size_nonneg v). apply size_le; [lra|]. rewrite inner_plus_l, !inner_plus_r, (inner_sym v u), <- !size_sq.
  pose proof (inner_size u v) as I. apply Rabs_bounds in I. nra.
Qed.
Lemma size_times k v : size (times k v) = Rabs k * size v.
Proof.
  unfold size. rewrite inner_times_l, inner_times_r, <- Rmult_assoc, sqrt_mult by (try apply inner_nonneg; nra). f_equal. exact (sqrt_Rsqr_abs k).
Qed.
Lemma size_unit lon lat : size (unit_vector lon lat) = 1.
Proof. unfold size. rewrite unit_norm. apply sqrt_1. Qed.
Lemma dist_triangle u v w : dist u w <= dist u v + dist v w.
Proof.
  unfold dist. replace (gap u w) with (plus (gap u v) (gap v w)); [apply size_plus|]. destruct u as [[? ?] ?], v as [[? ?] ?], w as [[? ?] ?]. cbn. apply triple_eq; ring.
Qed.
Lemma dist_sym u v : dist u v = dist v u.
Proof. unfold dist, size. f_equal. destruct u as [[? ?] ?], v as [[? ?] ?]. cbn. ring. Qed.
Lemma dist_refl u : dist u u = 0.
Proof. unfold dist, size. rewrite <- sqrt_0. f_equal. destruct u as [[? ?] ?]. cbn. ring. Qed.
Lemma dist_nonneg u v : 0 <= dist u v.
Proof. apply size_nonneg. Qed.
Lemma dist_chord u v : inner u u = 1 -> inner v v = 1 -> dist u v * dist u v = 2 - 2 * inner u v.
Proof. intros U V. unfold dist. rewrite size_sq. now apply gap_sq. Qed.
Lemma dist_rotation m u v : is_rotation m -> dist (act m u) (act m v) = dist u v.
Proof.
  intros H. unfold dist, size. f_equal. rewrite <- (rotation_inner m (gap u v) (gap u v) H). unfold gap.
  assert (E : act m (plus u (times (-1) v)) = plus (act m u) (times (-1) (act m v))). { rewrite <- (times_1 u) at 1. rewrite act_linear, times_1. reflexivity. }
  now rewrite E.
Qed.
Lemma dist_inner u v w : size w = 1 -> Rabs (inner u w - inner v w) <= dist u v.
Proof.
  intros W. replace (inner u w - inner v w) with (inner (gap u v) w) by (unfold gap; rewrite inner_plus_l, inner_times_l; lra).
  pose proof (inner_size (gap u v) w) as I. rewrite W, Rmult_1_r in I. exact I.
Qed.
Lemma dist_close3 e u v : 0 <= e -> close3 e u v -> dist u v <= 2 * e.
Proof.
  intros E. destruct u as [[a b] c], v as [[x y] z]. cbn. intros (A & B & C). apply Rabs_bounds in A, B, C. unfold dist. apply size_le; [lra|]. cbn. nra.
Qed.
(** Normalising. *)
Lemma lonlat_near v w e : inner w w = 1 -> dist v w <= e -> e <= 1 / 2 -> let '(lon, lat) := getLONLAT v in dist (unit_vector lon lat) w <= 2 * e.
Proof.
  intros W D E. assert (Sw : size w = 1) by (unfold size; rewrite W; apply sqrt_1).
  assert (S : Rabs (size v - 1) <= e).
  { assert (size v <= e + 1). { pose proof (size_plus (gap v w) w) as T. replace (plus (gap v w) w) with v in T by (destruct v as [[? ?] ?], w as [[? ?] ?]; cbn; apply triple_eq; ring). fold (dist v w) in T. lra. }
    assert (1 <= e + size v). { pose proof (size_plus (gap w v) v) as T. replace (plus (gap w v) v) with w in T by (destruct v as [[? ?] ?], w as [[? ?] ?]; cbn; apply triple_eq; ring). fold (dist w v) in T. rewrite dist_sym in T. lra. }
    apply Rabs_le. lra. }
  apply Rabs_bounds in S as S'. assert (P : 0 < inner v v). { rewrite <- size_sq. assert (0 < size v) by lra. nra. }
  pose proof (getLONLAT_direction v P) as G. destruct (getLONLAT v) as [lon lat]. rewrite G, getNormalized_times. pose proof (getNorm_pos v P) as NP.
  assert (NS : getNorm v = size v). { pose proof (getNorm_sq v). pose proof (size_sq v). pose proof (size_nonneg v). nra. }
  rewrite NS in *. eapply Rle_trans; [apply (dist_triangle _ v)|]. assert (dist (times (/ size v) v) v <= e); [|lra].
  unfold dist. replace (gap (times (/ size v) v) v) with (times (/ size v - 1) v) by (destruct v as [[? ?] ?]; cbn; apply triple_eq; ring).
  rewrite size_times. replace (Rabs (/ size v - 1) * size v) with (Rabs (size v - 1)); [exact S|]. rewrite <- (Rabs_right (size v)) at 3 by lra. rewrite <- Rabs_mult, <- Rabs_Ropp. f_equal. field. lra.
Qed.

(** *** Reflecting the longitude and the latitude through a direction *)
Lemma inner_lonlat a d b e : inner (unit_vector a d) (unit_vector b e) = cosdeg d * cosdeg e * cosdeg (a - b) + sindeg d * sindeg e.
Proof. rewrite <- !getXYZ_unit. unfold getXYZ, Rminus. rewrite cosd_plus, cosd_neg, sind_neg. cbn. ring. Qed.
Definition reflected (u v : R * R * R) := plus (times (2 * inner u v) u) (times (-1) v).
Lemma reflected_unit u v : inner u u = 1 -> inner v v = 1 -> inner (reflected u v) (reflected u v) = 1.
Proof. intros U V. unfold reflected. rewrite inner_plus_l, !inner_plus_r, !inner_times_l, !inner_times_r, U, V, (inner_sym v u). ring. Qed.
Lemma lonlat_reflection r d r2 d2 : let c := cosdeg d in let s := sindeg d in
  dist (unit_vector (2 * r - r2) (2 * d - d2)) (reflected (unit_vector r d) (unit_vector r2 d2)) ^ 2 =
  4 * s ^ 2 * (sindeg (r2 - r) ^ 2 * sindeg (d2 - d) ^ 2 + c ^ 2 * (1 - cosdeg (r2 - r)) ^ 2).
Proof.
  cbv zeta. set (u := unit_vector r d). set (v := unit_vector r2 d2). set (b := unit_vector (2 * r - r2) (2 * d - d2)).
  assert (U : inner u u = 1) by apply unit_norm. assert (V : inner v v = 1) by apply unit_norm. assert (B : inner b b = 1) by apply unit_norm.
  replace (dist b (reflected u v) ^ 2) with (dist b (reflected u v) * dist b (reflected u v)) by ring. rewrite dist_chord by (try exact B; now apply reflected_unit).
  unfold reflected. rewrite inner_plus_r, !inner_times_r. unfold u, v, b. rewrite !inner_lonlat.
  replace (2 * r - r2 - r) with (- (r2 - r)) by ring. replace (r - r2) with (- (r2 - r)) by ring. replace (2 * r - r2 - r2) with (- ((r2 - r) + (r2 - r))) by ring.
  replace (2 * d - d2) with (d + - (d2 - d)) by ring. set (e := d2 - d). replace d2 with (d + e) by (unfold e; ring). clearbody e.
  rewrite !cosd_plus, !sind_plus, !cosd_neg, !sind_neg, !cosd_plus.
  set (f := r2 - r). pose proof (sincosd_one d) as H1. pose proof (sincosd_one e) as H2. pose proof (sincosd_one f) as H3.
  set (c := cosdeg d) in *. set (s := sindeg d) in *. set (ce := cosdeg e) in *. set (se := sindeg e) in *. set (cd := cosdeg f) in *. set (sd := sindeg f) in *. clearbody c s ce se cd sd.
  assert (S2 : s * s = 1 - c * c) by lra. assert (E2 : se * se = 1 - ce * ce) by lra. assert (F2 : sd * sd = 1 - cd * cd) by lra.
  transitivity (2 - 4 * (ce * ce * (c * c * cd + s * s) * (c * c * cd + s * s) - se * se * (c * c) * (s * s) * (1 - cd) * (1 - cd))
     + 2 * ((c * c * (ce * ce) - s * s * (se * se)) * (cd * cd - sd * sd) + (s * s * (ce * ce) - c * c * (se * se)))); [ring|].
  rewrite S2, E2, F2. transitivity (4 * (s * s) * (sd * sd * (se * se) + c * c * (1 - cd) ^ 2)); [rewrite S2, E2, F2; ring|ring].
Qed.

(** *** Aberration and its inverse *)
Lemma apex_size mjd : size (apex mjd) = 1.
Proof. unfold size, apex. rewrite refX_inner, unit_norm. apply sqrt_1. Qed.
Lemma kappa_bounds : 0 < kappa < 1e-4.
Proof. unfold kappa. lra. Qed.
Lemma aberration_step r d mjd : let '(r2, d2) := apply_aberration r d mjd in let u := unit_vector r d in let v := unit_vector r2 d2 in
  -90 <= d2 <= 90 /\ exists n, 1 <= n <= 1 + kappa ^ 2 / 2 /\ n ^ 2 <= 1 + kappa ^ 2 /\ inner u v = / n /\ dist u v <= kappa /\ times n v = plus (times (1 - kappa * inner u (apex mjd)) u) (times kappa (apex mjd)).
Proof.
  pose proof (aberration_direction r d mjd) as D. destruct (apply_aberration r d mjd) as [r2 d2]. cbv zeta in *. destruct D as (_ & R2 & n & P & N & E). split; [exact R2|].
  set (u := unit_vector r d) in *. set (v := unit_vector r2 d2) in *. set (a := inner u (apex mjd)) in *. pose proof kappa_bounds as K.
  assert (U : inner u u = 1) by apply unit_norm. assert (V : inner v v = 1) by apply unit_norm.
  assert (A : a ^ 2 <= 1). { pose proof (inner_size u (apex mjd)) as I. rewrite apex_size in I. unfold u in I at 2. rewrite size_unit in I. fold a in I. apply Rabs_bounds in I. nra. }
  assert (N1 : 1 <= n ^ 2 <= 1 + kappa ^ 2) by (rewrite N; pose proof (pow2_ge_0 kappa); pose proof (pow2_ge_0 a); nra).
  assert (I : inner u v = / n). { assert (n * inner u v = 1) by (rewrite <- inner_times_r, E, inner_plus_r, !inner_times_r, U; fold a; ring). apply (Rmult_eq_reg_l n); [|lra]. rewrite H, Rinv_r; lra. }
  exists n. assert (1 <= n) by nra. split; [split; [lra|nra]|]. split; [lra|]. split; [exact I|]. split; [|exact E].
  pose proof (dist_chord u v U V) as Q. rewrite I in Q. pose proof (dist_nonneg u v). assert (2 - 2 * / n <= kappa ^ 2); [|nra].
  assert (/ n * n = 1) by (apply Rinv_l; lra). assert (0 < / n) by (apply Rinv_0_lt_compat; lra). nra.
Qed.
Lemma reflection_small r d mjd : -90 <= d <= 90 -> 0.14 <= cosdeg d -> let '(r2, d2) := apply_aberration r d mjd in
  dist (unit_vector (2 * r - r2) (2 * d - d2)) (reflected (unit_vector r d) (unit_vector r2 d2)) <= 3 * kappa ^ 2 / cosdeg d.
Proof.
  intros Hd C. pose proof (aberration_step r d mjd) as S. destruct (apply_aberration r d mjd) as [r2 d2]. cbv zeta in S. destruct S as (R2 & n & N1 & N2 & I & D & _). pose proof kappa_bounds as K.
  assert (0 <= cosdeg d2). { unfold cosdeg. pose proof PI_RGT_0. apply cos_ge_0; unfold D2R; nra. }
  (* longitude *)
  assert (L : cosdeg d * Rabs (sindeg (r2 - r)) <= kappa).
  { pose proof (dist_inner (unit_vector r d) (unit_vector r2 d2) (unit_vector (r2 + 90) 0) (size_unit _ _)) as Q. rewrite !inner_lonlat, cosd0, sind0 in Q.
    replace (r2 - (r2 + 90)) with (Ropp 90) in Q by ring. replace (r - (r2 + 90)) with (- ((r2 - r) + 90)) in Q by ring. rewrite !cosd_neg, cosd_plus, cosd90, sind90 in Q.
    replace (cosdeg d * 1 * (cosdeg (r2 - r) * 0 - sindeg (r2 - r) * 1) + sindeg d * 0 - (cosdeg d2 * 1 * 0 + sindeg d2 * 0)) with (cosdeg d * - sindeg (r2 - r)) in Q by ring.
    rewrite Rabs_mult, Rabs_Ropp, (Rabs_right (cosdeg d)) in Q by lra. lra. }
  (* latitude *)
  rewrite inner_lonlat in I. replace (r - r2) with (- (r2 - r)) in I by ring. rewrite cosd_neg in I. set (f := r2 - r) in *. set (e := d2 - d).
  assert (CE : cosdeg e = cosdeg d * cosdeg d2 + sindeg d * sindeg d2) by (unfold e, Rminus; rewrite cosd_plus, cosd_neg, sind_neg; ring).
  assert (F1 : cosdeg f <= 1) by (unfold cosdeg; apply COS_bound). assert (E1 : cosdeg e <= 1) by (unfold cosdeg; apply COS_bound).
  assert (Hn : / n * n = 1) by (apply Rinv_l; lra). assert (Hp : 0 < / n) by (apply Rinv_0_lt_compat; lra).
  assert (In : 1 - kappa ^ 2 / 2 <= / n) by nra.
  assert (M : cosdeg d * cosdeg d2 * (1 - cosdeg f) <= kappa ^ 2 / 2) by lra.
  assert (CE2 : 1 - kappa ^ 2 / 2 <= cosdeg e) by (assert (0 <= cosdeg d * cosdeg d2 * (1 - cosdeg f)) by (apply Rmult_le_pos; [apply Rmult_le_pos; lra|lra]); lra).
  pose proof (sincosd_one e) as SE. assert (S2 : sindeg e ^ 2 <= kappa ^ 2) by nra.
  assert (Sb : Rabs (sindeg e) <= kappa) by (apply Rabs_le; nra).
  assert (D2 : cosdeg d / 2 <= cosdeg d2).
  { replace d2 with (d + e) by (unfold e; ring). rewrite cosd_plus. assert (Rabs (sindeg d) <= 1) by (unfold sindeg; apply Rabs_le, SIN_bound).
    assert (sindeg d * sindeg e <= kappa). { eapply Rle_trans; [apply Rle_abs|]. rewrite Rabs_mult. pose proof (Rabs_pos (sindeg d)). pose proof (Rabs_pos (sindeg e)). nra. }
    assert (kappa ^ 2 <= 1e-8) by nra. assert (cosdeg d * 0.99 <= cosdeg d * cosdeg e) by (apply Rmult_le_compat_l; lra). lra. }
  pose proof (lonlat_reflection r d r2 d2) as Q. cbv zeta in Q. fold f e in Q. set (x := dist _ (reflected _ _)) in *.
  assert (X0 : 0 <= x) by apply dist_nonneg. clearbody x. set (c := cosdeg d) in *. set (K1 := 1 - cosdeg f) in *.
  assert (T1 : c * K1 <= kappa ^ 2 / c). { apply (Rmult_le_reg_r (c / 2)); [lra|]. replace (kappa ^ 2 / c * (c / 2)) with (kappa ^ 2 / 2) by (field; lra). assert (0 <= K1) by (unfold K1; lra). nra. }
  assert (T2 : Rabs (sindeg f) * Rabs (sindeg e) <= kappa ^ 2 / c). { apply (Rmult_le_reg_r c); [lra|]. replace (kappa ^ 2 / c * c) with (kappa * kappa) by (field; lra). pose proof (Rabs_pos (sindeg f)). pose proof (Rabs_pos (sindeg e)).
    replace (Rabs (sindeg f) * Rabs (sindeg e) * c) with ((c * Rabs (sindeg f)) * Rabs (sindeg e)) by ring. apply Rmult_le_compat; nra. }
  set (q := kappa ^ 2 / c) in *. assert (q0 : 0 <= q) by (unfold q; apply Rmult_le_pos; [nra|left; apply Rinv_0_lt_compat; lra]).
  replace (3 * kappa ^ 2 / c) with (3 * q) by (unfold q, Rdiv; ring).
  assert (Y1 : sindeg f ^ 2 * sindeg e ^ 2 <= q ^ 2). { rewrite <- (pow2_abs (sindeg f)), <- (pow2_abs (sindeg e)), <- Rpow_mult_distr. apply pow_incr. split; [|exact T2]. apply Rmult_le_pos; apply Rabs_pos. }
  assert (Y2 : c ^ 2 * K1 ^ 2 <= q ^ 2). { rewrite <- Rpow_mult_distr. apply pow_incr. split; [|exact T1]. apply Rmult_le_pos; unfold K1; lra. }
  assert (Y3 : sindeg d ^ 2 <= 1) by (pose proof (sincosd_one d); nra).
  pose proof (pow2_ge_0 (sindeg d)). assert (x ^ 2 <= 8 * q ^ 2); [rewrite Q|nra].
  assert (0 <= sindeg f ^ 2 * sindeg e ^ 2 + c ^ 2 * K1 ^ 2) by (apply Rplus_le_le_0_compat; apply Rmult_le_pos; apply pow2_ge_0). nra.
Qed.
Lemma undo_aberration_near r0 d0 r d mjd c : 0 <= c -> -90 <= d <= 90 -> 0.14 <= cosdeg d ->
  (let '(r1, d1) := apply_aberration r0 d0 mjd in dist (unit_vector r d) (unit_vector r1 d1) <= c) ->
  let '(rb, db) := undo_aberration r d mjd in dist (unit_vector r0 d0) (unit_vector rb db) <= (1 + 2 * kappa) * c + 3 * kappa ^ 2 + 3 * kappa ^ 2 / cosdeg d.
Proof.
  intros Hc Hd C. pose proof (aberration_step r0 d0 mjd) as S1. destruct (apply_aberration r0 d0 mjd) as [r1 d1]. intros Hdist. unfold undo_aberration.
  pose proof (reflection_small r d mjd Hd C) as RS. pose proof (aberration_step r d mjd) as S2. destruct (apply_aberration r d mjd) as [r2 d2]. cbv zeta in S1, S2.
  destruct S1 as (_ & n & N1 & _ & I1 & D1 & E1), S2 as (_ & m & M1 & _ & I2 & D2 & E2). pose proof kappa_bounds as K.
  set (u0 := unit_vector r0 d0) in *. set (u1 := unit_vector r1 d1) in *. set (u := unit_vector r d) in *. set (v := unit_vector r2 d2) in *. set (A := apex mjd) in *.
  rewrite dist_sym. eapply Rle_trans; [apply (dist_triangle _ (reflected u v))|].
  assert (G : dist (reflected u v) u0 <= (1 + 2 * kappa) * c + 3 * kappa ^ 2); [|lra].
  assert (Su0 : size u0 = 1) by apply size_unit. assert (Su1 : size u1 = 1) by apply size_unit. assert (Su : size u = 1) by apply size_unit. assert (SA : size A = 1) by apply apex_size.
  assert (Sr : size (reflected u v) = 1) by (unfold size; rewrite reflected_unit by apply unit_norm; apply sqrt_1).
  set (a := inner u A) in *. set (a0 := inner u0 A) in *.
  assert (Hm : m * / m = 1) by (apply Rinv_r; lra).
  assert (RE : times m (reflected u v) = plus (times (1 + kappa * a) u) (times (- kappa) A)).
  { unfold reflected. rewrite I2. clearbody a a0 A u. destruct u as [[x y] z], v as [[v1 v2] v3], A as [[p q] w]. cbn in E2 |- *. injection E2 as X Y Z. apply triple_eq.
    - transitivity (2 * (m * / m) * x - m * v1); [ring|]. rewrite Hm, X. ring.
    - transitivity (2 * (m * / m) * y - m * v2); [ring|]. rewrite Hm, Y. ring.
    - transitivity (2 * (m * / m) * z - m * v3); [ring|]. rewrite Hm, Z. ring. }
  assert (Split : gap (reflected u v) u0 = plus (times (1 - m) (reflected u v)) (plus (gap u u1) (plus (times (1 - n) u1) (times kappa (plus (times (a - a0) u) (times a0 (gap u u0))))))).
  { assert (X : plus (times m (reflected u v)) (times (-1) u0) = plus (gap u u1) (plus (times (1 - n) u1) (times kappa (plus (times (a - a0) u) (times a0 (gap u u0)))))).
    { rewrite RE. clearbody a a0. clear - E1. destruct u as [[x y] z], u0 as [[x0 y0] z0], u1 as [[x1 y1] z1], A as [[p q] w]. cbn in E1 |- *. injection E1 as X Y Z. apply triple_eq.
      - transitivity ((1 + kappa * a) * x - n * x1 - kappa * a0 * x0); [rewrite X; ring|ring].
      - transitivity ((1 + kappa * a) * y - n * y1 - kappa * a0 * y0); [rewrite Y; ring|ring].
      - transitivity ((1 + kappa * a) * z - n * z1 - kappa * a0 * z0); [rewrite Z; ring|ring]. }
    rewrite <- X. destruct (reflected u v) as [[? ?] ?], u0 as [[? ?] ?]. cbn. apply triple_eq; ring. }
  assert (Du : dist u u0 <= c + kappa). { eapply Rle_trans; [apply (dist_triangle u u1)|]. rewrite (dist_sym u1 u0). lra. }
  assert (Da : Rabs (a - a0) <= c + kappa) by (eapply Rle_trans; [exact (dist_inner u u0 A SA)|exact Du]).
  assert (A0 : Rabs a0 <= 1). { pose proof (inner_size u0 A) as I. rewrite Su0, SA in I. fold a0 in I. lra. }
  unfold dist. rewrite Split. eapply Rle_trans; [apply size_plus|]. eapply Rle_trans; [apply Rplus_le_compat_l, size_plus|]. eapply Rle_trans; [apply Rplus_le_compat_l, Rplus_le_compat_l, size_plus|].
  fold (dist u u1). rewrite !size_times, Sr, Su1, (Rabs_left1 (1 - m)), (Rabs_left1 (1 - n)), (Rabs_right kappa) by lra.
  assert (size (plus (times (a - a0) u) (times a0 (gap u u0))) <= 2 * (c + kappa)).
  { eapply Rle_trans; [apply size_plus|]. rewrite !size_times, Su. fold (dist u u0). pose proof (dist_nonneg u u0). pose proof (Rabs_pos a0). assert (Rabs a0 * dist u u0 <= 1 * (c + kappa)) by (apply Rmult_le_compat; lra). lra. }
  assert (kappa * size (plus (times (a - a0) u) (times a0 (gap u u0))) <= kappa * (2 * (c + kappa))) by (apply Rmult_le_compat_l; lra). lra.
Qed.

(** *** The full round trip *)
Lemma matrix_near m p w : is_rotation p -> close9 1e-12 p m -> inner w w = 1 -> let '(lon, lat) := getLONLAT (mv m w) in dist (unit_vector lon lat) (act p w) <= 1.2e-11.
Proof.
  intros Hp C W. rewrite mv_act. assert (D : dist (act m w) (act p w) <= 6e-12).
  { rewrite dist_sym. replace 6e-12 with (2 * (3 * 1e-12)) by lra. apply dist_close3; [lra|]. destruct p as [[r1 r2] r3], m as [[s1 s2] s3]. cbn in C |- *. destruct C as (C1 & C2 & C3). repeat split; apply near_row; assumption. }
  pose proof (lonlat_near (act m w) (act p w) 6e-12) as L. rewrite (rotation_inner p _ _ Hp) in L. specialize (L W D ltac:(lra)). destruct (getLONLAT _) as [lon lat]. lra.
Qed.
Lemma close9_refl e m : 0 <= e -> close9 e m m.
Proof. intros E. assert (Z : forall x, Rabs (x - x) <= e) by (intros x; replace (x - x) with 0 by ring; rewrite Rabs_R0; exact E). destruct m as [[[[? ?] ?] [[? ?] ?]] [[? ?] ?]]. cbn. repeat split; apply Z. Qed.
Lemma to_mount_near o ra dec mjd lst : let '(ha, d) := to_mount o ra dec mjd lst in
  exists ra1 d1 ra2 d2, unit_vector ra1 d1 = moved o mjd (unit_vector ra dec) /\ (if aberration o then apply_aberration ra1 d1 mjd else (ra1, d1)) = (ra2, d2) /\
    dist (unit_vector ha d) (if polar_misalignment o then act P1 (unit_vector (lst - ra2) d2) else unit_vector (lst - ra2) d2) <= 1.2e-11.
Proof.
  unfold to_mount, moved.
  assert (P : exists ra1 d1, (if precession o then apply_precession_from_icrs ra dec mjd else (ra, dec)) = (ra1, d1) /\ unit_vector ra1 d1 = if precession o then precess ((mjd - ICRS_MJD) / DAYS_PER_YEAR) (unit_vector ra dec) else unit_vector ra dec).
  { destruct (precession o); [|exists ra, dec; split; reflexivity]. unfold apply_precession_from_icrs. pose proof (precession_direction ra dec ((mjd - ICRS_MJD) / DAYS_PER_YEAR)) as D. destruct (apply_precession _ _ _) as [ra1 d]. exists ra1, d. tauto. }
  destruct P as (ra1 & d1 & -> & D). destruct (if aberration o then apply_aberration ra1 d1 mjd else (ra1, d1)) as [ra2 d2] eqn:E.
  destruct (polar_misalignment o).
  - rewrite getXYZ_unit. pose proof (matrix_near (if hardcoded_polmis o then get_hardcoded_polmis_rotmat false else P1) P1 (unit_vector (lst - ra2) d2) P1_rotation) as M.
    fold P1. assert (C : close9 1e-12 P1 (if hardcoded_polmis o then get_hardcoded_polmis_rotmat false else P1)) by (destruct (hardcoded_polmis o); [exact P1_hardcoded|apply close9_refl; lra]).
    specialize (M C (unit_norm _ _)). destruct (getLONLAT _) as [ha d]. exists ra1, d1, ra2, d2. repeat split; assumption.
  - exists ra1, d1, ra2, d2. rewrite dist_refl. repeat split; try assumption. lra.
Qed.
Lemma dist_longitude lst a d b e : dist (unit_vector (lst - a) d) (unit_vector (lst - b) e) = dist (unit_vector a d) (unit_vector b e).
Proof.
  pose proof (dist_chord (unit_vector (lst - a) d) (unit_vector (lst - b) e) (unit_norm _ _) (unit_norm _ _)) as H1. pose proof (dist_chord (unit_vector a d) (unit_vector b e) (unit_norm _ _) (unit_norm _ _)) as H2.
  rewrite inner_longitude in H1. pose proof (dist_nonneg (unit_vector (lst - a) d) (unit_vector (lst - b) e)). pose proof (dist_nonneg (unit_vector a d) (unit_vector b e)). nra.
Qed.
Lemma dist_moved o mjd u v : dist (moved o mjd u) (moved o mjd v) = dist u v.
Proof.
  unfold dist, size. f_equal. transitivity (inner (moved o mjd (gap u v)) (moved o mjd (gap u v))); [|apply moved_inner].
  assert (E : moved o mjd (gap u v) = gap (moved o mjd u) (moved o mjd v)); [|now rewrite E].
  unfold moved. destruct (precession o); [|reflexivity]. unfold precess, gap. set (y := (mjd - ICRS_MJD) / DAYS_PER_YEAR). clearbody y.
  assert (L : forall m, act m (plus u (times (-1) v)) = plus (act m u) (times (-1) (act m v))). { intros m. rewrite <- (times_1 u) at 1. now rewrite act_linear, times_1. }
  assert (L2 : forall m a b, act m (plus a (times (-1) b)) = plus (act m a) (times (-1) (act m b))). { intros m a b. rewrite <- (times_1 a) at 1. now rewrite act_linear, times_1. }
  now rewrite !L2.
Qed.
Lemma polar_undo_dist u w : inner u u = 1 -> inner w w = 1 -> dist u (act P2 w) <= dist (act P1 u) w + 4e-8.
Proof.
  intros U W. assert (E1 : inner (act P1 u) (act P1 u) = 1) by (rewrite (rotation_inner P1); auto using P1_rotation). assert (E2 : inner (act P2 w) (act P2 w) = 1) by (rewrite (rotation_inner P2); auto using P2_rotation).
  pose proof (dist_nonneg (act P1 u) w) as N. pose proof (dist_nonneg u (act P2 w)) as N2. pose proof (dist_chord _ _ E1 W) as C1. pose proof (dist_chord _ _ U E2) as C2.
  pose proof (polar_undo u w U W (dist (act P1 u) w) N) as Q. rewrite <- C1, <- C2 in Q. specialize (Q ltac:(lra)). nra.
Qed.
Lemma P2_small v : inner v v = 1 -> dist (act P2 v) v <= 4e-3.
Proof.
  intros V. pose proof P2_hardcoded as H. assert (C : close9 6e-4 P2 ((1, 0, 0), (0, 1, 0), (0, 0, 1))).
  { destruct P2 as [[[[? ?] ?] [[? ?] ?]] [[? ?] ?]]. cbn in *. destruct H as ((A1 & A2 & A3) & (A4 & A5 & A6) & (A7 & A8 & A9)). apply Rabs_bounds in A1, A2, A3, A4, A5, A6, A7, A8, A9. repeat split; apply Rabs_le; lra. }
  assert (I : act ((1, 0, 0), (0, 1, 0), (0, 0, 1)) v = v) by (destruct v as [[? ?] ?]; cbn; apply triple_eq; ring). rewrite <- I at 2.
  eapply Rle_trans; [apply (dist_close3 (3 * 6e-4)); [lra|]|lra]. destruct P2 as [[r1 r2] r3]. cbn -[inner] in C |- *. destruct C as (C1 & C2 & C3). repeat split; apply near_row; assumption.
Qed.
Lemma sind_inner r d : sindeg d = inner (unit_vector r d) (unit_vector 0 90).
Proof. rewrite inner_lonlat, cosd90, sind90. ring. Qed.
Lemma cos_bound_from_sin d : -90 <= d <= 90 -> Rabs (sindeg d) <= 0.9895 -> 0.14 <= cosdeg d.
Proof.
  intros Hd S. apply Rabs_bounds in S. pose proof (sincosd_one d). assert (0 <= cosdeg d) by (unfold cosdeg; pose proof PI_RGT_0; apply cos_ge_0; unfold D2R; nra). nra.
Qed.
Definition limit (o : options) : R := if aberration o then 3e-7 else if polar_misalignment o then 4.1e-8 else 4e-10.
Lemma round_trip o ra dec tel_ra tel_dec mjd lst hexrot ha d th td :
  to_mount o ra dec mjd lst = (ha, d) -> to_mount o tel_ra tel_dec mjd lst = (th, td) ->
  1 / 2 <= inner (unit_vector ha d) (unit_vector 0 LATITUDE) -> 1 / 2 <= inner (unit_vector th td) (unit_vector 0 LATITUDE) ->
  1.7e-3 <= inner (unit_vector ra dec) (unit_vector tel_ra tel_dec) -> (aberration o = true -> Rabs (sindeg d) <= 0.985) ->
  exists x y ra' dec', radec2tan o ra dec tel_ra tel_dec mjd lst hexrot = Ok (x, y) /\ tan2radec o x y tel_ra tel_dec mjd lst hexrot = Ok (ra', dec') /\
    dist (unit_vector ra dec) (unit_vector ra' dec') <= limit o.
Proof.
  intros M1 M2 Up1 Up2 Front Low. pose proof kappa_bounds as K.
  pose proof (to_mount_near o ra dec mjd lst) as V1. rewrite M1 in V1. destruct V1 as (r1 & d1 & r2 & d2 & V1 & A1 & W1).
  pose proof (to_mount_near o tel_ra tel_dec mjd lst) as V2. rewrite M2 in V2. destruct V2 as (s1 & e1 & s2 & e2 & V2 & A2 & W2).
  assert (AB : forall a b a' b', (if aberration o then apply_aberration a b mjd else (a, b)) = (a', b') -> dist (unit_vector a b) (unit_vector a' b') <= kappa).
  { intros a b a' b' H. destruct (aberration o).
    - pose proof (aberration_step a b mjd) as S. rewrite H in S. cbv zeta in S. destruct S as (_ & n & _ & _ & _ & S & _). exact S.
    - injection H as <- <-. rewrite dist_refl. lra. }
  assert (F1 : 1 / 1000 <= inner (unit_vector ha d) (unit_vector th td)).
  { set (Q := fun v => if polar_misalignment o then act P1 v else v). assert (QI : forall u v, inner (Q u) (Q v) = inner u v) by (intros u v; unfold Q; destruct (polar_misalignment o); [apply (rotation_inner P1 _ _ P1_rotation)|reflexivity]).
    assert (QS : forall a b, size (Q (unit_vector a b)) = 1) by (intros a b; unfold size; rewrite QI, unit_norm; apply sqrt_1).
    fold (Q (unit_vector (lst - r2) d2)) in W1. fold (Q (unit_vector (lst - s2) e2)) in W2.
    assert (Y1 : Rabs (inner (unit_vector ha d) (unit_vector th td) - inner (Q (unit_vector (lst - r2) d2)) (unit_vector th td)) <= 1.2e-11) by (eapply Rle_trans; [apply dist_inner, size_unit|exact W1]).
    assert (Y2 : Rabs (inner (unit_vector th td) (Q (unit_vector (lst - r2) d2)) - inner (Q (unit_vector (lst - s2) e2)) (Q (unit_vector (lst - r2) d2))) <= 1.2e-11) by (eapply Rle_trans; [apply dist_inner, QS|exact W2]).
    rewrite QI, inner_longitude in Y2. rewrite (inner_sym (Q _) (unit_vector th td)) in Y1.
    assert (Y3 : Rabs (inner (unit_vector s1 e1) (unit_vector r2 d2) - inner (unit_vector s2 e2) (unit_vector r2 d2)) <= kappa) by (eapply Rle_trans; [apply dist_inner, size_unit|exact (AB _ _ _ _ A2)]).
    assert (Y4 : Rabs (inner (unit_vector r1 d1) (unit_vector s1 e1) - inner (unit_vector r2 d2) (unit_vector s1 e1)) <= kappa) by (eapply Rle_trans; [apply dist_inner, size_unit|exact (AB _ _ _ _ A1)]).
    rewrite V1 in Y4 at 1. rewrite V2 in Y4 at 1. rewrite moved_inner in Y4. rewrite (inner_sym (unit_vector r2 d2) (unit_vector s1 e1)) in Y4.
    apply Rabs_bounds in Y1, Y2, Y3, Y4. lra. }
  destruct (tan_round_trip o ra dec tel_ra tel_dec mjd lst hexrot ha d th td M1 M2 Up1 Up2 F1) as (x & y & ha3 & d3 & e & E & B & R3 & I & E2). exists x, y. rewrite E2. clear E2.
  assert (D3 : dist (unit_vector ha d) (unit_vector ha3 d3) <= 3.8e-10).
  { pose proof (dist_chord _ _ (unit_norm ha d) (unit_norm ha3 d3)) as C. rewrite I in C. pose proof (cosd_chord e) as CC. pose proof (dist_nonneg (unit_vector ha d) (unit_vector ha3 d3)) as N.
    pose proof D2R_pos. assert (D2R < 0.0175) by (unfold D2R; interval). assert (D2R * e <= 3.8e-10) by nra. assert (0 <= D2R * e) by nra. nra. }
  assert (Pol : exists ha4 d4, (if polar_misalignment o then getLONLAT (mv (if hardcoded_polmis o then get_hardcoded_polmis_rotmat true else compute_polar_misalignment_rotation_matrix (- ME_ARCSEC) (- MA_ARCSEC)) (getXYZ ha3 d3)) else (ha3, d3)) = (ha4, d4) /\
     -90 <= d4 <= 90 /\ dist (unit_vector (lst - r2) d2) (unit_vector ha4 d4) <= (if polar_misalignment o then 4.05e-8 else 4e-10) /\ dist (unit_vector ha3 d3) (unit_vector ha4 d4) <= 4.01e-3).
  { destruct (polar_misalignment o).
    - fold P2. set (m := if hardcoded_polmis o then get_hardcoded_polmis_rotmat true else P2). assert (C : close9 1e-12 P2 m) by (unfold m; destruct (hardcoded_polmis o); [exact P2_hardcoded|apply close9_refl; lra]).
      rewrite getXYZ_unit. pose proof (matrix_near m P2 (unit_vector ha3 d3) P2_rotation C (unit_norm _ _)) as M. pose proof (getLONLAT_range (mv m (unit_vector ha3 d3))) as RG. destruct (getLONLAT _) as [ha4 d4]. exists ha4, d4. split; [reflexivity|]. split; [apply RG|].
      pose proof (polar_undo_dist _ _ (unit_norm (lst - r2) d2) (unit_norm ha3 d3)) as PU. split.
      + eapply Rle_trans; [apply (dist_triangle _ (act P2 (unit_vector ha3 d3)))|]. rewrite (dist_sym (act P2 _) (unit_vector ha4 d4)).
        pose proof (dist_triangle (act P1 (unit_vector (lst - r2) d2)) (unit_vector ha d) (unit_vector ha3 d3)) as T. rewrite (dist_sym (act P1 _) (unit_vector ha d)) in T. lra.
      + eapply Rle_trans; [apply (dist_triangle _ (act P2 (unit_vector ha3 d3)))|]. rewrite (dist_sym (act P2 _) (unit_vector ha4 d4)), (dist_sym (unit_vector ha3 d3)). pose proof (P2_small _ (unit_norm ha3 d3)). lra.
    - exists ha3, d3. split; [reflexivity|]. split; [exact R3|]. rewrite dist_refl. split; [|lra]. pose proof (dist_triangle (unit_vector (lst - r2) d2) (unit_vector ha d) (unit_vector ha3 d3)) as T. rewrite (dist_sym _ (unit_vector ha d)) in T. lra. }
  destruct Pol as (ha4 & d4 & -> & R4 & D4 & D34). cbv zeta.
  replace ha4 with (lst - (lst - ha4)) in D4 by ring. rewrite dist_longitude in D4.
  assert (Ab : exists ra5 d5, (if aberration o then undo_aberration (lst - ha4) d4 mjd else (lst - ha4, d4)) = (ra5, d5) /\ dist (unit_vector r1 d1) (unit_vector ra5 d5) <= limit o).
  { unfold limit. destruct (aberration o).
    - assert (C4 : 0.14 <= cosdeg d4).
      { apply cos_bound_from_sin; [exact R4|]. specialize (Low eq_refl). rewrite (sind_inner ha) in Low. rewrite (sind_inner ha4).
        assert (Z1 : Rabs (inner (unit_vector ha d) (unit_vector 0 90) - inner (unit_vector ha3 d3) (unit_vector 0 90)) <= 3.8e-10) by (eapply Rle_trans; [apply dist_inner, size_unit|exact D3]).
        assert (Z2 : Rabs (inner (unit_vector ha3 d3) (unit_vector 0 90) - inner (unit_vector ha4 d4) (unit_vector 0 90)) <= 4.01e-3) by (eapply Rle_trans; [apply dist_inner, size_unit|exact D34]).
        apply Rabs_bounds in Z1, Z2, Low. apply Rabs_le. lra. }
      pose proof (undo_aberration_near r1 d1 (lst - ha4) d4 mjd 4.05e-8 ltac:(lra) R4 C4) as U. rewrite A1 in U. destruct (undo_aberration (lst - ha4) d4 mjd) as [ra5 d5]. exists ra5, d5. split; [reflexivity|].
      assert (D5 : dist (unit_vector (lst - ha4) d4) (unit_vector r2 d2) <= 4.05e-8) by (rewrite dist_sym; destruct (polar_misalignment o); lra).
      eapply Rle_trans; [exact (U D5)|]. assert (3 * kappa ^ 2 / cosdeg d4 <= 22 * kappa ^ 2). { apply (Rmult_le_reg_r (cosdeg d4)); [lra|]. replace (3 * kappa ^ 2 / cosdeg d4 * cosdeg d4) with (3 * kappa ^ 2) by (field; lra). nra. }
      assert (kappa ^ 2 <= 0.99e-8) by (unfold kappa; lra). lra.
    - injection A1 as <- <-. exists (lst - ha4), d4. split; [reflexivity|]. destruct (polar_misalignment o); lra. }
  destruct Ab as (ra5 & d5 & -> & D5). rewrite V1 in D5.
  assert (Pr : exists ra6 d6, (if precession o then undo_precession_from_icrs ra5 d5 mjd else (ra5, d5)) = (ra6, d6) /\ unit_vector ra5 d5 = moved o mjd (unit_vector ra6 d6)).
  { unfold moved. destruct (precession o); [|exists ra5, d5; split; reflexivity]. unfold undo_precession_from_icrs. pose proof (precession_direction ra5 d5 ((ICRS_MJD - mjd) / DAYS_PER_YEAR)) as D6. destruct (apply_precession _ _ _) as [ra6 d6]. destruct D6 as (_ & _ & D6).
    exists ra6, d6. split; [reflexivity|]. rewrite D6, precess_add. replace ((mjd - ICRS_MJD) / DAYS_PER_YEAR + (ICRS_MJD - mjd) / DAYS_PER_YEAR) with 0 by (unfold Rdiv; ring). now rewrite precess_0. }
  destruct Pr as (ra6 & d6 & -> & D6). rewrite D6, dist_moved in D5. exists ra6, d6. split; [exact E|]. split; [reflexivity|exact D5].
Qed.
