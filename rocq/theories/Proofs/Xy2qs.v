From Verif.Model Require Import Xy2qs.
From Verif.Spec Require Import Trig Match.
From Verif.Proofs Require Import RealNum Trig.
From Verif.Proofs Require Xy2tp.
From Coq Require Import Lra.
From Interval Require Import Tactic.
Local Open Scope R_scope.

Ltac unfold_poly := unfold r2s, s2r, poly1d, r2s_coefs, s2r_coefs; cbn [fold_left].

(** The composite error as a function of r/400. *)
Ltac composite r := intros H; set (x := r / 400); replace r with (400 * x) by (unfold x; field);
  assert (Hx : 0 <= x <= 1.05) by (unfold x; lra); try (assert (Hx1 : 0.0625 <= x) by (unfold x; lra));
  unfold r2s, s2r; replace (400 * x / 400) with x by field;
  replace (400 * poly1d r2s_coefs x / 400) with (poly1d r2s_coefs x) by field;
  replace (400 * poly1d s2r_coefs x / 400) with (poly1d s2r_coefs x) by field; clear H; clearbody x; unfold_poly;
  interval with (i_bisect x, i_taylor x, i_depth 14).
Lemma s2r_r2s r : 0 <= r <= 420 -> Rabs (s2r (r2s r) - r) < 0.00405.
Proof. composite r. Qed.
Lemma r2s_s2r r : 0 <= r <= 420 -> Rabs (r2s (s2r r) - r) < 0.00405.
Proof. composite r. Qed.
Lemma s2r_r2s_outer r : 25 <= r <= 420 -> Rabs (s2r (r2s r) - r) < 0.00076.
Proof. composite r. Qed.
Lemma r2s_s2r_outer r : 25 <= r <= 420 -> Rabs (r2s (s2r r) - r) < 0.00076.
Proof. composite r. Qed.

Lemma r2s_increasing a b : 0 <= a -> a < b -> b <= 421 -> 0.9 * (b - a) <= r2s b - r2s a.
Proof.
  intros Ha Hab Hb. set (x := a / 400). set (y := b / 400). replace a with (400 * x) by (unfold x; field). replace b with (400 * y) by (unfold y; field).
  assert (0 <= x <= 1.0525) by (unfold x; lra). assert (0 <= y <= 1.0525) by (unfold y; lra). assert (Hxy : x < y) by (unfold x, y; lra).
  assert (Q : 0.9 <= -0.0030123244 * (y^6 + y^5*x + y^4*x^2 + y^3*x^3 + y^2*x^4 + y*x^5 + x^6) + 0.0145324708 * (y^5 + y^4*x + y^3*x^2 + y^2*x^3 + y*x^4 + x^5)
    - 0.0255244612 * (y^4 + y^3*x+y^2*x^2+y*x^3+x^4) + 0.0215885180 * (y^3+y^2*x+y*x^2+x^3) - 0.00805287872*(y^2+y*x+x^2) + 0.00205529419*(y+x) + 0.999773920).
  { clearbody x y. clear Hxy Hab. interval with (i_bisect x, i_bisect y, i_depth 20). }
  unfold r2s. replace (400 * x / 400) with x by field. replace (400 * y / 400) with y by field. unfold_poly. nra.
Qed.
Lemma s2r_increasing a b : 0 <= a -> a < b -> b <= 421 -> 0.9 * (b - a) <= s2r b - s2r a.
Proof.
  intros Ha Hab Hb. set (x := a / 400). set (y := b / 400). replace a with (400 * x) by (unfold x; field). replace b with (400 * y) by (unfold y; field).
  assert (0 <= x <= 1.0525) by (unfold x; lra). assert (0 <= y <= 1.0525) by (unfold y; lra). assert (Hxy : x < y) by (unfold x, y; lra).
  assert (Q : 0.9 <= -0.00260833797 * (y^5 + y^4*x + y^3*x^2 + y^2*x^3 + y*x^4 + x^5)
    + 0.00640671681 * (y^4 + y^3*x+y^2*x^2+y*x^3+x^4) - 0.00564913181 * (y^3+y^2*x+y*x^2+x^3) + 0.000699354170*(y^2+y*x+x^2) - 0.000213171265*(y+x) + 1.00000009).
  { clearbody x y. clear Hxy Hab. interval with (i_bisect x, i_bisect y, i_depth 20). }
  unfold s2r. replace (400 * x / 400) with x by field. replace (400 * y / 400) with y by field. unfold_poly. nra.
Qed.
Lemma r2s_zero : 0.0036 < r2s 0 < 0.0037.
Proof. unfold_poly. lra. Qed.
Lemma s2r_zero : 0.0003 < s2r 0 < 0.0004.
Proof. unfold_poly. lra. Qed.
Lemma r2s_pos r : 0 <= r <= 421 -> 0 < r2s r.
Proof.
  intros [[H|<-] H2]; [|pose proof r2s_zero; lra]. pose proof (r2s_increasing 0 r ltac:(lra) H H2). pose proof r2s_zero. lra.
Qed.
Lemma s2r_pos r : 0 <= r <= 421 -> 0 < s2r r.
Proof.
  intros [[H|<-] H2]; [|pose proof s2r_zero; lra]. pose proof (s2r_increasing 0 r ltac:(lra) H H2). pose proof s2r_zero. lra.
Qed.

Lemma hyp_hypot x y : hypot x y = hyp x y.
Proof. reflexivity. Qed.

(** Every round trip keeps the direction. *)
Lemma flat2ptl_ptl2flat x y : hypot x y <= 420 ->
  distance (let '(a, b) := ptl2flat x y in flat2ptl a b) (x, y) = Rabs (s2r (r2s (hypot x y)) - hypot x y).
Proof.
  intros H. assert (P : 0 < r2s (hypot x y)) by (apply r2s_pos; pose proof (hyp_nonneg x y); rewrite hyp_hypot in *; lra).
  unfold ptl2flat, flat2ptl. rewrite (atan2_unique _ _ P (atan2_range y x)). rewrite (hyp_hypot (_ * _)), hyp_polar by lra.
  destruct (atan2_polar y x) as [Ex Ey]. rewrite <- (Xy2tp.distance_radial _ _ (atan2 y x)), hyp_hypot, <- Ex, <- Ey. reflexivity.
Qed.
Lemma ptl2flat_flat2ptl x y : hypot x y <= 420 ->
  distance (let '(a, b) := flat2ptl x y in ptl2flat a b) (x, y) = Rabs (r2s (s2r (hypot x y)) - hypot x y).
Proof.
  intros H. assert (P : 0 < s2r (hypot x y)) by (apply s2r_pos; pose proof (hyp_nonneg x y); rewrite hyp_hypot in *; lra).
  unfold ptl2flat, flat2ptl. rewrite (atan2_unique _ _ P (atan2_range y x)). rewrite (hyp_hypot (_ * _)), hyp_polar by lra.
  destruct (atan2_polar y x) as [Ex Ey]. rewrite <- (Xy2tp.distance_radial _ _ (atan2 y x)), hyp_hypot, <- Ex, <- Ey. reflexivity.
Qed.
Lemma arctan2d_polar_xy y x : x = hyp x y * cosdeg (arctan2d y x) /\ y = hyp x y * sindeg (arctan2d y x).
Proof. unfold cosdeg, sindeg. rewrite !deg_rad. exact (arctan2d_points y x). Qed.
Lemma qs2xy_xy2qs x y : distance (let '(q, s) := xy2qs x y in qs2xy q s) (x, y) = Rabs (s2r (r2s (hypot x y)) - hypot x y).
Proof.
  unfold xy2qs, qs2xy. destruct (arctan2d_polar_xy y x) as [Ex Ey].
  rewrite <- (Xy2tp.distance_radial _ _ (D2R * arctan2d y x)), hyp_hypot. change (cos (D2R * ?a)) with (cosdeg a). change (sin (D2R * ?a)) with (sindeg a). rewrite <- Ex, <- Ey. reflexivity.
Qed.
Lemma xy2qs_qs2xy q s : 0 <= s <= 420 -> let '(x, y) := qs2xy q s in xy2qs x y = (put360 q, r2s (s2r s)).
Proof.
  intros H. unfold qs2xy, xy2qs. assert (P : 0 < s2r s) by (apply s2r_pos; lra). rewrite arctan2d_polar by exact P. f_equal. f_equal. rewrite hyp_hypot. unfold cosdeg, sindeg. apply hyp_polar. lra.
Qed.
Lemma uv2xy_xy2uv x y : hypot x y <= 420 -> distance (let '(u, v) := xy2uv x y in uv2xy u v) (x, y) = Rabs (s2r (r2s (hypot x y)) - hypot x y).
Proof.
  intros H. assert (P : 0 < r2s (hypot x y)) by (apply r2s_pos; pose proof (hyp_nonneg x y); rewrite hyp_hypot in *; lra).
  rewrite <- qs2xy_xy2qs. f_equal. unfold xy2uv, uv2xy, xy2qs. unfold radians. change (cos (D2R * ?a)) with (cosdeg a). change (sin (D2R * ?a)) with (sindeg a).
  rewrite arctan2d_polar by exact P. rewrite put360_id by apply arctan2d_range. f_equal. rewrite hyp_hypot at 1. unfold cosdeg, sindeg. apply hyp_polar. lra.
Qed.
