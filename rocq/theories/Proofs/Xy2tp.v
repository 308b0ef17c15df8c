From Verif.Model Require Import Xy2tp.
From Verif.Spec Require Import Trig Match Xy2tp.
From Verif.Proofs Require Import Trig RealNum.
From Coq Require Import Lra Sorted Permutation.
Local Open Scope R_scope.

(** *** Wrapping into a range *)
Lemma wrap_spec angle mn mx : mn <= mx ->
  let '(new, f) := wrap_into_range angle mn mx in
  mn <= new <= mx /\
  (f = false -> same_angle new angle /\ (mn <= angle <= mx -> new = angle)) /\
  (f = true -> (new = mn \/ new = mx) /\ forall b, same_angle b angle -> ~ mn <= b <= mx).
Proof.
  intros Hr. unfold wrap_into_range. destruct (Rltb angle mn) eqn:E1.
  - apply Rltb_true in E1. set (k := Rfloor ((mx - angle) / 360)). pose proof (Rfloor_spec ((mx - angle) / 360)) as F. fold k in F.
    destruct (Rltb (angle + IZR k * 360) mn) eqn:E2.
    + apply Rltb_true in E2. split; [lra|]. split; [discriminate|]. intros _. split; [auto|].
      intros b [j ->] Hb. assert (IZR j < IZR k + 1) by lra. rewrite <- plus_IZR in H. apply lt_IZR in H.
      assert (IZR j <= IZR k) by (apply IZR_le; lia). lra.
    + apply Rltb_false in E2. split; [lra|]. split; [|discriminate]. intros _. split; [exists k; lra|]. lra.
  - apply Rltb_false in E1. destruct (Rltb mx angle) eqn:E3.
    + apply Rltb_true in E3. set (k := Rfloor ((angle - mn) / 360)). pose proof (Rfloor_spec ((angle - mn) / 360)) as F. fold k in F.
      destruct (Rltb mx (angle - IZR k * 360)) eqn:E2.
      * apply Rltb_true in E2. split; [lra|]. split; [discriminate|]. intros _. split; [auto|].
        intros b [j ->] Hb. assert (- IZR j < IZR k + 1) by lra. rewrite <- opp_IZR, <- plus_IZR in H. apply lt_IZR in H.
        assert (- IZR j <= IZR k) by (rewrite <- opp_IZR; apply IZR_le; lia). lra.
      * apply Rltb_false in E2. split; [lra|]. split; [|discriminate]. intros _. split; [exists (- k)%Z; rewrite opp_IZR; lra|]. lra.
    + apply Rltb_false in E3. split; [lra|]. split; [|discriminate]. intros _. split; [apply same_angle_refl|auto].
Qed.

Lemma Rmin_le_max a b : Rmin a b <= Rmax a b.
Proof. apply Rle_trans with a; [apply Rmin_l|apply Rmax_l]. Qed.

Lemma wrap_TP_spec tp ranges :
  let '(new, f) := wrap_TP_into_ranges tp ranges in
  in_ranges new ranges /\
  (f = false -> same_angle (fst new) (fst tp) /\ same_angle (snd new) (snd tp) /\ (in_ranges tp ranges -> new = tp)) /\
  (f = true -> forall tp', same_angle (fst tp') (fst tp) -> same_angle (snd tp') (snd tp) -> ~ in_ranges tp' ranges).
Proof.
  destruct tp as [t p], ranges as [[a b] [c d]]. unfold wrap_TP_into_ranges. cbn [fst snd].
  pose proof (wrap_spec t (Rmin a b) (Rmax a b) (Rmin_le_max a b)) as W1. destruct (wrap_into_range t _ _) as [t' f1].
  pose proof (wrap_spec p (Rmin c d) (Rmax c d) (Rmin_le_max c d)) as W2. destruct (wrap_into_range p _ _) as [p' f2].
  destruct W1 as (A1 & A2 & A3), W2 as (B1 & B2 & B3). unfold in_ranges, in_interval. cbn [fst snd].
  split; [split; assumption|]. split.
  - intros E. apply orb_false_iff in E as [-> ->]. destruct (A2 eq_refl) as [A4 A5], (B2 eq_refl) as [B4 B5].
    split; [exact A4|]. split; [exact B4|]. intros [I1 I2]. f_equal; auto.
  - intros E [t2 p2]. cbn [fst snd]. intros S1 S2 [I1 I2]. apply orb_true_iff in E as [-> | ->].
    + destruct (A3 eq_refl) as [_ N]. exact (N _ S1 I1).
    + destruct (B3 eq_refl) as [_ N]. exact (N _ S2 I2).
Qed.

Lemma div_mul x d : d <> 0 -> x / d * d = x.
Proof. intros. field. assumption. Qed.

(** *** Kinematics *)
Lemma tp2xy_fiber tp r xy : fiber_at r tp xy <-> xy = tp2xy tp r.
Proof.
  destruct tp as [t p], r as [r1 r2], xy as [x y]. unfold fiber_at, tp2xy, radians. cbn [fst snd].
  rewrite (Rmult_plus_distr_l PI). replace ((PI * t + PI * p) / 180) with (D2R * t + D2R * p) by (unfold D2R; lra).
  replace (PI * t / 180) with (D2R * t) by (unfold D2R; lra). split; [intros [-> ->]; reflexivity|intros [= -> ->]; auto].
Qed.
Lemma tp2xy_deg t p r1 r2 :
  tp2xy (t, p) (r1, r2) = (r1 * cosdeg t + r2 * cosdeg (t + p), r1 * sindeg t + r2 * sindeg (t + p)).
Proof. unfold tp2xy, radians, cosdeg, sindeg. cbn [fst snd]. now rewrite Rmult_plus_distr_l. Qed.
Lemma tp2xy_same t p t' p' r : same_angle t t' -> same_angle p p' -> tp2xy (t, p) r = tp2xy (t', p') r.
Proof.
  intros H1 H2. destruct r as [r1 r2]. rewrite !tp2xy_deg. pose proof (same_angle_plus _ _ _ _ H1 H2) as H3.
  now rewrite (cosd_same _ _ H1), (sind_same _ _ H1), (cosd_same _ _ H3), (sind_same _ _ H3).
Qed.
Lemma sc1 a : sin a * sin a + cos a * cos a = 1.
Proof. pose proof (sin2_cos2 a) as H. unfold Rsqr in H. exact H. Qed.

(** Law of cosines argument of the arc cosine. *)
Definition cos_phi (H r1 r2 : R) : R := (H ^ 2 - (r1 ^ 2 + r2 ^ 2)) / (2 * r1 * r2).
Lemma cos_phi_range H r1 r2 : 0 < r1 -> 0 < r2 -> Rabs (r1 - r2) <= H <= r1 + r2 -> -1 <= cos_phi H r1 r2 <= 1.
Proof.
  intros H1 H2 [B1 B2]. assert (0 < 2 * r1 * r2) by nra. unfold cos_phi.
  assert ((r1 - r2) ^ 2 <= H ^ 2). { rewrite <- (pow2_abs (r1 - r2)). apply pow_incr. split; [apply Rabs_pos|exact B1]. }
  assert (0 <= H). { pose proof (Rabs_pos (r1 - r2)). lra. }
  assert (H ^ 2 <= (r1 + r2) ^ 2) by (apply pow_incr; lra).
  split.
  - apply Rmult_le_reg_r with (2 * r1 * r2); [lra|]. rewrite div_mul by lra. nra.
  - apply Rmult_le_reg_r with (2 * r1 * r2); [lra|]. rewrite div_mul by lra. nra.
Qed.
Lemma primary_P H a r1 r2 : 0 < r1 -> 0 < r2 -> Rabs (r1 - r2) <= H <= r1 + r2 ->
  let P := snd (primary_angles H a r1 r2) in 0 <= P <= PI /\ cos P = cos_phi H r1 r2.
Proof.
  intros H1 H2 B. unfold primary_angles. cbn [snd].
  replace ((H * cos a) ^ 2 + (H * sin a) ^ 2) with (H ^ 2) by (pose proof (sc1 a); nra). fold (cos_phi H r1 r2).
  pose proof (cos_phi_range H r1 r2 H1 H2 B). rewrite Rmax_left, Rmin_left by lra. split; [apply acos_bound|]. apply cos_acos. lra.
Qed.
Lemma primary_T H a r1 r2 :
  let '(T, P) := primary_angles H a r1 r2 in T = a - atan2 (r2 * sin P) (r1 + r2 * cos P).
Proof. unfold primary_angles. reflexivity. Qed.

Lemma arm_vector H r1 r2 P : 0 < r1 -> 0 < r2 -> 0 <= H -> cos P = cos_phi H r1 r2 -> hyp (r1 + r2 * cos P) (r2 * sin P) = H.
Proof.
  intros H1 H2 H3 E. unfold hyp. replace ((r1 + r2 * cos P) ^ 2 + (r2 * sin P) ^ 2) with (Rsqr H); [now apply sqrt_Rsqr|].
  unfold Rsqr. pose proof (sc1 P). assert (2 * r1 * r2 * cos P = H ^ 2 - (r1 ^ 2 + r2 ^ 2)).
  { rewrite E. unfold cos_phi. field. split; lra. }
  replace ((r1 + r2 * cos P) ^ 2 + (r2 * sin P) ^ 2) with (r1 ^ 2 + 2 * r1 * r2 * cos P + r2 ^ 2 * (sin P * sin P + cos P * cos P)) by ring.
  rewrite H0, H4. ring.
Qed.
Lemma rot_arm r1 r2 t p : r1 * cos t + r2 * cos (t + p) = cos t * (r1 + r2 * cos p) - sin t * (r2 * sin p) /\
                          r1 * sin t + r2 * sin (t + p) = sin t * (r1 + r2 * cos p) + cos t * (r2 * sin p).
Proof. rewrite cos_plus, sin_plus. split; ring. Qed.

Lemma kin_forward H a r1 r2 : 0 < r1 -> 0 < r2 -> Rabs (r1 - r2) <= H <= r1 + r2 ->
  let '(T, P) := primary_angles H a r1 r2 in
  r1 * cos T + r2 * cos (T + P) = H * cos a /\ r1 * sin T + r2 * sin (T + P) = H * sin a.
Proof.
  intros H1 H2 B. pose proof (primary_T H a r1 r2) as ET. pose proof (primary_P H a r1 r2 H1 H2 B) as EP.
  destruct (primary_angles H a r1 r2) as [T P]. cbn [snd] in EP. cbv zeta in EP. destruct EP as [_ EP].
  assert (0 <= H) by (pose proof (Rabs_pos (r1 - r2)); lra).
  set (f := atan2 (r2 * sin P) (r1 + r2 * cos P)) in *.
  destruct (atan2_polar (r2 * sin P) (r1 + r2 * cos P)) as [V1 V2]. fold f in V1, V2. rewrite (arm_vector H r1 r2 P) in V1, V2 by assumption.
  destruct (rot_arm r1 r2 T P) as [-> ->]. rewrite V1, V2. replace a with (T + f) by lra. rewrite cos_plus, sin_plus. split; ring.
Qed.

(** Any solution has the same |phi|, and theta follows. *)
Lemma kin_inverse H a r1 r2 t p : 0 < r1 -> 0 < r2 -> 0 < H ->
  r1 * cos t + r2 * cos (t + p) = H * cos a -> r1 * sin t + r2 * sin (t + p) = H * sin a ->
  cos p = cos_phi H r1 r2 /\ r1 + r2 * cos p = H * cos (a - t) /\ r2 * sin p = H * sin (a - t).
Proof.
  intros H1 H2 H3 E1 E2. destruct (rot_arm r1 r2 t p) as [R1 R2]. rewrite R1 in E1. rewrite R2 in E2. clear R1 R2.
  set (u := r1 + r2 * cos p) in *. set (v := r2 * sin p) in *. pose proof (sc1 t) as St.
  assert (U : u = H * cos (a - t)).
  { rewrite cos_minus. replace (H * (cos a * cos t + sin a * sin t)) with ((H * cos a) * cos t + (H * sin a) * sin t) by ring.
    rewrite <- E1, <- E2. transitivity (u * (sin t * sin t + cos t * cos t)); [rewrite St; ring|ring]. }
  assert (V : v = H * sin (a - t)).
  { rewrite sin_minus. replace (H * (sin a * cos t - cos a * sin t)) with ((H * sin a) * cos t - (H * cos a) * sin t) by ring.
    rewrite <- E1, <- E2. transitivity (v * (sin t * sin t + cos t * cos t)); [rewrite St; ring|ring]. }
  split; [|auto]. unfold cos_phi.
  assert (u * u + v * v = H * H). { rewrite U, V. pose proof (sc1 (a - t)). nra. }
  assert (u * u + v * v = r1 * r1 + r2 * r2 + 2 * r1 * r2 * cos p). { unfold u, v. pose proof (sc1 p). nra. }
  apply Rmult_eq_reg_r with (2 * r1 * r2); [|nra]. rewrite div_mul by nra. nra.
Qed.
Lemma kin_unique_phi H a r1 r2 t p : 0 < r1 -> 0 < r2 -> 0 < H -> Rabs (r1 - r2) <= H <= r1 + r2 ->
  r1 * cos t + r2 * cos (t + p) = H * cos a -> r1 * sin t + r2 * sin (t + p) = H * sin a ->
  let '(T, P) := primary_angles H a r1 r2 in
  cos p = cos P /\ (sin p = sin P \/ sin p = - sin P) /\
  (sin p = sin P -> cos t = cos T /\ sin t = sin T) /\
  (sin p = - sin P -> cos t = cos (2 * a - T) /\ sin t = sin (2 * a - T)).
Proof.
  intros H1 H2 H3 B E1 E2. destruct (kin_inverse H a r1 r2 t p H1 H2 H3 E1 E2) as (C & U & V).
  pose proof (primary_T H a r1 r2) as ET. pose proof (primary_P H a r1 r2 H1 H2 B) as EP.
  destruct (primary_angles H a r1 r2) as [T P]. cbn [snd] in EP. cbv zeta in EP. destruct EP as [BP EP].
  set (f := atan2 (r2 * sin P) (r1 + r2 * cos P)) in *.
  destruct (atan2_polar (r2 * sin P) (r1 + r2 * cos P)) as [V1 V2]. fold f in V1, V2. rewrite (arm_vector H r1 r2 P) in V1, V2 by (assumption || lra).
  split; [congruence|]. split; [|split].
  - assert (S : (sin p - sin P) * (sin p + sin P) = 0).
    { pose proof (sc1 p) as Q1. pose proof (sc1 P) as Q2. rewrite C in Q1. rewrite EP in Q2. nra. }
    apply Rmult_integral in S as [S|S]; [left; lra|right; lra].
  - intros Sp.
    assert (Ca : cos (a - t) = cos f). { apply Rmult_eq_reg_l with H; [|lra]. rewrite <- U, <- V1, C, EP. reflexivity. }
    assert (Sa : sin (a - t) = sin f). { apply Rmult_eq_reg_l with H; [|lra]. rewrite <- V, <- V2, Sp. reflexivity. }
    rewrite ET. replace t with (a - (a - t)) by lra. rewrite (cos_minus a (a - t)), (sin_minus a (a - t)), Ca, Sa, cos_minus, sin_minus. split; reflexivity.
  - intros Sp.
    assert (Ca : cos (a - t) = cos (- f)). { rewrite cos_neg. apply Rmult_eq_reg_l with H; [|lra]. rewrite <- U, <- V1, C, EP. reflexivity. }
    assert (Sa : sin (a - t) = sin (- f)). { rewrite sin_neg. apply Rmult_eq_reg_l with H; [|lra]. rewrite <- V. replace (H * - sin f) with (- (H * sin f)) by ring. rewrite <- V2, Sp. ring. }
    replace (2 * a - T) with (a - - f) by lra. replace t with (a - (a - t)) by lra.
    rewrite (cos_minus a (a - t)), (sin_minus a (a - t)), Ca, Sa, (cos_minus a), (sin_minus a). split; reflexivity.
Qed.

(** The reflected configuration. *)
Lemma reflected_spec H a r1 r2 : 0 < r1 -> 0 < r2 -> 0 < H -> Rabs (r1 - r2) <= H <= r1 + r2 -> H * cos a <> 0 ->
  let '(T, P) := primary_angles H a r1 r2 in
  let '(T', P') := reflected_angles (H * cos a) (H * sin a) T r1 in
  cos T' = cos (2 * a - T) /\ sin T' = sin (2 * a - T) /\ cos P' = cos (- P) /\ sin P' = sin (- P).
Proof.
  intros H1 H2 H3 B Hx. pose proof (kin_forward H a r1 r2 H1 H2 B) as K.
  destruct (primary_angles H a r1 r2) as [T P]. destruct K as [K1 K2].
  unfold reflected_angles. set (X := H * cos a) in *. set (Y := H * sin a) in *. set (m := Y / X).
  assert (Hc : cos a <> 0) by (intros E; apply Hx; unfold X; rewrite E; ring).
  assert (Em : m = sin a / cos a) by (unfold m, X, Y; field; lra).
  pose proof (sc1 a) as Sa.
  assert (Q1 : (1 - m ^ 2) / (m ^ 2 + 1) = cos (2 * a)).
  { assert (D : m ^ 2 + 1 = 1 / (cos a * cos a)) by (transitivity ((sin a * sin a + cos a * cos a) / (cos a * cos a)); [rewrite Em; field; exact Hc|rewrite Sa; reflexivity]).
    rewrite D, Em, cos_2a. field. exact Hc. }
  assert (Q2 : 2 * m / (m ^ 2 + 1) = sin (2 * a)).
  { assert (D : m ^ 2 + 1 = 1 / (cos a * cos a)) by (transitivity ((sin a * sin a + cos a * cos a) / (cos a * cos a)); [rewrite Em; field; exact Hc|rewrite Sa; reflexivity]).
    rewrite D, Em, sin_2a. field. exact Hc. }
  assert (D0 : m ^ 2 + 1 <> 0) by nra.
  assert (X1 : ((1 - m ^ 2) * (r1 * cos T) + 2 * m * (r1 * sin T)) / (m ^ 2 + 1) = r1 * cos (2 * a - T)).
  { rewrite cos_minus, <- Q1, <- Q2. field. exact D0. }
  assert (Y1 : ((m ^ 2 - 1) * (r1 * sin T) + 2 * m * (r1 * cos T)) / (m ^ 2 + 1) = r1 * sin (2 * a - T)).
  { rewrite sin_minus, <- Q1, <- Q2. field. exact D0. }
  rewrite X1, Y1.
  assert (X2 : X - r1 * cos (2 * a - T) = r2 * cos (2 * a - (T + P))).
  { assert (G : cos (2 * a) * X + sin (2 * a) * Y = X). { unfold X, Y. rewrite cos_2a, sin_2a. transitivity (H * cos a * (sin a * sin a + cos a * cos a)); [ring|rewrite Sa; ring]. }
    rewrite <- G, <- K1, <- K2, !cos_minus. ring. }
  assert (Y2 : Y - r1 * sin (2 * a - T) = r2 * sin (2 * a - (T + P))).
  { assert (G : sin (2 * a) * X - cos (2 * a) * Y = Y). { unfold X, Y. rewrite cos_2a, sin_2a. transitivity (H * sin a * (sin a * sin a + cos a * cos a)); [ring|rewrite Sa; ring]. }
    rewrite <- G, <- K1, <- K2, !sin_minus. ring. }
  rewrite X2, Y2.
  destruct (atan2_of_polar r1 (2 * a - T) H1) as [k ->]. destruct (atan2_of_polar r2 (2 * a - (T + P)) H2) as [j ->].
  rewrite cos_add_turns, sin_add_turns. split; [reflexivity|]. split; [reflexivity|].
  replace (2 * a - (T + P) + 2 * IZR j * PI - (2 * a - T + 2 * IZR k * PI)) with (- P + 2 * IZR (j - k) * PI) by (rewrite minus_IZR; ring).
  rewrite cos_add_turns, sin_add_turns. split; reflexivity.
Qed.

(** *** Degrees *)
Lemma same_deg x y : cos x = cos y -> sin x = sin y -> same_angle (degrees x) (degrees y).
Proof. intros H1 H2. unfold degrees. apply sincosd_inj; rewrite ?cosdeg_deg, ?sindeg_deg; assumption. Qed.
Lemma same_deg_inv t x : cosdeg t = cos x -> sindeg t = sin x -> same_angle t (degrees x).
Proof. intros H1 H2. unfold degrees. apply sincosd_inj; rewrite ?cosdeg_deg, ?sindeg_deg; assumption. Qed.
Lemma tp2xy_degrees T P r1 r2 : tp2xy (degrees T, degrees P) (r1, r2) = (r1 * cos T + r2 * cos (T + P), r1 * sin T + r2 * sin (T + P)).
Proof. unfold degrees. rewrite tp2xy_deg, <- Rmult_plus_distr_r, !cosdeg_deg, !sindeg_deg. reflexivity. Qed.

(** *** Without guess *)
Definition config (HYPOT angle r1 r2 : R) (ranges : point * point) : point * bool :=
  let '(T, P) := primary_angles HYPOT angle r1 r2 in wrap_TP_into_ranges (degrees T, degrees P) ranges.

Lemma two_r r1 r2 : 0 < r1 -> 0 < r2 -> Reqb (2 * r1 * r2) 0 = false.
Proof. intros. apply Reqb_false. nra. Qed.

Lemma xy2tp_none x y r1 r2 ranges tol : 0 < r1 -> 0 < r2 ->
  xy2tp (x, y) (r1, r2) ranges None tol =
  Ok (fst (config (fst (clamp_radius (hyp x y) r1 r2)) (atan2 y x) r1 r2 ranges),
      (snd (clamp_radius (hyp x y) r1 r2) || snd (config (fst (clamp_radius (hyp x y) r1 r2)) (atan2 y x) r1 r2 ranges))%bool).
Proof.
  intros H1 H2. unfold xy2tp. fold (hyp x y). destruct (clamp_radius (hyp x y) r1 r2) as [H u]. rewrite two_r by assumption.
  unfold config. cbn [fst snd]. destruct (primary_angles H (atan2 y x) r1 r2) as [T P]. reflexivity.
Qed.

Lemma config_in_ranges H a r1 r2 ranges : in_ranges (fst (config H a r1 r2 ranges)) ranges.
Proof.
  unfold config. destruct (primary_angles H a r1 r2) as [T P]. pose proof (wrap_TP_spec (degrees T, degrees P) ranges) as W.
  destruct (wrap_TP_into_ranges _ _). cbn. tauto.
Qed.
Lemma config_reaches H a r1 r2 ranges : 0 < r1 -> 0 < r2 -> Rabs (r1 - r2) <= H <= r1 + r2 ->
  snd (config H a r1 r2 ranges) = false -> tp2xy (fst (config H a r1 r2 ranges)) (r1, r2) = (H * cos a, H * sin a).
Proof.
  intros H1 H2 B E. pose proof (kin_forward H a r1 r2 H1 H2 B) as K. unfold config in *. destruct (primary_angles H a r1 r2) as [T P].
  pose proof (wrap_TP_spec (degrees T, degrees P) ranges) as W. destruct (wrap_TP_into_ranges _ _) as [[t p] f]. cbn [fst snd] in *.
  destruct W as (_ & W & _). destruct (W E) as (S1 & S2 & _). rewrite (tp2xy_same _ _ _ _ _ S1 S2), tp2xy_degrees. destruct K as [-> ->]. reflexivity.
Qed.
Lemma config_fails H a r1 r2 ranges t p : 0 < r1 -> 0 < r2 -> 0 < H -> Rabs (r1 - r2) <= H <= r1 + r2 ->
  snd (config H a r1 r2 ranges) = true -> tp2xy (t, p) (r1, r2) = (H * cos a, H * sin a) -> 0 <= p <= 180 -> ~ in_ranges (t, p) ranges.
Proof.
  intros H1 H2 H3 B E F Hp. rewrite tp2xy_deg in F. injection F as F1 F2. unfold cosdeg, sindeg in F1, F2. rewrite Rmult_plus_distr_l in F1, F2.
  pose proof (kin_unique_phi H a r1 r2 _ _ H1 H2 H3 B F1 F2) as K. pose proof (primary_P H a r1 r2 H1 H2 B) as EP.
  unfold config in E. destruct (primary_angles H a r1 r2) as [T P]. cbn [snd] in EP. cbv zeta in EP. destruct EP as [BP EP].
  pose proof (wrap_TP_spec (degrees T, degrees P) ranges) as W. destruct (wrap_TP_into_ranges _ _) as [[t' p'] f]. cbn [fst snd] in *.
  destruct W as (_ & _ & W). destruct K as (K1 & K2 & K3 & _).
  assert (Sp : sin (D2R * p) = sin P).
  { assert (0 <= sin P) by (apply sin_ge_0; lra). assert (0 <= sin (D2R * p)); [|lra].
    apply sin_ge_0; unfold D2R; pose proof PI_RGT_0; nra. }
  destruct (K3 Sp) as [K5 K6].
  apply (W E (t, p)); cbn [fst snd]; apply same_deg_inv; assumption.
Qed.

(** Clamping of the radius. *)
Lemma tiny_eq : numeric_contraction = tiny.
Proof. unfold numeric_contraction, tiny. lra. Qed.
Lemma tiny_pos : 0 < tiny.
Proof. unfold tiny. lra. Qed.
Lemma clamp_inside h r1 r2 : Rabs (r1 - r2) + tiny < h < r1 + r2 - tiny -> clamp_radius h r1 r2 = (h, false).
Proof.
  intros [B1 B2]. unfold clamp_radius. rewrite tiny_eq. pose proof tiny_pos.
  assert (Rltb (r1 + r2) h = false) as -> by (apply Rltb_false; lra). assert (Rltb h (Rabs (r1 - r2)) = false) as -> by (apply Rltb_false; lra).
  assert (Rleb (r1 + r2 - tiny) h = false) as -> by (apply Rleb_false; lra). assert (Rleb h (Rabs (r1 - r2) + tiny) = false) as -> by (apply Rleb_false; lra).
  reflexivity.
Qed.
Lemma clamp_flag h r1 r2 : snd (clamp_radius h r1 r2) = true <-> r1 + r2 < h \/ h < Rabs (r1 - r2).
Proof. unfold clamp_radius. cbn [snd]. rewrite orb_true_iff, !Rltb_true. tauto. Qed.
Lemma clamp_range h r1 r2 : tiny <= r1 -> tiny <= r2 ->
  Rabs (r1 - r2) + tiny <= fst (clamp_radius h r1 r2) <= r1 + r2 - tiny.
Proof.
  intros H1 H2. unfold clamp_radius. cbn [fst]. rewrite tiny_eq.
  assert (Rabs (r1 - r2) + tiny <= r1 + r2 - tiny) by (unfold Rabs; destruct (Rcase_abs (r1 - r2)); lra).
  destruct (Rleb (r1 + r2 - tiny) h) eqn:E1; [lra|]. apply Rleb_false in E1. destruct (Rleb h (Rabs (r1 - r2) + tiny)) eqn:E2; [lra|]. apply Rleb_false in E2. lra.
Qed.
(** The clamped radius is the nearest one of the contracted interval. *)
Lemma clamp_nearest h r1 r2 H : tiny <= r1 -> tiny <= r2 -> Rabs (r1 - r2) + tiny <= H <= r1 + r2 - tiny ->
  Rabs (fst (clamp_radius h r1 r2) - h) <= Rabs (H - h).
Proof.
  intros H1 H2 B. unfold clamp_radius. cbn [fst]. rewrite tiny_eq.
  destruct (Rleb (r1 + r2 - tiny) h) eqn:E1; [apply Rleb_true in E1; rewrite !Rabs_left1 by lra; lra|]. apply Rleb_false in E1.
  destruct (Rleb h (Rabs (r1 - r2) + tiny)) eqn:E2; [apply Rleb_true in E2; rewrite !(Rabs_right (_ - h)) by lra; lra|].
  rewrite Rminus_diag_eq, Rabs_R0 by reflexivity. apply Rabs_pos.
Qed.
(** Distance between points and radii. *)
Lemma distance_radii p q : Rabs (norm2 p - norm2 q) <= distance p q.
Proof.
  destruct p as [a b], q as [c d]. unfold norm2, distance. cbn [fst snd].
  set (u := sqrt (a ^ 2 + b ^ 2)). set (v := sqrt (c ^ 2 + d ^ 2)).
  assert (Hu : u * u = a ^ 2 + b ^ 2) by (apply sqrt_sqrt; nra). assert (Hv : v * v = c ^ 2 + d ^ 2) by (apply sqrt_sqrt; nra).
  assert (0 <= u) by apply sqrt_pos. assert (0 <= v) by apply sqrt_pos.
  assert (CS : a * c + b * d <= u * v).
  { apply Rsqr_incr_0_var; [|nra]. unfold Rsqr. replace (u * v * (u * v)) with ((u * u) * (v * v)) by ring. rewrite Hu, Hv.
    pose proof (Rle_0_sqr (a * d - b * c)). unfold Rsqr in H1. nra. }
  rewrite <- sqrt_Rsqr_abs. apply sqrt_le_1_alt. unfold Rsqr. nra.
Qed.
Lemma norm2_polar H a : 0 <= H -> norm2 (H * cos a, H * sin a) = H.
Proof. intros. unfold norm2. cbn [fst snd]. now apply hyp_polar. Qed.
Lemma distance_radial h H a : distance (H * cos a, H * sin a) (h * cos a, h * sin a) = Rabs (H - h).
Proof.
  unfold distance. cbn [fst snd]. rewrite <- sqrt_Rsqr_abs. f_equal. unfold Rsqr. pose proof (sc1 a).
  replace ((H * cos a - h * cos a) ^ 2 + (H * sin a - h * sin a) ^ 2) with ((H - h) * (H - h) * (sin a * sin a + cos a * cos a)) by ring.
  rewrite H0. ring.
Qed.

Theorem xy2tp_clamps x y r1 r2 ranges tol : tiny <= r1 -> tiny <= r2 ->
  Rmin (fst (fst ranges)) (snd (fst ranges)) + 360 <= Rmax (fst (fst ranges)) (snd (fst ranges)) ->
  in_interval 0 (snd ranges) -> in_interval 180 (snd ranges) ->
  exists tp u, xy2tp (x, y) (r1, r2) ranges None tol = Ok (tp, u) /\
    (u = true <-> r1 + r2 < norm2 (x, y) \/ norm2 (x, y) < Rabs (r1 - r2)) /\
    exists q, fiber_at (r1, r2) tp q /\ in_annulus (r1, r2) tiny q /\
      forall q', in_annulus (r1, r2) tiny q' -> distance q (x, y) <= distance q' (x, y).
Proof.
  intros H1 H2 Ht H0 H180. pose proof tiny_pos. rewrite xy2tp_none by lra.
  set (h := hyp x y). set (H' := fst (clamp_radius h r1 r2)). set (a := atan2 y x).
  pose proof (clamp_range h r1 r2 H1 H2) as B. fold H' in B.
  assert (0 < H') by (pose proof (Rabs_pos (r1 - r2)); lra).
  assert (E : snd (config H' a r1 r2 ranges) = false).
  { unfold config. pose proof (primary_P H' a r1 r2) as EP. destruct (primary_angles H' a r1 r2) as [T P]. cbn [snd] in EP. cbv zeta in EP.
    destruct EP as [BP _]; [lra|lra|lra|]. pose proof (wrap_TP_spec (degrees T, degrees P) ranges) as W.
    destruct (wrap_TP_into_ranges _ _) as [new f]. cbn [fst snd] in *. destruct f; [|reflexivity]. exfalso. destruct W as (_ & _ & W). 
    set (mn := Rmin (fst (fst ranges)) (snd (fst ranges))) in *.
    apply (W eq_refl (mn + put360 (degrees T - mn), degrees P)); cbn [fst snd].
    - destruct (put360_same (degrees T - mn)) as [k Hk]. exists k. lra.
    - apply same_angle_refl.
    - unfold in_ranges, in_interval in *. cbn [fst snd]. fold mn. pose proof (put360_range (degrees T - mn)). split; [lra|].
      assert (0 <= degrees P <= 180); [|lra]. unfold degrees, R2D, D2R. pose proof PI_RGT_0.
      replace (P * (1 / (PI / 180))) with (P * 180 / PI) by (field; lra). split.
      + apply Rmult_le_pos; [lra|]. left. now apply Rinv_0_lt_compat.
      + apply Rmult_le_reg_r with PI; [lra|]. rewrite div_mul by lra. lra. }
  rewrite E, orb_false_r. do 2 eexists. split; [reflexivity|]. split; [apply clamp_flag|].
  exists (H' * cos a, H' * sin a). split; [|split].
  - apply tp2xy_fiber. symmetry. apply config_reaches; lra || assumption.
  - unfold in_annulus. cbn [fst snd]. rewrite norm2_polar by lra. exact B.
  - intros q' Bq. destruct (atan2_polar y x) as [P1 P2]. fold h a in P1, P2.
    assert (D : distance (H' * cos a, H' * sin a) (x, y) = Rabs (H' - h)).
    { rewrite P1, P2 at 1. rewrite <- distance_radial with (a := a). reflexivity. }
    rewrite D. eapply Rle_trans; [|apply distance_radii]. change (norm2 (x, y)) with h. now apply clamp_nearest.
Qed.

Theorem xy2tp_exact x y r1 r2 ranges tol : 0 < r1 -> 0 < r2 ->
  Rabs (r1 - r2) + tiny < norm2 (x, y) < r1 + r2 - tiny ->
  exists tp u, xy2tp (x, y) (r1, r2) ranges None tol = Ok (tp, u) /\ in_ranges tp ranges /\
    (u = false -> fiber_at (r1, r2) tp (x, y)) /\
    (u = true -> forall tp', in_ranges tp' ranges -> 0 <= snd tp' <= 180 -> ~ fiber_at (r1, r2) tp' (x, y)).
Proof.
  intros H1 H2 B. rewrite xy2tp_none by assumption. change (norm2 (x, y)) with (hyp x y) in B. rewrite clamp_inside by exact B. cbn [fst snd orb].
  do 2 eexists. split; [reflexivity|]. split; [apply config_in_ranges|].
  destruct (atan2_polar y x) as [P1 P2]. pose proof tiny_pos. pose proof (Rabs_pos (r1 - r2)). split.
  - intros E. apply tp2xy_fiber. rewrite config_reaches by (assumption || lra). now rewrite <- P1, <- P2.
  - intros E [t p] Hin Hp F. apply tp2xy_fiber in F. refine (config_fails _ _ _ _ ranges t p H1 H2 _ _ E _ Hp Hin); [lra|lra|].
    rewrite <- F. now rewrite <- P1, <- P2.
Qed.

(** *** Sorting and selection *)
Lemma sort_by_key {A} (k : A -> bool) (l : list A) :
  sort_by (fun a b => negb (k a) && k b)%bool l = filter (fun a => negb (k a)) l ++ filter k l.
Proof.
  induction l as [|x l IH]; [reflexivity|]. unfold sort_by in *. cbn [fold_right filter]. rewrite IH. clear IH.
  destruct (k x) eqn:E; cbn [negb].
  - assert (G : forall F K, Forall (fun a => k a = false) F -> Forall (fun a => k a = true) K ->
       insert_by (fun a b => negb (k a) && k b)%bool x (F ++ K) = F ++ x :: K).
    { clear - E. induction F as [|z F IH]; intros K HF HK; cbn.
      - destruct K as [|z K]; [reflexivity|]. cbn. inversion HK; subst. rewrite H1. reflexivity.
      - inversion HF; subst. rewrite H1, E. cbn. f_equal. now apply IH. }
    apply G; apply Forall_forall; intros z Hz; apply filter_In in Hz as [_ Hz]; [now apply negb_true_iff|exact Hz].
  - cbn [app]. destruct (filter _ l ++ filter k l) as [|y r]; cbn; [reflexivity|]. rewrite E, andb_false_r. reflexivity.
Qed.
Section SortKey.
Context {A : Type} (key : A -> R).
Let before := fun a b => Rltb (key a) (key b).
Lemma insert_by_In x l y : In y (insert_by before x l) <-> y = x \/ In y l.
Proof.
  induction l as [|z l IH]; cbn; [intuition congruence|]. destruct (before z x); cbn; rewrite ?IH; intuition congruence.
Qed.
Lemma sort_by_In l y : In y (sort_by before l) <-> In y l.
Proof. induction l as [|z l IH]; cbn; [tauto|]. unfold sort_by in IH. rewrite insert_by_In, IH. intuition congruence. Qed.
Lemma sort_by_sorted l : StronglySorted (fun a b => key a <= key b) (sort_by before l).
Proof.
  induction l as [|x l IH]; cbn; [constructor|]. fold (sort_by before l). induction IH as [|y r Hs IH Hf]; cbn; [repeat constructor|].
  destruct (before y x) eqn:E; unfold before in E.
  - apply Rltb_true in E. constructor; [exact IH|]. apply Forall_forall. intros z Hz. apply insert_by_In in Hz as [->|Hz]; [lra|]. rewrite Forall_forall in Hf. auto.
  - apply Rltb_false in E. constructor; [constructor; assumption|]. constructor; [lra|]. rewrite Forall_forall in *. intros z Hz. specialize (Hf z Hz). lra.
Qed.
End SortKey.
Lemma filter_StronglySorted {A} (P : A -> A -> Prop) (f : A -> bool) l : StronglySorted P l -> StronglySorted P (filter f l).
Proof.
  induction 1 as [|x l Hs IH Hf]; cbn; [constructor|]. destruct (f x); [|exact IH]. constructor; [exact IH|].
  rewrite Forall_forall in *. intros y Hy. apply filter_In in Hy as [Hy _]. auto.
Qed.

Lemma select_in g tol d opts : In d opts -> In (select_option g tol d opts) opts.
Proof.
  intros Hd. unfold select_option. destruct (_ || _)%bool; [exact Hd|]. rewrite !sort_by_key.
  set (s1 := sort_by _ opts).
  assert (I : forall y, In y s1 <-> In y opts) by (intros y; apply (sort_by_In (closeness g))).
  destruct (filter _ _ ++ filter _ _) as [|o r] eqn:E; [exact Hd|]. apply I.
  assert (In o (o :: r)) as Ho by now left. rewrite <- E in Ho. apply in_app_iff in Ho as [Ho|Ho]; apply filter_In in Ho as [Ho _];
    apply in_app_iff in Ho as [Ho|Ho]; apply filter_In in Ho as [Ho _]; exact Ho.
Qed.
Lemma select_good g tol d opts o : In o opts -> snd o = false -> closeness g o <= tol ->
  let r := select_option g tol d opts in
  snd r = false /\ closeness g r <= tol /\ closeness g r <= closeness g o.
Proof.
  intros Ho Hr Hc.
  assert (Hcf : closeness_fail g tol o = false) by (unfold closeness_fail; apply Rltb_false; lra).
  unfold select_option. destruct (_ || _)%bool eqn:Af.
  { exfalso. apply orb_true_iff in Af as [Af|Af]; rewrite forallb_forall in Af; specialize (Af _ Ho); congruence. }
  rewrite !sort_by_key. set (s1 := sort_by _ opts).
  assert (I : forall y, In y s1 <-> In y opts) by (intros y; apply (sort_by_In (closeness g))).
  assert (So : StronglySorted (fun a b => closeness g a <= closeness g b) s1) by apply (sort_by_sorted (closeness g)).
  rewrite filter_app.
  destruct (filter (fun a => negb (snd a)) (filter (fun a => negb (closeness_fail g tol a)) s1)) as [|b l] eqn:E.
  - exfalso. assert (In o []) as []. rewrite <- E. apply filter_In. rewrite Hr. split; [|reflexivity]. apply filter_In. rewrite Hcf. split; [|reflexivity]. now apply I.
  - cbn [app]. assert (Sf : StronglySorted (fun a b => closeness g a <= closeness g b) (b :: l)) by (rewrite <- E; now apply filter_StronglySorted, filter_StronglySorted).
    assert (Hb : In b (b :: l)) by now left. rewrite <- E in Hb. apply filter_In in Hb as [Hb B1]. apply filter_In in Hb as [Hb B2].
    apply negb_true_iff in B1, B2. unfold closeness_fail in B2. apply Rltb_false in B2. split; [exact B1|]. split; [lra|].
    assert (In o (b :: l)) as [->|Hol]; [|lra|].
    { rewrite <- E. apply filter_In. rewrite Hr. split; [|reflexivity]. apply filter_In. rewrite Hcf. split; [|reflexivity]. now apply I. }
    inversion Sf as [|? ? _ Hf]; subst. rewrite Forall_forall in Hf. now apply Hf.
Qed.
Lemma select_all_far g tol d opts : (forall o, In o opts -> tol < closeness g o) -> select_option g tol d opts = d.
Proof.
  intros H. unfold select_option. replace (forallb (closeness_fail g tol) opts) with true; [reflexivity|]. symmetry. apply forallb_forall.
  intros o Ho. unfold closeness_fail. apply Rltb_true. now apply H.
Qed.

(** *** With a guess *)
Definition config_alt (H a r1 r2 : R) (ranges : point * point) : point * bool :=
  let '(T, P) := primary_angles H a r1 r2 in
  let '(T', P') := reflected_angles (H * cos a) (H * sin a) T r1 in
  wrap_TP_into_ranges (degrees T', degrees P') ranges.
Definition all_options (H a r1 r2 : R) (ranges : point * point) : list (R * R * bool) :=
  config H a r1 r2 ranges :: config_alt H a r1 r2 ranges
  :: rotated_options ranges (config H a r1 r2 ranges) ++ rotated_options ranges (config_alt H a r1 r2 ranges).

Lemma xy2tp_some x y r1 r2 ranges g tol : 0 < r1 -> 0 < r2 ->
  let H := fst (clamp_radius (hyp x y) r1 r2) in let a := atan2 y x in
  H * cos a <> 0 ->
  xy2tp (x, y) (r1, r2) ranges (Some g) tol =
  (let best := select_option g tol (config H a r1 r2 ranges) (all_options H a r1 r2 ranges) in
   Ok (fst best, (snd (clamp_radius (hyp x y) r1 r2) || snd best)%bool)).
Proof.
  intros H1 H2 H a Hx. unfold xy2tp. fold (hyp x y). unfold H in *. clear H. destruct (clamp_radius (hyp x y) r1 r2) as [H u]. cbn [fst snd] in *.
  rewrite two_r by assumption. fold a. unfold all_options, config_alt, config. destruct (primary_angles H a r1 r2) as [T P].
  apply Reqb_false in Hx. rewrite Hx. destruct (reflected_angles _ _ T r1) as [T' P']. reflexivity.
Qed.
Lemma wrap_in_ranges tp ranges : in_ranges (fst (wrap_TP_into_ranges tp ranges)) ranges.
Proof. pose proof (wrap_TP_spec tp ranges) as W. destruct (wrap_TP_into_ranges _ _). cbn. tauto. Qed.
Lemma config_alt_in_ranges H a r1 r2 ranges : in_ranges (fst (config_alt H a r1 r2 ranges)) ranges.
Proof.
  unfold config_alt. destruct (primary_angles H a r1 r2) as [T P]. destruct (reflected_angles _ _ T r1) as [T' P']. apply wrap_in_ranges.
Qed.
Lemma rotated_spec ranges o' o : In o (rotated_options ranges o') ->
  snd o' = false /\ exists w, (w = -360 \/ w = 360) /\ o = wrap_TP_into_ranges (fst (fst o') + w, snd (fst o')) ranges.
Proof.
  destruct o' as [tp f]. unfold rotated_options. destruct f; [intros []|]. cbn. intros [<-|[<-|[]]]; (split; [reflexivity|]); eexists; (split; [|reflexivity]); auto.
Qed.
Lemma options_in_ranges H a r1 r2 ranges o : In o (all_options H a r1 r2 ranges) -> in_ranges (fst o) ranges.
Proof.
  unfold all_options. intros [<-|[<-|Ho]]; [apply config_in_ranges|apply config_alt_in_ranges|].
  apply in_app_iff in Ho as [Ho|Ho]; apply rotated_spec in Ho as (_ & w & _ & ->); apply wrap_in_ranges.
Qed.
Lemma config_alt_reaches H a r1 r2 ranges : 0 < r1 -> 0 < r2 -> 0 < H -> Rabs (r1 - r2) <= H <= r1 + r2 -> H * cos a <> 0 ->
  snd (config_alt H a r1 r2 ranges) = false -> tp2xy (fst (config_alt H a r1 r2 ranges)) (r1, r2) = (H * cos a, H * sin a).
Proof.
  intros H1 H2 H3 B Hx E. pose proof (kin_forward H a r1 r2 H1 H2 B) as K. pose proof (reflected_spec H a r1 r2 H1 H2 H3 B Hx) as Rf.
  unfold config_alt in *. destruct (primary_angles H a r1 r2) as [T P]. destruct (reflected_angles _ _ T r1) as [T' P'].
  pose proof (wrap_TP_spec (degrees T', degrees P') ranges) as W. destruct (wrap_TP_into_ranges _ _) as [[t p] f]. cbn [fst snd] in *.
  destruct W as (_ & W & _). destruct (W E) as (S1 & S2 & _). destruct Rf as (R1 & R2 & R3 & R4). destruct K as [K1 K2].
  rewrite (tp2xy_same t p (degrees (2 * a - T)) (degrees (- P))).
  - rewrite tp2xy_degrees. replace (2 * a - T + - P) with (2 * a - (T + P)) by ring.
    rewrite !(cos_minus (2 * a)), !(sin_minus (2 * a)). pose proof (sc1 a) as Sa.
    f_equal.
    + transitivity (cos (2 * a) * (H * cos a) + sin (2 * a) * (H * sin a)); [rewrite <- K1, <- K2; ring|].
      rewrite cos_2a, sin_2a. transitivity (H * cos a * (sin a * sin a + cos a * cos a)); [ring|rewrite Sa; ring].
    + transitivity (sin (2 * a) * (H * cos a) - cos (2 * a) * (H * sin a)); [rewrite <- K1, <- K2; ring|].
      rewrite cos_2a, sin_2a. transitivity (H * sin a * (sin a * sin a + cos a * cos a)); [ring|rewrite Sa; ring].
  - eapply same_angle_trans; [exact S1|]. now apply same_deg.
  - eapply same_angle_trans; [exact S2|]. now apply same_deg.
Qed.
Lemma options_reach H a r1 r2 ranges o : 0 < r1 -> 0 < r2 -> 0 < H -> Rabs (r1 - r2) <= H <= r1 + r2 -> H * cos a <> 0 ->
  In o (all_options H a r1 r2 ranges) -> snd o = false -> tp2xy (fst o) (r1, r2) = (H * cos a, H * sin a).
Proof.
  intros H1 H2 H3 B Hx Ho E. unfold all_options in Ho. destruct Ho as [<-|[<-|Ho]]; [now apply config_reaches|now apply config_alt_reaches|].
  assert (G : forall o', (snd o' = false -> tp2xy (fst o') (r1, r2) = (H * cos a, H * sin a)) -> In o (rotated_options ranges o') -> tp2xy (fst o) (r1, r2) = (H * cos a, H * sin a)).
  { intros [[t' p'] f'] Ho' Hin. apply rotated_spec in Hin as (F & w & Hw & ->). cbn [fst snd] in *. rewrite <- (Ho' F).
    pose proof (wrap_TP_spec (t' + w, p') ranges) as W. destruct (wrap_TP_into_ranges _ _) as [[t p] f]. cbn [fst snd] in *.
    destruct W as (_ & W & _). destruct (W E) as (S1 & S2 & _). apply tp2xy_same; [|exact S2].
    eapply same_angle_trans; [exact S1|]. destruct Hw as [-> | ->]; [exists (-1)%Z; lra|exists 1%Z; lra]. }
  apply in_app_iff in Ho as [Ho|Ho]; (eapply G; [|exact Ho]); intros Hf; [now apply config_reaches|now apply config_alt_reaches].
Qed.

(** Wrapping goes to the end of the range next to the side the angle came from. *)
Lemma wrap_low angle mn mx : angle < mn -> snd (wrap_into_range angle mn mx) = false -> mx < fst (wrap_into_range angle mn mx) + 360.
Proof.
  intros H. unfold wrap_into_range. apply Rltb_true in H. rewrite H. cbv zeta. destruct (Rltb (angle + _) mn); cbn [fst snd]; [discriminate|]. intros _.
  pose proof (Rfloor_spec ((mx - angle) / 360)). lra.
Qed.
Lemma wrap_high angle mn mx : mn <= mx -> mx < angle -> snd (wrap_into_range angle mn mx) = false -> fst (wrap_into_range angle mn mx) - 360 < mn.
Proof.
  intros Hr H. unfold wrap_into_range. assert (Rltb angle mn = false) as -> by (apply Rltb_false; lra). apply Rltb_true in H. rewrite H. cbv zeta.
  destruct (Rltb mx (angle - _)); cbn [fst snd]; [discriminate|]. intros _. pose proof (Rfloor_spec ((angle - mn) / 360)). lra.
Qed.

(** All turns of theta in a range narrower than three turns are tried. *)
Lemma rotated_cover (ranges : point * point) (o : R * R * bool) (t : R) :
  Rmax (fst (fst ranges)) (snd (fst ranges)) - Rmin (fst (fst ranges)) (snd (fst ranges)) < 1080 ->
  in_ranges (fst o) ranges -> snd o = false -> in_interval t (fst ranges) -> same_angle t (fst (fst o)) ->
  exists o', In o' (o :: rotated_options ranges o) /\ snd o' = false /\ fst (fst o') = t.
Proof.
  destruct o as [[t0 p0] f], ranges as [[ra rb] [rc rd]]. unfold in_ranges, in_interval. cbn [fst snd]. intros Hw [I1 I2] -> It [k Hk].
  set (mn := Rmin ra rb) in *. set (mx := Rmax ra rb) in *.
  assert (Hk1 : IZR k < 3) by lra. assert (Hk2 : -3 < IZR k) by lra. apply lt_IZR in Hk1. apply (lt_IZR (-3)) in Hk2.
  assert (P0 : wrap_into_range p0 (Rmin rc rd) (Rmax rc rd) = (p0, false)).
  { unfold wrap_into_range. assert (Rltb p0 (Rmin rc rd) = false) as -> by (apply Rltb_false; lra). assert (Rltb (Rmax rc rd) p0 = false) as -> by (apply Rltb_false; lra). reflexivity. }
  assert (W : forall w, (w = -360 \/ w = 360) -> fst (wrap_into_range (t0 + w) mn mx) = t -> snd (wrap_into_range (t0 + w) mn mx) = false ->
     exists o', In o' ((t0, p0, false) :: rotated_options ((ra, rb), (rc, rd)) (t0, p0, false)) /\ snd o' = false /\ fst (fst o') = t).
  { intros w Hw' E1 E2. exists (wrap_TP_into_ranges (t0 + w, p0) ((ra, rb), (rc, rd))). split.
    - right. cbn. destruct Hw' as [-> | ->]; auto.
    - unfold wrap_TP_into_ranges. cbn [fst snd]. fold mn mx. rewrite P0. destruct (wrap_into_range (t0 + w) mn mx) as [t1 f1]. cbn in *. subst. auto. }
  assert (ID : forall w, mn <= t0 + w <= mx -> wrap_into_range (t0 + w) mn mx = (t0 + w, false)).
  { intros w Hin. unfold wrap_into_range. assert (Rltb (t0 + w) mn = false) as -> by (apply Rltb_false; lra). assert (Rltb mx (t0 + w) = false) as -> by (apply Rltb_false; lra). reflexivity. }
  pose proof (wrap_spec (t0 + -360) mn mx (Rmin_le_max ra rb)) as SL. pose proof (wrap_spec (t0 + 360) mn mx (Rmin_le_max ra rb)) as SH.
  pose proof (wrap_low (t0 + -360) mn mx) as L. pose proof (wrap_high (t0 + 360) mn mx (Rmin_le_max ra rb)) as Hh.
  assert (C : k = (-2)%Z \/ k = (-1)%Z \/ k = 0%Z \/ k = 1%Z \/ k = 2%Z) by lia. destruct C as [-> | [-> | [-> | [-> | ->]]]].
  - (* two turns below: reached from above *)
    apply (W 360); [auto| |]; destruct (wrap_into_range (t0 + 360) mn mx) as [t1 f1]; cbn [fst snd] in *; destruct SH as (Q1 & Q2 & Q3).
    + destruct f1; [exfalso; destruct (Q3 eq_refl) as [_ N]; apply (N t); [exists (-3)%Z; lra|lra]|].
      destruct (Q2 eq_refl) as [[j Hj] _]. specialize (Hh ltac:(lra) eq_refl).
      assert (IZR j < -2) by lra. assert (-4 < IZR j) by lra. apply (lt_IZR _ (-2)) in H. apply (lt_IZR (-4)) in H0. replace j with (-3)%Z in Hj by lia. lra.
    + destruct f1; [|reflexivity]. exfalso; destruct (Q3 eq_refl) as [_ N]; apply (N t); [exists (-3)%Z; lra|lra].
  - apply (W (-360)); [auto| |]; rewrite ID by lra; cbn; [lra|reflexivity].
  - exists (t0, p0, false). split; [now left|]. split; [reflexivity|]. cbn. lra.
  - apply (W 360); [auto| |]; rewrite ID by lra; cbn; [lra|reflexivity].
  - apply (W (-360)); [auto| |]; destruct (wrap_into_range (t0 + -360) mn mx) as [t1 f1]; cbn [fst snd] in *; destruct SL as (Q1 & Q2 & Q3).
    + destruct f1; [exfalso; destruct (Q3 eq_refl) as [_ N]; apply (N t); [exists 3%Z; lra|lra]|].
      destruct (Q2 eq_refl) as [[j Hj] _]. specialize (L ltac:(lra) eq_refl).
      assert (2 < IZR j) by lra. assert (IZR j < 4) by lra. apply lt_IZR in H. apply lt_IZR in H0. replace j with 3%Z in Hj by lia. lra.
    + destruct f1; [|reflexivity]. exfalso; destruct (Q3 eq_refl) as [_ N]; apply (N t); [exists 3%Z; lra|lra].
Qed.

Lemma options_cover H a r1 r2 ranges t p : 0 < r1 -> 0 < r2 -> 0 < H -> Rabs (r1 - r2) <= H <= r1 + r2 -> H * cos a <> 0 ->
  Rmax (fst (fst ranges)) (snd (fst ranges)) - Rmin (fst (fst ranges)) (snd (fst ranges)) < 1080 ->
  in_ranges (t, p) ranges -> tp2xy (t, p) (r1, r2) = (H * cos a, H * sin a) ->
  exists o, In o (all_options H a r1 r2 ranges) /\ snd o = false /\ fst (fst o) = t.
Proof.
  intros H1 H2 H3 B Hx Hw Hin F. pose proof F as F0. rewrite tp2xy_deg in F. injection F as F1 F2. unfold cosdeg, sindeg in F1, F2. rewrite Rmult_plus_distr_l in F1, F2.
  pose proof (kin_unique_phi H a r1 r2 _ _ H1 H2 H3 B F1 F2) as K. pose proof (reflected_spec H a r1 r2 H1 H2 H3 B Hx) as Rf.
  assert (G : forall o, In o [config H a r1 r2 ranges; config_alt H a r1 r2 ranges] -> in_ranges (fst o) ranges -> snd o = false -> same_angle t (fst (fst o)) ->
      exists o', In o' (all_options H a r1 r2 ranges) /\ snd o' = false /\ fst (fst o') = t).
  { intros o Ho Io Fo So. destruct (rotated_cover ranges o t Hw Io Fo) as (o' & Ho' & E1 & E2); [apply Hin|exact So|].
    exists o'. split; [|auto]. unfold all_options. destruct Ho as [<-|[<-|[]]]; destruct Ho' as [<-|Ho']; cbn; rewrite ?in_app_iff; auto. }
  assert (C : (snd (config H a r1 r2 ranges) = false /\ same_angle t (fst (fst (config H a r1 r2 ranges)))) \/
              (snd (config_alt H a r1 r2 ranges) = false /\ same_angle t (fst (fst (config_alt H a r1 r2 ranges))))).
  { unfold config_alt, config. destruct (primary_angles H a r1 r2) as [T P]. destruct (reflected_angles _ _ T r1) as [T' P'].
    destruct K as (K1 & K2 & K3 & K4). destruct Rf as (R1 & R2 & R3 & R4).
    assert (W : forall u v, same_angle t u -> same_angle p v -> snd (wrap_TP_into_ranges (u, v) ranges) = false /\ same_angle t (fst (fst (wrap_TP_into_ranges (u, v) ranges)))).
    { intros u v S1 S2. pose proof (wrap_TP_spec (u, v) ranges) as W. destruct (wrap_TP_into_ranges (u, v) ranges) as [new f]. cbn [fst snd] in *.
      destruct W as (_ & W1 & W2). destruct f; [exfalso; exact (W2 eq_refl (t, p) S1 S2 Hin)|]. split; [reflexivity|].
      destruct (W1 eq_refl) as (S3 & _). eapply same_angle_trans; [exact S1|]. now apply same_angle_sym. }
    destruct K2 as [K2|K2].
    - left. destruct (K3 K2) as [K5 K6]. apply W; apply same_deg_inv; assumption.
    - right. destruct (K4 K2) as [K5 K6]. apply W; apply same_deg_inv; unfold cosdeg, sindeg.
      + congruence.
      + congruence.
      + rewrite R3, cos_neg. exact K1.
      + rewrite R4, sin_neg. exact K2. }
  destruct C as [[C1 C2]|[C1 C2]].
  - apply (G (config H a r1 r2 ranges)); [now left|apply config_in_ranges|exact C1|exact C2].
  - apply (G (config_alt H a r1 r2 ranges)); [now (right; left)|apply config_alt_in_ranges|exact C1|exact C2].
Qed.

Lemma cos_atan2_nz x y : x <> 0 -> cos (atan2 y x) <> 0.
Proof.
  intros Hx E. destruct (atan2_polar y x) as [P1 _]. rewrite E in P1. lra.
Qed.

Theorem xy2tp_guess x y r1 r2 ranges g tol : 0 < r1 -> 0 < r2 -> x <> 0 ->
  Rabs (r1 - r2) + tiny < norm2 (x, y) < r1 + r2 - tiny ->
  exists tp u, xy2tp (x, y) (r1, r2) ranges (Some g) tol = Ok (tp, u) /\ in_ranges tp ranges /\
    (u = false -> fiber_at (r1, r2) tp (x, y)) /\
    (Rmax (fst (fst ranges)) (snd (fst ranges)) - Rmin (fst (fst ranges)) (snd (fst ranges)) < 1080 ->
     forall tp', in_ranges tp' ranges -> fiber_at (r1, r2) tp' (x, y) -> Rabs (fst tp' - g) <= tol ->
     u = false /\ Rabs (fst tp - g) <= tol /\ Rabs (fst tp - g) <= Rabs (fst tp' - g)).
Proof.
  intros H1 H2 Hx B. change (norm2 (x, y)) with (hyp x y) in B. pose proof tiny_pos. pose proof (Rabs_pos (r1 - r2)).
  pose proof (cos_atan2_nz x y Hx) as Hc. destruct (atan2_polar y x) as [P1 P2].
  assert (Hh : 0 < hyp x y) by lra.
  assert (Hn : hyp x y * cos (atan2 y x) <> 0) by (rewrite <- P1; exact Hx).
  rewrite xy2tp_some; rewrite ?clamp_inside by exact B; cbn [fst snd orb]; try assumption.
  set (best := select_option _ _ _ _).
  assert (Hb : In best (all_options (hyp x y) (atan2 y x) r1 r2 ranges)) by (apply select_in; now left).
  do 2 eexists. split; [reflexivity|]. split; [eapply options_in_ranges; eauto|]. split.
  - intros E. apply tp2xy_fiber. rewrite (options_reach _ _ _ _ _ _ H1 H2 Hh ltac:(lra) Hn Hb E). now rewrite <- P1, <- P2.
  - intros Hw [t p] Hin F Ht. apply tp2xy_fiber in F. cbn [fst] in Ht.
    destruct (options_cover (hyp x y) (atan2 y x) r1 r2 ranges t p H1 H2 Hh ltac:(lra) Hn Hw Hin) as (o & Ho & E1 & E2); [rewrite <- F; now rewrite <- P1, <- P2|].
    destruct (select_good g tol (config (hyp x y) (atan2 y x) r1 r2 ranges) _ o Ho E1) as (G1 & G2 & G3); [unfold closeness; rewrite E2; exact Ht|].
    fold best in G1, G2, G3. unfold closeness in G2, G3. rewrite E2 in G3. auto.
Qed.

Theorem xy2tp_in_ranges x y r1 r2 ranges guess tol tp u :
  xy2tp (x, y) (r1, r2) ranges guess tol = Ok (tp, u) ->
  in_ranges tp ranges /\ (r1 + r2 < norm2 (x, y) \/ norm2 (x, y) < Rabs (r1 - r2) -> u = true).
Proof.
  unfold xy2tp. change (sqrt (x ^ 2 + y ^ 2)) with (hyp x y). change (norm2 (x, y)) with (hyp x y).
  pose proof (proj2 (clamp_flag (hyp x y) r1 r2)) as Cf. destruct (clamp_radius (hyp x y) r1 r2) as [H f]. cbn [snd] in Cf.
  destruct (Reqb _ 0); [discriminate|]. pose proof (options_in_ranges H (atan2 y x) r1 r2 ranges) as O. unfold all_options, config_alt, config in O.
  destruct (primary_angles H (atan2 y x) r1 r2) as [T P]. destruct guess as [g|].
  - destruct (Reqb _ 0); [discriminate|]. destruct (reflected_angles _ _ T r1) as [T' P']. intros [= <- <-]. split; [|intros Q; rewrite (Cf Q); reflexivity].
    apply O. apply select_in. now left.
  - intros [= <- <-]. split; [apply wrap_in_ranges|intros Q; rewrite (Cf Q); reflexivity].
Qed.
