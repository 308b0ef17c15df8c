(** C14 to C17: angles of the two-arm positioner. *)
From Verif.Model Require Import Xy2tp.
From Verif.Spec Require Import Trig Match Xy2tp.
From Verif.Proofs Require Import Trig RealNum.
From Verif.Proofs Require Xy2tp.
From Coq Require Import Lra.
Local Open Scope R_scope.

Theorem C14_wrap_into_range :
  forall angle mn mx, mn <= mx ->
  let '(new, f) := wrap_into_range angle mn mx in
  mn <= new <= mx /\
  (f = false -> same_angle new angle /\ (mn <= angle <= mx -> new = angle)) /\
  (f = true -> (new = mn \/ new = mx) /\ forall b, same_angle b angle -> ~ mn <= b <= mx).
Proof. exact Xy2tp.wrap_spec. Qed.
Print Assumptions C14_wrap_into_range.

(** The same for both angles at once, ranges being given with their ends in any order. *)
Theorem C14_wrap_TP_into_ranges :
  forall tp ranges, let '(new, f) := wrap_TP_into_ranges tp ranges in
  in_ranges new ranges /\
  (f = false -> same_angle (fst new) (fst tp) /\ same_angle (snd new) (snd tp) /\ (in_ranges tp ranges -> new = tp)) /\
  (f = true -> forall tp', same_angle (fst tp') (fst tp) -> same_angle (snd tp') (snd tp) -> ~ in_ranges tp' ranges).
Proof. exact Xy2tp.wrap_TP_spec. Qed.
Print Assumptions C14_wrap_TP_into_ranges.

Example C14_example :
  wrap_into_range (-190) (-180) 180 = (170, false) /\ wrap_into_range 200 (-10) 190 = (190, true).
Proof.
  unfold wrap_into_range. split.
  - assert (Rltb (-190) (-180) = true) as -> by (apply Rltb_true; lra). rewrite (Rfloor_unique _ 1) by lra.
    assert (Rltb (-190 + 1 * 360) (-180) = false) as -> by (apply Rltb_false; lra). f_equal. lra.
  - assert (Rltb 200 (-10) = false) as -> by (apply Rltb_false; lra). assert (Rltb 190 200 = true) as -> by (apply Rltb_true; lra).
    rewrite (Rfloor_unique _ 0) by lra. assert (Rltb 190 (200 - 0 * 360) = true) as -> by (apply Rltb_true; lra). reflexivity.
Qed.

(** Whatever the input, the angles returned are inside the ranges, and targets out of the
    annulus are flagged. *)
Theorem C15_always_in_ranges :
  forall x y r1 r2 ranges guess tol tp u, xy2tp (x, y) (r1, r2) ranges guess tol = Ok (tp, u) ->
  in_ranges tp ranges /\ (r1 + r2 < norm2 (x, y) \/ norm2 (x, y) < Rabs (r1 - r2) -> u = true).
Proof. exact Xy2tp.xy2tp_in_ranges. Qed.
Print Assumptions C15_always_in_ranges.

(** Inside the annulus, without a guess: not flagged means exactly on target; flagged means that
    no configuration in the ranges with phi in [0,180] reaches the target. *)
Theorem C15_unflagged_is_on_target :
  forall x y r1 r2 ranges tol, 0 < r1 -> 0 < r2 ->
  Rabs (r1 - r2) + tiny < norm2 (x, y) < r1 + r2 - tiny ->
  exists tp u, xy2tp (x, y) (r1, r2) ranges None tol = Ok (tp, u) /\ in_ranges tp ranges /\
    (u = false -> fiber_at (r1, r2) tp (x, y)) /\
    (u = true -> forall tp', in_ranges tp' ranges -> 0 <= snd tp' <= 180 -> ~ fiber_at (r1, r2) tp' (x, y)).
Proof. exact Xy2tp.xy2tp_exact. Qed.
Print Assumptions C15_unflagged_is_on_target.

(** [tp2xy] is the forward kinematics. *)
Theorem C15_tp2xy : forall tp r xy, fiber_at r tp xy <-> xy = tp2xy tp r.
Proof. exact Xy2tp.tp2xy_fiber. Qed.
Print Assumptions C15_tp2xy.

(** The witness used for the refutations: arms 1 and 1, target (1,1), phi range [-170,-10]. *)
Definition w_ranges : point * point := ((-175, 175), (-170, -10)).
Lemma w_inside : Rabs (1 - 1) + tiny < norm2 (1, 1) < 1 + 1 - tiny.
Proof.
  unfold norm2, tiny. cbn [fst snd]. rewrite Rminus_diag_eq, Rabs_R0 by reflexivity.
  replace (1 ^ 2 + 1 ^ 2) with 2 by lra. assert (1.4 < sqrt 2 < 1.5); [|lra].
  split; [apply Rsqr_incrst_0|apply Rsqr_incrst_0]; try lra; try apply sqrt_pos; rewrite Rsqr_sqrt by lra; unfold Rsqr; lra.
Qed.
Lemma w_reached : in_ranges (90, -90) w_ranges /\ fiber_at (1, 1) (90, -90) (1, 1).
Proof.
  split.
  - unfold in_ranges, in_interval, w_ranges. cbn [fst snd]. rewrite !Rmin_left, !Rmax_right by lra. lra.
  - unfold fiber_at. cbn [fst snd]. replace (PI * 90 / 180) with (PI / 2) by lra. replace (PI * (90 + -90) / 180) with 0 by lra.
    rewrite cos_PI2, sin_PI2, cos_0, sin_0. lra.
Qed.
(** Primary configuration of the witness. *)
Lemma w_config : let '(T, P) := primary_angles (hyp 1 1) (atan2 1 1) 1 1 in
  cos P = 0 /\ sin P = 1 /\ 0 <= P <= PI /\ cos T = 1 /\ sin T = 0.
Proof.
  pose proof w_inside as B. pose proof Xy2tp.tiny_pos as Tp. change (norm2 (1, 1)) with (hyp 1 1) in B.
  pose proof (Xy2tp.primary_P (hyp 1 1) (atan2 1 1) 1 1 ltac:(lra) ltac:(lra) ltac:(lra)) as EP.
  pose proof (Xy2tp.kin_forward (hyp 1 1) (atan2 1 1) 1 1 ltac:(lra) ltac:(lra) ltac:(lra)) as K.
  destruct (primary_angles (hyp 1 1) (atan2 1 1) 1 1) as [T P]. cbv zeta in EP. cbn [snd] in EP. destruct EP as [BP CP], K as [K1 K2].
  destruct (atan2_polar 1 1) as [Q1 Q2]. rewrite <- Q1 in K1. rewrite <- Q2 in K2.
  assert (C0 : cos P = 0). { rewrite CP. unfold Xy2tp.cos_phi. pose proof (hyp_sq 1 1). replace (hyp 1 1 ^ 2) with (hyp 1 1 * hyp 1 1) by ring. rewrite H. lra. }
  assert (S1 : sin P = 1). { assert (0 <= sin P) by (apply sin_ge_0; lra). pose proof (Xy2tp.sc1 P). rewrite C0 in H0. nra. }
  rewrite cos_plus, C0, S1 in K1. rewrite sin_plus, C0, S1 in K2. repeat split; lra.
Qed.
Lemma range_unique a mn mx b : mn <= b <= mx -> mx - mn < 360 -> same_angle a b -> wrap_into_range a mn mx = (b, false).
Proof.
  intros Hb Hw Hs. pose proof (Xy2tp.wrap_spec a mn mx ltac:(lra)) as W. destruct (wrap_into_range a mn mx) as [n f]. destruct W as (W1 & W2 & W3).
  destruct f; [exfalso; destruct (W3 eq_refl) as [_ N]; exact (N b (same_angle_sym _ _ Hs) Hb)|].
  destruct (W2 eq_refl) as [S _]. f_equal. destruct (same_angle_trans _ _ _ S Hs) as [k Hk].
  assert (IZR k < 1) by lra. assert (-1 < IZR k) by lra. apply lt_IZR in H, H0. replace k with 0%Z in Hk by lia. lra.
Qed.

(** "unreachable means that no angles in the ranges reach the target" is false: configurations
    with negative phi are not considered. *)
Theorem C15_flagged_means_unreachable_refuted :
  ~ (forall x y r1 r2 ranges tol tp, 0 < r1 -> 0 < r2 ->
     Rabs (r1 - r2) + tiny < norm2 (x, y) < r1 + r2 - tiny ->
     xy2tp (x, y) (r1, r2) ranges None tol = Ok (tp, true) ->
     forall tp', in_ranges tp' ranges -> ~ fiber_at (r1, r2) tp' (x, y)).
Proof.
  intros H. destruct w_reached as [R1 R2]. pose proof w_inside as B.
  destruct (Xy2tp.xy2tp_exact 1 1 1 1 w_ranges 30 ltac:(lra) ltac:(lra) B) as (tp & u & E & I & _).
  destruct u.
  - exact (H 1 1 1 1 w_ranges 30 tp ltac:(lra) ltac:(lra) B E _ R1 R2).
  - rewrite Xy2tp.xy2tp_none in E by lra. change (norm2 (1, 1)) with (hyp 1 1) in B. rewrite Xy2tp.clamp_inside in E by exact B.
    cbn [fst snd orb] in E. injection E as _ E.
    unfold Xy2tp.config in E. pose proof w_config as W. destruct (primary_angles (hyp 1 1) (atan2 1 1) 1 1) as [T P]. destruct W as (_ & _ & BP & _).
    pose proof (Xy2tp.wrap_TP_spec (degrees T, degrees P) w_ranges) as W. destruct (wrap_TP_into_ranges _ _) as [[t p] f]. cbn [snd fst] in *. subst f.
    destruct W as ([_ Ip] & W & _). destruct (W eq_refl) as (_ & [k Hk] & _). unfold in_interval, w_ranges in Ip. cbn [fst snd] in Ip.
    rewrite Rmin_left, Rmax_right in Ip by lra.
    assert (0 <= degrees P <= 180).
    { unfold degrees, R2D, D2R. pose proof PI_RGT_0. replace (P * (1 / (PI / 180))) with (P * 180 / PI) by (field; lra). split.
      - apply Rmult_le_pos; [lra|]. left. now apply Rinv_0_lt_compat.
      - apply Rmult_le_reg_r with PI; [lra|]. unfold Rdiv. rewrite Rmult_assoc, Rinv_l by lra. lra. }
    assert (IZR k < 0) by lra. assert (-1 < IZR k) by lra. apply lt_IZR in H1, H2. lia.
Qed.
Print Assumptions C15_flagged_means_unreachable_refuted.

(** A case meeting the hypotheses of the positive theorems. *)
Example C15_example : Rabs (1 - 1) + tiny < norm2 (1, 1) < 1 + 1 - tiny /\ fiber_at (1, 1) (90, -90) (1, 1) /\ in_ranges (90, -90) w_ranges.
Proof. split; [exact w_inside|]. split; apply w_reached. Qed.

(** With a full turn of theta and phi covering [0,180], the fiber is put on the point of the
    contracted annulus nearest to the target, and exactly the targets out of the annulus are
    flagged. *)
Theorem C16_nearest_reachable_point :
  forall x y r1 r2 ranges tol, tiny <= r1 -> tiny <= r2 ->
  Rmin (fst (fst ranges)) (snd (fst ranges)) + 360 <= Rmax (fst (fst ranges)) (snd (fst ranges)) ->
  in_interval 0 (snd ranges) -> in_interval 180 (snd ranges) ->
  exists tp u, xy2tp (x, y) (r1, r2) ranges None tol = Ok (tp, u) /\
    (u = true <-> r1 + r2 < norm2 (x, y) \/ norm2 (x, y) < Rabs (r1 - r2)) /\
    exists q, fiber_at (r1, r2) tp q /\ in_annulus (r1, r2) tiny q /\
      forall q', in_annulus (r1, r2) tiny q' -> distance q (x, y) <= distance q' (x, y).
Proof. exact Xy2tp.xy2tp_clamps. Qed.
Print Assumptions C16_nearest_reachable_point.

Example C16_example : tiny <= 3 /\ Rmin (-200) 200 + 360 <= Rmax (-200) 200 /\ in_interval 0 (-20, 200) /\ in_interval 180 (-20, 200) /\
  3 + 3 < norm2 (6, 8).
Proof.
  unfold tiny, in_interval, norm2. cbn [fst snd]. rewrite !Rmin_left, !Rmax_right by lra.
  replace (6 ^ 2 + 8 ^ 2) with (10 * 10) by lra. rewrite sqrt_square by lra. repeat split; lra.
Qed.

(** With a guess: in range; exactly on target unless flagged; and if any configuration in the
    ranges (theta range below three turns) reaches the target within the tolerance of the guess,
    the result does too, unflagged, and is at least as close to the guess. *)
Theorem C17_guess_picks_closest_configuration :
  forall x y r1 r2 ranges g tol, 0 < r1 -> 0 < r2 -> x <> 0 ->
  Rabs (r1 - r2) + tiny < norm2 (x, y) < r1 + r2 - tiny ->
  exists tp u, xy2tp (x, y) (r1, r2) ranges (Some g) tol = Ok (tp, u) /\ in_ranges tp ranges /\
    (u = false -> fiber_at (r1, r2) tp (x, y)) /\
    (Rmax (fst (fst ranges)) (snd (fst ranges)) - Rmin (fst (fst ranges)) (snd (fst ranges)) < 1080 ->
     forall tp', in_ranges tp' ranges -> fiber_at (r1, r2) tp' (x, y) -> Rabs (fst tp' - g) <= tol ->
     u = false /\ Rabs (fst tp - g) <= tol /\ Rabs (fst tp - g) <= Rabs (fst tp' - g)).
Proof. exact Xy2tp.xy2tp_guess. Qed.
Print Assumptions C17_guess_picks_closest_configuration.

(** The witness with the guess 100 is within tolerance of the configuration (90,-90). *)
Example C17_example : (1 <> 0 /\ Rabs (90 - 100) <= default_t_guess_tol) /\
  Rmax (fst (fst w_ranges)) (snd (fst w_ranges)) - Rmin (fst (fst w_ranges)) (snd (fst w_ranges)) < 1080.
Proof.
  unfold default_t_guess_tol, w_ranges. cbn [fst snd]. rewrite Rmin_left, Rmax_right by lra.
  split; [split; [lra|rewrite Rabs_left by lra; lra]|lra].
Qed.

(** "A bad guess is ignored" hides reachable targets: with a guess out of tolerance the flagged
    primary configuration is returned although the other one reaches the target in range. *)
Theorem C17_flagged_means_unreachable_refuted :
  ~ (forall x y r1 r2 ranges g tol tp, 0 < r1 -> 0 < r2 -> x <> 0 ->
     Rabs (r1 - r2) + tiny < norm2 (x, y) < r1 + r2 - tiny ->
     xy2tp (x, y) (r1, r2) ranges (Some g) tol = Ok (tp, true) ->
     forall tp', in_ranges tp' ranges -> ~ fiber_at (r1, r2) tp' (x, y)).
Proof.
  intros H. destruct w_reached as [R1 R2]. pose proof w_inside as B. pose proof Xy2tp.tiny_pos as Tp.
  change (norm2 (1, 1)) with (hyp 1 1) in B. pose proof (Rabs_pos (1 - 1)) as Ra.
  assert (Hn : hyp 1 1 * cos (atan2 1 1) <> 0) by (destruct (atan2_polar 1 1) as [Q _]; rewrite <- Q; lra).
  assert (P0 : forall a, wrap_into_range a (Rmin (-175) 175) (Rmax (-175) 175) = wrap_into_range a (-175) 175) by (intros; now rewrite Rmin_left, Rmax_right by lra).
  assert (F1 : fst (fst (Xy2tp.config (hyp 1 1) (atan2 1 1) 1 1 w_ranges)) = 0 /\ snd (Xy2tp.config (hyp 1 1) (atan2 1 1) 1 1 w_ranges) = true /\
               fst (fst (Xy2tp.config_alt (hyp 1 1) (atan2 1 1) 1 1 w_ranges)) = 90).
  { pose proof (Xy2tp.reflected_spec (hyp 1 1) (atan2 1 1) 1 1 ltac:(lra) ltac:(lra) ltac:(lra) ltac:(lra) Hn) as Rf.
    unfold Xy2tp.config_alt, Xy2tp.config. pose proof w_config as W. destruct (primary_angles (hyp 1 1) (atan2 1 1) 1 1) as [T P]. destruct W as (CP & SP & BP & CT & ST).
    destruct (reflected_angles _ _ T 1) as [T' P']. destruct Rf as (RC & RS & _ & _).
    assert (A45 : atan2 1 1 = PI / 4). { unfold atan2. assert (Rltb 0 1 = true) as -> by (apply Rltb_true; lra). replace (1 / 1) with 1 by lra. apply atan_1. }
    assert (ZT : same_angle (degrees T) 0). { rewrite <- (Rmult_0_l R2D). apply Xy2tp.same_deg; [now rewrite cos_0|now rewrite sin_0]. }
    assert (ZT' : same_angle (degrees T') 90).
    { replace 90 with (degrees (PI / 2)) by (unfold degrees, R2D, D2R; pose proof PI_RGT_0; field; lra). apply Xy2tp.same_deg.
      - rewrite RC, A45. replace (2 * (PI / 4) - T) with (PI / 2 - T) by lra. rewrite cos_minus, cos_PI2, sin_PI2, CT, ST. lra.
      - rewrite RS, A45. replace (2 * (PI / 4) - T) with (PI / 2 - T) by lra. rewrite sin_minus, cos_PI2, sin_PI2, CT, ST. lra. }
    unfold wrap_TP_into_ranges, w_ranges. cbn [fst snd]. rewrite !P0, (range_unique _ (-175) 175 0), (range_unique _ (-175) 175 90) by (lra || assumption || (unfold Rminus; lra)).
    rewrite (Rmin_left (-170)), (Rmax_right (-170)) by lra. split; [destruct (wrap_into_range (degrees P) (-170) (-10)); reflexivity|].
    split; [|destruct (wrap_into_range (degrees P') (-170) (-10)); reflexivity].
    pose proof (Xy2tp.wrap_spec (degrees P) (-170) (-10) ltac:(lra)) as W. destruct (wrap_into_range (degrees P) (-170) (-10)) as [p f]. cbn [snd orb].
    destruct f; [reflexivity|]. destruct W as (Ip & W & _). destruct (W eq_refl) as ([k Hk] & _).
    assert (0 <= degrees P <= 180).
    { unfold degrees, R2D, D2R. pose proof PI_RGT_0. replace (P * (1 / (PI / 180))) with (P * 180 / PI) by (field; lra). split.
      - apply Rmult_le_pos; [lra|]. left. now apply Rinv_0_lt_compat.
      - apply Rmult_le_reg_r with PI; [lra|]. unfold Rdiv. rewrite Rmult_assoc, Rinv_l by lra. lra. }
    assert (IZR k < 0) by lra. assert (-1 < IZR k) by lra. apply lt_IZR in H1, H2. lia. }
  destruct F1 as (F1 & F2 & F3).
  refine (H 1 1 1 1 w_ranges (-100) 30 (fst (Xy2tp.config (hyp 1 1) (atan2 1 1) 1 1 w_ranges)) ltac:(lra) ltac:(lra) ltac:(lra) w_inside _ _ R1 R2).
  rewrite Xy2tp.xy2tp_some; rewrite ?Xy2tp.clamp_inside by exact B; cbn [fst snd orb]; [|lra|lra|exact Hn].
  rewrite Xy2tp.select_all_far; [now rewrite F2|].
  intros o Ho. unfold closeness. assert (Q : fst (fst o) = 0 \/ fst (fst o) = 90).
  { unfold Xy2tp.all_options in Ho. destruct Ho as [<-|[<-|Ho]]; [auto|auto|]. apply in_app_iff in Ho as [Ho|Ho].
    - apply Xy2tp.rotated_spec in Ho as (Hf & _). congruence.
    - apply Xy2tp.rotated_spec in Ho as (_ & w & Hw & ->). right. rewrite F3. unfold wrap_TP_into_ranges, w_ranges. cbn [fst snd]. rewrite P0.
      rewrite (range_unique _ (-175) 175 90); [destruct (wrap_into_range _ _ _); reflexivity|lra|lra|]. destruct Hw as [-> | ->]; [exists (-1)%Z; lra|exists 1%Z; lra]. }
  destruct Q as [-> | ->]; rewrite Rabs_right by lra; lra.
Qed.
Print Assumptions C17_flagged_means_unreachable_refuted.
