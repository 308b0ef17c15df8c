(** Lemmas on the ray tracer. *)
From Coq Require Import Lra Psatz.
From Coquelicot Require Import Coquelicot.
From Verif.Model Require Import RayTrace.
From Verif.Proofs Require Import RealNum Trig Sphere.
From Verif.Spec Require Import Sphere RayTrace.
Local Open Scope R_scope.

Lemma Reqb_spec' x y : Bool.reflect (x = y) (Reqb x y).
Proof. unfold Reqb. destruct (Req_EM_T x y); constructor; assumption. Qed.
Lemma Rltb_spec' x y : Bool.reflect (x < y) (Rltb x y).
Proof. unfold Rltb. destruct (Rlt_dec x y); constructor; assumption. Qed.
Lemma Rleb_spec' x y : Bool.reflect (x <= y) (Rleb x y).
Proof. unfold Rleb. destruct (Rle_dec x y); constructor; assumption. Qed.

(** The roots found. *)
Lemma both_roots_spec A B C : B <> 0 ->
  let '(r1, r2) := both_roots A B C in
  (forall d, A * d ^ 2 + B * d + C = 0 -> 2 * A * d + B <> 0 -> d <> 0 -> d = r1 \/ d = r2) /\
  (r1 <> 0 -> A * r1 ^ 2 + B * r1 + C = 0) /\ (r2 <> 0 -> A * r2 ^ 2 + B * r2 + C = 0) /\
  (r1 <> 0 \/ r2 <> 0 -> 0 < B * B - 4 * A * C).
Proof.
  intros NB. assert (B2 : 0 < B * B) by nra. unfold both_roots.
  destruct (Reqb_spec' A 0) as [->|NA], (Reqb_spec' B 0) as [EB|_]; try contradiction; cbn [andb negb].
  - split; [|split; [|split]].
    + intros d E _ _. left. apply (Rmult_eq_reg_r B); [|assumption]. field_simplify; [lra|assumption].
    + intros _. field. assumption.
    + lra.
    + intros _. lra.
  - destruct (Reqb_spec' C 0) as [->|NC]; cbn [andb].
    + split; [|split; [|split]].
      * intros d E _ Nd. left. apply (Rmult_eq_reg_r (A * d)); [|apply Rmult_integral_contrapositive; auto]. transitivity (- B * d); [|field; assumption].
        nra.
      * intros _. field. assumption.
      * lra.
      * intros _. lra.
    + cbv zeta. destruct (Rleb_spec' (B * B - 4 * A * C) 0) as [L|L].
      * split; [|split; [|split]]; try lra. intros d E T _. exfalso. assert (Q : (2 * A * d + B) ^ 2 = B * B - 4 * A * C) by nra.
        assert (0 < (2 * A * d + B) ^ 2) by (apply pow2_gt_0; assumption). lra.
      * apply Rnot_le_lt in L. set (D := B * B - 4 * A * C) in *. set (sD := sqrt D).
        assert (P : 0 < sD) by (apply sqrt_lt_R0; assumption). assert (S2 : sD * sD = D) by (apply sqrt_sqrt; lra).
        set (Q := - (1 / 2) * (B + np_sign B * sD)).
        assert (NQ : Q <> 0). { unfold Q, np_sign. destruct (Rltb_spec' 0 B), (Rltb_spec' B 0); intro; lra. }
        assert (EQ : Q * Q + B * Q + A * C = 0).
        { unfold Q, np_sign. assert (D = B * B - 4 * A * C) by reflexivity. destruct (Rltb_spec' 0 B), (Rltb_spec' B 0); try lra; nra. }
        assert (R1 : A * (Q / A) ^ 2 + B * (Q / A) + C = 0).
        { transitivity ((Q * Q + B * Q + A * C) / A); [field; assumption|]. rewrite EQ. unfold Rdiv. ring. }
        assert (R2 : A * (C / Q) ^ 2 + B * (C / Q) + C = 0).
        { transitivity (C * (Q * Q + B * Q + A * C) / (Q * Q)); [field; assumption|]. rewrite EQ. unfold Rdiv. ring. }
        split; [|split; [|split]]; try tauto.
        intros d E _ _. assert (F : (A * d - Q) * (Q * d - C) = 0).
        { transitivity (Q * (A * d ^ 2 + B * d + C) - d * (Q * Q + B * Q + A * C)); [ring|]. rewrite E, EQ. ring. }
        apply Rmult_integral in F as [F|F]; [left|right].
        -- apply (Rmult_eq_reg_r A); [|assumption]. transitivity Q; [lra|field; assumption].
        -- apply (Rmult_eq_reg_r Q); [|assumption]. transitivity C; [lra|field; assumption].
Qed.

(** The conic as zeros of a quadratic form, on the right sheet. *)
Lemma on_conic_iff c k x y z : on_conic c k (x, y, z) <-> c * (x * x + y * y + (k + 1) * z * z) - 2 * z = 0 /\ (k + 1) * c * z < 1.
Proof.
  unfold on_conic, height, axis2, conic_z. set (r2 := x ^ 2 + y ^ 2). assert (Er : x * x + y * y = r2) by (unfold r2; ring). rewrite Er. set (s := k + 1).
  replace (1 + k) with s by (unfold s; ring). clearbody r2 s. clear Er. split.
  - intros [P E]. set (q := sqrt (1 - s * c ^ 2 * r2)) in *. assert (Q2 : q * q = 1 - s * c ^ 2 * r2) by (apply sqrt_sqrt; lra).
    assert (Qp : 0 < q) by (apply sqrt_lt_R0; lra). assert (E1 : z * (1 + q) = c * r2) by (rewrite E; field; lra).
    assert (E2 : s * c * z = 1 - q). { apply (Rmult_eq_reg_r (1 + q)); [|lra]. transitivity (s * c * (z * (1 + q))); [ring|]. rewrite E1. transitivity (s * c ^ 2 * r2); [ring|]. lra. }
    split; [|lra]. transitivity (c * r2 + z * (s * c * z) - 2 * z); [ring|]. rewrite E2, <- E1. ring.
  - intros [E L]. assert (Q2 : 1 - s * c ^ 2 * r2 = (1 - s * c * z) ^ 2).
    { transitivity (1 - s * c * (c * (r2 + s * z * z) - 2 * z) - 2 * (s * c * z) + (s * c * z) ^ 2); [ring|]. rewrite E. ring. }
    assert (P : 0 < (1 - s * c * z) ^ 2) by (apply pow2_gt_0; lra). split; [lra|]. rewrite Q2, sqrt_pow2 by lra.
    apply (Rmult_eq_reg_r (1 + (1 - s * c * z))); [|lra]. transitivity (c * r2); [lra|field; lra].
Qed.

Section Quadratic.
Context (c k x y z u v w : R).
Let s := k + 1.
Let A := c * (u * u + v * v + s * w * w).
Let B := 2 * c * (x * u + y * v + s * z * w) - 2 * w.
Let C := c * (x * x + y * y + s * z * z) - 2 * z.

Lemma on_conic_along d : on_conic c k (along (x, y, z) (u, v, w) d) <-> A * d ^ 2 + B * d + C = 0 /\ s * c * (z + w * d) < 1.
Proof.
  unfold along, plus, times. rewrite on_conic_iff. fold s. replace (z + w * d) with (z + d * w) by ring.
  replace (c * ((x + d * u) * (x + d * u) + (y + d * v) * (y + d * v) + s * (z + d * w) * (z + d * w)) - 2 * (z + d * w)) with (A * d ^ 2 + B * d + C) by (unfold A, B, C; ring).
  tauto.
Qed.
Lemma tangential_along d : tangential c k (along (x, y, z) (u, v, w) d) (u, v, w) <-> 2 * A * d + B = 0.
Proof.
  unfold tangential, along, plus, times, inner. replace (1 + k) with s by (unfold s; ring).
  replace (2 * A * d + B) with (2 * (u * (c * (x + d * u)) + v * (c * (y + d * v)) + w * (c * s * (z + d * w) - 1))) by (unfold A, B; ring). lra.
Qed.
Lemma tangential_start : tangential c k (x, y, z) (u, v, w) <-> B = 0.
Proof. rewrite <- (Rplus_0_l B). replace 0 with (2 * A * 0) at 1 by ring. rewrite <- tangential_along. unfold along, plus, times. replace (x + 0 * u) with x by ring. replace (y + 0 * v) with y by ring. replace (z + 0 * w) with z by ring. tauto. Qed.
End Quadratic.

Lemma advance_along d r : r_pos (advance d r) = along (r_pos r) (r_dir r) d /\ r_dir (advance d r) = r_dir r.
Proof. destruct r as [[[x y] z] [[u v] w]]. split; reflexivity. Qed.

Lemma intercept_first s r : ~ tangential (s_curve s) (s_asph s) (r_pos r) (r_dir r) ->
  let on d := on_conic (s_curve s) (s_asph s) (along (r_pos r) (r_dir r) d) in
  let '(cd, r') := conic_intercept s r in
  match cd with
  | COk => exists d, 0 < d /\ on d /\ r_pos r' = along (r_pos r) (r_dir r) d /\ r_dir r' = r_dir r /\ forall d', 0 < d' < d -> ~ on d'
  | CBack | CMiss => r' = r /\ forall d, 0 < d -> on d -> tangential (s_curve s) (s_asph s) (along (r_pos r) (r_dir r) d) (r_dir r)
  | _ => False
  end.
Proof.
  destruct r as [[[x y] z] [[u v] w]]. cbn [r_pos r_dir]. intros NT. rewrite tangential_start in NT. cbv zeta. unfold conic_intercept. cbn [r_pos r_dir].
  set (k := s_asph s) in *. set (c := s_curve s) in *.
  set (A := c * (u * u + v * v + (k + 1) * w * w)) in *. set (B := 2 * c * (x * u + y * v + (k + 1) * z * w) - 2 * w) in *. set (C := c * (x * x + y * y + (k + 1) * z * z) - 2 * z) in *.
  pose proof (both_roots_spec A B C NT) as S. destruct (both_roots A B C) as [r1 r2]. destruct S as (S1 & S2 & S3 & S4).
  pose proof (on_conic_along c k x y z u v w) as ON. pose proof (tangential_along c k x y z u v w) as TA. cbv zeta in ON, TA. fold A B C in ON, TA.
  assert (TD : forall d, A * d ^ 2 + B * d + C = 0 -> (2 * A * d + B) ^ 2 = B * B - 4 * A * C) by (intros; nra).
  assert (MM : (Rmin r1 r2 = r1 /\ Rmax r1 r2 = r2) \/ (Rmin r1 r2 = r2 /\ Rmax r1 r2 = r1)) by (unfold Rmin, Rmax; destruct (Rle_dec r1 r2); [left|right]; auto).
  assert (ML : Rmin r1 r2 <= Rmax r1 r2) by (eapply Rle_trans; [apply Rmin_l|apply Rmax_l]).
  set (less := Rmin r1 r2) in *. set (more := Rmax r1 r2) in *.
  assert (Sl : less <> 0 -> A * less ^ 2 + B * less + C = 0) by (destruct MM as [[-> _]|[-> _]]; assumption).
  assert (Sm : more <> 0 -> A * more ^ 2 + B * more + C = 0) by (destruct MM as [[_ ->]|[_ ->]]; assumption).
  assert (SD : less <> 0 \/ more <> 0 -> 0 < B * B - 4 * A * C) by (destruct MM as [[-> ->]|[-> ->]]; tauto).
  assert (Sall : forall d, A * d ^ 2 + B * d + C = 0 -> 2 * A * d + B <> 0 -> d <> 0 -> d = less \/ d = more).
  { intros d E T N. destruct (S1 d E T N) as [->| ->]; destruct MM as [[-> ->]|[-> ->]]; tauto. }
  clearbody less more. clear S1 S2 S3 S4 MM r1 r2.
  destruct (Rleb_spec' more 0) as [Lm|Lm], (Rltb_spec' less 0) as [Ll|Ll]; cbn [andb]; cbn iota beta.
  - split; [reflexivity|]. intros d P O. apply TA. apply ON in O as [O _]. destruct (Req_dec (2 * A * d + B) 0) as [|N]; [assumption|]. destruct (Sall d O N ltac:(lra)); lra.
  - destruct (Rltb_spec' 0 less) as [P|P]; [lra|]. rewrite Bool.andb_false_r. destruct (Rltb_spec' 0 more) as [P'|P']; [lra|]. rewrite Bool.andb_false_r.
    destruct (Rleb_spec' 0 0); [|lra]. split; [reflexivity|]. intros d Pd O. apply TA. apply ON in O as [O _]. destruct (Req_dec (2 * A * d + B) 0) as [|N]; [assumption|]. destruct (Sall d O N ltac:(lra)); lra.
  - apply Rnot_le_lt in Lm. destruct (Rltb_spec' 0 less) as [P|P]; [lra|]. rewrite Bool.andb_false_r.
    destruct (Rltb_spec' 0 more) as [P'|P']; [|lra]. rewrite Bool.andb_true_r. destruct (Rltb_spec' ((k + 1) * c * (z + w * more)) 1) as [Sh|Sh].
    + destruct (Rleb_spec' more 0); [lra|]. exists more. destruct (advance_along more {| r_pos := (x, y, z); r_dir := (u, v, w) |}) as [E1 E2].
      split; [assumption|]. split; [apply ON; split; [apply Sm; lra|assumption]|]. split; [exact E1|]. split; [exact E2|]. intros d Pd O. apply ON in O as [O _].
      assert (N : 2 * A * d + B <> 0) by (intro E; specialize (TD d O); rewrite E in TD; specialize (SD ltac:(right; lra)); lra). destruct (Sall d O N ltac:(lra)); lra.
    + destruct (Rleb_spec' 0 0); [|lra]. split; [reflexivity|]. intros d Pd O. apply TA. apply ON in O as [O L]. destruct (Req_dec (2 * A * d + B) 0) as [|N]; [assumption|]. destruct (Sall d O N ltac:(lra)); [lra|subst; contradiction].
  - apply Rnot_le_lt in Lm. destruct (Rltb_spec' ((k + 1) * c * (z + w * less)) 1) as [Sl'|Sl'], (Rltb_spec' 0 less) as [P|P]; cbn [andb].
    + destruct (Rleb_spec' less 0); [lra|]. exists less. destruct (advance_along less {| r_pos := (x, y, z); r_dir := (u, v, w) |}) as [E1 E2].
      split; [assumption|]. split; [apply ON; split; [apply Sl; lra|assumption]|]. split; [exact E1|]. split; [exact E2|]. intros d Pd O. apply ON in O as [O _].
      assert (N : 2 * A * d + B <> 0) by (intro E; specialize (TD d O); rewrite E in TD; specialize (SD ltac:(right; lra)); lra). destruct (Sall d O N ltac:(lra)); lra.
    + destruct (Rltb_spec' 0 more) as [P'|P']; [|lra]. rewrite Bool.andb_true_r. destruct (Rltb_spec' ((k + 1) * c * (z + w * more)) 1) as [Sh|Sh].
      * destruct (Rleb_spec' more 0); [lra|]. exists more. destruct (advance_along more {| r_pos := (x, y, z); r_dir := (u, v, w) |}) as [E1 E2].
        split; [assumption|]. split; [apply ON; split; [apply Sm; lra|assumption]|]. split; [exact E1|]. split; [exact E2|]. intros d Pd O. apply ON in O as [O _].
        assert (N : 2 * A * d + B <> 0) by (intro E; specialize (TD d O); rewrite E in TD; specialize (SD ltac:(right; lra)); lra). destruct (Sall d O N ltac:(lra)); lra.
      * destruct (Rleb_spec' 0 0); [|lra]. split; [reflexivity|]. intros d Pd O. apply TA. apply ON in O as [O L]. destruct (Req_dec (2 * A * d + B) 0) as [|N]; [assumption|]. destruct (Sall d O N ltac:(lra)); [lra|subst; contradiction].
    + destruct (Rltb_spec' 0 more) as [P'|P']; [|lra]. rewrite Bool.andb_true_r. destruct (Rltb_spec' ((k + 1) * c * (z + w * more)) 1) as [Sh|Sh].
      * destruct (Rleb_spec' more 0); [lra|]. exists more. destruct (advance_along more {| r_pos := (x, y, z); r_dir := (u, v, w) |}) as [E1 E2].
        split; [assumption|]. split; [apply ON; split; [apply Sm; lra|assumption]|]. split; [exact E1|]. split; [exact E2|]. intros d Pd O. apply ON in O as [O L].
        assert (N : 2 * A * d + B <> 0) by (intro E; specialize (TD d O); rewrite E in TD; specialize (SD ltac:(right; lra)); lra). destruct (Sall d O N ltac:(lra)); [subst; contradiction|lra].
      * destruct (Rleb_spec' 0 0); [|lra]. split; [reflexivity|]. intros d Pd O. apply TA. apply ON in O as [O L]. destruct (Req_dec (2 * A * d + B) 0) as [|N]; [assumption|]. destruct (Sall d O N ltac:(lra)); subst; contradiction.
    + destruct (Rltb_spec' 0 more) as [P'|P']; [|lra]. rewrite Bool.andb_true_r. destruct (Rltb_spec' ((k + 1) * c * (z + w * more)) 1) as [Sh|Sh].
      * destruct (Rleb_spec' more 0); [lra|]. exists more. destruct (advance_along more {| r_pos := (x, y, z); r_dir := (u, v, w) |}) as [E1 E2].
        split; [assumption|]. split; [apply ON; split; [apply Sm; lra|assumption]|]. split; [exact E1|]. split; [exact E2|]. intros d Pd O. apply ON in O as [O L].
        assert (N : 2 * A * d + B <> 0) by (intro E; specialize (TD d O); rewrite E in TD; specialize (SD ltac:(right; lra)); lra). destruct (Sall d O N ltac:(lra)); lra.
      * destruct (Rleb_spec' 0 0); [|lra]. split; [reflexivity|]. intros d Pd O. apply TA. apply ON in O as [O L]. destruct (Req_dec (2 * A * d + B) 0) as [|N]; [assumption|]. destruct (Sall d O N ltac:(lra)); subst; try contradiction; lra.
Qed.

(** Slopes. *)
Lemma conic_derive c k r2 : 0 < 1 - (1 + k) * c ^ 2 * r2 -> is_derive (conic_z c k) r2 (c / (2 * sqrt (1 - (1 + k) * c ^ 2 * r2))).
Proof.
  intros P. unfold conic_z. set (s := 1 + k) in *. pose proof (sqrt_lt_R0 _ P) as Q. auto_derive.
  - replace (1 + - (s * (c * (c * 1)) * r2)) with (1 - s * c ^ 2 * r2) by ring. repeat split; lra.
  - replace (1 + - (s * (c * (c * 1)) * r2)) with (1 - s * c ^ 2 * r2) by ring. set (q := sqrt (1 - s * c ^ 2 * r2)) in *.
    assert (Q2 : q * q = 1 - s * c ^ 2 * r2) by (apply sqrt_sqrt; lra). assert (E : s * c ^ 2 * r2 = 1 - q * q) by lra. clearbody q.
    transitivity (c / (1 + q) * (1 + s * c ^ 2 * r2 / (2 * q * (1 + q)))); [field; lra|]. rewrite E. field. lra.
Qed.
Fixpoint radial_slope (coefs : list R) (r : R) : R := match coefs with [] => 0 | a :: t => (a + radial_z t r) + r * radial_slope t r end.
Lemma radial_derive coefs r : is_derive (radial_z coefs) r (radial_slope coefs r).
Proof.
  induction coefs as [|a t IH]; cbn [radial_z radial_slope].
  - apply @is_derive_const.
  - apply (is_derive_ext (fun r => r * (a + radial_z t r))); [reflexivity|]. replace (a + radial_z t r + r * radial_slope t r) with (Hierarchy.plus (mult 1 (a + radial_z t r)) (mult r (radial_slope t r))) by (unfold Hierarchy.plus, mult; cbn; ring).
    apply (is_derive_mult (fun r => r) (fun r => a + radial_z t r)); [apply @is_derive_id| |intros; apply Rmult_comm].
    replace (radial_slope t r) with (Hierarchy.plus 0 (radial_slope t r)) by (unfold Hierarchy.plus; cbn; ring). apply @is_derive_plus; [apply @is_derive_const|assumption].
Qed.
Definition radial_head (coefs : list R) (r : R) : R := match coefs with [] => 0 | a :: t => a + radial_z t r end.
Lemma radial_z_head coefs r : radial_z coefs r = r * radial_head coefs r.
Proof. destruct coefs; cbn; ring. Qed.
Lemma dpoly_loop_slope coefs : forall i r p acc, dpoly_loop i coefs r p acc = acc + p * (INR i * radial_head coefs r + radial_slope coefs r).
Proof.
  induction coefs as [|a t IH]; intros i r p acc; cbn [dpoly_loop].
  - cbn [radial_head radial_slope]. ring.
  - rewrite IH, S_INR. cbn [radial_head radial_slope]. rewrite radial_z_head. ring.
Qed.
Lemma poly_loop_radial coefs : forall r p acc, poly_loop coefs r p acc = acc + p * radial_z coefs r.
Proof. induction coefs as [|a t IH]; intros r p acc; cbn [poly_loop radial_z]; cbv zeta; [ring|]. rewrite IH. ring. Qed.

(** Coefficients in force, and points where the surface has a tangent plane. *)
Definition coefs_of (s : surface) : list R := if s_poly s then s_coefs s else [].
Lemma sqrt_derive x y : 0 < x ^ 2 + y ^ 2 -> is_derive (fun t => sqrt (t ^ 2 + y ^ 2)) x (x / sqrt (x ^ 2 + y ^ 2)).
Proof.
  intros P. pose proof (sqrt_lt_R0 _ P). auto_derive.
  - replace (x * (x * 1) + y * (y * 1)) with (x ^ 2 + y ^ 2) by ring. auto.
  - replace (x * (x * 1) + y * (y * 1)) with (x ^ 2 + y ^ 2) by ring. field. lra.
Qed.
Lemma square_derive x y : is_derive (fun t => t ^ 2 + y ^ 2) x (2 * x).
Proof. auto_derive; [exact I|ring]. Qed.
Lemma sag_derive c k coefs x y : 0 < 1 - (1 + k) * c ^ 2 * (x ^ 2 + y ^ 2) -> 0 < x ^ 2 + y ^ 2 ->
  is_derive (fun t => sag c k coefs t y) x (x * (c / sqrt (1 - (1 + k) * c ^ 2 * (x ^ 2 + y ^ 2))) + x / sqrt (x ^ 2 + y ^ 2) * radial_slope coefs (sqrt (x ^ 2 + y ^ 2))).
Proof.
  intros P P0. unfold sag. apply @is_derive_plus.
  - replace (x * (c / sqrt (1 - (1 + k) * c ^ 2 * (x ^ 2 + y ^ 2)))) with (scal (2 * x) (c / (2 * sqrt (1 - (1 + k) * c ^ 2 * (x ^ 2 + y ^ 2))))).
    + apply (is_derive_comp (conic_z c k) (fun t => t ^ 2 + y ^ 2)); [apply conic_derive, P|apply square_derive].
    + pose proof (sqrt_lt_R0 _ P). set (q := sqrt _) in *. change (2 * x * (c / (2 * q)) = x * (c / q)). field. lra.
  - apply (is_derive_comp (radial_z coefs) (fun t => sqrt (t ^ 2 + y ^ 2))); [apply radial_derive|apply sqrt_derive, P0].
Qed.
Lemma radial_bounded coefs : exists M d, 0 < d /\ forall r, 0 <= r <= d -> Rabs (radial_z coefs r) <= M.
Proof.
  induction coefs as [|a t (M & d & P & H)]; cbn [radial_z].
  - exists 0, 1. split; [lra|]. intros. rewrite Rabs_R0. lra.
  - exists (d * (Rabs a + M)), d. split; [assumption|]. intros r L. rewrite Rabs_mult, (Rabs_pos_eq r) by lra. apply Rmult_le_compat; [lra|apply Rabs_pos|lra|]. eapply Rle_trans; [apply Rabs_triang|]. specialize (H r L). lra.
Qed.
Lemma sqrt_sq_abs h : sqrt (h ^ 2 + 0 ^ 2) = Rabs h.
Proof. replace (h ^ 2 + 0 ^ 2) with (Rsqr h) by (unfold Rsqr; ring). apply sqrt_Rsqr_abs. Qed.
Lemma derive_value (f : R -> R) x a b : is_derive f x a -> a = b -> is_derive f x b.
Proof. now intros H <-. Qed.
Lemma sag_derive_vertex c k coefs : hd 0 coefs = 0 -> is_derive (fun t => sag c k coefs t 0) 0 0.
Proof.
  intros H. unfold sag. apply (derive_value _ _ (Hierarchy.plus 0 0)); [|unfold Hierarchy.plus; cbn; ring]. apply @is_derive_plus.
  - apply (derive_value _ _ (scal (2 * 0) (c / (2 * sqrt (1 - (1 + k) * c ^ 2 * (0 ^ 2 + 0 ^ 2)))))); [|unfold scal; cbn; unfold mult; cbn; ring].
    apply (is_derive_comp (conic_z c k) (fun t => t ^ 2 + 0 ^ 2)); [apply conic_derive; lra|apply square_derive].
  - destruct coefs as [|a t]; cbn [radial_z]; [apply @is_derive_const|]. cbn in H. subst a.
    apply is_derive_Reals. intros eps Pe.
    assert (B : exists M d, 0 < d /\ 0 <= M /\ forall r, 0 <= r <= d -> Rabs (radial_head t r) <= M).
    { destruct t as [|b t']; cbn [radial_head].
      - exists 0, 1. repeat split; try lra. intros. rewrite Rabs_R0. lra.
      - destruct (radial_bounded t') as (M & d & Pd & Hb). exists (Rabs b + M), d. split; [assumption|]. split.
        + specialize (Hb 0 ltac:(lra)). pose proof (Rabs_pos (radial_z t' 0)). pose proof (Rabs_pos b). lra.
        + intros r L. eapply Rle_trans; [apply Rabs_triang|]. specialize (Hb r L). lra. }
    destruct B as (M & d & Pd & PM & HB). assert (Pm : 0 < Rmin d (eps / (M + 1))) by (apply Rmin_pos; [assumption|apply Rdiv_lt_0_compat; lra]).
    exists (mkposreal _ Pm). intros h Nh Lh. cbn [pos] in Lh. rewrite Rplus_0_l, !sqrt_sq_abs, Rabs_R0. pose proof (Rmin_l d (eps / (M + 1))). pose proof (Rmin_r d (eps / (M + 1))).
    pose proof (Rabs_pos_lt h Nh) as Ph. rewrite (radial_z_head t (Rabs h)).
    replace ((Rabs h * (0 + Rabs h * radial_head t (Rabs h)) - 0 * (0 + radial_z t 0)) / h - 0) with (Rabs h * Rabs h / h * radial_head t (Rabs h)) by (field; assumption).
    rewrite Rabs_mult. unfold Rdiv. rewrite !Rabs_mult, Rabs_inv, !Rabs_Rabsolu. replace (Rabs h * Rabs h * / Rabs h) with (Rabs h) by (field; lra).
    apply Rle_lt_trans with (Rabs h * M); [apply Rmult_le_compat_l; [lra|apply HB; lra]|]. apply Rle_lt_trans with (eps / (M + 1) * M).
    + apply Rmult_le_compat_r; lra.
    + unfold Rdiv. rewrite Rmult_assoc. rewrite <- (Rmult_1_r eps) at 2. apply Rmult_lt_compat_l; [assumption|]. apply (Rmult_lt_reg_l (M + 1)); [lra|]. rewrite <- Rmult_assoc, Rinv_r by lra. lra.
Qed.
Lemma sag_swap c k coefs x y : sag c k coefs x y = sag c k coefs y x.
Proof. unfold sag. now rewrite (Rplus_comm (x ^ 2)). Qed.

Lemma normalize_unit gx gy : let n := normalize (- gx, - gy, 1) in exists l, 0 < l /\ n = times l (- gx, - gy, 1) /\ inner n n = 1.
Proof.
  cbv zeta. unfold normalize. assert (P : 0 < (- gx) ^ 2 + (- gy) ^ 2 + 1 ^ 2) by nra. pose proof (sqrt_lt_R0 _ P) as Q. destruct (Reqb_spec' (sqrt ((- gx) ^ 2 + (- gy) ^ 2 + 1 ^ 2)) 0); [lra|].
  set (l := sqrt _) in *. assert (L2 : l * l = (- gx) ^ 2 + (- gy) ^ 2 + 1 ^ 2) by (apply sqrt_sqrt; lra). clearbody l. exists (/ l). split; [now apply Rinv_0_lt_compat|]. split.
  - unfold times. rewrite !(Rmult_comm (/ l)). reflexivity.
  - unfold inner. transitivity (((- gx) ^ 2 + (- gy) ^ 2 + 1 ^ 2) / (l * l)); [field; assumption|]. rewrite <- L2. field. assumption.
Qed.
Lemma normal_ok s r : let '(x, y, _) := r_pos r in
  0 < 1 - (1 + s_asph s) * s_curve s ^ 2 * (x ^ 2 + y ^ 2) -> 0 < x ^ 2 + y ^ 2 \/ hd 0 (coefs_of s) = 0 ->
  unit_normal (sag (s_curve s) (s_asph s) (coefs_of s)) x y (get_normal s r).
Proof.
  destruct (r_pos r) as [[x y] z] eqn:Ep. intros P N. unfold get_normal. set (c := s_curve s) in *. set (k := s_asph s) in *.
  set (coefs := coefs_of s) in *. destruct (grad_total s r) as [gx gy] eqn:Eg.
  assert (G : is_derive (fun t => sag c k coefs t y) x gx /\ is_derive (fun t => sag c k coefs x t) y gy).
  { unfold grad_total, grad_conic, grad_poly in Eg. rewrite Ep in Eg. fold c k in Eg.
    replace (1 - (k + 1) * c ^ 2 * (x * x + y * y)) with (1 - (1 + k) * c ^ 2 * (x ^ 2 + y ^ 2)) in Eg by ring. replace (x * x + y * y) with (x ^ 2 + y ^ 2) in Eg by ring.
    rewrite dpoly_loop_slope in Eg. cbn [INR] in Eg.
    pose proof (sqrt_lt_R0 _ P) as Qa. set (q := sqrt (1 - (1 + k) * c ^ 2 * (x ^ 2 + y ^ 2))) in *.
    assert (Ec : (if Reqb c 0 then (0, 0) else if Rleb (1 - (1 + k) * c ^ 2 * (x ^ 2 + y ^ 2)) 0 then (0, 0) else (x * (c / q), y * (c / q))) = (x * (c / q), y * (c / q))).
    { destruct (Reqb_spec' c 0) as [->|]; [f_equal; unfold Rdiv; ring|]. destruct (Rleb_spec' (1 - (1 + k) * c ^ 2 * (x ^ 2 + y ^ 2)) 0); [lra|reflexivity]. }
    cbv zeta in Eg. rewrite Ec in Eg. clear Ec. destruct (Rle_lt_dec (x ^ 2 + y ^ 2) 0) as [Z0|Pr].
    - assert (x = 0) by nra. assert (y = 0) by nra. subst x y. destruct N as [N|N]; [lra|]. replace (0 ^ 2 + 0 ^ 2) with 0 in Eg by ring. rewrite sqrt_0 in Eg. destruct (Reqb_spec' 0 0); [|lra].
      assert (gx = 0 /\ gy = 0) as [-> ->] by (destruct (s_poly s); injection Eg as <- <-; split; ring).
      split; [now apply sag_derive_vertex|]. apply (is_derive_ext (fun t => sag c k coefs t 0)); [intros; apply sag_swap|now apply sag_derive_vertex].
    - pose proof (sqrt_lt_R0 _ Pr) as Qr. set (rr := sqrt (x ^ 2 + y ^ 2)) in *. destruct (Reqb_spec' rr 0); [lra|].
      assert (E2 : gx = x * (c / q) + x / rr * radial_slope coefs rr /\ gy = y * (c / q) + y / rr * radial_slope coefs rr).
      { unfold coefs, coefs_of. destruct (s_poly s); injection Eg as <- <-; cbn [radial_slope]; split; ring. }
      destruct E2 as [-> ->]. split; [now apply sag_derive|]. apply (is_derive_ext (fun t => sag c k coefs t x)); [intros; apply sag_swap|].
      unfold q, rr. rewrite (Rplus_comm (x ^ 2)). apply sag_derive; rewrite (Rplus_comm (y ^ 2)); assumption. }
  destruct (normalize_unit gx gy) as (l & Pl & El & Ul). exists gx, gy, l. destruct G. auto.
Qed.

Lemma vec_eq (a b c a' b' c' : R) : a = a' -> b = b' -> c = c' -> (a, b, c) = (a', b', c').
Proof. now intros -> -> ->. Qed.
Lemma ray_eq p u p' u' : p = p' -> u = u' -> {| r_pos := p; r_dir := u |} = {| r_pos := p'; r_dir := u' |}.
Proof. now intros -> ->. Qed.

(** Redirections. *)
Lemma dot_inner a b : dotproduct a b = inner a b.
Proof. destruct a as [[a0 a1] a2], b as [[b0 b1] b2]. reflexivity. Qed.
Lemma vscale_times k v : vscale k v = times k v.
Proof. destruct v as [[a b] c]. reflexivity. Qed.
Lemma vadd_plus a b : vadd a b = plus a b.
Proof. destruct a as [[a0 a1] a2], b as [[b0 b1] b2]. reflexivity. Qed.
Lemma mirror_law n u : inner n n = 1 -> let u' := vadd u (vscale (- (2 * dotproduct u n)) n) in reflected n u u' /\ inner u' u' = inner u u.
Proof.
  destruct n as [[n0 n1] n2], u as [[u0 u1] u2]. unfold reflected, dotproduct, vadd, vscale, inner. intros N. set (q := u0 * n0 + u1 * n1 + u2 * n2). repeat split.
  - transitivity (q - 2 * q * (n0 * n0 + n1 * n1 + n2 * n2)); [unfold q; ring|]. rewrite N. ring.
  - intros [[t0 t1] t2] T. transitivity (u0 * t0 + u1 * t1 + u2 * t2 - 2 * q * (t0 * n0 + t1 * n1 + t2 * n2)); [ring|]. rewrite T. ring.
  - transitivity (u0 * u0 + u1 * u1 + u2 * u2 - 4 * q * q + 4 * q ^ 2 * (n0 * n0 + n1 * n1 + n2 * n2)); [unfold q; ring|]. rewrite N. ring.
Qed.
Lemma double_cross n u : inner n n = 1 -> crossproduct n (crossproduct u n) = plus u (times (- inner u n) n).
Proof.
  destruct n as [[n0 n1] n2], u as [[u0 u1] u2]. unfold crossproduct, plus, times, inner. intros N. apply vec_eq.
  - transitivity (u0 * (n0 * n0 + n1 * n1 + n2 * n2) - (u0 * n0 + u1 * n1 + u2 * n2) * n0); [ring|]. rewrite N. ring.
  - transitivity (u1 * (n0 * n0 + n1 * n1 + n2 * n2) - (u0 * n0 + u1 * n1 + u2 * n2) * n1); [ring|]. rewrite N. ring.
  - transitivity (u2 * (n0 * n0 + n1 * n1 + n2 * n2) - (u0 * n0 + u1 * n1 + u2 * n2) * n2); [ring|]. rewrite N. ring.
Qed.
Lemma inner_tangent n u : inner n n = 1 -> inner u u = 1 -> let p := plus u (times (- inner u n) n) in inner p p = 1 - inner u n ^ 2 /\ inner p n = 0.
Proof.
  destruct n as [[n0 n1] n2], u as [[u0 u1] u2]. unfold plus, times. intros N U. set (q := inner (u0, u1, u2) (n0, n1, n2)). unfold inner in N, U |- *. split.
  - transitivity ((u0 * u0 + u1 * u1 + u2 * u2) - 2 * q * (u0 * n0 + u1 * n1 + u2 * n2) + q ^ 2 * (n0 * n0 + n1 * n1 + n2 * n2)); [ring|]. rewrite N, U. change (u0 * n0 + u1 * n1 + u2 * n2) with q. ring.
  - transitivity ((u0 * n0 + u1 * n1 + u2 * n2) - q * (n0 * n0 + n1 * n1 + n2 * n2)); [ring|]. rewrite N. change (u0 * n0 + u1 * n1 + u2 * n2) with q. ring.
Qed.
Lemma inner_times a u v : inner (times a u) v = a * inner u v.
Proof. destruct u as [[u0 u1] u2], v as [[v0 v1] v2]. unfold inner, times. ring. Qed.
Lemma inner_plus_l a b v : inner (plus a b) v = inner a v + inner b v.
Proof. destruct a as [[a0 a1] a2], b as [[b0 b1] b2], v as [[v0 v1] v2]. unfold inner, plus. ring. Qed.
Lemma inner_comm a b : inner a b = inner b a.
Proof. destruct a as [[a0 a1] a2], b as [[b0 b1] b2]. unfold inner. ring. Qed.

Lemma inner_combination a b p n : inner (plus (times a p) (times b n)) (plus (times a p) (times b n)) = a ^ 2 * inner p p + 2 * a * b * inner p n + b ^ 2 * inner n n.
Proof. destruct p as [[p0 p1] p2], n as [[n0 n1] n2]. unfold inner, plus, times. ring. Qed.

(** What [redirect] makes of a unit vector at a lens. *)
Lemma lens_law n1 n2 n u : n1 <> 0 -> n2 <> 0 -> inner n n = 1 -> inner u u = 1 ->
  let kpar := vscale (n1 / n2) (crossproduct n (crossproduct u n)) in
  let kperp2 := 1 - dotproduct kpar kpar in
  let u' := vadd kpar (vscale (np_sign (dotproduct n u) * sqrt kperp2) n) in
  (kperp2 <= 0 <-> n2 ^ 2 <= n1 ^ 2 * (1 - inner u n ^ 2)) /\ (0 < kperp2 -> inner u n <> 0 -> refracted n1 n2 n u u') /\
  (0 < kperp2 -> inner u n = 0 -> inner u' u' = (n1 / n2) ^ 2).
Proof.
  intros N1 N2 N U. cbv zeta. rewrite (dot_inner n u), (vscale_times _ n), vadd_plus, !vscale_times, !dot_inner, double_cross by assumption. destruct (inner_tangent n u N U) as [T1 T2].
  set (p := plus u (times (- inner u n) n)) in *. rewrite (inner_comm n u). set (q := inner u n) in *.
  assert (K : 1 - inner (times (n1 / n2) p) (times (n1 / n2) p) = 1 - (n1 / n2) ^ 2 * (1 - q ^ 2)).
  { rewrite inner_times, inner_comm, inner_times, T1. ring. }
  rewrite K. assert (P2 : 0 < n2 ^ 2) by (apply pow2_gt_0; assumption).
  assert (E : n2 ^ 2 * (1 - (n1 / n2) ^ 2 * (1 - q ^ 2)) = n2 ^ 2 - n1 ^ 2 * (1 - q ^ 2)) by (field; assumption).
  split; [|split].
  - split; intros H.
    + assert (n2 ^ 2 * (1 - (n1 / n2) ^ 2 * (1 - q ^ 2)) <= 0) by nra. lra.
    + apply Rnot_lt_le. intro H'. assert (0 < n2 ^ 2 * (1 - (n1 / n2) ^ 2 * (1 - q ^ 2))) by (apply Rmult_lt_0_compat; assumption). lra.
  - intros H Q. set (kp := 1 - (n1 / n2) ^ 2 * (1 - q ^ 2)) in *. pose proof (sqrt_lt_R0 _ H) as S. assert (S2 : sqrt kp * sqrt kp = kp) by (apply sqrt_sqrt; lra).
    set (sg := np_sign q). assert (G : sg * sg = 1 /\ 0 < q * sg). { unfold sg, np_sign. destruct (Rltb_spec' 0 q), (Rltb_spec' q 0); lra. } destruct G as [G1 G2].
    unfold refracted. split; [|split].
    + rewrite inner_combination, T1, T2, N. transitivity ((n1 / n2) ^ 2 * (1 - q ^ 2) + sg * sg * (sqrt kp * sqrt kp)); [ring|]. rewrite G1, S2. unfold kp. ring.
    + rewrite inner_plus_l, !inner_times, T2, N. fold q. replace (q * (n1 / n2 * 0 + sg * sqrt kp * 1)) with (q * sg * sqrt kp) by ring. now apply Rmult_lt_0_compat.
    + intros t T. rewrite inner_plus_l, !inner_times, (inner_comm n t), T. unfold p. rewrite inner_plus_l, inner_times, (inner_comm n t), T. field. assumption.
  - intros H Q. rewrite Q. replace (np_sign 0) with 0 by (unfold np_sign; destruct (Rltb_spec' 0 0); [lra|reflexivity]). rewrite Rmult_0_l.
    rewrite inner_combination, T1, Q. ring.
Qed.

(** The clear aperture. *)
Lemma spider_leg s x y z j : s_nspider s <> 0%Z -> (0 <= j)%Z ->
  spider_hit (1 / 2 * s_wspider s) (s_roll s) (degrees (atan2 y x)) (sqrt (x * x + y * y)) (s_nspider s) (Z.to_nat j) = true <->
  under_leg (s_wspider s) (s_roll s + IZR j * 360 / IZR (s_nspider s)) (x, y, z).
Proof.
  intros Nn Pj. unfold spider_hit, under_leg. rewrite INR_IZR_INZ, Z2Nat.id by assumption. set (phi := IZR j * 360 / IZR (s_nspider s) + s_roll s).
  replace (s_roll s + IZR j * 360 / IZR (s_nspider s)) with phi by (unfold phi; ring). replace (PI * phi / 180) with (radians phi) by (unfold radians, D2R; field).
  assert (E : radians (phi - degrees (atan2 y x)) = radians phi - atan2 y x) by (unfold radians, degrees; rewrite Rmult_minus_distr_l, rad_of_deg; reflexivity).
  rewrite E, sin_minus, cos_minus. replace (x * x + y * y) with (x ^ 2 + y ^ 2) by ring. fold (hyp x y). destruct (atan2_polar y x) as [X Y].
  replace (hyp x y * (sin (radians phi) * cos (atan2 y x) - cos (radians phi) * sin (atan2 y x))) with (hyp x y * cos (atan2 y x) * sin (radians phi) - hyp x y * sin (atan2 y x) * cos (radians phi)) by ring.
  replace (hyp x y * (cos (radians phi) * cos (atan2 y x) + sin (radians phi) * sin (atan2 y x))) with (hyp x y * cos (atan2 y x) * cos (radians phi) + hyp x y * sin (atan2 y x) * sin (radians phi)) by ring.
  rewrite <- X, <- Y. replace (1 / 2 * s_wspider s) with (s_wspider s / 2) by field. rewrite Bool.andb_true_iff.
  destruct (Rltb_spec' (Rabs (x * sin (radians phi) - y * cos (radians phi))) (s_wspider s / 2)), (Rltb_spec' 0 (x * cos (radians phi) + y * sin (radians phi))); intuition (discriminate || lra).
Qed.
Definition opening (s : surface) (p : vec) : Prop := open_at (s_odiam s) (s_idiam s) (s_nspider s) (s_wspider s) (s_roll s) p.
Lemma validate_open s r : validate s r = COk <-> opening s (r_pos r).
Proof.
  unfold validate, opening, open_at. destruct (r_pos r) as [[x y] z]. unfold axis2. replace (x ^ 2 + y ^ 2) with (x * x + y * y) by ring. set (rr := sqrt (x * x + y * y)).
  destruct (Rltb_spec' 0 (s_odiam s)) as [Po|Po], (Rltb_spec' (1 / 2 * s_odiam s) rr) as [Lo|Lo]; cbn [andb]; try (split; [discriminate|intros (H & _); specialize (H Po); lra]).
  all: destruct (Rltb_spec' rr (1 / 2 * s_idiam s)) as [Li|Li]; [split; [discriminate|intros (_ & H & _); lra]|].
  all: assert (W : (if (s_nspider s <? 1)%Z || Rleb (1 / 2 * s_wspider s) 0 then COk
    else if existsb (spider_hit (1 / 2 * s_wspider s) (s_roll s) (degrees (atan2 y x)) rr (s_nspider s)) (seq 0 (Z.to_nat (s_nspider s))) then CSpi else COk) = COk <->
    forall j, (0 <= j < s_nspider s)%Z -> ~ under_leg (s_wspider s) (s_roll s + IZR j * 360 / IZR (s_nspider s)) (x, y, z));
    [|rewrite W; split; [intros H; split; [intros; lra|split; [lra|exact H]]|intros (_ & _ & H); exact H]].
  all: destruct (Z.ltb_spec (s_nspider s) 1); cbn [orb]; [split; [intros _ j J; lia|reflexivity]|].
  all: destruct (Rleb_spec' (1 / 2 * s_wspider s) 0) as [Lw|Lw]; [split; [intros _ j J (H1 & _); pose proof (Rabs_pos (x * sin (PI * (s_roll s + IZR j * 360 / IZR (s_nspider s)) / 180) - y * cos (PI * (s_roll s + IZR j * 360 / IZR (s_nspider s)) / 180))); lra|reflexivity]|].
  all: destruct (existsb _ _) eqn:Ex; split; try discriminate; try reflexivity.
  - intros H'. exfalso. apply existsb_exists in Ex as (i & Hi & Hh). apply in_seq in Hi. apply (H' (Z.of_nat i)); [lia|]. apply (spider_leg s x y z); [lia|lia|]. rewrite Nat2Z.id. exact Hh.
  - intros _ j J U. apply (spider_leg s x y z) in U; [|lia|lia]. assert (E' : existsb (spider_hit (1 / 2 * s_wspider s) (s_roll s) (degrees (atan2 y x)) rr (s_nspider s)) (seq 0 (Z.to_nat (s_nspider s))) = true); [|congruence].
    apply existsb_exists. exists (Z.to_nat j). split; [apply in_seq; lia|exact U].
  - intros H'. exfalso. apply existsb_exists in Ex as (i & Hi & Hh). apply in_seq in Hi. apply (H' (Z.of_nat i)); [lia|]. apply (spider_leg s x y z); [lia|lia|]. rewrite Nat2Z.id. exact Hh.
  - intros _ j J U. apply (spider_leg s x y z) in U; [|lia|lia]. assert (E' : existsb (spider_hit (1 / 2 * s_wspider s) (s_roll s) (degrees (atan2 y x)) rr (s_nspider s)) (seq 0 (Z.to_nat (s_nspider s))) = true); [|congruence].
    apply existsb_exists. exists (Z.to_nat j). split; [apply in_seq; lia|exact U].
  - intros H'. exfalso. apply existsb_exists in Ex as (i & Hi & Hh). apply in_seq in Hi. apply (H' (Z.of_nat i)); [lia|]. apply (spider_leg s x y z); [lia|lia|]. rewrite Nat2Z.id. exact Hh.
  - intros _ j J U. apply (spider_leg s x y z) in U; [|lia|lia]. assert (E' : existsb (spider_hit (1 / 2 * s_wspider s) (s_roll s) (degrees (atan2 y x)) rr (s_nspider s)) (seq 0 (Z.to_nat (s_nspider s))) = true); [|congruence].
    apply existsb_exists. exists (Z.to_nat j). split; [apply in_seq; lia|exact U].
Qed.

(** Frames. *)
Lemma euler_rotation a b c : is_rotation (euler a b c).
Proof.
  unfold euler, is_rotation, inner. pose proof (sin2_cos2 (radians a)) as A. pose proof (sin2_cos2 (radians b)) as B. pose proof (sin2_cos2 (radians c)) as C. unfold Rsqr in *.
  set (ct := cos (radians a)) in *. set (st := sin (radians a)) in *. set (cp := cos (radians b)) in *. set (sp := sin (radians b)) in *. set (cr := cos (radians c)) in *. set (sr := sin (radians c)) in *.
  assert (A' : st * st = 1 - ct * ct) by lra. assert (B' : sp * sp = 1 - cp * cp) by lra. assert (C' : sr * sr = 1 - cr * cr) by lra. clearbody ct st cp sp cr sr.
  repeat split; ring [A' B' C'].
Qed.
Definition ray_in (m : mat) (v : vec) (r : ray) : ray := {| r_pos := plus (act m (r_pos r)) v; r_dir := act m (r_dir r) |}.
Lemma to_lab_act s r : to_lab s r = ray_in (s_euler s) (s_vertex s) r.
Proof. unfold to_lab, ray_in. destruct (s_euler s) as [[[[e1 e2] e3] [[e4 e5] e6]] [[e7 e8] e9]], (s_vertex s) as [[ox oy] oz], r as [[[x y] z] [[u v] w]]. cbn [r_pos r_dir act plus]. unfold inner. apply ray_eq; apply vec_eq; ring. Qed.
Lemma to_local_act s r : to_local s r = {| r_pos := act (transposed (s_euler s)) (plus (r_pos r) (times (-1) (s_vertex s))); r_dir := act (transposed (s_euler s)) (r_dir r) |}.
Proof. unfold to_local. destruct (s_euler s) as [[[[e1 e2] e3] [[e4 e5] e6]] [[e7 e8] e9]], (s_vertex s) as [[ox oy] oz], r as [[[x y] z] [[u v] w]]. cbn [r_pos r_dir act plus transposed times]. unfold inner. apply ray_eq; apply vec_eq; ring. Qed.
Lemma lab_local s r : is_rotation (s_euler s) -> to_lab s (to_local s r) = r.
Proof.
  intros H. rewrite to_lab_act, to_local_act. unfold ray_in. cbn [r_pos r_dir]. rewrite !inverse_rotation by assumption. destruct r as [[[x y] z] d], (s_vertex s) as [[ox oy] oz]. cbn [r_pos r_dir plus times]. apply ray_eq; [|reflexivity]. apply vec_eq; ring.
Qed.
Lemma local_lab s r : is_rotation (s_euler s) -> to_local s (to_lab s r) = r.
Proof.
  intros H. rewrite to_lab_act, to_local_act. unfold ray_in. cbn [r_pos r_dir]. destruct r as [p d]. cbn [r_pos r_dir]. f_equal; [|now apply rotation_inverse].
  replace (plus (plus (act (s_euler s) p) (s_vertex s)) (times (-1) (s_vertex s))) with (act (s_euler s) p); [now apply rotation_inverse|].
  destruct (act (s_euler s) p) as [[a b] c], (s_vertex s) as [[ox oy] oz]. cbn [plus times]. apply vec_eq; ring.
Qed.
Lemma act_along m p u d : act m (along p u d) = along (act m p) (act m u) d.
Proof. destruct m as [[[[e1 e2] e3] [[e4 e5] e6]] [[e7 e8] e9]], p as [[x y] z], u as [[a b] c]. unfold along, plus, times, act, inner. apply vec_eq; ring. Qed.
Lemma to_lab_along s r p d : r_pos p = along (r_pos r) (r_dir r) d -> r_pos (to_lab s p) = along (r_pos (to_lab s r)) (r_dir (to_lab s r)) d.
Proof.
  intros E. rewrite !to_lab_act. unfold ray_in. cbn [r_pos r_dir]. rewrite E, act_along.
  destruct (act (s_euler s) (r_pos r)) as [[x y] z], (act (s_euler s) (r_dir r)) as [[a b] c], (s_vertex s) as [[ox oy] oz]. unfold along, plus, times. apply vec_eq; ring.
Qed.

(** Rays through the list of surfaces. *)
Lemma code_ok (c : code) : is_ok c = true -> c = COk.
Proof. destruct c; (reflexivity || discriminate). Qed.
Definition next_glass (surfs : list surface) (j : nat) : option glass := option_map s_glass (nth_error surfs (S j)).
Lemma run_ray_path m wave surfs : forall prev rows c, run_ray m wave surfs prev = Ok (rows, c) ->
  (length rows <= length surfs)%nat /\ (c = COk <-> length rows = length surfs) /\
  forall j s before here, nth_error surfs j = Some s -> nth_error (prev :: rows) j = Some before -> nth_error rows j = Some here ->
  r_lab here = to_lab s (r_loc here) /\
  if is_cbout s then r_loc here = r_loc before else encounter m wave s (next_glass surfs j) (to_local s (r_lab before)) = Ok (COk, r_loc here).
Proof.
  induction surfs as [|s rest IH]; intros prev rows c H; cbn [run_ray] in H.
  - injection H as <- <-. split; [cbn; lia|]. split; [split; reflexivity|]. intros [|j]; discriminate.
  - destruct (is_cbout s) eqn:Ec.
    + cbv zeta in H. set (here := {| r_lab := to_lab s (r_loc prev); r_loc := r_loc prev |}) in *. destruct (run_ray m wave rest here) as [[rows' c']|e] eqn:E; [|discriminate]. cbn in H. injection H as <- <-.
      destruct (IH _ _ _ E) as (L & I & F). cbn [length]. split; [lia|]. split; [rewrite I; split; lia|]. intros [|j] s' b h H1 H2 H3; cbn [nth_error] in H1, H2, H3.
      * injection H1 as <-. injection H2 as <-. injection H3 as <-. rewrite Ec. split; reflexivity.
      * eapply F; eassumption.
    + destruct (encounter m wave s _ _) as [[c1 r1]|e] eqn:E1; [|discriminate]. cbn [rbind] in H. destruct (is_ok c1) eqn:Ok1.
      * apply code_ok in Ok1. subst c1. cbv zeta in H. set (here := {| r_lab := to_lab s r1; r_loc := r1 |}) in *. destruct (run_ray m wave rest here) as [[rows' c']|e] eqn:E; [|discriminate]. cbn in H. injection H as <- <-.
        destruct (IH _ _ _ E) as (L & I & F). cbn [length]. split; [lia|]. split; [rewrite I; split; lia|]. intros [|j] s' b h H1 H2 H3; cbn [nth_error] in H1, H2, H3.
        -- injection H1 as <-. injection H2 as <-. injection H3 as <-. rewrite Ec. split; [reflexivity|]. unfold next_glass. cbn [nth_error]. replace (nth_error rest 0) with (hd_error rest) by (destruct rest; reflexivity). exact E1.
        -- eapply F; eassumption.
      * injection H as <- <-. cbn [length]. split; [lia|]. split; [split; [intros ->; discriminate|lia]|]. intros [|j] ? ? ? _ _ ?; discriminate.
Qed.

Lemma conic_intercept_line s r c r' : conic_intercept s r = (c, r') -> exists d, r' = advance d r.
Proof.
  assert (Z0 : r = advance 0 r) by (destruct r as [[[x y] z] [[u v] w]]; unfold advance; cbn [r_pos r_dir]; apply ray_eq; [apply vec_eq; ring|reflexivity]).
  unfold conic_intercept. destruct r as [[[x y] z] [[u v] w]]. cbn [r_pos r_dir]. destruct (both_roots _ _ _) as [r1 r2].
  destruct (_ && _)%bool; [intros H; injection H as _ <-; eauto|]. cbv zeta. match goal with |- context [Rleb ?d 0] => set (dd := d) end. destruct (Rleb dd 0); intros H; injection H as _ <-; eauto.
Qed.
Lemma advance_advance a b r : advance a (advance b r) = advance (b + a) r.
Proof. destruct r as [[[x y] z] [[u v] w]]. unfold advance. cbn [r_pos r_dir]. apply ray_eq; [apply vec_eq; ring|reflexivity]. Qed.
Lemma intercept_line s r c r' : intercept s r = Ok (c, r') -> exists d, r' = advance d r.
Proof.
  unfold intercept, higher_intercept. destruct (conic_intercept s r) as [c1 r1] eqn:E1. destruct (conic_intercept_line _ _ _ _ E1) as [d1 D1].
  destruct (s_poly s); [|intros H; injection H as _ <-; eauto]. destruct (is_ok c1); [|intros H; injection H as _ <-; eauto].
  destruct (newton s r1 8 0) as [[c2 d2]|e]; [|discriminate]. cbn [rmap]. intros H. destruct (is_ok c2); injection H as _ <-; [|eauto]. subst r1. rewrite advance_advance. eauto.
Qed.
Lemma redirect_pos m wave s next r c r' : redirect m wave s next r = Ok (c, r') -> r_pos r' = r_pos r.
Proof.
  unfold redirect. destruct next; [|intros H; injection H as _ <-; reflexivity]. destruct (s_action s); try (intros H; injection H as _ <-; reflexivity).
  destruct (find_refraction m wave (s_glass s)); [|discriminate]. destruct (find_refraction m wave g); [|discriminate]. cbn [rbind]. cbv zeta. destruct (Rleb _ 0); intros H; injection H as _ <-; reflexivity.
Qed.
Lemma encounter_parts m wave s next r r' : encounter m wave s next r = Ok (COk, r') ->
  exists r1, intercept s r = Ok (COk, r1) /\ opening s (r_pos r1) /\ redirect m wave s next r1 = Ok (COk, r').
Proof.
  unfold encounter. destruct (intercept s r) as [[c r1]|e]; [|discriminate]. cbn [rbind]. destruct (is_ok c) eqn:Ec; [|intros H; injection H as -> <-; discriminate]. apply code_ok in Ec. subst c. cbv zeta.
  destruct (is_ok (validate s r1)) eqn:Ev; [|intros H; injection H as H _; rewrite H in Ev; discriminate]. apply code_ok in Ev. intros H. exists r1. split; [reflexivity|]. split; [now apply validate_open|assumption].
Qed.

(** The laws in another frame. *)
Lemma reflected_in m n u u' : is_rotation m -> reflected n u u' -> reflected (act m n) (act m u) (act m u').
Proof.
  intros M [H1 H2]. split; [rewrite !rotation_inner by assumption; exact H1|]. intros t T. rewrite <- (inverse_rotation m t M) in T |- *. rewrite !rotation_inner in * by assumption. now apply H2.
Qed.
Lemma refracted_in m n1 n2 n u u' : is_rotation m -> refracted n1 n2 n u u' -> refracted n1 n2 (act m n) (act m u) (act m u').
Proof.
  intros M (H1 & H2 & H3). split; [|split]; [rewrite rotation_inner by assumption; exact H1|rewrite !rotation_inner by assumption; exact H2|].
  intros t T. rewrite <- (inverse_rotation m t M) in T |- *. rewrite !rotation_inner in * by assumption. now apply H3.
Qed.
Lemma act_times m k u : act m (times k u) = times k (act m u).
Proof. destruct m as [[[[e1 e2] e3] [[e4 e5] e6]] [[e7 e8] e9]], u as [[a b] c]. unfold times, act, inner. apply vec_eq; ring. Qed.

(** On a conic, a ray hitting it transversally. *)
Lemma conic_transversal s r u : s_poly s = false -> on_conic (s_curve s) (s_asph s) (r_pos r) -> inner u (get_normal s r) = 0 -> tangential (s_curve s) (s_asph s) (r_pos r) u.
Proof.
  intros Np O. unfold get_normal, grad_total, grad_conic. rewrite Np. destruct (r_pos r) as [[x y] z], u as [[a b] d]. set (c := s_curve s) in *. set (k := s_asph s) in *.
  pose proof (proj1 (on_conic_iff _ _ _ _ _) O) as [F L]. destruct O as [P _]. cbn [axis2] in P. set (q := 1 - (k + 1) * c * z). assert (Pq : 0 < q) by (unfold q; lra).
  assert (Eq : 1 - (k + 1) * c ^ 2 * (x * x + y * y) = q ^ 2). { unfold q. transitivity (1 - (k + 1) * c * (c * (x * x + y * y + (k + 1) * z * z) - 2 * z) - 2 * ((k + 1) * c * z) + ((k + 1) * c * z) ^ 2); [ring|]. rewrite F. ring. }
  assert (G : (if Reqb c 0 then (0, 0) else if Rleb (1 - (k + 1) * c ^ 2 * (x * x + y * y)) 0 then (0, 0) else (x * (c / sqrt (1 - (k + 1) * c ^ 2 * (x * x + y * y))), y * (c / sqrt (1 - (k + 1) * c ^ 2 * (x * x + y * y))))) = (x * (c / q), y * (c / q))).
  { rewrite Eq, sqrt_pow2 by lra. destruct (Reqb_spec' c 0) as [->|]; [f_equal; unfold Rdiv; ring|]. destruct (Rleb_spec' (q ^ 2) 0); [|reflexivity]. assert (0 < q ^ 2) by (apply pow2_gt_0; lra). lra. }
  cbv zeta. rewrite G. destruct (normalize_unit (x * (c / q)) (y * (c / q))) as (l & Pl & -> & _). rewrite inner_comm, inner_times. intros H. apply Rmult_integral in H as [H|H]; [lra|].
  unfold tangential, inner in *. replace (1 + k) with (k + 1) by ring. assert (E : c * (k + 1) * z - 1 = - q) by (unfold q; ring). rewrite E.
  transitivity (- q * (- (x * (c / q)) * a + - (y * (c / q)) * b + 1 * d)); [field; lra|]. rewrite H. ring.
Qed.

(** Newton iterations on surfaces with polynomial terms. *)
Lemma gap_above s r d : s_poly s = true -> surface_gap s r d =
  (above (s_curve s) (s_asph s) (s_coefs s) (r_pos r) (r_dir r) d,
   let '(x, y, _) := along (r_pos r) (r_dir r) d in if Rle_dec 0 (1 - (1 + s_asph s) * s_curve s ^ 2 * (x ^ 2 + y ^ 2)) then COk else CMiss).
Proof.
  intros Np. destruct (advance_along d r) as [A1 A2]. unfold surface_gap, zconic, zpoly, above. rewrite A1. destruct r as [[[x0 y0] z0] [[u v] w]]. cbn [r_pos r_dir along plus times] in *. unfold along. cbn [plus times].
  set (x := x0 + d * u). set (y := y0 + d * v). set (c := s_curve s). set (k := s_asph s). cbv zeta. replace (1 - (k + 1) * c * c * (x * x + y * y)) with (1 - (1 + k) * c ^ 2 * (x ^ 2 + y ^ 2)) by ring. replace (x * x + y * y) with (x ^ 2 + y ^ 2) by ring.
  destruct (Rltb_spec' (1 - (1 + k) * c ^ 2 * (x ^ 2 + y ^ 2)) 0), (Rle_dec 0 (1 - (1 + k) * c ^ 2 * (x ^ 2 + y ^ 2))); cbn [is_ok]; try (exfalso; lra); [reflexivity|]. f_equal. unfold sag, conic_z. rewrite poly_loop_radial. ring.
Qed.
Lemma newton_points s r : s_poly s = true -> let F := above (s_curve s) (s_asph s) (s_coefs s) (r_pos r) (r_dir r) in
  let inside d := let '(x, y, _) := along (r_pos r) (r_dir r) d in 0 <= 1 - (1 + s_asph s) * s_curve s ^ 2 * (x ^ 2 + y ^ 2) in
  forall n j c d, (forall i, (i < j)%nat -> inside (newton_point F 0.00001 i) /\ 1e-12 <= Rabs (F (newton_point F 0.00001 i))) -> newton s r n (newton_point F 0.00001 j) = Ok (c, d) ->
  exists k, (j <= k <= j + n)%nat /\ (forall i, (i < k)%nat -> inside (newton_point F 0.00001 i) /\ 1e-12 <= Rabs (F (newton_point F 0.00001 i))) /\
    ((c = COk /\ inside (newton_point F 0.00001 k) /\ (Rabs (F (newton_point F 0.00001 k)) < 1e-12 \/ k = (j + n)%nat) /\ d = newton_point F 0.00001 (S k)) \/
     (c = CMiss /\ ~ inside (newton_point F 0.00001 k))).
Proof.
  intros Np F inside. induction n as [|n IH]; intros j c d P H; cbn [newton] in H; rewrite gap_above in H by assumption; fold F in H.
  all: set (x := newton_point F 0.00001 j) in *; assert (I : inside x <-> is_ok (let '(x, y, _) := along (r_pos r) (r_dir r) x in if Rle_dec 0 (1 - (1 + s_asph s) * s_curve s ^ 2 * (x ^ 2 + y ^ 2)) then COk else CMiss) = true)
    by (unfold inside; destruct (along (r_pos r) (r_dir r) x) as [[a b] e]; destruct (Rle_dec _ _); cbn [is_ok]; split; intros; try discriminate; try reflexivity; try assumption; contradiction).
  all: assert (St : gap_slope s r x = (F (x + 0.00001) - F (x - 0.00001)) / (2 * 0.00001)) by (unfold gap_slope; rewrite !gap_above by assumption; reflexivity).
  all: match type of H with (if is_ok ?q then _ else _) = _ => assert (Q : q = COk \/ q = CMiss) by (destruct (along (r_pos r) (r_dir r) x) as [[a b] e]; destruct (Rle_dec _ _); auto); destruct (is_ok q) eqn:E end.
  - cbv zeta in H. destruct (Reqb _ 0); [discriminate|]. assert (H' : Ok (COk, x - F x / gap_slope s r x) = Ok (c, d)) by (destruct (Rltb (Rabs (F x)) 1e-12); exact H). injection H' as <- <-.
    exists j. split; [lia|]. split; [exact P|]. left. split; [reflexivity|]. split; [now apply I|]. split; [right; lia|]. cbn [newton_point]. fold x. cbv zeta. now rewrite <- St.
  - exists j. split; [lia|]. split; [exact P|]. right. destruct Q as [Q|Q]; rewrite Q in H, E; [discriminate|]. injection H as <- <-. split; [reflexivity|]. intro K. apply I in K. discriminate K.
  - cbv zeta in H. destruct (Reqb _ 0); [discriminate|]. destruct (Rltb_spec' (Rabs (F x)) 1e-12) as [L|L].
    + injection H as <- <-. exists j. split; [lia|]. split; [exact P|]. left. split; [reflexivity|]. split; [now apply I|]. split; [left; exact L|]. cbn [newton_point]. fold x. cbv zeta. now rewrite <- St.
    + destruct (IH (S j) c d) as (k & K1 & K2 & K3).
      * intros i Hi. destruct (Nat.eq_dec i j) as [->|]; [|apply P; lia]. split; [now apply I|]. now apply Rnot_lt_le.
      * cbn [newton_point]. fold x. cbv zeta. rewrite <- St. exact H.
      * exists k. split; [lia|]. split; [exact K2|]. replace (j + S n)%nat with (S j + n)%nat by lia. exact K3.
  - exists j. split; [lia|]. split; [exact P|]. right. destruct Q as [Q|Q]; rewrite Q in H, E; [discriminate|]. injection H as <- <-. split; [reflexivity|]. intro K. apply I in K. discriminate K.
Qed.
