(** C98-C102: the ray tracer behind the table of RayTraceFit (RT185v2.py). *)
From Coq Require Import Lra Psatz.
From Coquelicot Require Import Coquelicot.
From Verif.Model Require Import RayTrace.
From Verif.Proofs Require Import RealNum Trig Sphere RayTrace RayTraceTurn.
From Verif.Spec Require Import Sphere RayTrace.
Local Open Scope R_scope.

(** C98. A conic surface stops a ray at the first point, ahead of its start, where the ray meets the sheet of the conic
    through the vertex. If the ray is reported to miss, or to have the surface behind, there is no such point, except
    points where the ray only touches. Proviso: the start is not one where the ray is parallel to the conic of the same
    family through it (see the refutations). *)
Theorem C98_intercept s r c r' : s_poly s = false -> ~ tangential (s_curve s) (s_asph s) (r_pos r) (r_dir r) ->
  intercept s r = Ok (c, r') ->
  let on d := on_conic (s_curve s) (s_asph s) (along (r_pos r) (r_dir r) d) in
  (c = COk /\ exists d, 0 < d /\ on d /\ r_pos r' = along (r_pos r) (r_dir r) d /\ r_dir r' = r_dir r /\ forall d', 0 < d' < d -> ~ on d') \/
  ((c = CBack \/ c = CMiss) /\ r' = r /\ forall d, 0 < d -> on d -> tangential (s_curve s) (s_asph s) (along (r_pos r) (r_dir r) d) (r_dir r)).
Proof.
  intros Np Nt H. unfold intercept in H. rewrite Np in H. injection H as H. pose proof (intercept_first s r Nt) as F. cbv zeta in F |- *. rewrite H in F. destruct c; try contradiction; [left|right|right]; auto.
Qed.
Print Assumptions C98_intercept.

(** The paraboloid z = r^2/2 seen from (1, 0, 3), looking down: it is met at (1, 0, 1/2). *)
Definition plain (a : action) (c k : R) : surface :=
  {| s_glass := GBlank; s_action := a; s_odiam := 0; s_idiam := 0; s_curve := c; s_asph := k; s_vertex := (0, 0, 0); s_tilt := 0; s_pitch := 0; s_roll := 0;
     s_coefs := []; s_poly := false; s_nspider := 0; s_wspider := 0; s_euler := euler 0 0 0 |}.
Example C98_example : let s := plain AMirror 1 (-1) in let r := {| r_pos := (1, 0, 3); r_dir := (0, 0, -1) |} in
  ~ tangential (s_curve s) (s_asph s) (r_pos r) (r_dir r) /\ exists r', intercept s r = Ok (COk, r') /\ r_pos r' = (1, 0, 1 / 2).
Proof.
  cbv zeta. split; [unfold tangential, inner; cbn; lra|]. exists (advance (5 / 2) {| r_pos := (1, 0, 3); r_dir := (0, 0, -1) |}).
  split; [|unfold advance; cbn [r_pos r_dir]; apply vec_eq; lra]. unfold intercept, conic_intercept. cbn [s_poly plain r_pos r_dir s_asph s_curve].
  replace (1 * (0 * 0 + 0 * 0 + (-1 + 1) * -1 * -1)) with 0 by ring. replace (2 * 1 * (1 * 0 + 0 * 0 + (-1 + 1) * 3 * -1) - 2 * -1) with 2 by ring. replace (1 * (1 * 1 + 0 * 0 + (-1 + 1) * 3 * 3) - 2 * 3) with (-5) by ring.
  unfold both_roots. destruct (Reqb_spec' 0 0); [|lra]. destruct (Reqb_spec' 2 0); [lra|]. cbn [andb negb]. replace (- -5 / 2) with (5 / 2) by lra.
  rewrite Rmin_right, Rmax_left by lra. destruct (Rleb_spec' (5 / 2) 0); [lra|]. cbn [andb]. destruct (Rltb_spec' 0 0); [lra|]. rewrite Bool.andb_false_r. destruct (Rltb_spec' 0 (5 / 2)); [|lra].
  destruct (Rltb_spec' ((-1 + 1) * 1 * (3 + -1 * (5 / 2))) 1); [|lra]. cbn [andb]. destruct (Rleb_spec' (5 / 2) 0); [lra|]. reflexivity.
Qed.

(** Without the proviso it is false: [getBothRoots] solves A d^2 + C = 0 with the wrong sign. A ray from the centre of
    curvature of a sphere is said to miss it, although it meets it at distance 1. *)
Theorem C98_centre_refuted : exists s r, s_poly s = false /\ intercept s r = Ok (CMiss, r) /\
  on_conic (s_curve s) (s_asph s) (along (r_pos r) (r_dir r) 1) /\ ~ tangential (s_curve s) (s_asph s) (along (r_pos r) (r_dir r) 1) (r_dir r).
Proof.
  exists (plain AMirror 1 0), {| r_pos := (0, 0, 1); r_dir := (0, 0, -1) |}. split; [reflexivity|]. split; [|split].
  - unfold intercept, conic_intercept. cbn [s_poly plain r_pos r_dir s_asph s_curve].
    replace (1 * (0 * 0 + 0 * 0 + (0 + 1) * -1 * -1)) with 1 by ring. replace (2 * 1 * (0 * 0 + 0 * 0 + (0 + 1) * 1 * -1) - 2 * -1) with 0 by ring. replace (1 * (0 * 0 + 0 * 0 + (0 + 1) * 1 * 1) - 2 * 1) with (-1) by ring.
    unfold both_roots. destruct (Reqb_spec' 1 0); [lra|]. destruct (Reqb_spec' 0 0); [|lra]. cbn [andb negb]. destruct (Rltb_spec' 0 (-1 / 1)); [lra|]. rewrite Rmin_left, Rmax_left by lra.
    destruct (Rleb_spec' 0 0); [|lra]. destruct (Rltb_spec' 0 0); [lra|]. cbn [andb]. rewrite !Bool.andb_false_r. destruct (Rleb_spec' 0 0); [reflexivity|lra].
  - cbn [plain s_curve s_asph r_pos r_dir along plus times]. apply on_conic_iff. lra.
  - cbn. lra.
Qed.
Print Assumptions C98_centre_refuted.
(** ... and a ray passing beside the sphere is given an intercept, which is not on it. *)
Theorem C98_beside_refuted : exists s r r', s_poly s = false /\ intercept s r = Ok (COk, r') /\
  ~ on_conic (s_curve s) (s_asph s) (r_pos r') /\ forall d, ~ on_conic (s_curve s) (s_asph s) (along (r_pos r) (r_dir r) d).
Proof.
  assert (N : forall z, ~ on_conic 1 0 (2, 0, z)) by (intros z [H _]; cbn in H; lra).
  set (r := {| r_pos := (2, 0, 1); r_dir := (0, 0, -1) |}). exists (plain AMirror 1 0), r, (advance (sqrt 3) r). split; [reflexivity|]. split; [|split].
  - unfold intercept, conic_intercept. cbn [s_poly plain r r_pos r_dir s_asph s_curve].
    replace (1 * (0 * 0 + 0 * 0 + (0 + 1) * -1 * -1)) with 1 by ring. replace (2 * 1 * (2 * 0 + 0 * 0 + (0 + 1) * 1 * -1) - 2 * -1) with 0 by ring. replace (1 * (2 * 2 + 0 * 0 + (0 + 1) * 1 * 1) - 2 * 1) with 3 by ring.
    unfold both_roots. destruct (Reqb_spec' 1 0); [lra|]. destruct (Reqb_spec' 0 0); [|lra]. cbn [andb negb]. replace (3 / 1) with 3 by lra. destruct (Rltb_spec' 0 3); [|lra]. assert (P : 0 < sqrt 3) by (apply sqrt_lt_R0; lra). rewrite Rmin_right, Rmax_left by lra.
    destruct (Rleb_spec' (sqrt 3) 0); [lra|]. cbn [andb]. destruct (Rltb_spec' 0 (- sqrt 3)); [lra|]. rewrite Bool.andb_false_r. destruct (Rltb_spec' 0 (sqrt 3)); [|lra].
    destruct (Rltb_spec' ((0 + 1) * 1 * (1 + -1 * sqrt 3)) 1); [|lra]. cbn [andb]. destruct (Rleb_spec' (sqrt 3) 0); [lra|]. reflexivity.
  - cbn [plain s_curve s_asph advance r r_pos r_dir]. replace (2 + sqrt 3 * 0) with 2 by ring. replace (0 + sqrt 3 * 0) with 0 by ring. apply N.
  - intros d. cbn [plain s_curve s_asph r r_pos r_dir along plus times]. replace (2 + d * 0) with 2 by ring. replace (0 + d * 0) with 0 by ring. apply N.
Qed.
Print Assumptions C98_beside_refuted.

(** Whatever the surface, polynomial terms included, the point accepted or kept is on the ray. *)
Theorem C98_on_ray s r c r' : intercept s r = Ok (c, r') -> exists d, r_pos r' = along (r_pos r) (r_dir r) d /\ r_dir r' = r_dir r.
Proof. intros H. destruct (intercept_line _ _ _ _ H) as [d ->]. exists d. apply advance_along. Qed.
Print Assumptions C98_on_ray.

(** The aperture: a point passes exactly if it is in the annulus and under none of the legs of the spider. *)
Theorem C98_aperture s r : validate s r = COk <-> open_at (s_odiam s) (s_idiam s) (s_nspider s) (s_wspider s) (s_roll s) (r_pos r).
Proof. apply validate_open. Qed.
Print Assumptions C98_aperture.
Theorem C98_blocked s r : let rr := sqrt (axis2 (r_pos r)) in
  match validate s r with
  | COk => True
  | COdiam => 0 < s_odiam s /\ s_odiam s / 2 < rr
  | CIdiam => rr < s_idiam s / 2
  | CSpi => exists j, (0 <= j < s_nspider s)%Z /\ under_leg (s_wspider s) (s_roll s + IZR j * 360 / IZR (s_nspider s)) (r_pos r)
  | _ => False
  end.
Proof.
  cbv zeta. unfold validate. destruct (r_pos r) as [[x y] z]. unfold axis2. replace (x ^ 2 + y ^ 2) with (x * x + y * y) by ring. set (rr := sqrt (x * x + y * y)).
  destruct (Rltb_spec' 0 (s_odiam s)) as [Po|Po], (Rltb_spec' (1 / 2 * s_odiam s) rr) as [Lo|Lo]; cbn [andb]; try lra.
  all: destruct (Rltb_spec' rr (1 / 2 * s_idiam s)) as [Li|Li]; [lra|]; destruct (Z.ltb_spec (s_nspider s) 1); cbn [orb]; [exact I|].
  all: destruct (Rleb_spec' (1 / 2 * s_wspider s) 0); [exact I|]; destruct (existsb _ _) eqn:Ex; [|exact I].
  all: apply existsb_exists in Ex as (i & Hi & Hh); apply in_seq in Hi; exists (Z.of_nat i); split; [lia|]; apply (spider_leg s x y z); [lia|lia|]; rewrite Nat2Z.id; exact Hh.
Qed.
Print Assumptions C98_blocked.

(** A surface with polynomial terms: from the intercept of its conic the ray is moved by Newton's method for the height of the
    whole surface above the ray; the reported point is the one after the first iterate less than 1e-12 from the surface, or
    the ninth. If an iterate is beyond the rim of the conic, MISS is reported. *)
Theorem C98_polynomial s conic r c r' : s_poly s = true -> s_poly conic = false -> s_curve conic = s_curve s -> s_asph conic = s_asph s -> intercept s r = Ok (c, r') ->
  exists c0 r0, intercept conic r = Ok (c0, r0) /\
  (c0 <> COk -> c = c0 /\ r' = r0) /\
  (c0 = COk -> let x := newton_point (above (s_curve s) (s_asph s) (s_coefs s) (r_pos r0) (r_dir r0)) 0.00001 in let gap d := above (s_curve s) (s_asph s) (s_coefs s) (r_pos r0) (r_dir r0) d in
   let inside d := 0 <= 1 - (1 + s_asph s) * s_curve s ^ 2 * axis2 (along (r_pos r0) (r_dir r0) d) in
   exists k, (k <= 8)%nat /\ (forall i, (i < k)%nat -> inside (x i) /\ 1e-12 <= Rabs (gap (x i))) /\
     ((c = COk /\ inside (x k) /\ (Rabs (gap (x k)) < 1e-12 \/ k = 8%nat) /\ r_pos r' = along (r_pos r0) (r_dir r0) (x (S k)) /\ r_dir r' = r_dir r) \/
      (c = CMiss /\ ~ inside (x k) /\ r' = r0))).
Proof.
  intros Np Nc E1 E2 H. unfold intercept in *. rewrite Np in H. rewrite Nc. unfold higher_intercept in H. assert (CI : conic_intercept conic r = conic_intercept s r) by (unfold conic_intercept; now rewrite E1, E2).
  rewrite CI. destruct (conic_intercept s r) as [c0 r0] eqn:C. exists c0, r0. split; [reflexivity|]. destruct (is_ok c0) eqn:K.
  - assert (c0 = COk) by (destruct c0; try discriminate; reflexivity). subst c0. split; [congruence|]. intros _. cbv zeta. destruct (newton s r0 8 0) as [[c1 d]|e] eqn:N; [|discriminate]. cbn [rmap] in H.
    destruct (newton_points s r0 Np 8 0 c1 d) as (k & K1 & K2 & K3); [intros i Hi; lia|exact N|]. cbv zeta in K2, K3.
    assert (IN : forall x, (let '(x0, y, _) := along (r_pos r0) (r_dir r0) x in 0 <= 1 - (1 + s_asph s) * s_curve s ^ 2 * (x0 ^ 2 + y ^ 2)) <-> 0 <= 1 - (1 + s_asph s) * s_curve s ^ 2 * axis2 (along (r_pos r0) (r_dir r0) x)) by (intros x; destruct (along (r_pos r0) (r_dir r0) x) as [[? ?] ?]; reflexivity).
    exists k. split; [lia|]. split; [intros i Hi; rewrite <- IN; now apply K2|]. destruct K3 as [(-> & I & L & D)|(-> & I)]; cbn [is_ok] in H; injection H as <- <-.
    + left. split; [reflexivity|]. split; [now apply IN|]. split; [destruct L; [left; assumption|right; lia]|]. destruct (advance_along d r0) as [A1 A2]. rewrite D in A1, A2. rewrite D. split; [exact A1|]. rewrite A2. pose proof (C98_on_ray conic r COk r0) as O. unfold intercept in O. rewrite Nc, CI in O. destruct (O eq_refl) as (_ & _ & Q). exact Q.
    + right. split; [reflexivity|]. split; [now rewrite <- IN|reflexivity].
  - split; [intros _; injection H as <- <-; split; reflexivity|]. intros ->. discriminate.
Qed.
Print Assumptions C98_polynomial.

(** C99. At a point where the surface has a tangent plane, a unit direction is changed according to the laws of
    reflection and refraction for the geometrical normal of the surface; total reflection is reported exactly
    when Snell's law has no solution; indices come from the glass before and after the surface. *)
Theorem C99_redirect m wave s g r : let '(x, y, _) := r_pos r in let u := r_dir r in
  let coefs := if s_poly s then s_coefs s else [] in
  smooth_at (s_curve s) (s_asph s) coefs (r_pos r) -> inner u u = 1 ->
  exists n, unit_normal (sag (s_curve s) (s_asph s) coefs) x y n /\
  match s_action s with
  | AMirror => exists u', redirect m wave s (Some g) r = Ok (COk, {| r_pos := r_pos r; r_dir := u' |}) /\ reflected n u u' /\ inner u' u' = 1
  | ALens => forall n1 n2, find_refraction m wave (s_glass s) = Ok n1 -> find_refraction m wave g = Ok n2 -> n1 <> 0 -> n2 <> 0 ->
      (n2 ^ 2 <= n1 ^ 2 * (1 - inner u n ^ 2) /\ redirect m wave s (Some g) r = Ok (CTir, r)) \/
      (n1 ^ 2 * (1 - inner u n ^ 2) < n2 ^ 2 /\
       exists u', redirect m wave s (Some g) r = Ok (COk, {| r_pos := r_pos r; r_dir := u' |}) /\ (inner u n <> 0 -> refracted n1 n2 n u u'))
  | ARetro => redirect m wave s (Some g) r = Ok (COk, {| r_pos := r_pos r; r_dir := times (-1) u |})
  | _ => redirect m wave s (Some g) r = Ok (COk, r)
  end.
Proof.
  pose proof (normal_ok s r) as N. destruct (r_pos r) as [[x y] z] eqn:Ep. cbv zeta. fold (coefs_of s). intros [P Q] U. specialize (N P Q). exists (get_normal s r). split; [exact N|].
  assert (N1 : inner (get_normal s r) (get_normal s r) = 1) by (destruct N as (? & ? & ? & _ & _ & _ & _ & N); exact N). set (n := get_normal s r) in *.
  unfold redirect. rewrite Ep. fold n. destruct (s_action s) eqn:Ea; try reflexivity.
  - intros n1 n2 E1 E2 Z1 Z2. rewrite E1, E2. cbn [rbind]. cbv zeta. assert (O : forall a, a <> 0 -> or_one a = a) by (intros a H; unfold or_one; destruct (Reqb_spec' a 0); [contradiction|reflexivity]).
    rewrite !O by assumption. destruct (lens_law n1 n2 n (r_dir r) Z1 Z2 N1 U) as (T & L & _). cbv zeta in T, L.
    match goal with |- context [Rleb ?k 0] => destruct (Rleb_spec' k 0) as [B|B] end.
    + left. split; [now apply T|reflexivity].
    + right. split; [apply Rnot_le_lt; intro C; apply B, T, C|]. eexists. split; [reflexivity|]. apply L. now apply Rnot_le_lt.
  - destruct (mirror_law n (r_dir r) N1) as [M1 M2]. eexists. split; [reflexivity|]. split; [exact M1|]. cbv zeta in M2. rewrite M2. exact U.
Qed.
Print Assumptions C99_redirect.
(** The last surface does not change the direction, and an index 0 counts as 1. *)
Theorem C99_last m wave s r : redirect m wave s None r = Ok (COk, r).
Proof. reflexivity. Qed.
Print Assumptions C99_last.

(** Light going straight down from glass of index 3/2 through a plane surface. *)
Example C99_example m wave : let s := {| s_glass := GNumber (3 / 2); s_action := ALens; s_odiam := 0; s_idiam := 0; s_curve := 0; s_asph := 0; s_vertex := (0, 0, 0);
    s_tilt := 0; s_pitch := 0; s_roll := 0; s_coefs := []; s_poly := false; s_nspider := 0; s_wspider := 0; s_euler := euler 0 0 0 |} in
  let r := {| r_pos := (1, 2, 0); r_dir := (0, 0, -1) |} in
  smooth_at (s_curve s) (s_asph s) [] (r_pos r) /\ inner (r_dir r) (r_dir r) = 1 /\ find_refraction m wave (s_glass s) = Ok (3 / 2) /\ find_refraction m wave GBlank = Ok 1.
Proof. cbv zeta. unfold smooth_at. cbn. repeat split; lra. Qed.

(** At grazing incidence the sign of 0 is 0, and a ray which is not totally reflected leaves with a direction that is
    not a unit vector. *)
Theorem C99_grazing_refuted : exists s g r u', smooth_at (s_curve s) (s_asph s) [] (r_pos r) /\ inner (r_dir r) (r_dir r) = 1 /\ s_poly s = false /\
  redirect [] "" s (Some g) r = Ok (COk, {| r_pos := r_pos r; r_dir := u' |}) /\ inner u' u' <> 1.
Proof.
  set (s := plain ALens 0 0). set (r := {| r_pos := (0, 0, 0); r_dir := (1, 0, 0) |}). exists s, (GNumber 2), r.
  assert (N : unit_normal (sag 0 0 []) 0 0 (get_normal s r)). { pose proof (normal_ok s r) as H. cbn in H. apply H; [lra|right; reflexivity]. }
  assert (N1 : inner (get_normal s r) (get_normal s r) = 1) by (destruct N as (? & ? & ? & _ & _ & _ & _ & H); exact H).
  assert (E : inner (r_dir r) (get_normal s r) = 0).
  { destruct (get_normal s r) as [[a b] c] eqn:G. unfold get_normal, grad_total, grad_conic in G. cbn in G. destruct (Reqb_spec' 0 0); [|lra]. unfold normalize in G. destruct (Reqb _ 0); injection G as <- _ _; cbn; unfold Rdiv; ring. }
  destruct (lens_law 1 2 (get_normal s r) (r_dir r) ltac:(lra) ltac:(lra) N1 ltac:(cbn; ring)) as (T & _ & L). cbv zeta in T, L.
  eexists. split; [unfold smooth_at; cbn; split; [lra|right; reflexivity]|]. split; [cbn; ring|]. split; [reflexivity|].
  unfold redirect. cbn [s plain s_action s_glass find_refraction rbind]. cbv zeta. fold s. assert (O : or_one 1 = 1 /\ or_one 2 = 2) by (unfold or_one; destruct (Reqb_spec' 1 0), (Reqb_spec' 2 0); lra). destruct O as [-> ->].
  match goal with |- context [Rleb ?k 0] => destruct (Rleb_spec' k 0) as [B|B] end.
  - exfalso. apply T in B. rewrite E in B. lra.
  - split; [reflexivity|]. rewrite L; [lra|now apply Rnot_le_lt|assumption].
Qed.
Print Assumptions C99_grazing_refuted.

(** C100. The frame of a surface is turned by a rotation: tilt around x, then pitch around the new y, then roll around
    the new z; going to the frame and back is the identity. *)
Definition around_x (a : R) : (R * R * R) * (R * R * R) * (R * R * R) := let c := cos (PI * a / 180) in let s := sin (PI * a / 180) in ((1, 0, 0), (0, c, - s), (0, s, c)).
Definition around_y (a : R) : (R * R * R) * (R * R * R) * (R * R * R) := let c := cos (PI * a / 180) in let s := sin (PI * a / 180) in ((c, 0, s), (0, 1, 0), (- s, 0, c)).
Definition around_z (a : R) : (R * R * R) * (R * R * R) * (R * R * R) := let c := cos (PI * a / 180) in let s := sin (PI * a / 180) in ((c, - s, 0), (s, c, 0), (0, 0, 1)).
Theorem C100_frame tilt pitch roll : is_rotation (euler tilt pitch roll) /\
  forall v, act (euler tilt pitch roll) v = act (around_x tilt) (act (around_y pitch) (act (around_z roll) v)).
Proof.
  split; [apply euler_rotation|]. intros [[x y] z]. unfold euler, around_x, around_y, around_z, act, inner, radians. rewrite !deg_rad. apply vec_eq; ring.
Qed.
Print Assumptions C100_frame.
Theorem C100_inverse s r : is_rotation (s_euler s) -> to_lab s (to_local s r) = r /\ to_local s (to_lab s r) = r.
Proof. intros H. split; [now apply lab_local|now apply local_lab]. Qed.
Print Assumptions C100_inverse.

(** The law obeyed at a surface with normal [n] by a direction [u], changed into [u']; [next] is the glass after the surface,
    if it is not the last one. *)
Definition directed (m : media) (wave : string) (s : surface) (next : option glass) (n u u' : R * R * R) : Prop :=
  match next, s_action s with
  | Some _, AMirror => reflected n u u'
  | Some g, ALens => forall n1 n2, find_refraction m wave (s_glass s) = Ok n1 -> find_refraction m wave g = Ok n2 -> n1 <> 0 -> n2 <> 0 ->
      inner u n <> 0 -> refracted n1 n2 n u u'
  | Some _, ARetro => u' = times (-1) u
  | _, _ => u' = u
  end.
Lemma redirect_directed m wave s next r r' : inner (get_normal s r) (get_normal s r) = 1 -> inner (r_dir r) (r_dir r) = 1 ->
  redirect m wave s next r = Ok (COk, r') -> directed m wave s next (get_normal s r) (r_dir r) (r_dir r') /\ (s_action s <> ALens -> inner (r_dir r') (r_dir r') = 1).
Proof.
  intros N U H. unfold directed. unfold redirect in H. destruct next as [g|]; [|injection H as <-; auto]. set (n := get_normal s r) in *. destruct (s_action s); try (injection H as <-; cbn [r_dir]; rewrite ?vscale_times; auto; fail).
  - split; [|congruence]. intros n1 n2 E1 E2 Z1 Z2 I. rewrite E1, E2 in H. cbn [rbind] in H. cbv zeta in H. assert (O : forall a, a <> 0 -> or_one a = a) by (intros a ?; unfold or_one; destruct (Reqb_spec' a 0); [contradiction|reflexivity]).
    rewrite !O in H by assumption. destruct (lens_law n1 n2 n (r_dir r) Z1 Z2 N U) as (_ & L & _). cbv zeta in L. match type of H with context [Rleb ?k 0] => destruct (Rleb_spec' k 0) as [B|B] end; [discriminate|]. injection H as <-. cbn [r_dir]. apply L; [now apply Rnot_le_lt|assumption].
  - injection H as <-. cbn [r_dir]. destruct (mirror_law n (r_dir r) N) as [M1 M2]. cbv zeta in M2. split; [exact M1|]. intros _. rewrite M2. exact U.
  - injection H as <-. cbn [r_dir]. rewrite vscale_times. split; [reflexivity|]. intros _. rewrite inner_times, inner_comm, inner_times, U. ring.
Qed.
Lemma directed_in m wave s next e n u u' : is_rotation e -> directed m wave s next n u u' -> directed m wave s next (act e n) (act e u) (act e u').
Proof.
  intros M. unfold directed. destruct next as [g|]; [|now intros ->]. destruct (s_action s); try (now intros ->).
  - intros H n1 n2 E1 E2 Z1 Z2 I. apply refracted_in; [assumption|]. apply H; try assumption. now rewrite rotation_inner in I.
  - now apply reflected_in.
  - intros ->. apply act_times.
Qed.

Lemma classic_tangent c k p u : tangential c k p u \/ ~ tangential c k p u.
Proof. destruct p as [[x y] z]. unfold tangential. destruct (Req_dec (inner u (c * x, c * y, c * (1 + k) * z - 1)) 0); auto. Qed.
(** The path of a ray. For each surface passed: a coordinate break copies the coordinates in the frame of the
    previous surface into its own frame. Any other surface is reached in a straight line in the laboratory, forwards and at
    the first intersection if it is a conic, through its aperture, and the direction changes by the law of the surface
    there. *)
Theorem C100_path m wave surfs start rows c : Forall (fun s => is_rotation (s_euler s)) surfs ->
  run_ray m wave surfs (start_row start) = Ok (rows, c) ->
  (c = COk <-> length rows = length surfs) /\ (length rows <= length surfs)%nat /\
  forall j s before here, nth_error surfs j = Some s -> nth_error (start_row start :: rows) j = Some before -> nth_error rows j = Some here ->
  r_pos (r_lab here) = plus (act (s_euler s) (r_pos (r_loc here))) (s_vertex s) /\ r_dir (r_lab here) = act (s_euler s) (r_dir (r_loc here)) /\
  (s_action s = ACBout -> r_loc here = r_loc before) /\
  (s_action s <> ACBout -> let P := r_pos (r_lab before) in let U := r_dir (r_lab before) in let U' := r_dir (r_lab here) in
   let p := act (transposed (s_euler s)) (plus P (times (-1) (s_vertex s))) in let u := act (transposed (s_euler s)) U in
   let '(x, y, z) := r_pos (r_loc here) in let coefs := if s_poly s then s_coefs s else [] in
   open_at (s_odiam s) (s_idiam s) (s_nspider s) (s_wspider s) (s_roll s) (x, y, z) /\
   (exists d, r_pos (r_lab here) = along P U d /\
     (s_poly s = false -> ~ tangential (s_curve s) (s_asph s) p u ->
      0 < d /\ on_conic (s_curve s) (s_asph s) (x, y, z) /\ forall d', 0 < d' < d -> ~ on_conic (s_curve s) (s_asph s) (along p u d'))) /\
   (smooth_at (s_curve s) (s_asph s) coefs (x, y, z) -> inner U U = 1 ->
    exists n, unit_normal (sag (s_curve s) (s_asph s) coefs) x y n /\
      directed m wave s (option_map s_glass (nth_error surfs (S j))) (act (s_euler s) n) U U' /\ (s_action s <> ALens -> inner U' U' = 1))).
Proof.
  intros F H. destruct (run_ray_path _ _ _ _ _ _ H) as (L & I & W). split; [exact I|]. split; [exact L|]. intros j s before here H1 H2 H3. destruct (W j s before here H1 H2 H3) as [E1 E2].
  assert (M : is_rotation (s_euler s)) by (apply (proj1 (Forall_forall _ _) F), (nth_error_In _ _ H1)).
  pose proof E1 as E3. rewrite to_lab_act in E3. rewrite E3 at 1 2. cbn [ray_in r_pos r_dir]. split; [reflexivity|]. split; [reflexivity|]. split.
  - intros A. unfold is_cbout in E2. rewrite A in E2. exact E2.
  - intros A. replace (is_cbout s) with false in E2 by (unfold is_cbout; destruct (s_action s); congruence). cbv zeta.
    apply encounter_parts in E2 as (r1 & X1 & X2 & X3). pose proof (redirect_pos _ _ _ _ _ _ _ X3) as X4. rewrite X4. destruct (r_pos r1) as [[x y] z] eqn:Ep.
    destruct (intercept_line _ _ _ _ X1) as [d D]. destruct (advance_along d (to_local s (r_lab before))) as [D1 D2]. rewrite <- D in D1, D2.
    split; [exact X2|]. split.
    + assert (Dl : r_pos (r_lab here) = along (r_pos (r_lab before)) (r_dir (r_lab before)) d).
      { rewrite E1. rewrite (to_lab_along s (to_local s (r_lab before)) (r_loc here) d) by congruence. now rewrite lab_local. }
      destruct (s_poly s) eqn:Np; [exists d; split; [exact Dl|discriminate]|].
      pose proof (C98_intercept s (to_local s (r_lab before)) COk r1 Np) as C98.
      destruct (classic_tangent (s_curve s) (s_asph s) (r_pos (to_local s (r_lab before))) (r_dir (to_local s (r_lab before)))) as [T|T]; [exists d; split; [exact Dl|intros _ T'; rewrite to_local_act in T; contradiction]|].
      destruct (C98 T X1) as [[_ (d1 & P1 & O1 & Q1 & Q2 & Q3)]|[[X|X] _]]; try discriminate. exists d1. split.
      * rewrite E1. rewrite (to_lab_along s (to_local s (r_lab before)) (r_loc here) d1) by congruence. now rewrite lab_local.
      * intros _ _. split; [exact P1|]. rewrite <- Q1, Ep in O1. split; [exact O1|]. rewrite to_local_act in Q3. exact Q3.
    + intros Sm U. pose proof (normal_ok s r1) as N. rewrite Ep in N. fold (coefs_of s) in Sm |- *. specialize (N (proj1 Sm) (proj2 Sm)). exists (get_normal s r1). split; [exact N|].
      assert (N1 : inner (get_normal s r1) (get_normal s r1) = 1) by (destruct N as (? & ? & ? & _ & _ & _ & _ & N); exact N).
      assert (Ed : r_dir (r_lab before) = act (s_euler s) (r_dir r1)) by (rewrite D2, to_local_act; cbn [r_dir]; now rewrite inverse_rotation).
      destruct (redirect_directed m wave s (next_glass surfs j) r1 (r_loc here) N1) as [K1 K2]; [|exact X3|].
      { rewrite Ed, rotation_inner in U by assumption. exact U. }
      rewrite E3. cbn [ray_in r_dir]. rewrite Ed. split; [apply directed_in; assumption|]. intros A'. rewrite rotation_inner by assumption. now apply K2.
Qed.
Print Assumptions C100_path.
(** The paraboloid of C98 sends a ray parallel to its axis to its focus (0, 0, 1/2): the second surface is a plane through
    the focus turned by 90 degrees. *)
Definition screen : surface :=
  {| s_glass := GBlank; s_action := AIris; s_odiam := 0; s_idiam := 0; s_curve := 0; s_asph := 0; s_vertex := (0, 0, 1 / 2); s_tilt := 0; s_pitch := 90; s_roll := 0;
     s_coefs := []; s_poly := false; s_nspider := 0; s_wspider := 0; s_euler := euler 0 90 0 |}.
Example C100_example m wave : Forall (fun s => is_rotation (s_euler s)) [plain AMirror 1 (-1); screen] /\
  exists first last, run_ray m wave [plain AMirror 1 (-1); screen] (start_row {| r_pos := (1, 0, 3); r_dir := (0, 0, -1) |}) = Ok ([first; last], COk) /\
  r_pos (r_lab first) = (1, 0, 1 / 2) /\ r_dir (r_lab first) = (-1, 0, 0) /\ r_pos (r_lab last) = (0, 0, 1 / 2).
Proof.
  split; [repeat (apply Forall_cons; [apply euler_rotation|]); apply Forall_nil|].
  assert (E0 : euler 0 0 0 = ((1, 0, 0), (0, 1, 0), (0, 0, 1))) by (unfold euler, radians; rewrite !deg_rad; replace (PI * 0 / 180) with 0 by field; rewrite cos_0, sin_0; apply f_equal2; [apply f_equal2|]; apply vec_eq; ring).
  assert (E1 : euler 0 90 0 = ((0, 0, 1), (0, 1, 0), (-1, 0, 0))).
  { unfold euler, radians; rewrite !deg_rad; replace (PI * 0 / 180) with 0 by field; replace (PI * 90 / 180) with (PI / 2) by field. rewrite cos_0, sin_0, cos_PI2, sin_PI2. apply f_equal2; [apply f_equal2|]; apply vec_eq; ring. }
  assert (V : forall s p, s_odiam s = 0 -> s_idiam s = 0 -> s_nspider s = 0%Z -> validate s p = COk).
  { intros s p D1 D2 D3. apply C98_aperture. rewrite D1, D2, D3. unfold open_at. destruct (r_pos p) as [[x y] z]. split; [intros O; exfalso; lra|]. split; [|intros j O; exfalso; lia].
    replace (0 / 2) with 0 by lra. apply sqrt_pos. }
  set (mir := plain AMirror 1 (-1)). set (p1 := {| r_pos := (1, 0, 1 / 2); r_dir := (0, 0, -1) |}). set (p2 := {| r_pos := (1, 0, 1 / 2); r_dir := (-1, 0, 0) |}).
  set (p3 := {| r_pos := (0, 0, 0); r_dir := (0, 0, -1) |}). exists {| r_lab := p2; r_loc := p2 |}, {| r_lab := {| r_pos := (0, 0, 1 / 2); r_dir := (-1, 0, 0) |}; r_loc := p3 |}. split; [|repeat split].
  assert (I0 : forall r, to_local mir r = r).
  { intros [[[x y] z] [[u v] w]]. unfold to_local. cbn [mir plain s_euler s_vertex r_pos r_dir]. rewrite E0. apply ray_eq; apply vec_eq; ring. }
  assert (I1 : forall r, to_lab mir r = r).
  { intros [[[x y] z] [[u v] w]]. unfold to_lab. cbn [mir plain s_euler s_vertex r_pos r_dir]. rewrite E0. apply ray_eq; apply vec_eq; ring. }
  assert (X1 : encounter m wave mir (Some GBlank) {| r_pos := (1, 0, 3); r_dir := (0, 0, -1) |} = Ok (COk, p2)).
  { destruct (proj2 C98_example) as (r' & X & Y). pose proof (C98_on_ray _ _ _ _ X) as (_ & _ & W). unfold encounter. fold mir in X. rewrite X. cbn [rbind is_ok]. cbv zeta. rewrite V by reflexivity. cbn [is_ok].
    replace r' with p1 by (destruct r' as [q1 q2]; cbn [r_pos r_dir] in Y, W; unfold p1; now rewrite Y, W). unfold redirect. cbn [mir plain s_action].
    assert (G : get_normal mir p1 = (- / sqrt 2, 0, / sqrt 2)).
    { unfold get_normal, grad_total, grad_conic, grad_poly. cbn [mir plain s_curve s_asph s_poly p1 r_pos]. destruct (Reqb_spec' 1 0); [lra|]. replace (1 - (-1 + 1) * 1 ^ 2 * (1 * 1 + 0 * 0)) with 1 by ring. cbv zeta. destruct (Rleb_spec' 1 0); [lra|]. rewrite sqrt_1. unfold normalize.
      replace ((- (1 * (1 / 1))) ^ 2 + (- (0 * (1 / 1))) ^ 2 + 1 ^ 2) with 2 by field. pose proof (sqrt_lt_R0 2 ltac:(lra)). destruct (Reqb_spec' (sqrt 2) 0); [lra|]. apply vec_eq; field; lra. }
    change (get_normal {| s_glass := GBlank; s_action := AMirror; s_odiam := 0; s_idiam := 0; s_curve := 1; s_asph := -1; s_vertex := (0, 0, 0); s_tilt := 0; s_pitch := 0; s_roll := 0; s_coefs := []; s_poly := false; s_nspider := 0; s_wspider := 0; s_euler := euler 0 0 0 |} p1) with (get_normal mir p1).
    rewrite G. cbv zeta. do 2 f_equal. unfold p1, p2, vadd, vscale, dotproduct. cbn [r_pos r_dir]. pose proof (sqrt_lt_R0 2 ltac:(lra)) as Q. pose proof (sqrt_sqrt 2 ltac:(lra)) as Q2.
    assert (Q3 : / sqrt 2 * / sqrt 2 = / 2) by (rewrite <- Rinv_mult, Q2; reflexivity). set (q := / sqrt 2) in *. clearbody q. apply ray_eq; [reflexivity|]. apply vec_eq; lra. }
  assert (X2 : encounter m wave screen None (to_local screen p2) = Ok (COk, p3)).
  { assert (L : to_local screen p2 = {| r_pos := (0, 0, 1); r_dir := (0, 0, -1) |}) by (unfold to_local; cbn [screen s_euler s_vertex p2 r_pos r_dir]; rewrite E1; apply ray_eq; apply vec_eq; lra).
    rewrite L. unfold encounter, intercept, conic_intercept. cbn [s_poly screen s_curve s_asph r_pos r_dir].
    replace (0 * (0 * 0 + 0 * 0 + (0 + 1) * -1 * -1)) with 0 by ring. replace (2 * 0 * (0 * 0 + 0 * 0 + (0 + 1) * 1 * -1) - 2 * -1) with 2 by ring. replace (0 * (0 * 0 + 0 * 0 + (0 + 1) * 1 * 1) - 2 * 1) with (-2) by ring.
    unfold both_roots. destruct (Reqb_spec' 0 0); [|lra]. destruct (Reqb_spec' 2 0); [lra|]. cbn [andb negb]. replace (- -2 / 2) with 1 by lra.
    rewrite Rmin_right, Rmax_left by lra. destruct (Rleb_spec' 1 0); [lra|]. cbn [andb]. destruct (Rltb_spec' 0 0); [lra|]. rewrite Bool.andb_false_r. destruct (Rltb_spec' 0 1); [|lra].
    destruct (Rltb_spec' ((0 + 1) * 0 * (1 + -1 * 1)) 1); [|lra]. cbn [andb]. destruct (Rleb_spec' 1 0); [lra|]. cbn [rbind is_ok]. cbv zeta. fold screen. rewrite V by reflexivity. cbn [is_ok]. unfold redirect. do 2 f_equal. unfold advance. apply ray_eq; [apply vec_eq; lra|reflexivity]. }
  cbn [run_ray is_cbout mir plain s_action screen hd_error option_map start_row r_lab]. fold mir screen. rewrite I0. cbn [s_glass screen]. rewrite X1. cbn [rbind is_ok]. cbv zeta. rewrite I1. fold screen. cbn [r_lab]. rewrite X2. cbn [rbind is_ok rmap]. cbv zeta.
  do 3 f_equal. f_equal. unfold to_lab. cbn [screen s_euler s_vertex p3 r_pos r_dir]. rewrite E1. f_equal. apply ray_eq; apply vec_eq; lra.
Qed.

(** C101. The columns of a table of surfaces around the corrector (rows numbered from 1, as in the file): the breaks are at
    rows 11, 15, 17 and 21, the plates between them may be tilted, everything else is centred on the axis and without
    spider, and the breaks are followed by surfaces. *)
Definition centred (s : surface) : Prop := s_tilt s = 0 /\ s_pitch s = 0 /\ exists z, s_vertex s = (0, 0, z).
Definition bare (s : surface) : Prop := (s_nspider s <= 0)%Z \/ s_wspider s <= 0.
Definition corrector (surfs : list surface) : Prop := (21 <= length surfs)%nat /\ forall j s, nth_error surfs j = Some s -> let row := S j in
  (In row [11; 15; 17; 21]%nat -> s_action s = ACBout /\ centred s) /\
  ((row <= 10)%nat \/ row = 16%nat \/ (22 <= row)%nat -> centred s /\ bare s) /\
  (In row [12; 16; 18; 22]%nat -> s_action s <> ACBout).
(** The outcome of a ray, and the ray at the last surface if it passes all of them. *)
Definition outcome (m : media) (wave : string) (surfs : list surface) (start : ray) : res (code * option ray) :=
  rmap (fun '(rows, c) => (c, match c with COk => Some (r_lab (last rows (start_row start))) | _ => None end)) (run_ray m wave surfs (start_row start)).
Definition turned_ray (t : R) (r : ray) : ray := {| r_pos := turned t (r_pos r); r_dir := turned t (r_dir r) |}.
Lemma outcome_arrival m wave surfs start : outcome m wave surfs start = arrival m wave surfs (start_row start).
Proof. unfold outcome, arrival. destruct (run_ray _ _ _ _) as [[rows []]|e]; reflexivity. Qed.

(** Turning both correctors by [t], the pupil and the direction of a ray by [t] turns its end by [t]; it is stopped by the
    same surface for the same reason, or fails with the same error. So only the difference of the two angles matters, up to
    a rotation of the field. *)
Theorem C101_turn m wave surfs adc1 adc2 t start : corrector surfs ->
  rbind (modify_adc (adc1 + t) (adc2 + t) surfs) (fun l => outcome m wave l (turned_ray t start)) =
  rmap (fun '(c, o) => (c, option_map (turned_ray t) o)) (rbind (modify_adc adc1 adc2 surfs) (fun l => outcome m wave l start)).
Proof.
  intros [L F]. assert (K : forall l r, outcome m wave l r = arrival m wave l (start_row r)) by (intros; apply outcome_arrival).
  unfold modify_adc. destruct (Nat.ltb (length surfs) 21) eqn:E; [reflexivity|]. cbn [rbind]. rewrite !K. pose proof (adc_turn m wave surfs t adc1 adc2 start L F) as H. unfold modify_adc in H. rewrite E in H. cbn [rbind] in H. exact H.
Qed.
Print Assumptions C101_turn.
(** ... and so for the centroid over a pupil and several wavelengths. *)
Definition turned_aim (t : R) (x : nat * R * R) : nat * R * R := let '(w, u, v) := x in let '(u', v', _) := turned t (u, v, 0) in (w, u', v').
Theorem C101_centroid m surfs starts adc1 adc2 t wuv n : corrector surfs -> get_nine m surfs starts adc1 adc2 wuv = Ok n ->
  exists n', get_nine m surfs (map (turned_ray t) starts) (adc1 + t) (adc2 + t) (map (turned_aim t) wuv) = Ok n' /\
  n_good n' = n_good n /\ n_ave n' = turned t (n_ave n) /\ snd (n_rms n') = snd (n_rms n).
Proof. intros [L F] H. destruct (nine_turn t m surfs starts adc1 adc2 wuv n L F H) as (n' & H1 & H2). exists n'. split; [|exact H2]. rewrite <- H1. f_equal. Qed.
Print Assumptions C101_centroid.

(** A pair of breaks with opposite rolls, each at the place of the break surface before it, is the same as rolling the
    surfaces in between: the physical meaning of the angles of the corrector. *)
Definition rolled_surface (b : R) (s s' : surface) : Prop :=
  s_vertex s' = turned b (s_vertex s) /\ (forall v, act (s_euler s') v = turned b (act (s_euler s) v)) /\
  s_glass s' = s_glass s /\ s_action s' = s_action s /\ s_odiam s' = s_odiam s /\ s_idiam s' = s_idiam s /\ s_curve s' = s_curve s /\ s_asph s' = s_asph s /\
  s_tilt s' = s_tilt s /\ s_pitch s' = s_pitch s /\ s_roll s' = s_roll s /\ s_coefs s' = s_coefs s /\ s_poly s' = s_poly s /\ s_nspider s' = s_nspider s /\ s_wspider s' = s_wspider s.
Lemma rolled_unique b s s' : rolled_surface b s s' -> s' = rolled b s.
Proof.
  intros (V & E & H1 & H2 & H3 & H4 & H5 & H6 & H7 & H8 & H9 & H10 & H11 & H12 & H13). destruct s' as [g a od id c k v ti pi ro co po ns ws e]. cbn in *.
  unfold rolled. rewrite V, H1, H2, H3, H4, H5, H6, H7, H8, H9, H10, H11, H12, H13. f_equal. destruct (s_euler s) as [[[[a1 a2] a3] [[b1 b2] b3]] [[c1 c2] c3]], e as [[[[e1 e2] e3] [[f1 f2] f3]] [[g1 g2] g3]].
  pose proof (E (1, 0, 0)) as X. pose proof (E (0, 1, 0)) as Y. pose proof (E (0, 0, 1)) as W. unfold act, inner, turned in X, Y, W. injection X as X1 X2 X3. injection Y as Y1 Y2 Y3. injection W as W1 W2 W3.
  apply f_equal2; [apply f_equal2|]; apply vec_eq; lra.
Qed.
Theorem C101_rolled m wave b enter plates last leave rest plates' last' z z' lab loc :
  s_action enter = ACBout -> s_euler enter = around_z (- b) -> s_vertex enter = (0, 0, z) ->
  s_action last = ACBin -> s_euler last = around_z 0 -> s_vertex last = (0, 0, z') ->
  s_action leave = ACBout -> s_euler leave = around_z b -> s_vertex leave = (0, 0, z') ->
  r_pos lab = plus (r_pos loc) (0, 0, z) -> r_dir lab = r_dir loc ->
  Forall2 (rolled_surface b) plates plates' -> rolled_surface b last last' ->
  let finish surfs := rmap (fun '(rows, c) => (c, match c with COk => Some (r_lab (List.last rows {| r_lab := lab; r_loc := loc |})) | _ => None end))
                           (run_ray m wave surfs {| r_lab := lab; r_loc := loc |}) in
  finish (enter :: plates ++ last :: leave :: rest) = finish (plates' ++ last' :: rest).
Proof.
  intros A E V A1 E1 V1 A2 E2 V2 P1 P2 F1 F2. cbv zeta. rewrite (rolled_unique _ _ _ F2). replace plates' with (map (rolled b) plates) by (clear - F1; induction F1; [reflexivity|]; cbn [map]; rewrite IHF1; f_equal; symmetry; now apply rolled_unique).
  pose proof (rolled_pair m wave b enter plates last leave rest z z' {| r_lab := lab; r_loc := loc |} A E V A1 E1 V1 A2 E2 V2 P1 P2) as H. unfold arrival in H.
  destruct (run_ray m wave (enter :: _) _) as [[rows c]|e], (run_ray m wave (map _ _ ++ _) _) as [[rows' c']|e']; cbn [rmap] in H |- *; try congruence. destruct c, c'; cbn [is_ok] in H; congruence.
Qed.
Print Assumptions C101_rolled.

(** The table shipped with the program (DESI-ADC-2.OPT.CSV) is of this form. *)
Definition optic (g : glass) (a : action) (z od id pitch c k : R) (coefs : list R) : surface :=
  set_euler {| s_glass := g; s_action := a; s_odiam := od; s_idiam := id; s_curve := c; s_asph := k; s_vertex := (0, 0, z); s_tilt := 0; s_pitch := pitch; s_roll := 0;
     s_coefs := coefs; s_poly := match coefs with [] => false | _ => true end; s_nspider := 0; s_wspider := 0; s_euler := ((0, 0, 0), (0, 0, 0), (0, 0, 0)) |}.
Definition desi : list surface :=
  [optic (GBlank) ARetro 11001 0 0 0 0 0 [];
   optic (GBlank) ARetro (- 2000) 0 0 0 0 0 [];
   optic (GBlank) AMirror 11115.809 3800 1500 0 (- 4.69087156394e-05) (- 1.09763) [];
   optic (GBlank) ACBin 2500 0 0 0 0 0 [];
   optic (GBlank) ACBout 2500 0 0 0 0 0 [];
   optic (GBlank) ALens 2425.007 1139 0 0 (- 8.43888977966e-04) 0 [];
   optic (GName "C1") ALens 2288.417 1139 0 0 (- 3.03308795652e-04) 0 [];
   optic (GBlank) ALens 1813.200 850 0 0 (- 7.92646774403e-05) 0 [0; 0; 0; (- 1.73045520e-10); 0; 1.53525650e-16; 0; 3.67541020e-22; 0; (- 9.73764150e-28); 0; 0; 0; 0];
   optic (GName "C2") ALens 1768.480 850 0 0 (- 1.63285033620e-03) 0 [];
   optic (GBlank) ACBin 1600 0 0 0 (- 2e-4) 0 [];
   optic (GBlank) ACBout 1600 0 0 0 (- 2e-4) 0 [];
   optic (GBlank) ALens 1577.606 799 0 0 (- 2.17860177338e-04) 0 [];
   optic (GName "ADC1") ALens 1517.456 799 0 0.2465 (- 7.29394602480e-04) 0 [];
   optic (GBlank) ACBin 1501 0 0 0 (- 7.2e-4) 0 [];
   optic (GBlank) ACBout 1501 0 0 0 (- 7.2e-4) 0 [];
   optic (GBlank) ACBin 1499 0 0 0 (- 7.2e-4) 0 [];
   optic (GBlank) ACBout 1499 0 0 0 (- 7.2e-4) 0 [];
   optic (GBlank) ALens 1492.606 804 0 0.2501 (- 7.18328879694e-04) 0 [];
   optic (GName "ADC2") ALens 1432.456 804 0 0 (- 9.52762057204e-04) 0 [];
   optic (GBlank) ACBin 1400 0 0 0 (- 9.5e-4) 0 [];
   optic (GBlank) ACBout 1400 0 0 0 (- 9.5e-4) 0 [];
   optic (GBlank) ALens 1233.199 834 0 0 7.46270327471e-04 0 [0; 0; 0; 1.28761240e-10; 0; (- 2.47239660e-16); 0; 4.43883190e-22; 0; (- 7.37730760e-27); 0; 0; 0; 0];
   optic (GName "C3") ALens 1153.113 834 0 0 9.74394852077e-04 0 [];
   optic (GBlank) ALens 615.927 1034 0 0 (- 1.07043459645e-03) 0 [];
   optic (GName "C4") ALens 399.007 1034 0 0 1.92834650073e-04 0 [];
   optic (GBlank) ALens 0 840 0 0 (- 2.00884145387709e-04) 0 [0; 0; 0; (- 2.96481970e-10); 0; 3.45230870e-15; 0; (- 1.80419790e-20); 0; 3.25707820e-26; 0; 0; 0; 0]]%string.
Example C101_example : corrector desi.
Proof.
  split; [cbn; lia|]. intros j s H. cbv zeta. unfold desi in H.
  assert (C : forall g a z od id c k co, centred (optic g a z od id 0 c k co)) by (intros; split; [reflexivity|split; [reflexivity|eexists; reflexivity]]).
  assert (B : forall g a z od id p c k co, bare (optic g a z od id p c k co)) by (intros; left; cbn; lia).
  do 26 (destruct j as [|j]; [injection H as <-; cbn [In]; split; [intros Q; first [exfalso; lia|split; [reflexivity|apply C]]|split; [intros Q; first [exfalso; lia|split; [apply C|apply B]]|intros Q; first [exfalso; lia|discriminate]]]|]).
  destruct j; discriminate.
Qed.

(** C102. What [getNine] returns: all starts are given the direction (u, v, w) with w of the sign they have in the table;
    the numbers are the count, the means and the standard deviations of the final positions of exactly the rays that pass
    every surface. Every wavelength must have two such rays, and all wavelengths equally many. *)
Definition towards (u v : R) (r r' : ray) : Prop := r_pos r' = r_pos r /\ let '(_, _, w) := r_dir r in let '(u', v', w') := r_dir r' in
  u' = u /\ v' = v /\ inner (r_dir r') (r_dir r') = 1 /\ (w < 0 -> w' < 0) /\ (0 <= w -> 0 < w').
Definition landed (o : code * option ray) : list (R * R * R) := match snd o with Some r => [r_pos r] | None => [] end.
Definition mean (l : list R) : R := Rsum l / INR (length l).
Definition spread (l : list R) : R := sqrt (Rsum (map (fun x => (x - mean l) ^ 2) l) / INR (length l)).
Definition letters : list string := ["i"; "g"; "F"; "d"; "R"; "C"; "s"; "t"]%string.
Definition traced (m : media) (surfs : list surface) (starts : list ray) (aim : nat * R * R) (p : list (R * R * R)) : Prop :=
  let '(w, u, v) := aim in exists wave outs, nth_error letters w = Some wave /\
  Forall2 (fun r o => exists r', towards u v r r' /\ outcome m wave surfs r' = Ok o) starts outs /\ p = flat_map landed outs /\ (2 <= length p)%nat.
Theorem C102_nine m surfs starts adc1 adc2 aims n : Forall (fun '(_, u, v) => u * u + v * v < 1) aims -> get_nine m surfs starts adc1 adc2 aims = Ok n ->
  exists surfs' points, modify_adc adc1 adc2 surfs = Ok surfs' /\ Forall2 (traced m surfs' starts) aims points /\
  (exists k, Forall (fun p => length p = k) points) /\
  let all := concat points in let xs := map (fun '(x, _, _) => x) all in let ys := map (fun '(_, y, _) => y) all in let zs := map (fun '(_, _, z) => z) all in
  n_adc1 n = adc1 /\ n_adc2 n = adc2 /\ n_good n = length all /\ n_ave n = (mean xs, mean ys, mean zs) /\ n_rms n = (spread xs, spread ys, spread zs).
Proof.
  intros F H. unfold get_nine in H. destruct aims as [|a aims]; [discriminate|]. destruct (modify_adc adc1 adc2 surfs) as [surfs'|e] eqn:M; [|discriminate]. cbn [rbind] in H.
  destruct (trace_waves m surfs' starts (a :: aims)) as [l|e] eqn:T; [|discriminate]. cbn [rbind] in H. cbv zeta in H. destruct (forallb _ l) eqn:B; [|discriminate]. injection H as <-.
  exists surfs', l. split; [reflexivity|]. split; [|split; [exists (length (hd [] l)); apply Forall_forall; intros p Hp; apply (proj1 (forallb_forall _ _) B) in Hp; now apply Nat.eqb_eq|]].
  - apply trace_waves_points in T.
    + revert T F. generalize (a :: aims). clear. intros aims0 T F. induction T as [|[[w u] v] p aims l (wave & outs & A & B & C & D) T IH]; [constructor|]. inversion F as [|? ? F1 F2]; subst. constructor; [|now apply IH].
      exists wave, outs. split; [exact A|]. split; [|split; [reflexivity|exact D]]. clear - B F1. induction B as [|r o starts outs B1 _ IH]; constructor; [|exact IH]. exists (aimed u v r). split; [|rewrite outcome_arrival; exact B1].
      unfold towards, aimed. destruct (r_dir r) as [[a b] w]. cbn [r_pos r_dir]. split; [reflexivity|]. assert (Q : 0 < sqrt (1 - u * u - v * v)) by (apply sqrt_lt_R0; lra). assert (Q2 : sqrt (1 - u * u - v * v) * sqrt (1 - u * u - v * v) = 1 - u * u - v * v) by (apply sqrt_sqrt; lra).
      split; [reflexivity|]. split; [reflexivity|]. unfold inner. destruct (Rltb_spec' w 0); (split; [lra|split; intros; lra]).
    + revert F. generalize (a :: aims). clear. intros aims0 F. induction F as [|[[w u] v] l H F IH]; constructor; assumption.
  - cbv zeta. repeat split.
Qed.
Print Assumptions C102_nine.
Lemma towards_aimed u v r r' : u * u + v * v < 1 -> towards u v r r' -> r' = aimed u v r.
Proof.
  intros H (P & T). unfold aimed. destruct (r_dir r) as [[a b] w]. destruct r' as [p' [[u' v'] w']]. cbn [r_pos r_dir] in *. destruct T as (-> & -> & I & T1 & T2). subst p'. unfold inner in I. apply ray_eq; [reflexivity|]. apply vec_eq; [reflexivity|reflexivity|].
  destruct (Rltb_spec' w 0) as [N|N].
  - specialize (T1 N). replace (1 - u * u - v * v) with ((- w') * (- w')) by lra. rewrite sqrt_square by lra. lra.
  - specialize (T2 (Rnot_lt_le _ _ N)). replace (1 - u * u - v * v) with (w' * w') by lra. rewrite sqrt_square by lra. reflexivity.
Qed.
(** ... and when there is no answer. *)
Theorem C102_none m surfs starts adc1 adc2 aims : Forall (fun '(_, u, v) => u * u + v * v < 1) aims ->
  (aims = [] -> get_nine m surfs starts adc1 adc2 aims = Err (SysExit 0)) /\
  (aims <> [] -> (length surfs < 21)%nat -> get_nine m surfs starts adc1 adc2 aims = Err IndexError) /\
  (forall surfs' points, aims <> [] -> modify_adc adc1 adc2 surfs = Ok surfs' -> Forall2 (traced m surfs' starts) aims points ->
     (get_nine m surfs starts adc1 adc2 aims = Err ValueError <-> forall k, ~ Forall (fun p => length p = k) points)).
Proof.
  intros F. split; [now intros ->|]. split.
  - intros N L. unfold get_nine. destruct aims as [|a aims]; [contradiction|]. unfold modify_adc. destruct (Nat.ltb_spec (length surfs) 21); [reflexivity|lia].
  - intros surfs' points N M T. unfold get_nine. destruct aims as [|a aims]; [contradiction|]. rewrite M. cbn [rbind]. rewrite (trace_waves_complete m surfs' (a :: aims) starts points).
    + cbn [rbind]. cbv zeta. destruct (forallb _ points) eqn:B.
      * split; [discriminate|]. intros K. exfalso. apply (K (length (hd [] points))). apply Forall_forall. intros p Hp. apply (proj1 (forallb_forall _ _) B) in Hp. now apply Nat.eqb_eq.
      * split; [|reflexivity]. intros _ k K. rewrite <- Bool.not_true_iff_false in B. apply B, forallb_forall. intros p Hp. apply Nat.eqb_eq. rewrite Forall_forall in K. rewrite (K p Hp). destruct points as [|q points]; [destruct Hp|]. cbn [hd]. now rewrite (K q (or_introl eq_refl)).
    + revert F. generalize (a :: aims). clear. intros aims0 F. induction F as [|[[w u] v] l H F IH]; constructor; assumption.
    + revert T F. generalize (a :: aims). clear. intros aims0 T F. induction T as [|[[w u] v] p aims l (wave & outs & A & B & C & D) T IH]; [constructor|]. inversion F as [|? ? F1 F2]; subst. constructor; [|now apply IH].
      exists wave, outs. split; [exact A|]. split; [|split; [reflexivity|exact D]]. clear - B F1. induction B as [|r o starts outs (r' & B1 & B2) _ IH]; constructor; [|exact IH]. rewrite (towards_aimed u v r r' F1 B1), outcome_arrival in B2. exact B2.
Qed.
Print Assumptions C102_none.
(** A screen followed by twenty breaks, seen by two rays coming down. *)
Example C102_example m : let surfs := plain AIris 0 0 :: repeat (plain ACBout 0 0) 20 in
  let starts := [{| r_pos := (1, 0, 2); r_dir := (0, 0, -1) |}; {| r_pos := (3, 2, 2); r_dir := (0, 0, -1) |}] in
  Forall (fun '(_, u, v) => u * u + v * v < 1) [(2%nat, 0, 0)] /\
  exists n, get_nine m surfs starts 0 0 [(2%nat, 0, 0)] = Ok n /\ n_good n = 2%nat /\ n_ave n = (2, 1, 0) /\ n_rms n = (1, 1, 0).
Proof.
  cbv zeta. split; [constructor; [lra|constructor]|].
  assert (E0 : euler 0 0 0 = ((1, 0, 0), (0, 1, 0), (0, 0, 1))) by (unfold euler, radians; rewrite !deg_rad; replace (PI * 0 / 180) with 0 by field; rewrite cos_0, sin_0; apply f_equal2; [apply f_equal2|]; apply vec_eq; ring).
  assert (M : modify_adc 0 0 (plain AIris 0 0 :: repeat (plain ACBout 0 0) 20) = Ok (plain AIris 0 0 :: repeat (plain ACBout 0 0) 20)).
  { unfold modify_adc. cbn [repeat length Nat.ltb Nat.leb seq combine map Nat.eqb]. unfold set_euler, set_roll, with_euler. cbn [s_glass s_action s_odiam s_idiam s_curve s_asph s_vertex s_tilt s_pitch s_roll s_coefs s_poly s_nspider s_wspider s_euler plain]. rewrite Ropp_0. reflexivity. }
  assert (I0 : forall a r, to_local (plain a 0 0) r = r).
  { intros a [[[x y] z] [[u v] w]]. unfold to_local. cbn [plain s_euler s_vertex r_pos r_dir]. rewrite E0. apply ray_eq; apply vec_eq; ring. }
  assert (I1 : forall a r, to_lab (plain a 0 0) r = r).
  { intros a [[[x y] z] [[u v] w]]. unfold to_lab. cbn [plain s_euler s_vertex r_pos r_dir]. rewrite E0. apply ray_eq; apply vec_eq; ring. }
  assert (V : forall a p, validate (plain a 0 0) p = COk).
  { intros a p. apply C98_aperture. unfold open_at. cbn [plain s_odiam s_idiam s_nspider]. destruct (r_pos p) as [[x y] z]. split; [intros O; exfalso; lra|]. split; [replace (0 / 2) with 0 by lra; apply sqrt_pos|intros j O; exfalso; lia]. }
  assert (X : forall x y g, encounter m "F" (plain AIris 0 0) g {| r_pos := (x, y, 2); r_dir := (0, 0, -1) |} = Ok (COk, {| r_pos := (x, y, 0); r_dir := (0, 0, -1) |})).
  { intros x y g. unfold encounter, intercept, conic_intercept. cbn [s_poly plain s_curve s_asph r_pos r_dir].
    replace (0 * (0 * 0 + 0 * 0 + (0 + 1) * -1 * -1)) with 0 by ring. replace (2 * 0 * (x * 0 + y * 0 + (0 + 1) * 2 * -1) - 2 * -1) with 2 by ring. replace (0 * (x * x + y * y + (0 + 1) * 2 * 2) - 2 * 2) with (-4) by ring.
    unfold both_roots. destruct (Reqb_spec' 0 0); [|lra]. destruct (Reqb_spec' 2 0); [lra|]. cbn [andb negb]. replace (- -4 / 2) with 2 by lra.
    rewrite Rmin_right, Rmax_left by lra. destruct (Rleb_spec' 2 0); [lra|]. cbn [andb]. destruct (Rltb_spec' 0 0); [lra|]. rewrite Bool.andb_false_r. destruct (Rltb_spec' 0 2); [|lra].
    destruct (Rltb_spec' ((0 + 1) * 0 * (2 + -1 * 2)) 1); [|lra]. cbn [andb]. destruct (Rleb_spec' 2 0); [lra|]. cbn [rbind is_ok]. cbv zeta. change (validate _ _) with (validate (plain AIris 0 0) (advance 2 {| r_pos := (x, y, 2); r_dir := (0, 0, -1) |})). rewrite V. cbn [is_ok]. unfold redirect. change (s_action (plain AIris 0 0)) with AIris. destruct g; cbv iota; do 2 f_equal; unfold advance; apply ray_eq; try apply vec_eq; cbn [r_pos r_dir]; try reflexivity; ring. }
  assert (R1 : forall x y, run_ray m "F" (plain AIris 0 0 :: repeat (plain ACBout 0 0) 20) (start_row {| r_pos := (x, y, 2); r_dir := (0, 0, -1) |}) =
    Ok (repeat {| r_lab := {| r_pos := (x, y, 0); r_dir := (0, 0, -1) |}; r_loc := {| r_pos := (x, y, 0); r_dir := (0, 0, -1) |} |} 21, COk)).
  { intros x y. set (q := {| r_pos := (x, y, 0); r_dir := (0, 0, -1) |}) in *.
    assert (RB : forall k, run_ray m "F" (repeat (plain ACBout 0 0) k) {| r_lab := q; r_loc := q |} = Ok (repeat {| r_lab := q; r_loc := q |} k, COk)).
    { induction k as [|k IH]; [reflexivity|]. cbn [repeat run_ray]. change (is_cbout (plain ACBout 0 0)) with true. cbv iota zeta. cbn [r_loc]. now rewrite I1, IH. }
    cbn [run_ray]. change (is_cbout (plain AIris 0 0)) with false. cbv iota. rewrite I0. cbn [start_row r_lab]. rewrite X. cbn [rbind is_ok]. cbv zeta. now rewrite I1, RB. }
  unfold get_nine. rewrite M. cbn [rbind trace_waves nth_error fraunhofer rmapM steer r_dir r_pos]. unfold fixup. replace (1 - 0 * 0 - 0 * 0) with 1 by ring. destruct (Rltb_spec' 1 0); [lra|]. destruct (Rleb_spec' 0 (-1)); [lra|]. rewrite sqrt_1. cbn [rmap rbind].
  unfold run_all_table_rays. cbn [run_all]. change (- (1)) with (-1). rewrite !R1. cbn [rbind repeat length Nat.eqb last r_lab r_pos Nat.ltb Nat.leb hd forallb andb concat app]. cbv zeta. eexists. split; [reflexivity|]. split; [reflexivity|].
  cbn [n_ave n_rms map length]. unfold std. cbn [map Rsum fold_right length INR]. split; apply vec_eq; try lra.
  - match goal with |- sqrt ?e = _ => replace e with 1 by lra end. apply sqrt_1.
  - match goal with |- sqrt ?e = _ => replace e with 1 by lra end. apply sqrt_1.
  - match goal with |- sqrt ?e = _ => replace e with 0 by lra end. apply sqrt_0.
Qed.
