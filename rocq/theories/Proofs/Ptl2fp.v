From Verif.Model Require Import Ptl2fp.
From Verif.Spec Require Import Ptl2fp.
From Verif.Proofs Require Import Numpy RealNum RsznLookups.
From Verif.Proofs Require AverageCoord Trig.
From Coq Require Import Lra.
Local Open Scope R_scope.

(** An orthogonal matrix of determinant 1. *)
Lemma sc x : sin x * sin x + cos x * cos x = 1.
Proof. pose proof (sin2_cos2 x). unfold Rsqr in H. exact H. Qed.
Lemma cs x : cos x * cos x = 1 - sin x * sin x.
Proof. pose proof (sc x). lra. Qed.

Lemma rotation_inverse a b g v : mdot (transpose (Rxyz a b g)) (mdot (Rxyz a b g) v) = v.
Proof.
  destruct v as [[x y] z]. unfold Rxyz, Rx, Ry, Rz, mmul, transpose, mdot, dot3.
  generalize (cs a) (cs b) (cs g). generalize (cos a) (sin a) (cos b) (sin b) (cos g) (sin g). intros ca sa cb sb cg sg Ha Hb Hg.
  apply f_equal2; [apply f_equal2|]; ring_simplify; replace (ca ^ 2) with (1 - sa * sa) by lra; replace (cb ^ 2) with (1 - sb * sb) by lra; replace (cg ^ 2) with (1 - sg * sg) by lra; ring_simplify; try reflexivity.
Qed.
Lemma rotation_inverse' a b g v : mdot (Rxyz a b g) (mdot (transpose (Rxyz a b g)) v) = v.
Proof.
  destruct v as [[x y] z]. unfold Rxyz, Rx, Ry, Rz, mmul, transpose, mdot, dot3.
  generalize (cs a) (cs b) (cs g). generalize (cos a) (sin a) (cos b) (sin b) (cos g) (sin g). intros ca sa cb sb cg sg Ha Hb Hg.
  apply f_equal2; [apply f_equal2|]; ring_simplify; replace (ca ^ 2) with (1 - sa * sa) by lra; replace (cb ^ 2) with (1 - sb * sb) by lra; replace (cg ^ 2) with (1 - sg * sg) by lra; ring_simplify; try reflexivity.
Qed.
Lemma mdot_mmul m n v : mdot (mmul m n) v = mdot m (mdot n v).
Proof.
  destruct m as [[[[a1 a2] a3] [[b1 b2] b3]] [[c1 c2] c3]], n as [[[[d1 d2] d3] [[e1 e2] e3]] [[f1 f2] f3]], v as [[x y] z].
  cbn. apply f_equal2; [apply f_equal2|]; ring.
Qed.
Lemma distance3_Rx a p q : distance3 (mdot (Rx a) p) (mdot (Rx a) q) = distance3 p q.
Proof. destruct p as [[x y] z], q as [[x' y'] z']. cbn. f_equal. generalize (cs a). generalize (cos a) (sin a). intros c s H. ring_simplify. replace (c ^ 2) with (1 - s * s) by lra. ring. Qed.
Lemma distance3_Ry a p q : distance3 (mdot (Ry a) p) (mdot (Ry a) q) = distance3 p q.
Proof. destruct p as [[x y] z], q as [[x' y'] z']. cbn. f_equal. generalize (cs a). generalize (cos a) (sin a). intros c s H. ring_simplify. replace (c ^ 2) with (1 - s * s) by lra. ring. Qed.
Lemma distance3_Rz a p q : distance3 (mdot (Rz a) p) (mdot (Rz a) q) = distance3 p q.
Proof. destruct p as [[x y] z], q as [[x' y'] z']. cbn. f_equal. generalize (cs a). generalize (cos a) (sin a). intros c s H. ring_simplify. replace (c ^ 2) with (1 - s * s) by lra. ring. Qed.
Lemma volume6_Rx a o p q r : volume6 (mdot (Rx a) o) (mdot (Rx a) p) (mdot (Rx a) q) (mdot (Rx a) r) = volume6 o p q r.
Proof. destruct o as [[ox oy] oz], p as [[x y] z], q as [[x' y'] z'], r as [[x'' y''] z'']. cbn. generalize (cs a). generalize (cos a) (sin a). intros c s H. ring_simplify. replace (c ^ 2) with (1 - s * s) by lra. ring. Qed.
Lemma volume6_Ry a o p q r : volume6 (mdot (Ry a) o) (mdot (Ry a) p) (mdot (Ry a) q) (mdot (Ry a) r) = volume6 o p q r.
Proof. destruct o as [[ox oy] oz], p as [[x y] z], q as [[x' y'] z'], r as [[x'' y''] z'']. cbn. generalize (cs a). generalize (cos a) (sin a). intros c s H. ring_simplify. replace (c ^ 2) with (1 - s * s) by lra. ring. Qed.
Lemma volume6_Rz a o p q r : volume6 (mdot (Rz a) o) (mdot (Rz a) p) (mdot (Rz a) q) (mdot (Rz a) r) = volume6 o p q r.
Proof. destruct o as [[ox oy] oz], p as [[x y] z], q as [[x' y'] z'], r as [[x'' y''] z'']. cbn. generalize (cs a). generalize (cos a) (sin a). intros c s H. ring_simplify. replace (c ^ 2) with (1 - s * s) by lra. ring. Qed.
Lemma distance3_add t p q : distance3 (add3 p t) (add3 q t) = distance3 p q.
Proof. destruct t as [[tx ty] tz], p as [[x y] z], q as [[x' y'] z']. cbn. f_equal. ring. Qed.
Lemma volume6_add t o p q r : volume6 (add3 o t) (add3 p t) (add3 q t) (add3 r t) = volume6 o p q r.
Proof. destruct t as [[tx ty] tz], o as [[ox oy] oz], p as [[x y] z], q as [[x' y'] z'], r as [[x'' y''] z'']. cbn. ring. Qed.
Definition move (p : alignment) (v : vec3) : vec3 := add3 (mdot (rotation p) v) (translation p).
Definition unmove (p : alignment) (v : vec3) : vec3 := mdot (transpose (rotation p)) (sub3 v (translation p)).
Lemma move_distance a p q : distance3 (move a p) (move a q) = distance3 p q.
Proof. unfold move, rotation, Rxyz. rewrite distance3_add, !mdot_mmul, distance3_Rz, distance3_Ry, distance3_Rx. reflexivity. Qed.
Lemma move_volume a o p q r : volume6 (move a o) (move a p) (move a q) (move a r) = volume6 o p q r.
Proof. unfold move, rotation, Rxyz. rewrite volume6_add, !mdot_mmul, volume6_Rz, volume6_Ry, volume6_Rx. reflexivity. Qed.
Lemma sub_add v t : sub3 (add3 v t) t = v.
Proof. destruct v as [[x y] z], t as [[a b] c]. cbn. apply f_equal2; [apply f_equal2|]; ring. Qed.
Lemma add_sub v t : add3 (sub3 v t) t = v.
Proof. destruct v as [[x y] z], t as [[a b] c]. cbn. apply f_equal2; [apply f_equal2|]; ring. Qed.
Lemma unmove_move a v : unmove a (move a v) = v.
Proof. unfold unmove, move. rewrite sub_add. apply rotation_inverse. Qed.
Lemma move_unmove a v : move a (unmove a v) = v.
Proof. unfold unmove, move. rewrite (rotation_inverse' (alpha a) (beta a) (gamma a)). apply add_sub. Qed.
Lemma unmove_distance a p q : distance3 (unmove a p) (unmove a q) = distance3 p q.
Proof. rewrite <- (move_distance a), !move_unmove. reflexivity. Qed.
Lemma ptl2fp_eq d loc p x y z : dict_get Z.eqb d loc = Some p -> ptl2fp d loc x y z = Ok (option_map (fun z => move p (x, y, z)) (nominal_z x y z)).
Proof. intros E. unfold ptl2fp, dict_getE. rewrite E. reflexivity. Qed.
Lemma fp2ptl_eq d loc p x y z : dict_get Z.eqb d loc = Some p -> fp2ptl d loc x y z = Ok (option_map (fun z => unmove p (x, y, z)) (nominal_z x y z)).
Proof. intros E. unfold fp2ptl, dict_getE. rewrite E. reflexivity. Qed.

(** *** Tables *)
Lemma combine_fst {A B} (l : list A) : forall (w : list B), length w = length l -> map fst (combine l w) = l.
Proof. induction l as [|a l IH]; intros [|b w] L; cbn in *; try discriminate; [reflexivity|]. f_equal. apply IH. lia. Qed.
Lemma Forall2_combine_map {A B C} (P : A -> B -> Prop) (f : B -> C) l w : Forall2 P l w -> forall a b, P a b -> forall i, nth_error l i = Some a -> nth_error w i = Some b -> In (a, f b) (combine l (map f w)).
Proof.
  induction 1 as [|x y l w H F IH]; intros a b Pab i Ea Eb; [destruct i; discriminate|]. destruct i as [|i]; cbn in *; [left; congruence|right; eapply IH; eauto].
Qed.
Lemma apply_petal_spec d locs pts fp petal p : length pts = length locs -> length fp = length locs -> dict_get Z.eqb d petal = Some p ->
  exists fp', apply_petal d locs pts fp petal = Ok fp' /\ length fp' = length locs /\
  forall i loc, nth_error locs i = Some loc -> nth_error fp' i = if Z.eqb petal loc then option_map (move p) (nth_error pts i) else nth_error fp i.
Proof.
  intros Lp Lf Ed. unfold apply_petal, dict_getE. rewrite Ed. cbn [rbind].
  set (ii := where_ (Z.eqb petal) locs).
  assert (Hii : forall i, In i ii -> (i < length locs)%nat).
  { intros i Hi. apply where_spec in Hi as (a & Ha & _). apply nth_error_Some. congruence. }
  destruct (take_total pts ii) as [v Ev]. { apply Forall_forall. intros i Hi. rewrite Lp. auto. }
  rewrite Ev. cbn [rbind]. apply take_Ok in Ev. assert (Lv : length v = length ii) by (symmetry; eapply Forall2_length; exact Ev).
  assert (Fc : map fst (combine ii (map (fun v => add3 (mdot (rotation p) v) (translation p)) v)) = ii) by (apply combine_fst; now rewrite map_length).
  destruct (AverageCoord.set_each_total fp (combine ii (map (fun v => add3 (mdot (rotation p) v) (translation p)) v))) as [fp' E].
  { intros i Hi. rewrite Fc in Hi. rewrite Lf. auto. }
  exists fp'. split; [exact E|]. apply AverageCoord.set_each_spec in E as (L' & In1 & Out); [|rewrite Fc; apply where_NoDup].
  split; [congruence|]. intros i loc Hl. destruct (Z.eqb petal loc) eqn:Eq.
  - assert (Hi : In i ii) by (apply where_spec; eauto). destruct (In_nth_error _ _ Hi) as [k Hk].
    destruct (nth_error v k) as [w|] eqn:Hw; [|apply nth_error_None in Hw; assert (k < length ii)%nat by (apply nth_error_Some; congruence); lia].
    assert (Hp : nth_error pts i = Some w) by (clear - Ev Hk Hw; revert k Hk Hw; induction Ev; intros [|k] Hk Hw; cbn in *; try discriminate; [congruence|eauto]).
    rewrite Hp. apply In1. apply (Forall2_combine_map _ _ _ _ Ev i w Hp k Hk Hw).
  - rewrite Out; [reflexivity|]. rewrite Fc. intros Hi. apply where_spec in Hi as (a & Ha & Hb). congruence.
Qed.
Lemma apply_petals_spec d locs pts petals : length pts = length locs -> (forall l, In l petals -> exists p, dict_get Z.eqb d l = Some p) ->
  forall fp, length fp = length locs ->
  exists fp', apply_petals d locs pts fp petals = Ok fp' /\ length fp' = length locs /\
  forall i loc, nth_error locs i = Some loc ->
    (forall p, In loc petals -> dict_get Z.eqb d loc = Some p -> nth_error fp' i = option_map (move p) (nth_error pts i)) /\ (~ In loc petals -> nth_error fp' i = nth_error fp i).
Proof.
  intros Lp. induction petals as [|petal petals IH]; intros Hd fp Lf; cbn.
  - exists fp. split; [reflexivity|]. split; [exact Lf|]. intros i loc _. split; [intros p []|reflexivity].
  - destruct (Hd petal (or_introl eq_refl)) as [p Ep]. destruct (apply_petal_spec d locs pts fp petal p Lp Lf Ep) as (fp1 & E1 & L1 & S1). rewrite E1. cbn [rbind].
    destruct (IH (fun l Hl => Hd l (or_intror Hl)) fp1 L1) as (fp2 & E2 & L2 & S2). exists fp2. split; [exact E2|]. split; [exact L2|].
    intros i loc Hl. destruct (S2 i loc Hl) as [A B]. specialize (S1 i loc Hl). split.
    + intros q Hin Hq. destruct (in_dec Z.eq_dec loc petals) as [I|I]; [now apply A|]. destruct Hin as [->|Hin]; [|contradiction]. rewrite B by exact I. rewrite S1, Z.eqb_refl. congruence.
    + intros N. rewrite B by tauto. rewrite S1. destruct (Z.eqb_spec petal loc) as [->|]; [tauto|reflexivity].
Qed.
Lemma apply_petals_missing d locs pts petals : length pts = length locs -> forall fp, length fp = length locs -> (exists l, In l petals /\ dict_get Z.eqb d l = None) ->
  apply_petals d locs pts fp petals = Err KeyError.
Proof.
  intros Lp. induction petals as [|petal petals IH]; intros fp Lf (l & Hl & E); [destruct Hl|]. cbn.
  destruct (dict_get Z.eqb d petal) as [p|] eqn:Ep.
  - destruct (apply_petal_spec d locs pts fp petal p Lp Lf Ep) as (fp1 & E1 & L1 & _). rewrite E1. cbn [rbind]. apply IH; [exact L1|]. exists l. split; [|exact E]. destruct Hl as [->|Hl]; [congruence|exact Hl].
  - unfold apply_petal, dict_getE. rewrite Ep. reflexivity.
Qed.

(** *** Shipped alignments: no tilt *)
Lemma move_flat a x y z : alpha a = 0 -> beta a = 0 -> move a (x, y, z) = (cos (gamma a) * x - sin (gamma a) * y + Tx a, sin (gamma a) * x + cos (gamma a) * y + Ty a, z + Tz a).
Proof.
  intros Ha Hb. unfold move, rotation, translation, Rxyz. rewrite Ha, Hb. cbn. rewrite cos_0, sin_0. apply f_equal2; [apply f_equal2|]; ring.
Qed.
Lemma unmove_flat a x y z z' : alpha a = 0 -> beta a = 0 -> fst (unmove a (x, y, z)) = fst (unmove a (x, y, z')).
Proof. intros Ha Hb. unfold unmove, rotation, translation, Rxyz. rewrite Ha, Hb. cbn. rewrite cos_0, sin_0. apply f_equal2; ring. Qed.
Lemma r2z_defined r : 0 <= r <= 500 -> exists z, r2z r = Some z.
Proof.
  intros H. destruct (interp_spec col_R col_Z r inc_R) as (z & E & _); [rewrite len_R; lia| |eauto].
  rewrite len_R. change (501 - 1)%nat with 500%nat. unfold col_R. rewrite (nth_col _ _ _ row0), (nth_col _ _ _ row500). lra.
Qed.
Lemma hyp_le x y r : 0 <= r -> sqrt (x ^ 2 + y ^ 2) <= r <-> x ^ 2 + y ^ 2 <= r ^ 2.
Proof.
  intros H. replace r with (sqrt (r ^ 2)) at 1 by (rewrite <- Rsqr_pow2; now apply sqrt_Rsqr). split; [apply sqrt_le_0; nra|apply sqrt_le_1; nra].
Qed.
Lemma moved_radius a x y R0 T : alpha a = 0 -> beta a = 0 -> 0 <= R0 -> 0 <= T -> sqrt (x ^ 2 + y ^ 2) <= R0 -> Tx a ^ 2 + Ty a ^ 2 <= T ^ 2 ->
  forall z x' y' z', move a (x, y, z) = (x', y', z') -> sqrt (x' ^ 2 + y' ^ 2) <= R0 + T.
Proof.
  intros Ha Hb HR HT HL HT2 z x' y' z' E. rewrite move_flat in E by assumption. injection E as <- <- <-. apply hyp_le; [lra|]. apply hyp_le in HL; [|exact HR].
  pose proof (cs (gamma a)) as C. set (u := cos (gamma a) * x - sin (gamma a) * y). set (v := sin (gamma a) * x + cos (gamma a) * y).
  assert (UV : u ^ 2 + v ^ 2 = x ^ 2 + y ^ 2).
  { replace (u ^ 2 + v ^ 2) with ((sin (gamma a) * sin (gamma a) + cos (gamma a) * cos (gamma a)) * (x ^ 2 + y ^ 2)) by (unfold u, v; ring). rewrite sc. ring. }
  assert (D : (u * Tx a + v * Ty a) ^ 2 <= (R0 * T) ^ 2).
  { apply Rle_trans with ((u ^ 2 + v ^ 2) * (Tx a ^ 2 + Ty a ^ 2)); [pose proof (pow2_ge_0 (u * Ty a - v * Tx a)); nra|]. rewrite UV.
    replace ((R0 * T) ^ 2) with (R0 ^ 2 * T ^ 2) by ring. apply Rmult_le_compat; nra. }
  assert (D' : u * Tx a + v * Ty a <= R0 * T). { apply Rsqr_incr_0_var; [rewrite !Rsqr_pow2; exact D|nra]. }
  nra.
Qed.
Lemma shipped loc a : dict_get Z.eqb petal_alignments loc = Some a -> alpha a = 0 /\ beta a = 0 /\ Tz a = 0 /\ Tx a ^ 2 + Ty a ^ 2 <= 0.135 ^ 2.
Proof.
  intros E. assert (F : Forall (fun la => let a := snd la in alpha a = 0 /\ beta a = 0 /\ Tz a = 0 /\ Tx a ^ 2 + Ty a ^ 2 <= 0.135 ^ 2) petal_alignments).
  { unfold petal_alignments. repeat constructor; cbn; lra. }
  revert E F. induction petal_alignments as [|[l b] t IH]; [discriminate|]. cbn. destruct (Z.eqb loc l); intros E F; inversion F; subst; [injection E as <-; assumption|auto].
Qed.
Theorem shipped_round_trip loc a x y : dict_get Z.eqb petal_alignments loc = Some a -> sqrt (x ^ 2 + y ^ 2) <= 499.865 ->
  exists x' y' z' z'', ptl2fp petal_alignments loc x y None = Ok (Some (x', y', z')) /\ fp2ptl petal_alignments loc x' y' None = Ok (Some (x, y, z'')).
Proof.
  intros Ed HL. destruct (shipped loc a Ed) as (Ha & Hb & Hz & HT). rewrite (ptl2fp_eq _ _ _ _ _ _ Ed). cbn [nominal_z].
  destruct (r2z_defined (sqrt (x ^ 2 + y ^ 2))) as [z Ez]; [split; [apply sqrt_pos|lra]|]. rewrite Ez. cbn [option_map].
  destruct (move a (x, y, z)) as [[x' y'] z'] eqn:Em. exists x', y', z'. rewrite (fp2ptl_eq _ _ _ _ _ _ Ed). cbn [nominal_z].
  pose proof (moved_radius a x y 499.865 0.135 Ha Hb ltac:(lra) ltac:(lra) HL HT z x' y' z' Em) as HR.
  destruct (r2z_defined (sqrt (x' ^ 2 + y' ^ 2))) as [z1 Ez1]; [split; [apply sqrt_pos|lra]|]. rewrite Ez1. cbn [option_map].
  pose proof (unmove_flat a x' y' z1 z' Ha Hb) as F. rewrite <- Em, unmove_move in F. destruct (unmove a (x', y', z1)) as [[u v] w] eqn:Eu. cbn in F. injection F as -> ->. eauto.
Qed.
Lemma move_rotations a v x y z : about_z (gamma a) (about_y (beta a) (about_x (alpha a) v)) = (x, y, z) -> move a v = (x + Tx a, y + Ty a, z + Tz a).
Proof.
  intros E. unfold move, rotation, translation, Rxyz. rewrite !mdot_mmul.
  assert (X : mdot (Rx (alpha a)) v = about_x (alpha a) v) by (destruct v as [[? ?] ?]; cbn; apply f_equal2; [apply f_equal2|]; ring). rewrite X. clear X.
  set (w := about_x (alpha a) v) in *. assert (X : mdot (Ry (beta a)) w = about_y (beta a) w) by (destruct w as [[? ?] ?]; cbn; apply f_equal2; [apply f_equal2|]; ring). rewrite X. clear X.
  set (u := about_y (beta a) w) in *. assert (X : mdot (Rz (gamma a)) u = about_z (gamma a) u) by (destruct u as [[? ?] ?]; cbn; apply f_equal2; [apply f_equal2|]; ring). rewrite X, E. reflexivity.
Qed.
