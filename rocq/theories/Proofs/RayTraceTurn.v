(** Turning the whole telescope around its axis, and the coordinate breaks of the atmospheric dispersion corrector. *)
From Coq Require Import Lra Psatz.
From Coquelicot Require Import Coquelicot.
From Verif.Model Require Import RayTrace.
From Verif.Proofs Require Import Prelude RealNum Trig LinAlg Sphere RayTrace.
From Verif.Spec Require Import Sphere RayTrace.
Local Open Scope R_scope.

Definition turn (a : R) (r : ray) : ray := {| r_pos := turned a (r_pos r); r_dir := turned a (r_dir r) |}.

Section Turn.
Context (a : R).
Let c := cos (PI * a / 180).
Let s := sin (PI * a / 180).
Lemma turn_cs : c * c + s * s = 1.
Proof. unfold c, s. pose proof (sin2_cos2 (PI * a / 180)). unfold Rsqr in *. lra. Qed.
Lemma turned_eq x y z : turned a (x, y, z) = (c * x - s * y, s * x + c * y, z).
Proof. reflexivity. Qed.
Lemma turned_square x y : (c * x - s * y) * (c * x - s * y) + (s * x + c * y) * (s * x + c * y) = x * x + y * y.
Proof. transitivity ((c * c + s * s) * (x * x + y * y)); [ring|]. rewrite turn_cs. ring. Qed.
Lemma turned_cross x y u v : (c * x - s * y) * (c * u - s * v) + (s * x + c * y) * (s * u + c * v) = x * u + y * v.
Proof. transitivity ((c * c + s * s) * (x * u + y * v)); [ring|]. rewrite turn_cs. ring. Qed.
Lemma turned_inner u v : inner (turned a u) (turned a v) = inner u v.
Proof. destruct u as [[u0 u1] u2], v as [[v0 v1] v2]. rewrite !turned_eq. unfold inner. now rewrite turned_cross. Qed.
Lemma turned_plus u v : turned a (plus u v) = plus (turned a u) (turned a v).
Proof. destruct u as [[u0 u1] u2], v as [[v0 v1] v2]. cbn [plus]. rewrite !turned_eq. cbn [plus]. apply vec_eq; ring. Qed.
Lemma turned_times k u : turned a (times k u) = times k (turned a u).
Proof. destruct u as [[u0 u1] u2]. cbn [times]. rewrite !turned_eq. cbn [times]. apply vec_eq; ring. Qed.

Lemma advance_turn d r : advance d (turn a r) = turn a (advance d r).
Proof. destruct r as [[[x y] z] [[u v] w]]. unfold turn, advance. cbn [r_pos r_dir]. rewrite !turned_eq. apply ray_eq; [apply vec_eq; ring|reflexivity]. Qed.
Lemma conic_intercept_turn sf r : conic_intercept sf (turn a r) = let '(cd, r') := conic_intercept sf r in (cd, turn a r').
Proof.
  destruct r as [[[x y] z] [[u v] w]]. unfold conic_intercept, turn. cbn [r_pos r_dir]. rewrite !turned_eq, !turned_square, turned_cross.
  destruct (both_roots _ _ _) as [r1 r2]. destruct (_ && _)%bool; [reflexivity|]. cbv zeta. match goal with |- context [Rleb ?d 0] => set (dd := d) end. destruct (Rleb dd 0); [reflexivity|]. f_equal. apply (advance_turn dd {| r_pos := (x, y, z); r_dir := (u, v, w) |}).
Qed.
Lemma zconic_turn sf r d : zconic sf (turn a r) d = zconic sf r d.
Proof. unfold zconic. rewrite advance_turn. destruct (advance d r) as [[[x y] z] [[u v] w]]. cbn [turn r_pos]. rewrite turned_eq, turned_square. reflexivity. Qed.
Lemma zpoly_turn sf r d : zpoly sf (turn a r) d = zpoly sf r d.
Proof. unfold zpoly. rewrite advance_turn. destruct (advance d r) as [[[x y] z] [[u v] w]]. cbn [turn r_pos]. rewrite turned_eq, turned_square. reflexivity. Qed.
Lemma gap_turn sf r d : surface_gap sf (turn a r) d = surface_gap sf r d.
Proof. unfold surface_gap. rewrite zconic_turn, zpoly_turn. destruct (zconic sf r d) as [zc cd]. destruct (is_ok cd); [|reflexivity]. destruct r as [[[x y] z] [[u v] w]]. cbn [turn r_pos r_dir]. rewrite !turned_eq. reflexivity. Qed.
Lemma newton_turn sf r n : forall d, newton sf (turn a r) n d = newton sf r n d.
Proof.
  induction n as [|n IH]; intros d; cbn [newton]; unfold gap_slope; rewrite !gap_turn; destruct (surface_gap sf r d) as [f cd]; destruct (is_ok cd); try reflexivity; destruct (Reqb _ 0); try reflexivity; cbv zeta; destruct (Rltb _ _); try reflexivity. apply IH.
Qed.
Lemma intercept_turn sf r : intercept sf (turn a r) = rmap (fun '(cd, r') => (cd, turn a r')) (intercept sf r).
Proof.
  unfold intercept, higher_intercept. rewrite conic_intercept_turn. destruct (conic_intercept sf r) as [cd r1]. destruct (s_poly sf); [|reflexivity]. destruct (is_ok cd); [|reflexivity].
  rewrite newton_turn. destruct (newton sf r1 8 0) as [[c2 d2]|e]; [|reflexivity]. cbn [rmap]. destruct (is_ok c2); [now rewrite advance_turn|reflexivity].
Qed.
Definition no_spider (sf : surface) : Prop := (s_nspider sf <= 0)%Z \/ s_wspider sf <= 0.
Lemma validate_turn sf r : no_spider sf -> validate sf (turn a r) = validate sf r.
Proof.
  intros H. unfold validate. destruct r as [[[x y] z] d]. cbn [turn r_pos]. rewrite turned_eq, turned_square. destruct (_ && _)%bool; [reflexivity|]. destruct (Rltb _ _); [reflexivity|].
  assert (E : ((s_nspider sf <? 1)%Z || Rleb (1 / 2 * s_wspider sf) 0)%bool = true).
  { destruct H as [H|H]; [destruct (Z.ltb_spec (s_nspider sf) 1); [reflexivity|lia]|]. destruct (Rleb_spec' (1 / 2 * s_wspider sf) 0); [apply Bool.orb_true_r|lra]. }
  cbv zeta. now rewrite E.
Qed.
Lemma normal_turn sf r : get_normal sf (turn a r) = turned a (get_normal sf r).
Proof.
  assert (G : grad_total sf (turn a r) = let '(gx, gy) := grad_total sf r in (c * gx - s * gy, s * gx + c * gy)).
  { unfold grad_total, grad_conic, grad_poly. destruct r as [[[x y] z] d]. cbn [turn r_pos]. rewrite turned_eq, turned_square. cbv zeta.
    set (arg := 1 - (s_asph sf + 1) * s_curve sf ^ 2 * (x * x + y * y)). set (rr := sqrt (x * x + y * y)). set (dz := dpoly_loop 0 (s_coefs sf) rr 1 0). set (co := s_curve sf / sqrt arg).
    destruct (Reqb (s_curve sf) 0), (Rleb arg 0), (s_poly sf), (Reqb rr 0); cbn iota; f_equal; unfold Rdiv; ring. }
  unfold get_normal. rewrite G. destruct (grad_total sf r) as [gx gy]. unfold normalize.
  replace ((- (c * gx - s * gy)) ^ 2 + (- (s * gx + c * gy)) ^ 2 + 1 ^ 2) with ((- gx) ^ 2 + (- gy) ^ 2 + 1 ^ 2).
  - destruct (Reqb _ 0); rewrite turned_eq; apply vec_eq; unfold Rdiv; ring.
  - transitivity ((c * c + s * s) * (gx ^ 2 + gy ^ 2) + 1); [rewrite turn_cs; ring|ring].
Qed.
Lemma redirect_turn m wave sf next r : redirect m wave sf next (turn a r) = rmap (fun '(cd, r') => (cd, turn a r')) (redirect m wave sf next r).
Proof.
  unfold redirect. destruct next as [g|]; [|reflexivity]. rewrite normal_turn. set (n := get_normal sf r). destruct (s_action sf); try reflexivity.
  - destruct (find_refraction m wave (s_glass sf)) as [numer|]; [|reflexivity]. destruct (find_refraction m wave g) as [denom|]; [|reflexivity]. cbn [rbind]. cbv zeta. set (mu := or_one numer / or_one denom). cbn [turn r_dir r_pos].
    assert (K : vscale mu (crossproduct (turned a n) (crossproduct (turned a (r_dir r)) (turned a n))) = turned a (vscale mu (crossproduct n (crossproduct (r_dir r) n)))).
    { destruct n as [[n0 n1] n2], (r_dir r) as [[u0 u1] u2]. rewrite !turned_eq. unfold vscale, crossproduct. rewrite turned_eq. pose proof turn_cs as CS. assert (CC : c * c = 1 - s * s) by lra. clearbody c s. apply vec_eq; ring [CC]. }
    rewrite K. set (kp := vscale mu _). rewrite !dot_inner, !turned_inner. destruct (Rleb _ 0); [reflexivity|]. cbn [rmap]. do 2 f_equal. unfold turn. cbn [r_pos r_dir]. apply ray_eq; [reflexivity|]. rewrite !vscale_times, !vadd_plus, turned_plus, turned_times. reflexivity.
  - cbv zeta. cbn [turn r_dir r_pos rmap]. do 2 f_equal. unfold turn. cbn [r_pos r_dir]. apply ray_eq; [reflexivity|]. rewrite !dot_inner, turned_inner, !vscale_times, !vadd_plus, turned_plus, turned_times. reflexivity.
  - cbn [turn r_dir r_pos rmap]. do 2 f_equal. unfold turn. cbn [r_pos r_dir]. apply ray_eq; [reflexivity|]. rewrite !vscale_times, turned_times. reflexivity.
Qed.
Lemma encounter_turn m wave sf next r : no_spider sf -> encounter m wave sf next (turn a r) = rmap (fun '(cd, r') => (cd, turn a r')) (encounter m wave sf next r).
Proof.
  intros N. unfold encounter. rewrite intercept_turn. destruct (intercept sf r) as [[cd r1]|e]; [|reflexivity]. cbn [rmap rbind]. destruct (is_ok cd); [|reflexivity]. cbv zeta. rewrite validate_turn by assumption. destruct (is_ok (validate sf r1)); [apply redirect_turn|reflexivity].
Qed.
End Turn.

(** Rotations around the axis. *)
Definition roll_matrix (b : R) : mat := ((cos (PI * b / 180), - sin (PI * b / 180), 0), (sin (PI * b / 180), cos (PI * b / 180), 0), (0, 0, 1)).
Lemma euler_roll b : euler 0 0 b = roll_matrix b.
Proof. unfold euler, roll_matrix, radians. rewrite !deg_rad. replace (PI * 0 / 180) with 0 by field. rewrite cos_0, sin_0. apply f_equal2; [apply f_equal2|]; apply vec_eq; ring. Qed.
Lemma act_roll b v : act (roll_matrix b) v = turned b v.
Proof. destruct v as [[x y] z]. unfold act, roll_matrix, inner, turned. apply vec_eq; ring. Qed.
Lemma act_roll_back b v : act (transposed (roll_matrix b)) v = turned (- b) v.
Proof. destruct v as [[x y] z]. unfold act, roll_matrix, transposed, inner, turned. replace (PI * - b / 180) with (- (PI * b / 180)) by field. rewrite cos_neg, sin_neg. apply vec_eq; ring. Qed.
Lemma turned_turned a b v : turned a (turned b v) = turned (a + b) v.
Proof. destruct v as [[x y] z]. unfold turned. replace (PI * (a + b) / 180) with (PI * a / 180 + PI * b / 180) by field. rewrite cos_plus, sin_plus. apply vec_eq; ring. Qed.
Lemma turned_0 v : turned 0 v = v.
Proof. destruct v as [[x y] z]. unfold turned. replace (PI * 0 / 180) with 0 by field. rewrite cos_0, sin_0. apply vec_eq; ring. Qed.
Lemma turned_axis a z : turned a (0, 0, z) = (0, 0, z).
Proof. unfold turned. apply vec_eq; ring. Qed.
Lemma turn_turn a b r : turn a (turn b r) = turn (a + b) r.
Proof. unfold turn. cbn [r_pos r_dir]. now rewrite !turned_turned. Qed.

(** A surface centred on the axis, possibly rolled. *)
Definition axial (sf : surface) : Prop := exists b z, s_euler sf = roll_matrix b /\ s_vertex sf = (0, 0, z).
Lemma to_lab_axial sf b z r : s_euler sf = roll_matrix b -> s_vertex sf = (0, 0, z) -> to_lab sf r = {| r_pos := plus (turned b (r_pos r)) (0, 0, z); r_dir := turned b (r_dir r) |}.
Proof. intros E V. rewrite to_lab_act. unfold ray_in. now rewrite E, V, !act_roll. Qed.
Lemma to_lab_turn sf a r : axial sf -> to_lab sf (turn a r) = turn a (to_lab sf r).
Proof.
  intros (b & z & E & V). rewrite !(to_lab_axial sf b z _ E V). unfold turn. cbn [r_pos r_dir]. rewrite turned_plus, turned_axis, !turned_turned, (Rplus_comm b a). reflexivity.
Qed.
Lemma to_local_turn sf a r : axial sf -> to_local sf (turn a r) = turn a (to_local sf r).
Proof.
  intros (b & z & E & V). rewrite !to_local_act, E, V. unfold turn. cbn [r_pos r_dir]. rewrite !act_roll_back, !turned_turned, (Rplus_comm a (- b)). apply ray_eq; [|reflexivity].
  rewrite !turned_plus, !turned_times, !turned_axis, turned_turned. reflexivity.
Qed.

(** End of a run: the code, and the final ray if every surface was passed. *)
Definition arrival (m : media) (wave : string) (surfs : list surface) (prev : row) : res (code * option ray) :=
  rmap (fun '(rows, c) => (c, if is_ok c then Some (r_lab (last rows prev)) else None)) (run_ray m wave surfs prev).
Lemma last_cons {A} (x d : A) l : last (x :: l) d = last l x.
Proof. revert x. induction l as [|y l IH]; intros x; [reflexivity|]. cbn [last]. destruct l; [reflexivity|]. exact (IH x). Qed.
Lemma arrival_nil m wave prev : arrival m wave [] prev = Ok (COk, Some (r_lab prev)).
Proof. reflexivity. Qed.
Lemma arrival_cbout m wave sf rest prev : is_cbout sf = true -> arrival m wave (sf :: rest) prev = arrival m wave rest {| r_lab := to_lab sf (r_loc prev); r_loc := r_loc prev |}.
Proof.
  intros H. unfold arrival. cbn [run_ray]. rewrite H. cbv zeta. destruct (run_ray m wave rest _) as [[rows c]|e]; [|reflexivity]. cbn [rmap]. now rewrite last_cons.
Qed.
Lemma arrival_surface m wave sf rest prev : is_cbout sf = false -> arrival m wave (sf :: rest) prev =
  rbind (encounter m wave sf (option_map s_glass (hd_error rest)) (to_local sf (r_lab prev))) (fun '(c, r1) =>
  if is_ok c then arrival m wave rest {| r_lab := to_lab sf r1; r_loc := r1 |} else Ok (c, None)).
Proof.
  intros H. unfold arrival. cbn [run_ray]. rewrite H. destruct (encounter _ _ _ _ _) as [[c r1]|e]; [|reflexivity]. cbn [rbind]. destruct (is_ok c) eqn:E.
  - cbv zeta. destruct (run_ray m wave rest _) as [[rows c']|e]; [|reflexivity]. cbn [rmap]. now rewrite last_cons.
  - cbn [rmap]. now rewrite E.
Qed.

(** Two lists of surfaces, the second for the corrector turned by [t] more. The four phases: outside the corrector; just
    inside; inside; just outside. *)
Inductive phase := Outside | Entered | Inside | Left.
Inductive twin (t : R) : phase -> list surface -> list surface -> Prop :=
| twin_nil : twin t Outside [] []
| twin_left_nil : twin t Left [] []
| twin_out sf rest rest' : axial sf -> no_spider sf -> twin t Outside rest rest' -> twin t Outside (sf :: rest) (sf :: rest')
| twin_left sf rest rest' : axial sf -> no_spider sf -> is_cbout sf = false -> twin t Outside rest rest' -> twin t Left (sf :: rest) (sf :: rest')
| twin_enter sf sf' b z rest rest' : is_cbout sf = true -> is_cbout sf' = true -> s_glass sf = s_glass sf' -> s_euler sf = roll_matrix (- b) -> s_euler sf' = roll_matrix (- (b + t)) ->
    s_vertex sf = (0, 0, z) -> s_vertex sf' = (0, 0, z) -> twin t Entered rest rest' -> twin t Outside (sf :: rest) (sf' :: rest')
| twin_entered sf rest rest' : is_cbout sf = false -> twin t Inside rest rest' -> twin t Entered (sf :: rest) (sf :: rest')
| twin_in sf rest rest' : twin t Inside rest rest' -> twin t Inside (sf :: rest) (sf :: rest')
| twin_exit sf sf' b z rest rest' : is_cbout sf = true -> is_cbout sf' = true -> s_glass sf = s_glass sf' -> s_euler sf = roll_matrix b -> s_euler sf' = roll_matrix (b + t) ->
    s_vertex sf = (0, 0, z) -> s_vertex sf' = (0, 0, z) -> twin t Left rest rest' -> twin t Inside (sf :: rest) (sf' :: rest').
Definition phase_row (t : R) (p : phase) (r : row) : row :=
  match p with
  | Outside => {| r_lab := turn t (r_lab r); r_loc := turn t (r_loc r) |}
  | Entered => {| r_lab := r_lab r; r_loc := turn t (r_loc r) |}
  | Inside => r
  | Left => {| r_lab := turn t (r_lab r); r_loc := r_loc r |}
  end.
Lemma twin_glass t p l l' : twin t p l l' -> option_map s_glass (hd_error l') = option_map s_glass (hd_error l).
Proof. destruct 1; cbn; congruence. Qed.
Lemma arrival_turn t m wave p l l' : twin t p l l' -> forall prev,
  arrival m wave l' (phase_row t p prev) = rmap (fun '(c, o) => (c, option_map (turn t) o)) (arrival m wave l prev).
Proof.
  induction 1 as [ | |sf rest rest' A N T IH|sf rest rest' A N B T IH|sf sf' b z rest rest' B B' G E E' V V' T IH|sf rest rest' B T IH|sf rest rest' T IH|sf sf' b z rest rest' B B' G E E' V V' T IH]; intros prev.
  - reflexivity.
  - reflexivity.
  - destruct (is_cbout sf) eqn:B.
    + rewrite !arrival_cbout by assumption. rewrite <- IH. cbn [phase_row r_loc r_lab]. rewrite to_lab_turn by assumption. reflexivity.
    + rewrite !arrival_surface by assumption. cbn [phase_row r_lab]. rewrite to_local_turn, (twin_glass _ _ _ _ T), encounter_turn by assumption.
      destruct (encounter _ _ _ _ _) as [[c r1]|e]; [|reflexivity]. cbn [rmap rbind]. destruct (is_ok c); [|reflexivity]. rewrite <- IH. cbn [phase_row r_lab r_loc]. rewrite to_lab_turn by assumption. reflexivity.
  - rewrite !arrival_surface by assumption. cbn [phase_row r_lab]. rewrite to_local_turn, (twin_glass _ _ _ _ T), encounter_turn by assumption.
    destruct (encounter _ _ _ _ _) as [[c r1]|e]; [|reflexivity]. cbn [rmap rbind]. destruct (is_ok c); [|reflexivity]. rewrite <- IH. cbn [phase_row r_lab r_loc]. rewrite to_lab_turn by assumption. reflexivity.
  - rewrite !arrival_cbout by assumption. rewrite <- IH. cbn [phase_row r_loc r_lab]. f_equal. rewrite (to_lab_axial sf _ _ _ E V), (to_lab_axial sf' _ _ _ E' V'). unfold turn at 1 2. cbn [r_pos r_dir]. rewrite !turned_turned. replace (- (b + t) + t) with (- b) by ring. reflexivity.
  - rewrite !arrival_surface by assumption. cbn [phase_row r_lab]. rewrite (twin_glass _ _ _ _ T). destruct (encounter _ _ _ _ _) as [[c r1]|e]; [|reflexivity]. cbn [rbind]. destruct (is_ok c); [|reflexivity]. rewrite <- IH. reflexivity.
  - cbn [phase_row]. destruct (is_cbout sf) eqn:B.
    + rewrite !arrival_cbout by assumption. rewrite <- IH. reflexivity.
    + rewrite !arrival_surface by assumption. rewrite (twin_glass _ _ _ _ T). destruct (encounter _ _ _ _ _) as [[c r1]|e]; [|reflexivity]. cbn [rbind]. destruct (is_ok c); [|reflexivity]. rewrite <- IH. reflexivity.
  - cbn [phase_row]. rewrite !arrival_cbout by assumption. rewrite <- IH. cbn [phase_row r_loc r_lab]. f_equal. rewrite (to_lab_axial sf _ _ _ E V), (to_lab_axial sf' _ _ _ E' V'). unfold turn. cbn [r_pos r_dir]. rewrite turned_plus, turned_axis, !turned_turned, (Rplus_comm b t). reflexivity.
Qed.

(** The table with its corrector. *)
Definition phase_of (k : nat) : phase :=
  if Nat.leb k 11 then Outside else if Nat.eqb k 12 then Entered else if Nat.leb k 15 then Inside else if Nat.eqb k 16 then Left
  else if Nat.eqb k 17 then Outside else if Nat.eqb k 18 then Entered else if Nat.leb k 21 then Inside else if Nat.eqb k 22 then Left else Outside.
Definition turned_row (adc1 adc2 : R) (ks : nat * surface) : surface :=
  let '(j, s) := ks in if Nat.eqb j 11 then set_roll s (- adc1) else if Nat.eqb j 15 then set_roll s adc1
                       else if Nat.eqb j 17 then set_roll s (- adc2) else if Nat.eqb j 21 then set_roll s adc2 else s.
Definition on_axis (sf : surface) : Prop := s_tilt sf = 0 /\ s_pitch sf = 0 /\ exists z, s_vertex sf = (0, 0, z).
Lemma on_axis_axial sf : on_axis sf -> axial (set_euler sf).
Proof. intros (A & B & z & V). exists (s_roll sf), z. unfold set_euler, with_euler. cbn [s_euler s_vertex]. now rewrite A, B, euler_roll. Qed.
Lemma roll_euler sf b : on_axis sf -> s_euler (set_euler (set_roll sf b)) = roll_matrix b.
Proof. intros (A & B & _). unfold set_euler, set_roll, with_euler. cbn [s_euler s_tilt s_pitch s_roll]. now rewrite A, B, euler_roll. Qed.
Definition fits (k : nat) (sf : surface) : Prop :=
  (In k [11; 15; 17; 21]%nat -> s_action sf = ACBout /\ on_axis sf) /\
  ((k <= 10)%nat \/ k = 16%nat \/ (22 <= k)%nat -> on_axis sf /\ no_spider sf) /\
  (In k [12; 16; 18; 22]%nat -> s_action sf <> ACBout).
Lemma table_twin t a1 a2 l : forall k, (22 <= k + length l)%nat -> (1 <= k)%nat ->
  (forall j sf, nth_error l j = Some sf -> fits (k + j) sf) ->
  twin t (phase_of k) (map set_euler (map (turned_row a1 a2) (combine (seq k (length l)) l))) (map set_euler (map (turned_row (a1 + t) (a2 + t)) (combine (seq k (length l)) l))).
Proof.
  induction l as [|sf l IH]; intros k L K F.
  - cbn [length] in L. cbn [map seq combine length]. unfold phase_of. destruct (Nat.leb_spec k 11); [lia|]. destruct (Nat.eqb_spec k 12); [lia|]. destruct (Nat.leb_spec k 15); [lia|]. destruct (Nat.eqb_spec k 16); [lia|]. destruct (Nat.eqb_spec k 17); [lia|]. destruct (Nat.eqb_spec k 18); [lia|]. destruct (Nat.leb_spec k 21); [lia|]. destruct (Nat.eqb_spec k 22); constructor.
  - cbn [length seq combine map]. cbn [length] in L. assert (T := IH (S k) ltac:(lia) ltac:(lia)). clear IH.
    assert (T' : twin t (phase_of (S k)) (map set_euler (map (turned_row a1 a2) (combine (seq (S k) (length l)) l))) (map set_euler (map (turned_row (a1 + t) (a2 + t)) (combine (seq (S k) (length l)) l)))).
    { apply T. intros j s' H. replace (S k + j)%nat with (k + S j)%nat by lia. now apply F. }
    clear T. pose proof (F 0%nat sf eq_refl) as (F1 & F2 & F3). rewrite Nat.add_0_r in F1, F2, F3. cbn [In] in F1, F3.
    set (r1 := map set_euler (map (turned_row a1 a2) (combine _ l))) in *. set (r2 := map set_euler (map (turned_row (a1 + t) (a2 + t)) (combine _ l))) in *. clearbody r1 r2.
    assert (AX : on_axis sf -> exists z, s_vertex sf = (0, 0, z)) by (intros (_ & _ & H); exact H).
    assert (CB : forall b, s_action sf = ACBout -> is_cbout (set_euler (set_roll sf b)) = true) by (intros b H; unfold is_cbout, set_euler, set_roll, with_euler; cbn [s_action]; now rewrite H).
    assert (NC : s_action sf <> ACBout -> is_cbout (set_euler sf) = false) by (intros H; unfold is_cbout, set_euler, with_euler; cbn [s_action]; destruct (s_action sf); congruence).
    assert (NSP : no_spider sf -> no_spider (set_euler sf)) by (intros H; exact H).
    unfold turned_row. unfold phase_of in T' |- *.
    destruct (Nat.eqb_spec k 11) as [->|]; [|destruct (Nat.eqb_spec k 15) as [->|]; [|destruct (Nat.eqb_spec k 17) as [->|]; [|destruct (Nat.eqb_spec k 21) as [->|]]]].
    + cbn [Nat.leb Nat.eqb] in T' |- *. destruct F1 as [A O]; [auto|]. destruct (AX O) as [z V]. apply (twin_enter t _ _ a1 z); auto; try exact V; [apply roll_euler, O|]. rewrite roll_euler by assumption. reflexivity.
    + cbn [Nat.leb Nat.eqb] in T' |- *. destruct F1 as [A O]; [auto|]. destruct (AX O) as [z V]. apply (twin_exit t _ _ a1 z); auto; try exact V; apply roll_euler, O.
    + cbn [Nat.leb Nat.eqb] in T' |- *. destruct F1 as [A O]; [auto|]. destruct (AX O) as [z V]. apply (twin_enter t _ _ a2 z); auto; try exact V; [apply roll_euler, O|]. rewrite roll_euler by assumption. reflexivity.
    + cbn [Nat.leb Nat.eqb] in T' |- *. destruct F1 as [A O]; [auto 6|]. destruct (AX O) as [z V]. apply (twin_exit t _ _ a2 z); auto; try exact V; apply roll_euler, O.
    + destruct (Nat.leb_spec k 11).
      { destruct F2 as [O N]; [lia|]. destruct (Nat.leb_spec (S k) 11); [|lia]. apply twin_out; auto. now apply on_axis_axial. }
      destruct (Nat.eqb_spec k 12) as [->|]; [cbn [Nat.leb Nat.eqb] in T'; apply twin_entered; auto|].
      destruct (Nat.leb_spec k 15).
      { apply twin_in. destruct (Nat.leb_spec (S k) 11); [lia|]. destruct (Nat.eqb_spec (S k) 12); [lia|]. destruct (Nat.leb_spec (S k) 15); [exact T'|lia]. }
      destruct (Nat.eqb_spec k 16) as [->|]; [cbn [Nat.leb Nat.eqb] in T'; destruct F2 as [O N]; [auto|]; apply twin_left; auto; now apply on_axis_axial|].
      destruct (Nat.eqb_spec k 17) as [->|]; [lia|].
      destruct (Nat.eqb_spec k 18) as [->|]; [cbn [Nat.leb Nat.eqb] in T'; apply twin_entered; auto 6|].
      destruct (Nat.leb_spec k 21).
      { apply twin_in. destruct (Nat.leb_spec (S k) 11); [lia|]. destruct (Nat.eqb_spec (S k) 12); [lia|]. destruct (Nat.leb_spec (S k) 15); [lia|]. destruct (Nat.eqb_spec (S k) 16); [lia|]. destruct (Nat.eqb_spec (S k) 17); [lia|]. destruct (Nat.eqb_spec (S k) 18); [lia|]. destruct (Nat.leb_spec (S k) 21); [exact T'|lia]. }
      destruct F2 as [O N]; [lia|].
      assert (T2 : twin t Outside r1 r2).
      { destruct (Nat.leb_spec (S k) 11); [lia|]. destruct (Nat.eqb_spec (S k) 12); [lia|]. destruct (Nat.leb_spec (S k) 15); [lia|]. destruct (Nat.eqb_spec (S k) 16); [lia|]. destruct (Nat.eqb_spec (S k) 17); [lia|]. destruct (Nat.eqb_spec (S k) 18); [lia|]. destruct (Nat.leb_spec (S k) 21); [lia|]. destruct (Nat.eqb_spec (S k) 22); [lia|exact T']. }
      destruct (Nat.eqb_spec k 22) as [->|]; [apply twin_left; auto; [now apply on_axis_axial|apply NC, F3; auto 6]|apply twin_out; auto; now apply on_axis_axial].
Qed.
Lemma adc_turn m wave surfs t a1 a2 start : (21 <= length surfs)%nat -> (forall j sf, nth_error surfs j = Some sf -> fits (S j) sf) ->
  rbind (modify_adc (a1 + t) (a2 + t) surfs) (fun l => arrival m wave l (start_row (turn t start))) =
  rmap (fun '(c, o) => (c, option_map (turn t) o)) (rbind (modify_adc a1 a2 surfs) (fun l => arrival m wave l (start_row start))).
Proof.
  intros L F. unfold modify_adc. destruct (Nat.ltb_spec (length surfs) 21); [lia|]. cbn [rbind]. rewrite <- (arrival_turn t m wave _ _ _ (table_twin t a1 a2 surfs 1 ltac:(lia) ltac:(lia) F)). cbn [phase_of Nat.leb phase_row start_row r_lab r_loc]. f_equal. unfold start_row. f_equal. apply ray_eq; cbn [turn r_pos r_dir]; now rewrite turned_axis.
Qed.

(** A pair of coordinate breaks rolls the surfaces in between. *)
Definition rolled (b : R) (sf : surface) : surface :=
  {| s_glass := s_glass sf; s_action := s_action sf; s_odiam := s_odiam sf; s_idiam := s_idiam sf; s_curve := s_curve sf; s_asph := s_asph sf; s_vertex := turned b (s_vertex sf);
     s_tilt := s_tilt sf; s_pitch := s_pitch sf; s_roll := s_roll sf; s_coefs := s_coefs sf; s_poly := s_poly sf; s_nspider := s_nspider sf; s_wspider := s_wspider sf;
     s_euler := let '((a, b0, c), (d, e, f), (g, h, i)) := s_euler sf in let co := cos (PI * b / 180) in let si := sin (PI * b / 180) in
       ((co * a - si * d, co * b0 - si * e, co * c - si * f), (si * a + co * d, si * b0 + co * e, si * c + co * f), (g, h, i)) |}.
Lemma rolled_act b sf v : act (s_euler (rolled b sf)) v = turned b (act (s_euler sf) v).
Proof. unfold rolled. cbn [s_euler]. destruct (s_euler sf) as [[[[a b0] c] [[d e] f]] [[g h] i]], v as [[x y] z]. unfold act, inner, turned. apply vec_eq; ring. Qed.
Lemma rolled_act_back b sf v : act (transposed (s_euler (rolled b sf))) (turned b v) = act (transposed (s_euler sf)) v.
Proof.
  unfold rolled. cbn [s_euler]. destruct (s_euler sf) as [[[[a b0] c] [[d e] f]] [[g h] i]], v as [[x y] z]. unfold act, transposed, inner, turned. pose proof (turn_cs b) as CS. set (co := cos (PI * b / 180)) in *. set (si := sin (PI * b / 180)) in *. clearbody co si.
  assert (CC : co * co = 1 - si * si) by lra. apply vec_eq; ring [CC].
Qed.
Lemma rolled_lab b sf r : to_lab (rolled b sf) r = turn b (to_lab sf r).
Proof. rewrite !to_lab_act. unfold ray_in, turn. cbn [r_pos r_dir]. rewrite !rolled_act, turned_plus. reflexivity. Qed.
Lemma rolled_local b sf r : to_local (rolled b sf) (turn b r) = to_local sf r.
Proof.
  rewrite !to_local_act. unfold turn. cbn [r_pos r_dir]. rewrite rolled_act_back. apply ray_eq; [|reflexivity]. change (s_vertex (rolled b sf)) with (turned b (s_vertex sf)). now rewrite <- turned_times, <- turned_plus, rolled_act_back.
Qed.
Lemma encounter_rolled m wave b sf next r : encounter m wave (rolled b sf) next r = encounter m wave sf next r.
Proof.
  assert (Q : s_glass (rolled b sf) = s_glass sf /\ s_action (rolled b sf) = s_action sf /\ s_odiam (rolled b sf) = s_odiam sf /\ s_idiam (rolled b sf) = s_idiam sf /\ s_curve (rolled b sf) = s_curve sf /\ s_asph (rolled b sf) = s_asph sf /\
    s_roll (rolled b sf) = s_roll sf /\ s_coefs (rolled b sf) = s_coefs sf /\ s_poly (rolled b sf) = s_poly sf /\ s_nspider (rolled b sf) = s_nspider sf /\ s_wspider (rolled b sf) = s_wspider sf) by (repeat split; reflexivity).
  set (sf' := rolled b sf) in *. clearbody sf'. destruct Q as (Q1 & Q2 & Q3 & Q4 & Q5 & Q6 & Q7 & Q8 & Q9 & Q10 & Q11).
  assert (G : forall r d, surface_gap sf' r d = surface_gap sf r d) by (intros; unfold surface_gap, zconic, zpoly; now rewrite Q5, Q6, Q8).
  assert (N : forall r n d, newton sf' r n d = newton sf r n d).
  { intros r0 n. induction n as [|n IH]; intros d; cbn [newton]; unfold gap_slope; rewrite !G; [reflexivity|]. destruct (surface_gap sf r0 d) as [f c]. destruct (is_ok c); [|reflexivity]. destruct (Reqb _ 0); [reflexivity|]. cbv zeta. destruct (Rltb _ _); [reflexivity|]. apply IH. }
  assert (C : forall r, conic_intercept sf' r = conic_intercept sf r) by (intros; unfold conic_intercept; now rewrite Q5, Q6).
  assert (I : forall r, intercept sf' r = intercept sf r) by (intros; unfold intercept, higher_intercept; rewrite Q9, C; destruct (s_poly sf); [|reflexivity]; destruct (conic_intercept sf r0) as [c r1]; destruct (is_ok c); [|reflexivity]; now rewrite N).
  assert (V : forall r, validate sf' r = validate sf r) by (intros; unfold validate, spider_hit; now rewrite Q3, Q4, Q7, Q10, Q11).
  assert (GN : forall r, get_normal sf' r = get_normal sf r) by (intros; unfold get_normal, grad_total, grad_conic, grad_poly; now rewrite Q5, Q6, Q8, Q9).
  unfold encounter. rewrite I. destruct (intercept sf r) as [[c r1]|e]; [|reflexivity]. cbn [rbind]. destruct (is_ok c); [|reflexivity]. cbv zeta. rewrite V. destruct (is_ok (validate sf r1)); [|reflexivity]. unfold redirect. now rewrite Q1, Q2, GN.
Qed.
Lemma glass_rolled b body last rest rest' : option_map s_glass (hd_error (map (rolled b) body ++ rolled b last :: rest)) = option_map s_glass (hd_error (body ++ last :: rest')).
Proof. now destruct body. Qed.
Lemma cbin_encounter m wave sf next next' r : s_action sf = ACBin -> encounter m wave sf next r = encounter m wave sf next' r.
Proof. intros A. unfold encounter, redirect. rewrite A. destruct (intercept sf r) as [[c r1]|e]; [|reflexivity]. cbn [rbind]. now destruct next, next'. Qed.
Lemma rolled_body m wave b body last cb rest z : s_action last = ACBin -> s_euler last = roll_matrix 0 -> s_vertex last = (0, 0, z) ->
  s_action cb = ACBout -> s_euler cb = roll_matrix b -> s_vertex cb = (0, 0, z) -> forall prev prev', r_lab prev' = turn b (r_lab prev) -> r_loc prev' = r_loc prev ->
  arrival m wave (body ++ last :: cb :: rest) prev = arrival m wave (map (rolled b) body ++ rolled b last :: rest) prev'.
Proof.
  intros A E V A' E' V'. induction body as [|sf body IH]; intros prev prev' L1 L2; cbn [app map].
  - assert (B : is_cbout last = false) by (unfold is_cbout; now rewrite A). assert (B' : is_cbout (rolled b last) = false) by exact B. assert (B2 : is_cbout cb = true) by (unfold is_cbout; now rewrite A').
    rewrite !arrival_surface by assumption. rewrite L1, rolled_local, encounter_rolled, (cbin_encounter m wave last _ (option_map s_glass (hd_error rest))) by assumption.
    destruct (encounter _ _ _ _ _) as [[c r1]|e]; [|reflexivity]. cbn [rbind]. destruct (is_ok c); [|reflexivity]. rewrite arrival_cbout by assumption. cbn [r_loc]. f_equal. f_equal.
    rewrite rolled_lab, (to_lab_axial cb _ _ _ E' V'), (to_lab_axial last _ _ _ E V). unfold turn. cbn [r_pos r_dir]. now rewrite turned_plus, turned_axis, !turned_0.
  - destruct (is_cbout sf) eqn:B.
    + rewrite !arrival_cbout by assumption. apply IH; cbn [r_lab r_loc]; [now rewrite rolled_lab, L2|exact L2].
    + rewrite !arrival_surface by assumption. rewrite L1, rolled_local, encounter_rolled, (glass_rolled b body last rest (cb :: rest)).
      destruct (encounter _ _ _ _ _) as [[c r1]|e]; [|reflexivity]. cbn [rbind]. destruct (is_ok c); [|reflexivity]. apply IH; cbn [r_lab r_loc]; [now rewrite rolled_lab|reflexivity].
Qed.
Lemma rolled_pair m wave b cb body last cb' rest z z' prev : s_action cb = ACBout -> s_euler cb = roll_matrix (- b) -> s_vertex cb = (0, 0, z) ->
  s_action last = ACBin -> s_euler last = roll_matrix 0 -> s_vertex last = (0, 0, z') -> s_action cb' = ACBout -> s_euler cb' = roll_matrix b -> s_vertex cb' = (0, 0, z') ->
  r_pos (r_lab prev) = plus (r_pos (r_loc prev)) (0, 0, z) -> r_dir (r_lab prev) = r_dir (r_loc prev) ->
  arrival m wave (cb :: body ++ last :: cb' :: rest) prev = arrival m wave (map (rolled b) body ++ rolled b last :: rest) prev.
Proof.
  intros A E V A1 E1 V1 A2 E2 V2 P1 P2. rewrite arrival_cbout by (unfold is_cbout; now rewrite A). apply (rolled_body m wave b body last cb' rest z'); try assumption; [|reflexivity]. cbn [r_lab].
  rewrite (to_lab_axial cb _ _ _ E V). unfold turn. cbn [r_pos r_dir]. rewrite turned_plus, turned_axis, !turned_turned. replace (b + - b) with 0 by ring. rewrite !turned_0, <- P1, <- P2. now destruct (r_lab prev).
Qed.

(** getNine. *)
Definition landing (o : code * option ray) : list (R * R * R) := match snd o with Some r => [r_pos r] | None => [] end.
Lemma rmap_rbind {A B C} (f : B -> C) (k : A -> res B) (x : res A) : rmap f (rbind x k) = rbind x (fun a => rmap f (k a)).
Proof. now destruct x. Qed.
Lemma run_all_arrival m wave surfs l : run_all m wave surfs l = rmap (flat_map landing) (rmapM (fun r => arrival m wave surfs (start_row r)) l).
Proof.
  induction l as [|r l IH]; [reflexivity|]. cbn [run_all rmapM]. unfold arrival at 1. destruct (run_ray m wave surfs (start_row r)) as [[rows c]|e] eqn:E; [|reflexivity]. cbn [rbind rmap].
  destruct (run_ray_path _ _ _ _ _ _ E) as (_ & I & _). rewrite IH. destruct (rmapM _ l) as [outs|e]; [|reflexivity]. cbn [rmap rbind flat_map landing snd]. f_equal.
  destruct (Nat.eqb_spec (length rows) (length surfs)) as [D|D].
  - apply I in D. subst c. reflexivity.
  - destruct (is_ok c) eqn:K; [|reflexivity]. destruct c; try discriminate. exfalso. now apply D, I.
Qed.
Definition aimed (u v : R) (r : ray) : ray :=
  let '(_, _, w) := r_dir r in {| r_pos := r_pos r; r_dir := (u, v, if Rltb w 0 then - sqrt (1 - u * u - v * v) else sqrt (1 - u * u - v * v)) |}.
Lemma steer_aimed u v r : u * u + v * v <= 1 -> steer u v r = Ok (aimed u v r).
Proof.
  intros H. unfold steer, aimed, fixup. destruct (r_dir r) as [[a b] w]. cbv zeta. destruct (Rltb_spec' (1 - u * u - v * v) 0); [exfalso; lra|]. destruct (Rleb_spec' 0 w), (Rltb_spec' w 0); try (exfalso; lra); reflexivity.
Qed.
Lemma aimed_again u v u' v' r : u' * u' + v' * v' < 1 -> aimed u v (aimed u' v' r) = aimed u v r.
Proof.
  intros H. unfold aimed. destruct (r_dir r) as [[a b] w]. cbn [r_dir r_pos]. assert (Q : 0 < sqrt (1 - u' * u' - v' * v')) by (apply sqrt_lt_R0; lra).
  destruct (Rltb_spec' w 0).
  - destruct (Rltb_spec' (- sqrt (1 - u' * u' - v' * v')) 0); [reflexivity|exfalso; lra].
  - destruct (Rltb_spec' (sqrt (1 - u' * u' - v' * v')) 0); [exfalso; lra|reflexivity].
Qed.
Definition within (t : nat * R * R) : Prop := let '(_, u, v) := t in u * u + v * v < 1.
(** What is traced for one wavelength. *)
Definition points_of (m : media) (surfs : list surface) (starts : list ray) (t : nat * R * R) (p : list (R * R * R)) : Prop :=
  let '(w, u, v) := t in exists wave outs, nth_error fraunhofer w = Some wave /\
  Forall2 (fun r o => arrival m wave surfs (start_row (aimed u v r)) = Ok o) starts outs /\ p = flat_map landing outs /\ (2 <= length p)%nat.
Lemma trace_waves_points m surfs wuv : forall starts l, Forall within wuv -> trace_waves m surfs starts wuv = Ok l -> Forall2 (points_of m surfs starts) wuv l.
Proof.
  induction wuv as [|[[w u] v] wuv IH]; intros starts l F H; cbn [trace_waves] in H.
  - injection H as <-. constructor.
  - inversion F as [|a b F1 F2 E]; subst. cbn [within] in F1. destruct (nth_error fraunhofer w) as [wave|] eqn:W; [|discriminate].
    assert (S1 : rmapM (steer u v) starts = Ok (map (aimed u v) starts)).
    { clear - F1. induction starts as [|r s IH]; [reflexivity|]. cbn [rmapM map]. rewrite steer_aimed by lra. cbn [rbind]. now rewrite IH. }
    rewrite S1 in H. cbn [rbind] in H. unfold run_all_table_rays in H. rewrite run_all_arrival in H. destruct (rmapM _ (map (aimed u v) starts)) as [outs|e] eqn:O; [|discriminate]. cbn [rmap rbind] in H.
    match type of H with context [Nat.ltb ?k 2] => destruct (Nat.ltb_spec k 2) end; [discriminate|]. cbn [rbind] in H. destruct (trace_waves m surfs _ wuv) as [l'|e] eqn:T; [|discriminate]. injection H as <-. constructor.
    + exists wave, outs. split; [exact W|]. split; [|split; [reflexivity|lia]]. apply rmapM_Ok_Forall2 in O. clear - O. revert outs O. induction starts as [|r s IH]; intros outs O; inversion O; subst; constructor; auto.
    + specialize (IH _ _ F2 T). clear - IH F1. induction IH as [|[[w' u'] v'] p wuv l (wv & outs & A & B & C & D) _ IH]; constructor; [|exact IH]. exists wv, outs. split; [exact A|]. split; [|split; assumption]. clear - B F1. revert outs B. induction starts as [|r s IH]; intros outs B; inversion B as [|? ? ? ? B1 B2]; subst; constructor; auto. now rewrite aimed_again in B1.
Qed.
Lemma trace_waves_complete m surfs wuv : forall starts l, Forall within wuv -> Forall2 (points_of m surfs starts) wuv l -> trace_waves m surfs starts wuv = Ok l.
Proof.
  induction wuv as [|[[w u] v] wuv IH]; intros starts l F H; inversion H as [|? p ? l' H1 H']; subst; [reflexivity|]. destruct H1 as (wave & outs & A & B & C & D). subst p. inversion F as [|a b F1 F2 E]; subst. cbn [within] in F1. cbn [trace_waves]. rewrite A.
  assert (S1 : rmapM (steer u v) starts = Ok (map (aimed u v) starts)).
  { clear - F1. induction starts as [|r s IH]; [reflexivity|]. cbn [rmapM map]. rewrite steer_aimed by lra. cbn [rbind]. now rewrite IH. }
  rewrite S1. cbn [rbind]. unfold run_all_table_rays. rewrite run_all_arrival.
  assert (O : rmapM (fun r => arrival m wave surfs (start_row r)) (map (aimed u v) starts) = Ok outs).
  { clear - B. induction B as [|r o s outs B1 B2 IH]; [reflexivity|]. cbn [map rmapM]. now rewrite B1, IH. }
  rewrite O. cbn [rmap rbind]. match goal with |- context [Nat.ltb ?k 2] => destruct (Nat.ltb_spec k 2) end; [lia|]. cbn [rbind]. rewrite (IH _ l'); [reflexivity|assumption|].
  clear - H' F1. induction H' as [|[[w' u'] v'] p wuv l (wv & outs & A & B & C & D) _ IH]; constructor; [|exact IH]. exists wv, outs. split; [exact A|]. split; [|split; assumption]. clear - B F1. induction B as [|r o s outs B1 B2 IH]; [constructor|]. cbn [map]. constructor; [now rewrite aimed_again|exact IH].
Qed.

(** Turning the field, the pupil and both correctors. *)
Definition turn_aim (t : R) (x : nat * R * R) : nat * R * R :=
  let '(w, u, v) := x in (w, cos (PI * t / 180) * u - sin (PI * t / 180) * v, sin (PI * t / 180) * u + cos (PI * t / 180) * v).
Lemma steer_turn t u v r : steer (cos (PI * t / 180) * u - sin (PI * t / 180) * v) (sin (PI * t / 180) * u + cos (PI * t / 180) * v) (turn t r) = rmap (turn t) (steer u v r).
Proof.
  unfold steer, fixup, turn. destruct r as [p [[a b] w]]. cbn [r_dir r_pos turned].
  replace (1 - (cos (PI * t / 180) * u - sin (PI * t / 180) * v) * (cos (PI * t / 180) * u - sin (PI * t / 180) * v) - (sin (PI * t / 180) * u + cos (PI * t / 180) * v) * (sin (PI * t / 180) * u + cos (PI * t / 180) * v)) with (1 - u * u - v * v) by (pose proof (turned_square t u v); lra).
  cbv zeta. destruct (Rltb _ 0); [reflexivity|]. destruct (Rleb 0 w); reflexivity.
Qed.
Lemma rmapM_turn {A B} (f' f : A -> res B) (g : A -> A) (h : B -> B) l : (forall a, f' (g a) = rmap h (f a)) -> rmapM f' (map g l) = rmap (map h) (rmapM f l).
Proof. intros H. induction l as [|a l IH]; [reflexivity|]. cbn [map rmapM]. rewrite H, IH. destruct (f a) as [b|e]; [|reflexivity]. cbn [rmap rbind]. now destruct (rmapM f l). Qed.
Lemma run_all_turn t m wave S S' l : (forall r, arrival m wave S' (start_row (turn t r)) = rmap (fun '(c, o) => (c, option_map (turn t) o)) (arrival m wave S (start_row r))) ->
  run_all m wave S' (map (turn t) l) = rmap (map (turned t)) (run_all m wave S l).
Proof.
  intros H. rewrite !run_all_arrival. induction l as [|r l IH]; [reflexivity|]. cbn [map rmapM]. rewrite H. destruct (arrival m wave S (start_row r)) as [[c o]|e]; [|reflexivity]. cbn [rmap rbind].
  destruct (rmapM _ (map (turn t) l)) as [outs'|e'], (rmapM _ l) as [outs|e]; cbn [rmap rbind] in IH |- *; try congruence; injection IH as IH. cbn [flat_map]. rewrite IH, map_app. now destruct o.
Qed.
Lemma trace_waves_turn t m S S' : (forall wave r, arrival m wave S' (start_row (turn t r)) = rmap (fun '(c, o) => (c, option_map (turn t) o)) (arrival m wave S (start_row r))) ->
  forall wuv starts, trace_waves m S' (map (turn t) starts) (map (turn_aim t) wuv) = rmap (map (map (turned t))) (trace_waves m S starts wuv).
Proof.
  intros H. induction wuv as [|[[w u] v] wuv IH]; intros starts; [reflexivity|]. cbn [map turn_aim trace_waves]. destruct (nth_error fraunhofer w) as [wave|]; [|reflexivity].
  rewrite (rmapM_turn _ (steer u v) (turn t) (turn t)) by (intros; apply steer_turn). destruct (rmapM (steer u v) starts) as [starts'|e]; [|reflexivity]. cbn [rmap rbind].
  unfold run_all_table_rays. rewrite (run_all_turn t m wave S S') by auto. destruct (run_all m wave S starts') as [pts|e]; [|reflexivity]. cbn [rmap rbind]. rewrite map_length. destruct (Nat.ltb (length pts) 2); [reflexivity|]. cbn [rbind].
  rewrite IH. now destruct (trace_waves m S starts' wuv).
Qed.
Lemma concat_map_turn t (l : list (list (R * R * R))) : concat (map (map (turned t)) l) = map (turned t) (concat l).
Proof. induction l as [|p l IH]; [reflexivity|]. cbn [map concat]. now rewrite map_app, IH. Qed.
Lemma nine_turn t m surfs starts a1 a2 wuv n : (21 <= length surfs)%nat -> (forall j sf, nth_error surfs j = Some sf -> fits (S j) sf) ->
  get_nine m surfs starts a1 a2 wuv = Ok n -> exists n', get_nine m surfs (map (turn t) starts) (a1 + t) (a2 + t) (map (turn_aim t) wuv) = Ok n' /\
  n_good n' = n_good n /\ n_ave n' = turned t (n_ave n) /\ snd (n_rms n') = snd (n_rms n).
Proof.
  intros L F H. unfold get_nine in *. destruct wuv as [|x wuv]; [discriminate|]. set (ws := x :: wuv) in *. change (map (turn_aim t) (x :: wuv)) with (turn_aim t x :: map (turn_aim t) wuv). cbv iota.
  change (turn_aim t x :: map (turn_aim t) wuv) with (map (turn_aim t) ws). unfold modify_adc in *. destruct (Nat.ltb_spec (length surfs) 21); [lia|]. cbn [rbind] in *.
  assert (A := fun wave r => arrival_turn t m wave _ _ _ (table_twin t a1 a2 surfs 1 ltac:(lia) ltac:(lia) F) (start_row r)).
  fold (turned_row a1 a2) in H. fold (turned_row (a1 + t) (a2 + t)). set (S1 := map set_euler (map (turned_row a1 a2) _)) in *. set (S2 := map set_euler (map (turned_row (a1 + t) (a2 + t)) _)) in *.
  rewrite (trace_waves_turn t m S1 S2).
  2: { intros wave r. rewrite <- (A wave r). cbn [phase_of Nat.leb phase_row start_row r_lab r_loc]. f_equal. unfold start_row. f_equal. apply ray_eq; cbn [turn r_pos r_dir]; now rewrite turned_axis. }
  destruct (trace_waves m S1 starts ws) as [l|e]; [|discriminate]. cbn [rmap rbind] in *. cbv zeta in *.
  assert (LF : forall k, forallb (fun pts : list (R * R * R) => Nat.eqb (length pts) k) (map (map (turned t)) l) = forallb (fun pts => Nat.eqb (length pts) k) l).
  { intros k. clear. induction l as [|p l IH]; [reflexivity|]. cbn [map forallb]. now rewrite map_length, IH. }
  assert (LH : length (hd [] (map (map (turned t)) l)) = length (hd [] l)) by (destruct l; [reflexivity|cbn [hd map]; apply map_length]).
  rewrite LH, LF. destruct (forallb _ l); [|discriminate]. injection H as <-. eexists. split; [reflexivity|]. cbn [n_good n_ave n_rms snd]. rewrite concat_map_turn. set (ps := concat l) in *. clearbody ps. rewrite !map_length. split; [reflexivity|].
  rewrite !map_map. assert (Z : map (fun p : vec => let '(_, _, z) := turned t p in z) ps = map (fun '(_, _, z) => z) ps) by (apply map_ext; intros [[? ?] ?]; reflexivity).
  split; [|rewrite Z; reflexivity]. unfold turned at 4. apply vec_eq.
  - rewrite (map_ext _ (fun p => cos (PI * t / 180) * (let '(x0, _, _) := p in x0) + - sin (PI * t / 180) * (let '(_, y, _) := p in y))) by (intros [[? ?] ?]; cbn; ring). rewrite Rsum_plus, !Rsum_scale. unfold Rdiv. ring.
  - rewrite (map_ext _ (fun p => sin (PI * t / 180) * (let '(x0, _, _) := p in x0) + cos (PI * t / 180) * (let '(_, y, _) := p in y))) by (intros [[? ?] ?]; cbn; ring). rewrite Rsum_plus, !Rsum_scale. unfold Rdiv. ring.
  - rewrite Z. reflexivity.
Qed.
