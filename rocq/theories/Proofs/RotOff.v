(** The rotation and offset fit of SimpleCorr. *)
From Verif.Model Require Import SimpleCorr.
From Verif.Spec Require Import LinAlg Trig SimpleCorr.
From Verif.Proofs Require Import RealNum LinAlg Trig SimpleCorr.
From Coq Require Import Lra.
Local Open Scope R_scope.

Lemma samples4 {A} (l : list A) a b c d (f : A -> R) t1 t2 t3 t4 w :
  samples [map a l ++ t1; map b l ++ t2; map c l ++ t3; map d l ++ t4] (map f l ++ w) =
  map (fun e => ([a e; b e; c e; d e], f e)) l ++ samples [t1; t2; t3; t4] w.
Proof. induction l as [|e l IH]; [reflexivity|]. cbn [map app]. cbn [samples map hd tl app]. f_equal. exact IH. Qed.
Lemma repeat_map {A B} (b : B) (l : list A) : repeat b (length l) = map (fun _ => b) l.
Proof. induction l; cbn; congruence. Qed.

Definition rot_samples (data : list (point * point)) : list (list R * R) :=
  map (fun d => ([fst (fst d); - snd (fst d); 1; 0], fst (snd d))) data ++ map (fun d => ([snd (fst d); fst (fst d); 0; 1], snd (snd d))) data.
Lemma samples_rotoff data : samples (rotoff_columns (xs1 data) (ys1 data)) (xs2 data ++ ys2 data) = rot_samples data.
Proof.
  unfold rotoff_columns, rot_samples. unfold xs1, ys1, xs2, ys2. rewrite map_length, !repeat_map, map_map.
  rewrite samples4. f_equal. rewrite <- (app_nil_r (map (fun d => snd (fst d)) data)), <- (app_nil_r (map (fun d => fst (fst d)) data)),
    <- (app_nil_r (map (fun _ => 0) data)), <- (app_nil_r (map (fun _ => 1) data)), <- (app_nil_r (map (fun d => snd (snd d)) data)).
  rewrite samples4. cbn [samples]. apply app_nil_r.
Qed.
Lemma wide_rotoff data : Forall (fun r => length r = length (xs2 data ++ ys2 data)) (rotoff_columns (xs1 data) (ys1 data)).
Proof.
  unfold rotoff_columns, xs1, ys1, xs2, ys2. repeat constructor; rewrite !app_length, ?repeat_length, ?map_length; reflexivity.
Qed.

Definition distinct_sources (data : list (point * point)) : Prop := exists d d', In d data /\ In d' data /\ fst d <> fst d'.

Lemma rot_independent data : distinct_sources data -> independent 4 (rot_samples data).
Proof.
  intros (d & d' & Hd & Hd' & N) p Lp Hp. destruct p as [|p0 [|p1 [|p2 [|p3 [|]]]]]; try discriminate.
  assert (E : forall e, In e data -> p0 * fst (fst e) - p1 * snd (fst e) + p2 = 0 /\ p0 * snd (fst e) + p1 * fst (fst e) + p3 = 0).
  { intros e He. unfold rot_samples in Hp. split.
    - pose proof (Hp _ (in_or_app _ _ _ (or_introl (in_map (fun d => ([fst (fst d); - snd (fst d); 1; 0], fst (snd d))) data e He)))) as Q. cbn in Q. lra.
    - pose proof (Hp _ (in_or_app _ _ _ (or_intror (in_map (fun d => ([snd (fst d); fst (fst d); 0; 1], snd (snd d))) data e He)))) as Q. cbn in Q. lra. }
  destruct (E d Hd) as [A1 A2], (E d' Hd') as [B1 B2]. destruct d as [[x y] t], d' as [[x' y'] t']. cbn [fst snd] in *.
  set (u := x - x'). set (v := y - y'). assert (C1 : p0 * u - p1 * v = 0) by (unfold u, v; lra). assert (C2 : p0 * v + p1 * u = 0) by (unfold u, v; lra).
  assert (NZ : 0 < u * u + v * v).
  { assert (u <> 0 \/ v <> 0). { destruct (Req_dec u 0) as [U|]; [|auto]. right. intros V. apply N. f_equal; unfold u, v in *; lra. } nra. }
  assert (P0 : p0 = 0). { apply (Rmult_eq_reg_r (u * u + v * v)); [|lra]. transitivity ((p0 * u - p1 * v) * u + (p0 * v + p1 * u) * v); [ring|]. rewrite C1, C2. ring. }
  assert (P1 : p1 = 0). { apply (Rmult_eq_reg_r (u * u + v * v)); [|lra]. transitivity ((p0 * v + p1 * u) * u - (p0 * u - p1 * v) * v); [ring|]. rewrite C1, C2. ring. }
  subst. cbn. repeat f_equal; lra.
Qed.
Lemma rot_dependent data : ~ distinct_sources data -> ~ independent 4 (rot_samples data).
Proof.
  intros N I. set (o := match data with [] => (0, 0) | d :: _ => fst d end).
  assert (E : forall d, In d data -> fst d = o).
  { intros d Hd. unfold o. destruct data as [|d0 l] eqn:Ed; [destruct Hd|]. destruct (Req_EM_T (fst (fst d)) (fst (fst d0))) as [E1|E1].
    - destruct (Req_EM_T (snd (fst d)) (snd (fst d0))) as [E2|E2]; [now apply injective_projections|]. exfalso. apply N. exists d, d0. split; [exact Hd|]. split; [now left|]. congruence.
    - exfalso. apply N. exists d, d0. split; [exact Hd|]. split; [now left|]. congruence. }
  assert (Z : [1; 0; - fst o; - snd o] = repeat 0 4).
  { apply I; [reflexivity|]. intros s Hs. unfold rot_samples in Hs. apply in_app_iff in Hs as [Hs|Hs]; apply in_map_iff in Hs as (d & <- & Hd); rewrite (E d Hd); cbn; lra. }
  cbn in Z. injection Z. lra.
Qed.

(** The similarity with coefficients p. *)
Definition similar (p0 p1 p2 p3 : R) (q : point) : point := (p0 * fst q - p1 * snd q + p2, p1 * fst q + p0 * snd q + p3).
Lemma sum_sq_misfit p0 p1 p2 p3 data : sum_sq [p0; p1; p2; p3] (rot_samples data) = misfit (similar p0 p1 p2 p3) data.
Proof.
  unfold sum_sq, misfit, rot_samples. change (fold_right Rplus 0) with Rsum. rewrite map_app, !map_map.
  assert (A : forall l m, Rsum (l ++ m) = Rsum l + Rsum m). { intros l m. induction l as [|x l IH]; cbn [app]; rewrite ?Rsum_cons; [unfold Rsum; cbn; lra|]. rewrite IH. lra. }
  rewrite A, <- Rsum_plus. f_equal. apply map_ext. intros d. cbn. ring.
Qed.

(** Second moments. *)
Definition spread (z0 z1 z2 z3 : R) (data : list (point * point)) : R :=
  Rsum (map (fun d => (z0 * fst (fst d) - z1 * snd (fst d) + z2) ^ 2 + (z1 * fst (fst d) + z0 * snd (fst d) + z3) ^ 2) data).
Definition SX (data : list (point * point)) := Rsum (map (fun d => fst (fst d)) data).
Definition SY (data : list (point * point)) := Rsum (map (fun d => snd (fst d)) data).
Definition SQ (data : list (point * point)) := Rsum (map (fun d => fst (fst d) ^ 2 + snd (fst d) ^ 2) data).
Lemma spread_sums z0 z1 z2 z3 data : spread z0 z1 z2 z3 data =
  (z0 ^ 2 + z1 ^ 2) * SQ data + INR (length data) * (z2 ^ 2 + z3 ^ 2) + 2 * z2 * (z0 * SX data - z1 * SY data) + 2 * z3 * (z0 * SY data + z1 * SX data).
Proof.
  unfold spread, SX, SY, SQ. induction data as [|d l IH]; [unfold Rsum; cbn; ring|]. cbn [map]. rewrite !Rsum_cons, IH.
  change (length (d :: l)) with (S (length l)). rewrite S_INR. ring.
Qed.
Definition variance (data : list (point * point)) : R := SQ data - (SX data ^ 2 + SY data ^ 2) / INR (length data).
Lemma spread_split z0 z1 z2 z3 data : data <> [] -> spread z0 z1 z2 z3 data =
  (z0 ^ 2 + z1 ^ 2) * variance data +
  INR (length data) * ((z0 * (SX data / INR (length data)) - z1 * (SY data / INR (length data)) + z2) ^ 2 + (z1 * (SX data / INR (length data)) + z0 * (SY data / INR (length data)) + z3) ^ 2).
Proof.
  intros N. rewrite spread_sums. unfold variance. assert (0 < INR (length data)) by (apply lt_0_INR; destruct data; [congruence|cbn; lia]). field. lra.
Qed.
Lemma spread_nonneg z0 z1 z2 z3 data : 0 <= spread z0 z1 z2 z3 data.
Proof. apply Rsum_nonneg. rewrite Forall_map. apply Forall_forall. intros. apply Rplus_le_le_0_compat; apply pow2_ge_0. Qed.
Lemma variance_nonneg data : data <> [] -> 0 <= variance data.
Proof.
  intros N. pose proof (spread_nonneg 1 0 (- (SX data / INR (length data))) (- (SY data / INR (length data))) data) as H.
  rewrite spread_split in H by exact N. match type of H with _ <= ?e => replace e with (variance data) in H by ring end. exact H.
Qed.

Lemma rigid_similar deg dx dy p : rigid deg dx dy p = similar (cosdeg deg) (sindeg deg) dx dy p.
Proof. unfold rigid, similar. rewrite <- deg_rad. unfold cosdeg, sindeg. reflexivity. Qed.
Lemma misfit_ext f g data : (forall p, f p = g p) -> misfit f data = misfit g data.
Proof. intros H. unfold misfit. f_equal. apply map_ext. intros d. now rewrite H. Qed.

Lemma misfit_expand data p0 p1 p2 p3 : least_squares 4 (rot_samples data) [p0; p1; p2; p3] -> matvec (gram (rotoff_columns (xs1 data) (ys1 data))) [p0; p1; p2; p3] = matvec (rotoff_columns (xs1 data) (ys1 data)) (xs2 data ++ ys2 data) ->
  forall q0 q1 q2 q3, misfit (similar q0 q1 q2 q3) data = misfit (similar p0 p1 p2 p3) data + spread (q0 - p0) (q1 - p1) (q2 - p2) (q3 - p3) data.
Proof.
  intros _ E q0 q1 q2 q3. pose proof (normal_pythagoras _ _ [p0; p1; p2; p3] [q0; q1; q2; q3] (wide_rotoff data) eq_refl eq_refl E) as P.
  rewrite samples_rotoff in P. rewrite !sum_sq_misfit in P. rewrite P. f_equal. unfold rot_samples, spread.
  rewrite map_app, map_app, !map_map. 
  assert (A : forall l m, Rsum (l ++ m) = Rsum l + Rsum m). { intros l m. induction l as [|x l IH]; cbn [app]; rewrite ?Rsum_cons; [unfold Rsum; cbn; lra|]. rewrite IH. lra. }
  rewrite A, <- Rsum_plus. f_equal. apply map_ext. intros d. cbn. ring.
Qed.

Lemma fit_rotoff_spec c data : distinct_sources data ->
  exists c', corr_fit c (xs1 data) (ys1 data) (xs2 data) (ys2 data) true = Ok c' /\
    c_sxx c' = 1 /\ c_syy c' = 1 /\ c_sxy c' = 0 /\
    (forall p, corr_apply c' p = rigid (c_rot_deg c') (c_dx c') (c_dy c') p) /\
    (forall s deg dx dy, 0 < s -> (forall d, In d data -> snd d = (s * fst (rigid deg 0 0 (fst d)) + dx, s * snd (rigid deg 0 0 (fst d)) + dy)) ->
      same_angle (c_rot_deg c') deg /\ c_dx c' = dx /\ c_dy c' = dy) /\
    (forall deg dx dy, exists dx' dy', misfit (rigid (c_rot_deg c') dx' dy') data <= misfit (rigid deg dx dy) data).
Proof.
  intros D. pose proof (rot_independent data D) as I. rewrite <- samples_rotoff in I.
  destruct (normal_fit_independent _ _ (wide_rotoff data) I) as [p Hp].
  pose proof (normal_fit_Ok _ _ _ (wide_rotoff data) Hp) as [L _]. rewrite samples_rotoff in L. change (length (rotoff_columns (xs1 data) (ys1 data))) with 4%nat in L.
  unfold corr_fit, fit_rotoff. rewrite shapes_data. cbn [negb]. unfold normal_fit in Hp. rewrite Hp. cbn [rbind].
  eexists. split; [reflexivity|]. cbn [c_sxx c_syy c_sxy c_rot_deg c_dx c_dy]. do 3 (split; [reflexivity|]).
  destruct p as [|p0 [|p1 [|p2 [|p3 [|]]]]]; try (destruct L as [L _]; discriminate). cbn [nth].
  split; [|split].
  - intros [x y]. rewrite rigid_similar. unfold corr_apply, similar, mat2, rot2deg. cbn [c_sxx c_syy c_sxy c_rot_deg c_dx c_dy fst snd]. f_equal; ring.
  - intros s deg dx dy Hs E. assert (Q : [p0; p1; p2; p3] = [s * cosdeg deg; s * sindeg deg; dx; dy]).
    { eapply least_squares_exact; [exact L|reflexivity|]. intros t Ht. unfold rot_samples in Ht. apply in_app_iff in Ht as [Ht|Ht]; apply in_map_iff in Ht as (d & <- & Hd);
        rewrite (E d Hd), rigid_similar; unfold similar; cbn; ring. }
    injection Q as -> -> -> ->. rewrite arctan2d_polar by exact Hs. split; [apply put360_same|auto].
  - intros deg dx dy. assert (Nd : data <> []) by (destruct D as (d & _ & Hd & _); destruct data; [destruct Hd|congruence]).
    assert (EN : matvec (gram (rotoff_columns (xs1 data) (ys1 data))) [p0; p1; p2; p3] = matvec (rotoff_columns (xs1 data) (ys1 data)) (xs2 data ++ ys2 data)).
    { apply linalg_solve_Ok in Hp; [apply Hp|reflexivity|apply gram_square]. }
    pose proof (misfit_expand data p0 p1 p2 p3 L EN) as X. set (r := arctan2d p1 p0). set (cr := cosdeg r). set (sr := sindeg r). set (n := INR (length data)).
    set (mx := SX data / n). set (my := SY data / n).
    exists (p2 - ((cr - p0) * mx - (sr - p1) * my)), (p3 - ((sr - p1) * mx + (cr - p0) * my)).
    rewrite (misfit_ext _ _ data (rigid_similar r _ _)), (misfit_ext _ _ data (rigid_similar deg dx dy)). fold cr sr. rewrite X.
    rewrite (X (cosdeg deg)). rewrite !spread_split by exact Nd. fold n mx my. pose proof (variance_nonneg data Nd) as V.
    assert (Hn : 0 <= n) by apply pos_INR.
    assert (Hr : p0 = hyp p0 p1 * cr /\ p1 = hyp p0 p1 * sr).
    { destruct (arctan2d_points p1 p0) as [P1 P2]. rewrite <- deg_rad in P1, P2. fold r in P1, P2. exact (conj P1 P2). }
    destruct Hr as [Hr1 Hr2]. pose proof (hyp_nonneg p0 p1) as Hh. set (h := hyp p0 p1) in *.
    pose proof (sincosd_one r) as U1. pose proof (sincosd_one deg) as U2. fold cr sr in U1. set (u := cosdeg deg) in *. set (v := sindeg deg) in *.
    assert (K : (cr - p0) ^ 2 + (sr - p1) ^ 2 <= (u - p0) ^ 2 + (v - p1) ^ 2).
    { rewrite Hr1, Hr2. assert (C : u * cr + v * sr <= 1) by (pose proof (pow2_ge_0 (u - cr)); pose proof (pow2_ge_0 (v - sr)); lra).
      replace ((cr - h * cr) ^ 2 + (sr - h * sr) ^ 2) with ((1 - h) ^ 2 * (sr * sr + cr * cr)) by ring. rewrite U1.
      replace ((u - h * cr) ^ 2 + (v - h * sr) ^ 2) with ((v * v + u * u) + h ^ 2 * (sr * sr + cr * cr) - 2 * h * (u * cr + v * sr)) by ring. rewrite U1, U2. assert (h * (u * cr + v * sr) <= h * 1) by (apply Rmult_le_compat_l; assumption). lra. }
    match goal with |- _ + (_ + n * (?a ^ 2 + ?b ^ 2)) <= _ + (_ + n * (?a' ^ 2 + ?b' ^ 2)) =>
      replace a with 0 by ring; replace b with 0 by ring; assert (0 <= n * (a' ^ 2 + b' ^ 2)) by (apply Rmult_le_pos; [exact Hn|apply Rplus_le_le_0_compat; apply pow2_ge_0]) end.
    assert (((cr - p0) ^ 2 + (sr - p1) ^ 2) * variance data <= ((u - p0) ^ 2 + (v - p1) ^ 2) * variance data) by (apply Rmult_le_compat_r; assumption). lra.
Qed.
Lemma fit_rotoff_degenerate c data : ~ distinct_sources data -> corr_fit c (xs1 data) (ys1 data) (xs2 data) (ys2 data) true = Err LinAlgError.
Proof.
  intros D. unfold corr_fit, fit_rotoff. rewrite shapes_data. cbn [negb]. 
  destruct (linalg_solve _ _) as [p|e] eqn:E; fold (normal_fit (rotoff_columns (xs1 data) (ys1 data)) (xs2 data ++ ys2 data)) in E.
  - exfalso. apply normal_fit_Ok in E as [_ I]; [|apply wide_rotoff]. rewrite samples_rotoff in I. exact (rot_dependent _ D I).
  - apply normal_fit_Err in E as [-> _]; [reflexivity|apply wide_rotoff].
Qed.
