(** Linear corrections and their fits. *)
From Verif.Model Require Import SimpleCorr.
From Verif.Spec Require Import LinAlg Trig SimpleCorr.
From Verif.Proofs Require Import RealNum LinAlg Trig.
From Coq Require Import Lra.
Local Open Scope R_scope.

Lemma rot_rot a v : rot2deg (- a) (rot2deg a v) = v.
Proof.
  unfold rot2deg. cbn [fst snd]. rewrite cosd_neg, sind_neg. pose proof (sincosd_one a) as S. destruct v as [x y]. cbn [fst snd].
  assert (S' : cosdeg a * cosdeg a + sindeg a * sindeg a = 1) by lra. f_equal.
  - transitivity (x * (cosdeg a * cosdeg a + sindeg a * sindeg a)); [ring|rewrite S'; ring].
  - transitivity (y * (cosdeg a * cosdeg a + sindeg a * sindeg a)); [ring|rewrite S'; ring].
Qed.

Lemma rot_rot' a v : rot2deg a (rot2deg (- a) v) = v.
Proof. rewrite <- (Ropp_involutive a) at 1. apply rot_rot. Qed.
Lemma apply_inverse_apply c p : c_sxx c * c_syy c <> c_sxy c ^ 2 -> corr_apply_inverse c (corr_apply c p) = Ok p.
Proof.
  intros H. unfold corr_apply_inverse. assert (Reqb (c_sxx c * c_syy c - c_sxy c ^ 2) 0 = false) as -> by (apply Reqb_false; lra).
  f_equal. transitivity (rot2deg (- c_rot_deg c) (rot2deg (c_rot_deg c) p)); [|apply rot_rot]. f_equal. unfold corr_apply, mat2. destruct (rot2deg (c_rot_deg c) p) as [u v]. cbn [fst snd]. f_equal; field; lra.
Qed.
Lemma apply_apply_inverse c p q : corr_apply_inverse c p = Ok q -> corr_apply c q = p.
Proof.
  unfold corr_apply_inverse. destruct (Reqb _ 0) eqn:E; [discriminate|]. apply Reqb_false in E. intros H. injection H as <-.
  unfold corr_apply. rewrite rot_rot'. destruct p as [x y]. unfold mat2. cbn [fst snd]. f_equal; field; lra.
Qed.
Lemma apply_inverse_Ok c p : c_sxx c * c_syy c <> c_sxy c ^ 2 -> exists q, corr_apply_inverse c p = Ok q.
Proof.
  intros H. unfold corr_apply_inverse. assert (Reqb (c_sxx c * c_syy c - c_sxy c ^ 2) 0 = false) as -> by (apply Reqb_false; lra). eauto.
Qed.

(** *** Fit *)
Lemma shapes_data (data : list (point * point)) : same_shapes (xs1 data) (ys1 data) (xs2 data) (ys2 data) = true.
Proof. unfold same_shapes, xs1, ys1, xs2, ys2. rewrite !map_length, !Nat.eqb_refl. reflexivity. Qed.
Lemma samples_affine (data : list (point * point)) (f : point * point -> R) :
  samples [repeat 1 (length data); xs1 data; ys1 data] (map f data) = map (fun d => ([1; fst (fst d); snd (fst d)], f d)) data.
Proof. unfold xs1, ys1. induction data as [|d data IH]; cbn; [reflexivity|]. f_equal. exact IH. Qed.
Lemma wide_affine (data : list (point * point)) n : n = length data -> Forall (fun r => length r = n) [repeat 1 (length data); xs1 data; ys1 data].
Proof. intros ->. unfold xs1, ys1. repeat constructor; rewrite ?repeat_length, ?map_length; reflexivity. Qed.
Lemma not_collinear_independent (data : list (point * point)) (f : point * point -> R) :
  not_collinear data <-> independent 3 (map (fun d => ([1; fst (fst d); snd (fst d)], f d)) data).
Proof.
  split.
  - intros N p Lp Hp. destruct p as [|a [|b [|c [|]]]]; try discriminate.
    destruct (N a b c) as (-> & -> & ->); [|reflexivity]. intros d Hd.
    pose proof (Hp _ (in_map (fun d => ([1; fst (fst d); snd (fst d)], f d)) data d Hd)) as E. cbn in E. lra.
  - intros I a b c H. assert (E : [a; b; c] = repeat 0 3).
    { apply I; [reflexivity|]. intros s Hs. apply in_map_iff in Hs as (d & <- & Hd). pose proof (H d Hd). cbn. lra. }
    cbn in E. injection E. auto.
Qed.

Lemma least_squares_unique k ss p q : least_squares k ss p -> least_squares k ss q -> p = q.
Proof.
  intros [Lp Hp] [Lq Hq]. destruct (list_eq_dec Req_EM_T p q) as [E|N]; [exact E|]. specialize (Hp q Lq ltac:(congruence)). specialize (Hq p Lp N). lra.
Qed.
(** Data without residuals determine the coefficients. *)
Lemma least_squares_exact k ss p q : least_squares k ss p -> length q = k -> (forall s, In s ss -> combination q (fst s) = snd s) -> p = q.
Proof.
  intros [Lp Hp] Lq E. destruct (list_eq_dec Req_EM_T p q) as [E'|N]; [exact E'|]. exfalso. specialize (Hp q Lq ltac:(congruence)).
  assert (Z : sum_sq q ss = 0).
  { unfold sum_sq. clear - E. induction ss as [|s ss IH]; cbn [map fold_right]; [reflexivity|]. rewrite IH by (intros; apply E; now right). rewrite E by now left. ring. }
  assert (0 <= sum_sq p ss); [|lra]. unfold sum_sq. apply Rsum_nonneg. rewrite Forall_map. apply Forall_forall. intros. apply pow2_ge_0.
Qed.

Lemma hypot_zero u v : sqrt (u ^ 2 + v ^ 2) = 0 -> u = 0 /\ v = 0.
Proof. intros H. apply sqrt_eq_0 in H; nra. Qed.

(** The decomposition, for a non zero trace. *)
Lemma decompose_spec ax1 ax2 ay1 ay2 :
  match decompose ax1 ax2 ay1 ay2 with
  | Err e => e = NonFinite /\ ax1 + ay2 = 0
  | Ok (sxx, syy, sxy, rot) =>
      ax1 + ay2 <> 0 /\
      match rot with
      | None => ay1 = ax2 /\ sxx = ax1 /\ syy = ay2 /\ sxy = ax2
      | Some r => ay1 <> ax2 /\ forall x y,
          mat2 sxx sxy sxy syy (rot2deg r (x, y)) = (ax1 * x + ax2 * y, ay1 * x + ay2 * y)
      end
  end.
Proof.
  unfold decompose. set (s := sqrt _). destruct (Reqb s 0) eqn:Es.
  - apply Reqb_true in Es. apply hypot_zero in Es. tauto.
  - apply Reqb_false in Es. assert (Hs : 0 < s) by (pose proof (sqrt_pos ((ax1 + ay2) ^ 2 + (ay1 - ax2) ^ 2)); fold s in H; lra).
    assert (S2 : s * s = (ax1 + ay2) ^ 2 + (ay1 - ax2) ^ 2) by (apply sqrt_sqrt; apply Rplus_le_le_0_compat; apply pow2_ge_0).
    destruct (Reqb ((ay1 - ax2) / s) 0) eqn:Ea.
    + apply Reqb_true in Ea. assert (ay1 - ax2 = 0). { apply (Rmult_eq_reg_r (/ s)); [|apply Rinv_neq_0_compat; lra]. rewrite Rmult_0_l. exact Ea. }
      split; [|repeat split; lra]. intros Z. rewrite Z, H in S2. nra.
    + apply Reqb_false in Ea. assert (Na : ay1 - ax2 <> 0) by (intros Z; apply Ea; rewrite Z; unfold Rdiv; ring).
      destruct (Reqb ((ax1 + ay2) / s) 0) eqn:Ec.
      * apply Reqb_true in Ec. split; [reflexivity|]. apply (Rmult_eq_reg_r (/ s)); [|apply Rinv_neq_0_compat; lra]. rewrite Rmult_0_l. exact Ec.
      * apply Reqb_false in Ec. assert (Nc : ax1 + ay2 <> 0) by (intros Z; apply Ec; rewrite Z; unfold Rdiv; ring).
        split; [exact Nc|]. split; [lra|]. intros x y.
        set (sa := (ay1 - ax2) / s) in *. set (ca := (ax1 + ay2) / s) in *.
        assert (Esa : ay1 - ax2 = s * sa) by (unfold sa; field; lra). assert (Eca : ax1 + ay2 = s * ca) by (unfold ca; field; lra).
        assert (U : ca * ca + sa * sa = 1). { apply (Rmult_eq_reg_l (s * s)); [|nra]. transitivity ((s * ca) ^ 2 + (s * sa) ^ 2); [ring|]. rewrite <- Esa, <- Eca. lra. }
        assert (P : cosdeg (arctan2d sa ca) = ca /\ sindeg (arctan2d sa ca) = sa).
        { destruct (arctan2d_points sa ca) as [P1 P2]. rewrite <- deg_rad in P1, P2. fold (cosdeg (arctan2d sa ca)) in P1. fold (sindeg (arctan2d sa ca)) in P2.
          replace (ca ^ 2 + sa ^ 2) with 1 in P1, P2 by lra. rewrite sqrt_1 in P1, P2. lra. }
        destruct P as [Pc Ps]. unfold mat2, rot2deg. cbn [fst snd]. rewrite Pc, Ps.
        set (sxy := sa * ax1 + ca * ay1 - s * ca * sa). set (sxx := (ax1 - sxy * sa) / ca). set (syy := (ay1 - sxy * ca) / sa).
        assert (X1 : sxx * ca = ax1 - sxy * sa) by (unfold sxx; field; exact Ec). assert (Y1 : syy * sa = ay1 - sxy * ca) by (unfold syy; field; exact Ea).
        assert (X2 : - sxx * sa + sxy * ca = ax2).
        { apply (Rmult_eq_reg_l ca); [|exact Ec]. transitivity (- (sxx * ca) * sa + sxy * (ca * ca)); [ring|]. rewrite X1.
          transitivity (- ax1 * sa + sxy * (ca * ca + sa * sa)); [ring|]. rewrite U. unfold sxy.
          replace ax2 with (ay1 - s * sa) by lra. ring. }
        assert (Y2 : - sxy * sa + syy * ca = ay2).
        { apply (Rmult_eq_reg_l sa); [|exact Ea]. transitivity ((syy * sa) * ca - sxy * (sa * sa)); [ring|]. rewrite Y1.
          transitivity (ay1 * ca - sxy * (ca * ca + sa * sa)); [ring|]. rewrite U. unfold sxy.
          replace ay2 with (s * ca - ax1) by lra. ring. }
        f_equal; [rewrite <- X2|rewrite <- Y2].
        -- transitivity ((sxx * ca + sxy * sa) * x + (- sxx * sa + sxy * ca) * y); [ring|]. rewrite X1. ring.
        -- transitivity ((sxy * ca + syy * sa) * x + (- sxy * sa + syy * ca) * y); [ring|]. rewrite Y1. ring.
Qed.

Lemma affine_predict ax ay p : length ax = 3%nat -> length ay = 3%nat ->
  affine ax ay p = (nth 0 ax 0 + (nth 1 ax 0 * fst p + nth 2 ax 0 * snd p), nth 0 ay 0 + (nth 1 ay 0 * fst p + nth 2 ay 0 * snd p)).
Proof.
  intros L1 L2. destruct ax as [|a [|b [|c [|]]]]; try discriminate. destruct ay as [|a' [|b' [|c' [|]]]]; try discriminate.
  unfold affine. cbn. f_equal; ring.
Qed.

(** A symmetric matrix with non zero trace composed with a rotation is itself only for the
    identity rotation. *)
Lemma stale_rotation sxx syy sxy r : sxx + syy <> 0 ->
  (forall x y, mat2 sxx sxy sxy syy (rot2deg r (x, y)) = (sxx * x + sxy * y, sxy * x + syy * y)) <-> same_angle r 0.
Proof.
  intros T. split.
  - intros H. apply sincosd_inj; unfold cosdeg, sindeg; rewrite ?Rmult_0_r, ?cos_0, ?sin_0; fold (cosdeg r) (sindeg r);
      pose proof (H 1 0) as H1; pose proof (H 0 1) as H2; unfold mat2, rot2deg in H1, H2; cbn [fst snd] in H1, H2; injection H1 as A1 A2; injection H2 as B1 B2;
      pose proof (sincosd_one r) as S; set (c := cosdeg r) in *; set (s := sindeg r) in *.
    + (* trace: (sxx+syy) c = sxx + syy *) apply (Rmult_eq_reg_l (sxx + syy)); [|exact T]. lra.
    + apply (Rmult_eq_reg_l (sxx + syy)); [|exact T]. lra.
  - intros S x y. assert (C0 : cosdeg r = 1) by (rewrite (cosd_same _ _ S); unfold cosdeg; rewrite Rmult_0_r; apply cos_0).
    assert (S0 : sindeg r = 0) by (rewrite (sind_same _ _ S); unfold sindeg; rewrite Rmult_0_r; apply sin_0).
    unfold mat2, rot2deg. cbn [fst snd]. rewrite C0, S0. f_equal; ring.
Qed.

Section Fit.
Variable data : list (point * point).
Let n := length data.

Lemma normal_x f : linalg_solve (gram [repeat 1 (length (xs1 data)); xs1 data; ys1 data]) (matvec [repeat 1 (length (xs1 data)); xs1 data; ys1 data] (map f data)) =
  normal_fit [repeat 1 n; xs1 data; ys1 data] (map f data).
Proof. unfold normal_fit, n, xs1. now rewrite map_length. Qed.

Lemma fit_solution f : not_collinear data ->
  exists a, normal_fit [repeat 1 n; xs1 data; ys1 data] (map f data) = Ok a /\
    least_squares 3 (map (fun d => ([1; fst (fst d); snd (fst d)], f d)) data) a.
Proof.
  intros N. assert (W : Forall (fun r => length r = length (map f data)) [repeat 1 n; xs1 data; ys1 data]) by (apply wide_affine; apply map_length).
  destruct (normal_fit_independent [repeat 1 n; xs1 data; ys1 data] (map f data) W) as [a Ha].
  - unfold n. rewrite samples_affine. now apply not_collinear_independent.
  - exists a. split; [exact Ha|]. apply normal_fit_Ok in Ha as [L _]; [|exact W]. unfold n in L. rewrite samples_affine in L. exact L.
Qed.

Lemma fit_affine_spec c : not_collinear data ->
  exists ax ay, least_squares 3 (x_samples data) ax /\ least_squares 3 (y_samples data) ay /\
    (nth 1 ax 0 + nth 2 ay 0 = 0 -> corr_fit c (xs1 data) (ys1 data) (xs2 data) (ys2 data) false = Err NonFinite) /\
    (nth 1 ax 0 + nth 2 ay 0 <> 0 ->
     exists c', corr_fit c (xs1 data) (ys1 data) (xs2 data) (ys2 data) false = Ok c' /\
       ((forall p, corr_apply c' p = affine ax ay p) <-> nth 1 ay 0 <> nth 2 ax 0 \/ same_angle (c_rot_deg c) 0) /\
       c_nmatch c' = length data /\
       c_rms c' = sqrt (misfit (affine ax ay) data / INR (length data))).
Proof.
  intros N. destruct (fit_solution (fun d => fst (snd d)) N) as (ax & Ex & Lx). destruct (fit_solution (fun d => snd (snd d)) N) as (ay & Ey & Ly).
  exists ax, ay. split; [exact Lx|]. split; [exact Ly|].
  assert (F : corr_fit c (xs1 data) (ys1 data) (xs2 data) (ys2 data) false =
    rbind (decompose (nth 1 ax 0) (nth 2 ax 0) (nth 1 ay 0) (nth 2 ay 0)) (fun s =>
    let '(sxx, syy, sxy, rot) := s in
    Ok {| c_dx := nth 0 ax 0; c_dy := nth 0 ay 0; c_sxx := sxx; c_syy := syy; c_sxy := sxy;
          c_rot_deg := match rot with Some r => r | None => c_rot_deg c end;
          c_nmatch := length (xs1 data); c_rms := fit_rms ax ay (xs1 data) (ys1 data) (xs2 data) (ys2 data) |})).
  { unfold corr_fit, fit_affine. rewrite shapes_data. cbn [negb]. unfold xs2, ys2 at 1. rewrite !normal_x.  rewrite Ex, Ey. reflexivity. }
  rewrite F. pose proof (decompose_spec (nth 1 ax 0) (nth 2 ax 0) (nth 1 ay 0) (nth 2 ay 0)) as D.
  destruct (decompose _ _ _ _) as [[[[sxx syy] sxy] rot]|e]; cbn [rbind].
  2:{ destruct D as [-> D]. split; [reflexivity|contradiction]. }
  destruct D as [D1 D]. split; [contradiction|]. intros _. eexists. split; [reflexivity|]. cbn [c_nmatch c_rms]. split.
  - assert (L3 : length ax = 3%nat) by apply Lx. assert (L3' : length ay = 3%nat) by apply Ly.
    destruct rot as [r|].
    + destruct D as [D2 D]. split; [auto|]. intros _ [x y]. unfold corr_apply. cbn [c_sxx c_sxy c_syy c_rot_deg c_dx c_dy]. rewrite D. rewrite affine_predict by assumption. cbn [fst snd]. f_equal; ring.
    + destruct D as (D2 & -> & -> & ->). split.
      * intros H. right. apply (stale_rotation (nth 1 ax 0) (nth 2 ay 0) (nth 2 ax 0)); [exact D1|]. intros x y. specialize (H (x, y)).
        rewrite affine_predict in H by assumption. unfold corr_apply in H. cbn [c_sxx c_sxy c_syy c_rot_deg c_dx c_dy fst snd] in H.
        rewrite (surjective_pairing (mat2 _ _ _ _ _)). injection H as H1 H2. rewrite D2 in H2. unfold mat2, rot2deg; cbn [fst snd]; f_equal; lra.
      * intros [H|H]; [congruence|]. intros [x y]. unfold corr_apply. cbn [c_sxx c_sxy c_syy c_rot_deg c_dx c_dy].
        rewrite (proj2 (stale_rotation (nth 1 ax 0) (nth 2 ay 0) (nth 2 ax 0) (c_rot_deg c) D1) H). rewrite affine_predict by assumption. cbn [fst snd]. rewrite D2. f_equal; ring.
  - split; [unfold xs1; apply map_length|]. unfold fit_rms, misfit.
    assert (Z : combine (combine (xs1 data) (ys1 data)) (combine (xs2 data) (ys2 data)) = data).
    { unfold xs1, ys1, xs2, ys2. clear. induction data as [|[[a b] [u v]] l IH]; cbn; [reflexivity|]. now rewrite IH. }
    rewrite Z, map_length. f_equal. f_equal. change (fold_right Rplus 0) with Rsum. f_equal. apply map_ext. intros [[x y] [u v]].
    rewrite affine_predict by (apply Lx || apply Ly). cbn [fst snd]. unfold predict. ring.
Qed.

Lemma fit_collinear c : ~ not_collinear data -> corr_fit c (xs1 data) (ys1 data) (xs2 data) (ys2 data) false = Err LinAlgError.
Proof.
  intros N. unfold corr_fit, fit_affine. rewrite shapes_data. cbn [negb]. unfold xs2. rewrite normal_x.
  assert (W : Forall (fun r => length r = length (map (fun d => fst (snd d)) data)) [repeat 1 n; xs1 data; ys1 data]) by (apply wide_affine; apply map_length).
  destruct (normal_fit _ _) as [a|e] eqn:E.
  - exfalso. apply N. apply normal_fit_Ok in E as [_ I]; [|exact W]. unfold n in I. rewrite samples_affine in I. eapply not_collinear_independent. exact I.
  - apply normal_fit_Err in E as [-> _]; [reflexivity|exact W].
Qed.
End Fit.
