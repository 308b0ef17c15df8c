From Verif.Model Require Import FieldModel.
From Verif.Spec Require Import Trig Sphere LinAlg SimpleCorr TanPlane.
From Verif.Proofs Require Import RealNum Trig Sphere LinAlg SimpleCorr Radec2tan.
From Coq Require Import Lra Lia.
Local Open Scope R_scope.

Lemma combo_direction p : combo 0 0 (fst p) (snd p) (sqrt (1 - fst p ^ 2 - snd p ^ 2)) = direction p.
Proof. unfold combo, direction. rewrite east, north, <- getXYZ_unit. unfold getXYZ. rewrite cosd0, sind0. cbn. apply triple_eq; ring. Qed.
Lemma seen p : in_disk p -> exists ha dec, xy2hadec (fst p) (snd p) 0 0 = Ok (ha, dec) /\ forall o, hadec2xy ha dec (fst o) (snd o) = seen_from o p.
Proof.
  intros H. destruct (xy2hadec_combo (fst p) (snd p) 0 0 H) as (ha & dec & E & _ & _ & D). exists ha, dec. split; [exact E|]. intros o'. rewrite hadec2xy_components, D, combo_direction. reflexivity.
Qed.
Lemma seen_from_0 p : seen_from (0, 0) p = p.
Proof.
  unfold seen_from. cbn [fst snd]. rewrite east, north. rewrite cosd0, sind0. unfold direction. destruct p. cbn. f_equal; ring.
Qed.
Lemma outside p : ~ in_disk p -> xy2hadec (fst p) (snd p) 0 0 = Err NonFinite.
Proof. unfold in_disk, xy2hadec. intros H. destruct (Rltb _ 0) eqn:E; [reflexivity|]. apply Rltb_false in E. lra. Qed.

Lemma tan_apply_seen t p : tan_apply t p = if Rltb (1 - fst p ^ 2 - snd p ^ 2) 0 then Err NonFinite
  else Ok (mat2 (t_sxx t) (t_sxy t) (t_sxy t) (t_syy t) (rot2deg (t_rot_deg t) (seen_from (t_dha t, t_ddec t) p))).
Proof.
  unfold tan_apply. destruct (Rltb _ 0) eqn:E.
  - unfold xy2hadec. rewrite E. reflexivity.
  - apply Rltb_false in E. destruct (seen p) as (ha & dec & -> & S); [unfold in_disk; lra|]. cbn [rbind]. rewrite <- (S (t_dha t, t_ddec t)). reflexivity.
Qed.
Lemma tan_apply_inverse_seen t p : t_sxx t * t_syy t <> t_sxy t ^ 2 -> tan_apply_inverse t p = if Rltb (1 - fst p ^ 2 - snd p ^ 2) 0 then Err NonFinite
  else let det := t_sxx t * t_syy t - t_sxy t ^ 2 in
       Ok (rot2deg (- t_rot_deg t) (mat2 (t_syy t / det) (- t_sxy t / det) (- t_sxy t / det) (t_sxx t / det) (seen_from (t_dha t, t_ddec t) p))).
Proof.
  intros D. unfold tan_apply_inverse. assert (Reqb (t_sxx t * t_syy t - t_sxy t ^ 2) 0 = false) as -> by (apply Reqb_false; lra). destruct (Rltb _ 0) eqn:E.
  - unfold xy2hadec. rewrite E. reflexivity.
  - apply Rltb_false in E. destruct (seen p) as (ha & dec & -> & S); [unfold in_disk; lra|]. cbn [rbind]. rewrite <- (S (t_dha t, t_ddec t)). reflexivity.
Qed.

(** *** The fit *)
Lemma hd_seen (data : list (point * point)) : Forall (fun d => in_disk (fst d)) data ->
  exists hd, rmapM (fun '(x, y) => xy2hadec x y 0 0) (combine (xs1 data) (ys1 data)) = Ok hd /\ length hd = length data /\
    forall o, project hd (fst o) (snd o) = map (fun d => seen_from o (fst d)) data.
Proof.
  induction 1 as [|[p q] data Hp H IH].
  - exists []. repeat split.
  - destruct IH as (hd & E & L & P). destruct (seen p Hp) as (ha & dec & Eh & S). exists ((ha, dec) :: hd). split; [|split].
    + cbn [xs1 ys1 map combine fst snd]. cbn [rmapM]. fold (xs1 data) (ys1 data). rewrite Eh. cbn [rbind]. rewrite E. reflexivity.
    + cbn. now rewrite L.
    + intros o. cbn [project map]. rewrite (S o). f_equal. apply P.
Qed.
Lemma hd_outside (data : list (point * point)) : Exists (fun d => ~ in_disk (fst d)) data ->
  rmapM (fun '(x, y) => xy2hadec x y 0 0) (combine (xs1 data) (ys1 data)) = Err NonFinite.
Proof.
  induction data as [|[p q] data IH]; intros H; [inversion H|]. cbn [xs1 ys1 map combine fst snd rmapM]. fold (xs1 data) (ys1 data).
  destruct (Rle_dec (fst p ^ 2 + snd p ^ 2) 1) as [I|I].
  - destruct (seen p I) as (ha & dec & -> & _). cbn [rbind]. rewrite IH; [reflexivity|]. inversion H; subst; [contradiction|assumption].
  - rewrite outside by exact I. reflexivity.
Qed.

Lemma sub_arrays_data (data : list (point * point)) (f g : point * point -> R) : sub_arrays (map f data) (map g data) = map (fun d => f d - g d) data.
Proof. unfold sub_arrays. induction data as [|d data IH]; cbn; [reflexivity|]. now rewrite IH. Qed.
Lemma mean_average l : l <> [] -> mean l = Ok (average l).
Proof. destruct l; [contradiction|]. reflexivity. Qed.
Lemma pointing_steps (data : list (point * point)) hd : data <> [] -> (forall o, project hd (fst o) (snd o) = map (fun d => seen_from o (fst d)) data) ->
  forall n o, exists s : nat -> R * R, s 0%nat = o /\ (forall k, (k < n)%nat -> pointing_step data (s k) (s (S k))) /\
    fit_pointing n hd (xs2 data) (ys2 data) (fst o) (snd o) = Ok (s n).
Proof.
  intros ND P. induction n as [|n IH]; intros o.
  - exists (fun _ => o). split; [reflexivity|]. split; [lia|]. cbn. now rewrite <- surjective_pairing.
  - set (dx := average (map (fun d => fst (snd d) - fst (seen_from o (fst d))) data)). set (dy := average (map (fun d => snd (snd d) - snd (seen_from o (fst d))) data)).
    destruct (IH (fst o - rad2deg dx, snd o - rad2deg dy)) as (s & S0 & St & E). exists (fun k => match k with O => o | S k' => s k' end). split; [reflexivity|]. split.
    + intros [|k] Hk.
      * rewrite S0. split; cbn [fst snd]; unfold rad2deg; fold dx dy; ring.
      * apply St. lia.
    + cbn [fit_pointing]. cbv zeta. rewrite (P o), !map_map. unfold xs2 at 1, ys2 at 1. rewrite !sub_arrays_data.
      rewrite !mean_average by (destruct data; [contradiction|discriminate]). cbn [rbind]. fold dx dy. exact E.
Qed.

Lemma tan_decompose_spec ax1 ax2 ay1 ay2 :
  match tan_decompose ax1 ax2 ay1 ay2 with
  | Err e => e = NonFinite /\ (ax1 + ay2 = 0 \/ ay1 = ax2)
  | Ok (sxx, syy, sxy, r) => ax1 + ay2 <> 0 /\ ay1 <> ax2 /\ (forall p, mat2 sxx sxy sxy syy (rot2deg r p) = (ax1 * fst p + ax2 * snd p, ay1 * fst p + ay2 * snd p)) /\ 0 < sxx + syy /\ 0 <= r < 360
  end.
Proof.
  pose proof (decompose_spec ax1 ax2 ay1 ay2) as D. unfold decompose in D. unfold tan_decompose. cbv zeta in *. destruct (Reqb (sqrt _) 0) eqn:Es.
  { apply Reqb_true in Es. apply hypot_zero in Es. split; [reflexivity|]. left; tauto. }
  destruct (Reqb ((ay1 - ax2) / _) 0) eqn:Ea.
  - rewrite Bool.orb_true_r. split; [reflexivity|]. right. apply D.
  - destruct (Reqb ((ax1 + ay2) / _) 0) eqn:Ec; cbn [orb].
    + split; [reflexivity|]. left. apply D.
    + destruct D as (D1 & D2 & D3). split; [exact D1|]. split; [exact D2|]. split; [intros [x y]; apply D3|]. split; [|apply arctan2d_range].
      apply Reqb_false in Es. apply Reqb_false in Ec. set (s := sqrt _) in *. set (sa := (ay1 - ax2) / s) in *. set (ca := (ax1 + ay2) / s) in *. set (sxx := (_ - _) / ca) in *. set (syy := (_ - _) / sa) in *. set (sxy := _ - s * ca * sa) in *.
      assert (Hs : 0 < s) by (pose proof (sqrt_pos ((ax1 + ay2) ^ 2 + (ay1 - ax2) ^ 2)) as P; fold s in P; lra).
      assert (S2 : s * s = (ax1 + ay2) ^ 2 + (ay1 - ax2) ^ 2) by (apply sqrt_sqrt; apply Rplus_le_le_0_compat; apply pow2_ge_0).
      assert (U : ca * ca + sa * sa = 1) by (unfold ca, sa; apply (Rmult_eq_reg_l (s * s)); [|nra]; transitivity ((ax1 + ay2) ^ 2 + (ay1 - ax2) ^ 2); [field; lra|lra]).
      assert (P : cosdeg (arctan2d sa ca) = ca).
      { destruct (arctan2d_points sa ca) as [P1 _]. rewrite <- deg_rad in P1. fold (cosdeg (arctan2d sa ca)) in P1. replace (ca ^ 2 + sa ^ 2) with 1 in P1 by lra. rewrite sqrt_1 in P1. lra. }
      pose proof (f_equal fst (D3 1 0)) as X. pose proof (f_equal snd (D3 0 1)) as Y. unfold mat2, rot2deg in X, Y. cbn [fst snd] in X, Y. rewrite P in X, Y.
      assert ((sxx + syy) * ca = s * ca) by (replace (s * ca) with (ax1 + ay2) by (unfold ca; field; lra); lra).
      apply Rmult_eq_reg_r in H; [lra|exact Ec].
Qed.

Lemma xs_sources o (data : list (point * point)) : map fst (map (fun d => seen_from o (fst d)) data) = xs1 (sources_from o data) /\ map snd (map (fun d => seen_from o (fst d)) data) = ys1 (sources_from o data) /\
  xs2 data = xs2 (sources_from o data) /\ ys2 data = ys2 (sources_from o data).
Proof. unfold xs1, ys1, xs2, ys2, sources_from. rewrite !map_map. repeat split. Qed.
Lemma fit_rms_misfit (data : list (point * point)) ax ay : length ax = 3%nat -> length ay = 3%nat ->
  fit_rms ax ay (xs1 data) (ys1 data) (xs2 data) (ys2 data) = sqrt (misfit (affine ax ay) data / INR (length data)).
Proof.
  intros Lx Ly. unfold fit_rms, misfit.
  assert (Z : combine (combine (xs1 data) (ys1 data)) (combine (xs2 data) (ys2 data)) = data).
  { unfold xs1, ys1, xs2, ys2. clear. induction data as [|[[a b] [u v]] l IH]; cbn; [reflexivity|]. now rewrite IH. }
  rewrite Z, map_length. f_equal. f_equal. change (fold_right Rplus 0) with Rsum. f_equal. apply map_ext. intros [[x y] [u v]].
  rewrite affine_predict by assumption. cbn [fst snd]. unfold predict. ring.
Qed.
Lemma solve_collinear (data : list (point * point)) f : ~ not_collinear data ->
  linalg_solve (gram [repeat 1 (length (xs1 data)); xs1 data; ys1 data]) (matvec [repeat 1 (length (xs1 data)); xs1 data; ys1 data] (map f data)) = Err LinAlgError.
Proof.
  intros N. rewrite normal_x. assert (W : Forall (fun r => length r = length (map f data)) [repeat 1 (length data); xs1 data; ys1 data]) by (apply wide_affine; apply map_length).
  destruct (normal_fit _ _) as [a|e] eqn:E.
  - exfalso. apply N. apply normal_fit_Ok in E as [_ I]; [|exact W]. rewrite samples_affine in I. eapply not_collinear_independent. exact I.
  - apply normal_fit_Err in E as [-> _]; [reflexivity|exact W].
Qed.
