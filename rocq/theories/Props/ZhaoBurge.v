From Verif.Model Require Import ZhaoBurge.
From Verif.Spec Require Import LinAlg DiskMean ZhaoBurge SimpleCorr.
From Verif.Proofs Require Import Noll Poly2 Zernike LinAlg SimpleCorr ZhaoBurge.
From Coq Require Import Lra Lia QArith Qreals.
Local Open Scope R_scope.

(** C32: Noll's index. Orders n and azimuthal numbers m: |m| <= n, n - m even. *)
Theorem C32_noll_bijection :
  (forall noll n m, (1 <= noll)%Z -> convertNolltoBW noll = (n, m) ->
     (Z.abs m <= n)%Z /\ Z.Even (n - m) /\ ((0 < m)%Z -> Z.Even noll) /\ ((m < 0)%Z -> Z.Odd noll)) /\
  (forall n m, (Z.abs m <= n)%Z -> Z.Even (n - m) -> exists! noll, (1 <= noll)%Z /\ convertNolltoBW noll = (n, m)) /\
  (forall k k' n m n' m', (1 <= k < k')%Z -> convertNolltoBW k = (n, m) -> convertNolltoBW k' = (n', m') ->
     (n < n' \/ n = n' /\ Z.abs m <= Z.abs m')%Z).
Proof.
  split; [exact noll_range|]. split.
  - intros n m A B. destruct (noll_onto n m A B) as (k & K1 & K2). exists k. split; [auto|]. intros k' [K1' K2']. apply noll_inj; congruence.
  - intros k k' n m n' m' [H1 H2]. now apply noll_order.
Qed.
Print Assumptions C32_noll_bijection.
(** The first indices, as in Noll's table. *)
Example C32_example : map convertNolltoBW [1; 2; 3; 4; 5; 6; 7; 8; 9; 10; 11]%Z = [(0, 0); (1, 1); (1, -1); (2, 0); (2, -2); (2, 2); (3, -1); (3, 1); (3, -3); (3, 3); (4, 0)]%Z.
Proof. cbn [map]. rewrite !nollc_spec by lia. vm_compute. reflexivity. Qed.

(** C64: Wyant's index. *)
Theorem C64_wyant_bijection :
  (forall w n m, (0 <= w)%Z -> convertWyanttoBW w = (n, m) -> (Z.abs m <= n)%Z /\ Z.Even (n - m)) /\
  (forall n m, (Z.abs m <= n)%Z -> Z.Even (n - m) -> exists! w, (0 <= w)%Z /\ convertWyanttoBW w = (n, m)).
Proof.
  split; [exact wyant_range|]. intros n m A B. destruct (wyant_onto n m A B) as (k & K1 & K2). exists k. split; [auto|]. intros k' [K1' K2']. apply wyant_inj; congruence.
Qed.
Print Assumptions C64_wyant_bijection.
Example C64_example : convertWyanttoBW 8 = (4, 0)%Z /\ convertWyanttoBW 7 = (3, -1)%Z.
Proof. split; [rewrite (wyant_spec 8 2 4) by lia|rewrite (wyant_spec 7 2 3) by lia]; reflexivity. Qed.

(** C33: Zernike polynomials. *)
Theorem C33_zernike :
  (forall n m, (Z.abs m <= n)%Z -> Z.Even (n - m) ->
     getZernRadial (n, m) 1 = 1 /\
     (forall r, getZernRadial (n, m) (- r) = (-1) ^ Z.to_nat n * getZernRadial (n, m) r) /\
     (forall r t, getZernFuncXY (n, m) (r * cos t) (r * sin t) = getZernRadial (n, m) r * (if (0 <=? m)%Z then cos (IZR m * t) else sin (IZR (- m) * t)))) /\
  (forall j n m, (1 <= j <= 37)%Z -> convertNolltoBW j = (n, m) -> normalizeArea j ^ 2 = if (m =? 0)%Z then IZR (n + 1) else IZR (2 * (n + 1))) /\
  (forall i j, (1 <= i <= 37)%Z -> (1 <= j <= 37)%Z -> disk_mean (fun x y => getZ i x y * getZ j x y) (if (i =? j)%Z then 1 else 0)).
Proof.
  split; [|split].
  - intros n m A B. assert (AD : admissible n m) by (split; assumption). split; [now apply radial_one|]. split; [intros r; now apply radial_parity|].
    intros r t. rewrite zern_polar by exact AD. f_equal. unfold getZernAngular. cbn [snd]. destruct (Z.eqb_spec m 0) as [->|N]; [cbn; rewrite Rmult_0_l, cos_0; reflexivity|].
    destruct (Z.ltb_spec 0 m), (Z.leb_spec 0 m); try lia; [reflexivity|]. now replace (Z.abs m) with (- m)%Z by lia.
  - intros j n m H E. unfold normalizeArea. rewrite squares_noll, E by exact H. assert (0 <= n)%Z by (destruct (noll_range j n m ltac:(lia) E) as [? _]; lia).
    destruct (m =? 0)%Z; rewrite pow2_sqrt; try reflexivity; apply IZR_le; lia.
  - exact getZ_orthonormal.
Qed.
Print Assumptions C33_zernike.
(** The polynomial 2 r^2 - 1. *)
Example C33_example r : getZernRadial (2, 0)%Z r = 2 * r ^ 2 - 1 /\ getZernRadial (2, 0)%Z 1 = 1.
Proof.
  split; [|apply C33_zernike; [lia|now exists 1%Z]]. destruct (radial_sum 2 0 r) as (h & k & Hk & En & Em & E); [split; [lia|now exists 1%Z]|]. assert (h = 1%nat) by lia. assert (k = 1%nat) by lia. subst h k. rewrite E. unfold ssum, rcoef, sgn, Rsum. cbn. field.
Qed.

(** C34: the S terms are gradients (of a field phi) and have no curl; the T terms have a stream function psi
    and no divergence. *)
Theorem C34_gradients_and_curls :
  (forall polid, (0 <= polid <= 26)%Z ->
     (exists phi : R -> R -> R, forall x y, exists vx vy name,
        getZhaoBurgeTerm polid x y = Ok (vx, vy, name) /\ derivable_pt_lim (fun t => phi t y) x vx /\ derivable_pt_lim (fun t => phi x t) y vy) /\
     (forall x y, exists d, derivable_pt_lim (fun t => vx_of (getZhaoBurgeTerm polid x t)) y d /\
        derivable_pt_lim (fun t => vy_of (getZhaoBurgeTerm polid t y)) x d)) /\
  (forall polid, (27 <= polid <= 32)%Z ->
     (exists psi : R -> R -> R, forall x y, exists vx vy name,
        getZhaoBurgeTerm polid x y = Ok (vx, vy, name) /\ derivable_pt_lim (fun t => psi x t) y vx /\ derivable_pt_lim (fun t => psi t y) x (- vy)) /\
     (forall x y, exists d, derivable_pt_lim (fun t => vx_of (getZhaoBurgeTerm polid t y)) x d /\
        derivable_pt_lim (fun t => vy_of (getZhaoBurgeTerm polid x t)) y (- d))) /\
  (forall polid x y, ~ (0 <= polid <= 32)%Z -> getZhaoBurgeTerm polid x y = Err (SysExit 0)) /\
  (forall polid x y vx vy name, getZhaoBurgeTerm polid x y = Ok (vx, vy, name) ->
     exists k, name = String (if (polid <=? 26)%Z then "S" else "T") k).
Proof.
  split; [intros; split; [now apply S_gradient|now apply S_curl]|]. split; [intros; split; [now apply T_stream|now apply T_div]|]. split; [intros; now apply term_Err|].
  intros polid x y vx vy name E. unfold getZhaoBurgeTerm in E. repeat match type of E with context [match ?v with _ => _ end] => is_var v; destruct v; try discriminate E end;
  injection E as <- <- <-; eexists; reflexivity.
Qed.
Print Assumptions C34_gradients_and_curls.
(** S4 is the magnification, T4 the rotation. *)
Example C34_example x y : getZhaoBurgeTerm 2 x y = Ok (sqrt 2 * x, sqrt 2 * y, "S4"%string) /\ getZhaoBurgeTerm 27 x y = Ok (sqrt 2 * y, - (sqrt 2 * x), "T4"%string).
Proof. apply S4_T4. Qed.

(** C65: the 33 terms are orthonormal: the mean over the unit disk of the scalar product of two of them is 1 or 0. *)
Theorem C65_orthonormal_terms : forall i j, (0 <= i <= 32)%Z -> (0 <= j <= 32)%Z ->
  disk_mean (fun x y => vx_of (getZhaoBurgeTerm i x y) * vx_of (getZhaoBurgeTerm j x y) + vy_of (getZhaoBurgeTerm i x y) * vy_of (getZhaoBurgeTerm j x y))
    (if (i =? j)%Z then 1 else 0).
Proof. exact orthonormal. Qed.
Print Assumptions C65_orthonormal_terms.
(** S4 against itself and against T4. *)
Example C65_example : disk_mean (fun x y => sqrt 2 * x * (sqrt 2 * x) + sqrt 2 * y * (sqrt 2 * y)) 1 /\ disk_mean (fun x y => sqrt 2 * x * (sqrt 2 * y) + sqrt 2 * y * - (sqrt 2 * x)) 0.
Proof.
  split.
  - eapply disk_mean_ext; [|apply (orthonormal 2 2); lia]. intros x y. cbn beta. destruct (C34_example x y) as [-> _]. reflexivity.
  - eapply disk_mean_ext; [|apply (orthonormal 2 27); lia]. intros x y. cbn beta. destruct (C34_example x y) as [-> ->]. reflexivity.
Qed.

(** C35: the fitted coefficients are the least squares ones. Data: pairs (point, displaced point). *)
Theorem C35_zhao_burge_fit : forall (data : list ((R * R) * (R * R))) polids, Forall (fun z => 0 <= z <= 32)%Z polids ->
  ((forall c, length c = length polids -> (forall d, In d data -> getZhaoBurgeXY polids c (fst (fst d)) (snd (fst d)) = Ok (0, 0)) -> c = repeat 0 (length polids)) ->
   exists c, fitZhaoBurge (map fst data) (map snd data) (Some polids) = Ok (polids, c) /\ length c = length polids /\
     (forall c', length c' = length polids -> c' <> c ->
        misfit (fun p => displaced (getZhaoBurgeXY polids c (fst p) (snd p)) p) data < misfit (fun p => displaced (getZhaoBurgeXY polids c' (fst p) (snd p)) p) data) /\
     (forall c', length c' = length polids -> (forall d, In d data -> snd d = displaced (getZhaoBurgeXY polids c' (fst (fst d)) (snd (fst d))) (fst d)) -> c' = c)) /\
  (~ (forall c, length c = length polids -> (forall d, In d data -> getZhaoBurgeXY polids c (fst (fst d)) (snd (fst d)) = Ok (0, 0)) -> c = repeat 0 (length polids)) ->
   fitZhaoBurge (map fst data) (map snd data) (Some polids) = Err LinAlgError).
Proof.
  intros data polids H. split; intros I.
  - apply (zb_independent polids data H) in I. destruct (fit_Ok data polids H I) as (c & E & L & O). exists c. split; [exact E|]. split; [exact L|].
    assert (M : forall c', length c' = length polids -> c' <> c -> misfit (fun p => displaced (getZhaoBurgeXY polids c (fst p) (snd p)) p) data < misfit (fun p => displaced (getZhaoBurgeXY polids c' (fst p) (snd p)) p) data).
    { intros c' L' N. rewrite <- !sum_sq_misfit by exact H. now apply O. }
    split; [exact M|]. intros c' L' X. destruct (list_eq_dec Req_EM_T c' c) as [?|N]; [assumption|]. exfalso. specialize (M c' L' N).
    assert (Z : misfit (fun p => displaced (getZhaoBurgeXY polids c' (fst p) (snd p)) p) data = 0).
    { clear - X. unfold misfit. induction data as [|d data IH]; cbn [map fold_right]; [reflexivity|]. rewrite IH by (intros; apply X; now right). rewrite <- (X d) by now left. ring. }
    assert (N0 : 0 <= misfit (fun p => displaced (getZhaoBurgeXY polids c (fst p) (snd p)) p) data).
    { unfold misfit. apply (Rsum_nonneg (map _ data)). rewrite Forall_map. apply Forall_forall. intros. apply Rplus_le_le_0_compat; apply pow2_ge_0. }
    lra.
  - apply fit_singular; [exact H|]. intros J. apply I. now apply (zb_independent polids data H).
Qed.
Print Assumptions C35_zhao_burge_fit.
(** One point determines the two translations. *)
Example C35_example : exists c, fitZhaoBurge [(0.5, 0)] [(0.6, 0.1)] (Some [0; 1]%Z) = Ok ([0; 1]%Z, c) /\ c = [0.1; 0.1].
Proof.
  destruct (C35_zhao_burge_fit [((0.5, 0), (0.6, 0.1))] [0; 1]%Z) as [A _]; [repeat constructor; lia|].
  assert (V : forall a b, getZhaoBurgeXY [0; 1]%Z [a; b] 0.5 0 = Ok (a, b)) by (intros; unfold getZhaoBurgeXY; cbn [combine add_terms getZhaoBurgeTerm rbind fst snd]; rewrite getZ1; repeat f_equal; ring).
  destruct A as (c & E & _ & _ & X).
  - intros [|a [|b [|]]] L Z; try discriminate. specialize (Z _ (or_introl eq_refl)). cbn [fst snd] in Z. rewrite V in Z. injection Z as -> ->. reflexivity.
  - exists c. split; [exact E|]. symmetry. apply X; [reflexivity|]. intros d [<-|[]]. cbn [fst snd]. rewrite V. cbn. f_equal; lra.
Qed.

(** C36: linear in the coefficients; [transform] is translation, rotation and scaling, then the displacement
    at the point reached. *)
Theorem C36_linear : forall polids, Forall (fun z => 0 <= z <= 32)%Z polids ->
  (forall u v a b x y, length u = length v -> exists dx dy ex ey,
     getZhaoBurgeXY polids u x y = Ok (dx, dy) /\ getZhaoBurgeXY polids v x y = Ok (ex, ey) /\
     getZhaoBurgeXY polids (lin_comb a u b v) x y = Ok (a * dx + b * ex, a * dy + b * ey)) /\
  (forall polids' z u v x y, Forall (fun z => 0 <= z <= 32)%Z (z :: polids') -> length u = length polids ->
     getZhaoBurgeXY (polids ++ z :: polids') (u ++ 0 :: v) x y = getZhaoBurgeXY (polids ++ polids') (u ++ v) x y) /\
  (forall c x y, exists dx dy, getZhaoBurgeXY polids c x y = Ok (dx, dy) /\
     forall s t ox oy x0 y0, similarity s t (x0 + ox, y0 + oy) = (x, y) ->
       transform x0 y0 s t ox oy (Some polids) (Some c) = Ok (x + dx, y + dy) /\
       transform x0 y0 s t ox oy None (Some c) = Ok (x, y) /\ transform x0 y0 s t ox oy (Some polids) None = Err RuntimeError).
Proof.
  intros polids H. split; [|split].
  - intros u v a b x y L. rewrite !XY_Ok by exact H. do 4 eexists. split; [reflexivity|]. split; [reflexivity|]. rewrite !combination_lin by exact L. reflexivity.
  - intros polids' z u v x y H' L. inversion H' as [|? ? Hz Hr]; subst. rewrite !XY_Ok by (apply Forall_app; split; assumption). unfold vxs, vys. rewrite !map_app. cbn [map].
    rewrite !combination_app by (now rewrite map_length). cbn [combination]. f_equal. f_equal; ring.
  - intros c x y. rewrite XY_Ok by exact H. do 2 eexists. split; [reflexivity|]. intros s t ox oy x0 y0 E. rewrite transform_similarity, transform_plain by exact H. cbn zeta. rewrite E. cbn [fst snd]. rewrite XY_Ok by exact H. repeat split; reflexivity.
Qed.
Print Assumptions C36_linear.
Example C36_example : getZhaoBurgeXY [0; 2]%Z [1; 3] 1 2 = Ok (1 + 3 * sqrt 2, 6 * sqrt 2) /\ Forall (fun z => 0 <= z <= 32)%Z [0; 2]%Z.
Proof.
  split; [|repeat constructor; lia]. unfold getZhaoBurgeXY. cbn [combine add_terms]. destruct (C34_example 1 2) as [-> _]. cbn [getZhaoBurgeTerm rbind fst snd add_terms]. rewrite getZ1. f_equal. f_equal; ring.
Qed.

(** C66: fit_scale_rotation_offset. The minimiser is given the misfit of the full map, with fixed values in place; fixed
    values are returned as they are; the Zhao-Burge stage can only improve the misfit reached. *)
Theorem C66_scale_rotation_offset : forall minimize (data : list ((R * R) * (R * R))) polids coeffs fs fr, Forall (fun z => 0 <= z <= 32)%Z polids ->
  let fixed (prm : R * R * R * R) := let '(s, t, ox, oy) := prm in
    (match fs with Some f => f | None => s end, match fr with Some f => f | None => t end, ox, oy) in
  (forall prm, fit_func (Some polids) (Some coeffs) fs fr (map fst data) (map snd data) prm = Ok (misfit (full_map polids coeffs (fixed prm)) data)) /\
  (forall prm, minimize (fit_func (Some polids) (Some coeffs) fs fr (map fst data) (map snd data)) (1, 0, 0, 0) = Ok prm ->
     fit_scale_rotation_offset minimize (Some polids) (Some coeffs) fs fr (map fst data) (map snd data) false = Ok (fixed prm, None) /\
     forall prm' zb, fit_scale_rotation_offset minimize (Some polids) (Some coeffs) fs fr (map fst data) (map snd data) true = Ok (prm', zb) ->
       prm' = fixed prm /\ exists c, zb = Some (polids, c) /\ length c = length polids /\
       forall c', length c' = length polids -> misfit (full_map polids c (fixed prm)) data <= misfit (full_map polids c' (fixed prm)) data).
Proof.
  intros minimize data polids coeffs fs fr H fixed. split; [intros [[[s t] ox] oy]; now apply fit_func_misfit|].
  intros [[[s t] ox] oy] M. split; [unfold fit_scale_rotation_offset; rewrite M; reflexivity|].
  intros prm' zb E. unfold fit_scale_rotation_offset in E. rewrite M in E. cbn [rbind] in E.
  set (s' := or_fixed fs s) in *. set (t' := or_fixed fr t) in *.
  rewrite (rmapM_total _ (fun p => similarity s' t' (fst p + ox, snd p + oy))) in E by (intros; apply transform_plain). cbn [rbind] in E.
  set (data' := map (fun d => (similarity s' t' (fst (fst d) + ox, snd (fst d) + oy), snd d)) data).
  assert (E1 : map (fun p => similarity s' t' (fst p + ox, snd p + oy)) (map fst data) = map fst data') by (unfold data'; rewrite !map_map; reflexivity).
  assert (E2 : map snd data = map snd data') by (unfold data'; rewrite !map_map; reflexivity). rewrite E1, E2 in E.
  destruct (fitZhaoBurge (map fst data') (map snd data') (Some polids)) as [zc|e] eqn:F; [|discriminate]. cbn [rbind] in E. injection E as <- <-. split; [reflexivity|].
  destruct (C35_zhao_burge_fit data' polids H) as [A B].
  pose proof (proj1 (zb_independent polids data' H) (fit_Ok_inv data' polids zc H F)) as I.
  destruct (A I) as (c & F' & L & O & _). rewrite F in F'. injection F' as ->. exists c. split; [reflexivity|]. split; [exact L|]. intros c' L'.
  destruct (list_eq_dec Req_EM_T c' c) as [->|N]; [lra|]. left. pose proof (full_map_misfit polids c (s', t', ox, oy) data) as M1. pose proof (full_map_misfit polids c' (s', t', ox, oy) data) as M2. cbn beta iota in M1, M2.
  unfold fixed. change (match fs with Some f => f | None => s end) with s'. change (match fr with Some f => f | None => t end) with t'. rewrite M1, M2. now apply O.
Qed.
Print Assumptions C66_scale_rotation_offset.
(** A minimiser that stays at its start, a fixed scale 2, one point and the two translations. *)
Example C66_example : exists c, fit_scale_rotation_offset (fun _ p => Ok p) (Some [0; 1]%Z) (Some [5; 6]) (Some 2) None [(3, 4)] [(1, 2)] true = Ok ((2, 0, 0, 0), Some ([0; 1]%Z, c)) /\ c = [-5; -6].
Proof.
  assert (V : forall a b x y, getZhaoBurgeXY [0; 1]%Z [a; b] x y = Ok (a, b)) by (intros; unfold getZhaoBurgeXY; cbn [combine add_terms getZhaoBurgeTerm rbind fst snd]; rewrite getZ1; repeat f_equal; ring).
  destruct (C35_zhao_burge_fit [((6, 8), (1, 2))] [0; 1]%Z) as [A _]; [repeat constructor; lia|]. destruct A as (c & E & _ & _ & X).
  - intros [|a [|b [|]]] L Z; try discriminate. specialize (Z _ (or_introl eq_refl)). cbn [fst snd] in Z. rewrite V in Z. injection Z as -> ->. reflexivity.
  - exists c. split.
    + unfold fit_scale_rotation_offset. cbn [rbind or_fixed rmapM fst snd]. rewrite transform_plain. cbn [rbind]. replace (similarity 2 0 (3 + 0, 4 + 0)) with (6, 8) by (unfold similarity; cbn; rewrite sin_0, cos_0; f_equal; ring).
      cbn [map fst snd] in E. rewrite E. reflexivity.
    + symmetry. apply X; [reflexivity|]. intros d [<-|[]]. cbn [fst snd]. rewrite V. cbn. f_equal; lra.
Qed.
