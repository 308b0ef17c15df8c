(** C97: the covariance of the turbulence is fitted by maximum likelihood. *)
From Verif.Model Require Import Turbulence.
From Verif.Proofs Require Import Prelude RealNum Stats LinAlg Turbulence Gaussian Fithandler Likelihood.
From Verif.Proofs Require RayTraceFit.
From Verif.Props Require Import Turbulence Stationary.
From Coq Require Import Reals Lra Permutation Sorted.
From Verif.Spec Require Import Numpy Stationary Likelihood.
Local Open Scope R_scope.

Definition noisy (s aa ll : R) (ps : list (R * R)) : list (list R) := add_diag (s ^ 2) (cov_matrix (gauss_cov aa ll) ps ps).
Lemma gauss_sym aa ll p q : gauss_cov aa ll p q = gauss_cov aa ll q p.
Proof. unfold gauss_cov. f_equal. f_equal. f_equal. ring. Qed.
Lemma gauss_kernel aa ll p q : ll <> 0 -> aa ^ 2 * exp (- (dist2 p q / ll ^ 2) / 2) = gauss_cov aa ll p q.
Proof. intros N. unfold gauss_cov, dist2. f_equal. f_equal. field. exact N. Qed.
Lemma noisy_facts s aa ll ps : s <> 0 -> ll <> 0 -> length (noisy s aa ll ps) = length ps /\ square (noisy s aa ll ps) /\ symmetric (noisy s aa ll ps) /\ definite (noisy s aa ll ps).
Proof.
  intros Ns Nl. unfold noisy. split; [now rewrite add_diag_length, cov_length|]. split; [apply add_diag_square, cov_square|]. split; [apply add_diag_symmetric; [apply cov_square|apply cov_symmetric, gauss_sym]|].
  apply add_diag_definite; [apply cov_square|assert (0 < s ^ 2) by (rewrite <- Rsqr_pow2; now apply Rsqr_pos_lt); lra|]. intros v Lv. rewrite cov_length in Lv. assert (G := gaussian_psd aa ll ps v Nl Lv).
  replace (cov_matrix (gauss_cov aa ll) ps ps) with (cov_matrix (fun p q => aa ^ 2 * exp (- (dist2 p q / ll ^ 2) / 2)) ps ps); [exact G|]. unfold cov_matrix. apply map_ext. intros q. apply map_ext. intros p. now apply gauss_kernel.
Qed.
Lemma definite_inj A u v : square A -> definite A -> length u = length A -> length v = length A -> matvec A u = matvec A v -> u = v.
Proof.
  intros Sq D Lu Lv E. destruct (definite_solve A (matvec A u) Sq D (matvec_length _ _)) as (x & Hx). apply linalg_solve_Ok in Hx as (_ & _ & U); [|apply matvec_length|exact Sq]. rewrite (U u), (U v); auto.
Qed.
Lemma krig_system s aa ll ps w v : length w = length ps -> length v = length ps ->
  (matvec (noisy s aa ll ps) w = v <-> forall i, (i < length ps)%nat -> gp_field aa ll ps w (nth i ps (0, 0)) + s ^ 2 * nth i w 0 = nth i v 0).
Proof.
  intros Lw Lv. unfold noisy. rewrite add_diag_matvec by (try apply cov_square; now rewrite cov_length). assert (Lm : length (matvec (cov_matrix (gauss_cov aa ll) ps ps) w) = length ps) by now rewrite matvec_length, cov_length.
  assert (N : forall i, (i < length ps)%nat -> nth i (axpy (matvec (cov_matrix (gauss_cov aa ll) ps ps) w) (s ^ 2) w) 0 = gp_field aa ll ps w (nth i ps (0, 0)) + s ^ 2 * nth i w 0).
  { intros i Hi. rewrite axpy_nth by lia. f_equal. rewrite cov_matvec. rewrite (nth_indep _ 0 (dot (map (fun p => gauss_cov aa ll p (0, 0)) ps) w)) by now rewrite map_length. rewrite (map_nth (fun q => dot (map (fun p => gauss_cov aa ll p q) ps) w)). apply linear_w. exact Lw. }
  split.
  - intros E i Hi. rewrite <- N by exact Hi. now rewrite E.
  - intros E. apply list_eq_nth; [rewrite axpy_length; lia|]. intros i Hi. rewrite axpy_length in Hi by lia. rewrite N, E by lia. reflexivity.
Qed.
(** the prediction, from the solution of the linear system *)
Lemma krig_value s aa ll ps v p m w : s <> 0 -> ll <> 0 -> length v = length ps -> length w = length ps -> matvec (noisy s aa ll ps) w = v ->
  (kriging s aa ll ps v [p] [m] <-> m = dot (map (fun q => gauss_cov aa ll q p) ps) w).
Proof.
  intros Ns Nl Lv Lw E. destruct (noisy_facts s aa ll ps Ns Nl) as (L & Sq & _ & D). split.
  - intros (w' & Lw' & S' & F). assert (E' : matvec (noisy s aa ll ps) w' = v) by (apply krig_system; assumption). assert (w' = w) as -> by (apply (definite_inj (noisy s aa ll ps)); try assumption; try lia; congruence). cbn in F. injection F as ->. rewrite linear_w by exact Lw. reflexivity.
  - intros ->. exists w. split; [exact Lw|]. split; [apply krig_system; assumption|]. cbn. rewrite linear_w by exact Lw. reflexivity.
Qed.
Lemma normal_pair mx my v x y : 0 < v -> normal mx v x * normal my v y = exp (- ((x - mx) ^ 2 / v + (y - my) ^ 2 / v) / 2 - ln v) / (2 * PI).
Proof.
  intros V. unfold normal. assert (P := PI_RGT_0). assert (Q : 0 < 2 * PI * v) by (apply Rmult_lt_0_compat; lra). assert (S2 : sqrt (2 * PI * v) * sqrt (2 * PI * v) = 2 * PI * v) by (apply sqrt_sqrt; lra). assert (S1 := sqrt_lt_R0 _ Q).
  unfold Rminus at 3. rewrite exp_plus, exp_Ropp, exp_ln by exact V. replace (- ((x - mx) ^ 2 / v + (y - my) ^ 2 / v) / 2) with (- (x - mx) ^ 2 / (2 * v) + - (y - my) ^ 2 / (2 * v)) by (field; lra). rewrite exp_plus.
  apply Rmult_eq_reg_r with (sqrt (2 * PI * v) * sqrt (2 * PI * v)); [|rewrite S2; lra]. transitivity (exp (- (x - mx) ^ 2 / (2 * v)) * exp (- (y - my) ^ 2 / (2 * v))); [field; lra|]. rewrite S2. field. lra.
Qed.
(** pivots, solutions and density *)
Lemma density_spec s aa ll : s <> 0 -> ll <> 0 -> forall l : list ((R * R) * (R * R)), let C := noisy s aa ll (map fst l) in exists piv zx zy,
  pivots (length l) C = Some piv /\ Forall (fun v => 0 < v) piv /\ length zx = length l /\ length zy = length l /\ matvec C zx = map (fun o => fst (snd o)) l /\ matvec C zy = map (fun o => snd (snd o)) l /\
  forall d, gp_density s aa ll l d <-> d = exp (- (dot (map (fun o => fst (snd o)) l) zx + dot (map (fun o => snd (snd o)) l) zy) / 2 - Rsum (map ln piv)) / (2 * PI) ^ length l.
Proof.
  intros Ns Nl l. assert (Pi := PI_RGT_0). induction l as [|[p [x y]] l IH] using rev_ind; intros C.
  - exists [], [], []. repeat (split; [solve [reflexivity | constructor]|]). intros d. cbn [map dot length pow]. replace (exp _) with 1 by (rewrite <- exp_0; f_equal; unfold Rsum; cbn; lra). split.
    + intros H. inversion H as [|l' ? ? ? ? ? ? ? ? ? ? ? ? ? E]; [lra|]. destruct l'; discriminate.
    + intros ->. replace (1 / 1) with 1 by lra. constructor.
  - cbv zeta in IH. destruct IH as (piv & zx & zy & Ep & Fp & Lx & Ly & Ex & Ey & Ed). set (ps := map fst l) in *. assert (Lps : length ps = length l) by apply map_length. set (xs := map (fun o => fst (snd o)) l) in *. set (ys := map (fun o => snd (snd o)) l) in *.
    destruct (noisy_facts s aa ll ps Ns Nl) as (LC & Sq & Sy & D). set (b := map (fun q => gauss_cov aa ll q p) ps). assert (Lb : length b = length ps) by apply map_length.
    assert (EC : C = border (noisy s aa ll ps) b (aa ^ 2 + s ^ 2)). { unfold C, noisy. rewrite map_app. cbn [map fst]. fold ps. rewrite cov_border by apply gauss_sym. rewrite add_diag_border; [|apply cov_square|now rewrite cov_length]. fold b. now rewrite gauss_cov_self. }
    destruct (definite_solve _ b Sq D ltac:(lia)) as (w & Hw). apply linalg_solve_Ok in Hw as (Lw & Ew & _); [|lia|exact Sq].
    assert (DC : definite C). { unfold C. now apply noisy_facts. }
    assert (V : 0 < aa ^ 2 + s ^ 2 - dot b w) by (apply (border_definite_pivot (noisy s aa ll ps)); try assumption; try lia; now rewrite <- EC). set (v := aa ^ 2 + s ^ 2 - dot b w) in *.
    destruct (border_quadratic (noisy s aa ll ps) b (aa ^ 2 + s ^ 2) w zx xs x Sq Sy) as (Qx1 & Qx2 & Qx3); try assumption; try lia; [fold v; lra|]. destruct (border_quadratic (noisy s aa ll ps) b (aa ^ 2 + s ^ 2) w zy ys y Sq Sy) as (Qy1 & Qy2 & Qy3); try assumption; try lia; [fold v; lra|]. fold v in Qx1, Qx2, Qx3, Qy1, Qy2, Qy3.
    exists (piv ++ [v]). eexists _, _. rewrite app_length. cbn [length]. split; [|split; [|split; [|split; [|split; [|split]]]]].
    5: { rewrite EC, map_app. cbn [map fst snd]. exact Qx1. } 5: { rewrite EC, map_app. cbn [map fst snd]. exact Qy1. }
    + rewrite Nat.add_1_r, EC. unfold v. apply pivots_border; try assumption; try lia; fold v; try lra. 
    + apply Forall_app. split; [exact Fp|]. constructor; [exact V|constructor].
    + lia.
    + lia.
    + intros d. rewrite !map_app. cbn [map fst snd]. fold xs ys. rewrite Qx3, Qy3. set (mx := dot b zx). set (my := dot b zy).
      assert (Kx : forall m, kriging s aa ll ps xs [p] [m] <-> m = mx) by (intros m; apply krig_value; try assumption; unfold xs; rewrite ?map_length; lia).
      assert (Ky : forall m, kriging s aa ll ps ys [p] [m] <-> m = my) by (intros m; apply krig_value; try assumption; unfold ys; rewrite ?map_length; lia).
      assert (Kg : forall m, kriging s aa ll ps (map (fun o => gauss_cov aa ll (fst o) p) l) [p] [m] <-> m = dot b w) by (intros m; apply krig_value; try assumption; try lia; [rewrite map_length; lia|]; rewrite Ew; unfold b, ps; now rewrite map_map).
      assert (Form : exp (- (dot xs zx + (x - mx) ^ 2 / v + (dot ys zy + (y - my) ^ 2 / v)) / 2 - Rsum (map ln piv ++ [ln v])) / (2 * PI) ^ (length l + 1) =
        exp (- (dot xs zx + dot ys zy) / 2 - Rsum (map ln piv)) / (2 * PI) ^ length l * (normal mx v x * normal my v y)).
      { rewrite normal_pair by exact V. replace (Rsum (map ln piv ++ [ln v])) with (Rsum (map ln piv) + ln v). 2: { unfold Rsum. rewrite fold_right_app. cbn [fold_right]. generalize (map ln piv). intros q. induction q as [|u q IHq]; cbn; [lra|]. rewrite <- IHq. lra. }
        replace (- (dot xs zx + (x - mx) ^ 2 / v + (dot ys zy + (y - my) ^ 2 / v)) / 2 - (Rsum (map ln piv) + ln v)) with ((- (dot xs zx + dot ys zy) / 2 - Rsum (map ln piv)) + (- ((x - mx) ^ 2 / v + (y - my) ^ 2 / v) / 2 - ln v)) by lra. rewrite exp_plus, pow_add, pow_1. field. split; [lra|]. apply pow_nonzero. lra. }
      rewrite Form. split.
      * intros H. inversion H as [E0|l' d' p' x' y' mx' my' g v' H1 H2 H3 H4 H5 E1 E2]; [destruct l; discriminate|]. apply app_inj_tail in E1 as [-> E1]. injection E1 as -> -> ->. fold ps xs in H2. fold ps ys in H3. apply Kx in H2. apply Ky in H3. apply Kg in H4. apply Ed in H1. subst. reflexivity.
      * intros ->. apply (density_next s aa ll l _ p x y mx my (dot b w) v); [now apply Ed|now apply Kx|now apply Ky|now apply Kg|reflexivity].
Qed.
Definition observations (data : list datum) : list ((R * R) * (R * R)) := map (fun d => (d_pos d, (d_dx d, d_dy d))) data.
(** C97. What is minimised when the covariance is fitted: up to a constant, minus the logarithm of the probability density of the offsets. There is one for any data if neither
    the noise nor the length vanishes. *)
Theorem C97_likelihood : forall s aa ll data, s <> 0 -> ll <> 0 -> exists L, loss_independent false data [s; aa; ll] = Ok L /\
  forall d, gp_density s aa ll (observations data) d <-> exp (- L) = (2 * PI) ^ length data * d.
Proof.
  intros s aa ll data Ns Nl. assert (Pi := PI_RGT_0). destruct (density_spec s aa ll Ns Nl (observations data)) as (piv & zx & zy & Ep & Fp & Lx & Ly & Ex & Ey & Ed). unfold observations in *. rewrite !map_map in *. cbn [fst snd] in *. rewrite map_length in *.
  set (ps := map (fun x => d_pos x) data) in *. change (map (fun x => d_dx x) data) with (map d_dx data) in *. change (map (fun x => d_dy x) data) with (map d_dy data) in *. destruct (noisy_facts s aa ll ps Ns Nl) as (LC & Sq & Sy & D). assert (Lps : length ps = length data) by apply map_length.
  unfold loss_independent, make_covar_independent, kernel. destruct (Reqb ll 0) eqn:B; [apply Reqb_true in B; contradiction|]. cbn [rmap rbind hd]. change (map d_pos data) with ps.
  replace (add_diag (s ^ 2) (cov_matrix (fun p q => aa ^ 2 * exp (- (dist2 p q / ll ^ 2) / 2)) ps ps)) with (noisy s aa ll ps). 2: { unfold noisy. f_equal. unfold cov_matrix. apply map_ext. intros q. apply map_ext. intros p. symmetry. now apply gauss_kernel. }
  unfold cho_factor. rewrite LC, Lps, Ep. cbn [rbind].
  assert (Sx : linalg_solve (noisy s aa ll ps) (map d_dx data) = Ok zx). { destruct (definite_solve _ (map d_dx data) Sq D ltac:(rewrite map_length; lia)) as (z & Hz). rewrite Hz. apply linalg_solve_Ok in Hz as (_ & _ & U); [|rewrite map_length; lia|exact Sq]. f_equal. symmetry. apply U; [lia|exact Ex]. }
  assert (Sy' : linalg_solve (noisy s aa ll ps) (map d_dy data) = Ok zy). { destruct (definite_solve _ (map d_dy data) Sq D ltac:(rewrite map_length; lia)) as (z & Hz). rewrite Hz. apply linalg_solve_Ok in Hz as (_ & _ & U); [|rewrite map_length; lia|exact Sq]. f_equal. symmetry. apply U; [lia|exact Ey]. }
  rewrite Sx. cbn [rbind]. rewrite Sy'. cbn [rbind]. eexists. split; [reflexivity|]. intros d. rewrite Ed.
  assert (Lg : 2 * Rsum (map ln (map sqrt piv)) = Rsum (map ln piv)). { clear - Fp. induction Fp as [|v piv V F IH]; [unfold Rsum; cbn; lra|]. cbn [map]. unfold Rsum in *. cbn [fold_right]. rewrite Rmult_plus_distr_l, IH. f_equal. rewrite <- Rpower_sqrt by exact V. unfold Rpower. rewrite ln_exp. lra. }
  replace (- (/ 2 * (dot (map d_dx data) zx + dot (map d_dy data) zy + 2 * 2 * Rsum (map ln (map sqrt piv))))) with (- (dot (map d_dx data) zx + dot (map d_dy data) zy) / 2 - Rsum (map ln piv)) by (rewrite <- Lg; field).
  assert (PN : (2 * PI) ^ length data <> 0) by (apply pow_nonzero; lra). split; [intros ->; field; exact PN|]. intros ->. field. exact PN.
Qed.
Print Assumptions C97_likelihood.

Lemma sorted_app {A} (P : A -> A -> Prop) l m : StronglySorted P (l ++ m) -> forall a b, In a l -> In b m -> P a b.
Proof.
  induction l as [|x l IH]; intros H a b Ha Hb; [destruct Ha|]. cbn in H. apply StronglySorted_inv in H as [H F]. destruct Ha as [->|Ha]; [|now apply IH]. rewrite Forall_forall in F. apply F, in_or_app. now right.
Qed.
(** The offsets used are those of the [nuse] spots nearest to the origin, or of all spots if there are not so many or [nuse] is not positive; the optimiser starts from
    the noise 0.01, the amplitude 0.01 and the length 10. *)
Theorem C97_used : forall argsort minimize nuse data ex at_ sc xt yt p, is_argsort argsort -> solve_independent argsort minimize false nuse data ex at_ false sc = Ok (xt, yt, p) ->
  exists used rest, Permutation (used ++ rest) data /\ minimize (loss_independent false used) [0.01; 0.01; 10] = Ok p /\
    (forall a b, In a used -> In b rest -> fst (d_pos a) ^ 2 + snd (d_pos a) ^ 2 <= fst (d_pos b) ^ 2 + snd (d_pos b) ^ 2) /\
    length used = if (0 <? nuse)%Z then Nat.min (Z.to_nat nuse) (length data) else length data.
Proof.
  intros argsort minimize nuse data ex at_ sc xt yt p As H. unfold solve_independent, fit_param in H. destruct (central argsort nuse data) as [used|] eqn:Ec; [|discriminate]. cbn [rbind app] in H. destruct (minimize _ _) as [q|] eqn:Em; [|discriminate]. cbn [rbind] in H. destruct (independent_at _ _ _ _ _) as [[x y]|]; [|discriminate]. cbn [rmap] in H. apply Ok_inj in H. injection H as _ _ ->.
  unfold central in Ec. destruct (0 <? nuse)%Z eqn:Z.
  - set (key := map _ data) in Ec. destruct (As R Rltb key RayTraceFit.Rltb_weak) as [Pm So]. set (idx := argsort R Rltb key) in *. clearbody idx. unfold key in Pm. rewrite map_length in Pm. set (n := Z.to_nat nuse) in *.
    set (g := fun i => nth i data {| d_pos := (0, 0); d_dx := 0; d_dy := 0 |}). assert (Hi : forall i, In i idx -> (i < length data)%nat) by (intros i Hi; apply (Permutation_in _ Pm), in_seq in Hi; lia).
    assert (Eg : forall l, (forall i, In i l -> (i < length data)%nat) -> rmapM (geti data) l = Ok (map g l)).
    { induction l as [|i l IH]; intros Hl; [reflexivity|]. cbn [rmapM map]. unfold geti at 1. rewrite (nth_error_nth' data {| d_pos := (0, 0); d_dx := 0; d_dy := 0 |}) by (apply Hl; now left). cbn [rbind]. rewrite IH by (intros j Hj; apply Hl; now right). reflexivity. }
    rewrite Eg in Ec by (intros i Ii; apply Hi; rewrite <- (firstn_skipn n idx); apply in_or_app; now left). apply Ok_inj in Ec. subst used. exists (map g (firstn n idx)), (map g (skipn n idx)).
    split; [|split; [exact Em|split]].
    + rewrite <- map_app, firstn_skipn. rewrite (Permutation_map g Pm). replace (map g (seq 0 (length data))) with data; [apply Permutation_refl|]. unfold g. clear. induction data as [|a data IH]; [reflexivity|]. cbn [length seq map nth]. f_equal. rewrite <- (seq_shift (length data) 0), map_map. exact IH.
    + intros a b Ha Hb. apply in_map_iff in Ha as (i & <- & Ii). apply in_map_iff in Hb as (j & <- & Ij). rewrite <- (firstn_skipn n idx) in So. assert (X := sorted_app _ _ _ So i j Ii Ij).
      assert (K : forall i, In i idx -> nth_error key i = Some (fst (d_pos (g i)) ^ 2 + snd (d_pos (g i)) ^ 2)). { intros k Hk. unfold key. rewrite nth_error_map. unfold g. rewrite (nth_error_nth' data {| d_pos := (0, 0); d_dx := 0; d_dy := 0 |}) by (now apply Hi). reflexivity. }
      specialize (X _ _ (K i ltac:(rewrite <- (firstn_skipn n idx); apply in_or_app; now left)) (K j ltac:(rewrite <- (firstn_skipn n idx); apply in_or_app; now right))). apply Rltb_false in X. lra.
    + rewrite map_length, firstn_length. apply Permutation_length in Pm. rewrite seq_length in Pm. now rewrite Pm.
  - apply Ok_inj in Ec. subst used. exists data, []. rewrite app_nil_r. split; [apply Permutation_refl|]. split; [exact Em|]. split; [intros a b _ []|reflexivity].
Qed.
Print Assumptions C97_used.
(** An optimiser which does not end higher than it started ends with offsets at least as probable as for its start. *)
Theorem C97_improves : forall minimize used s aa ll d0 d, (forall f g x a, minimize f g = Ok x -> f g = Ok a -> exists b, f x = Ok b /\ b <= a) ->
  minimize (loss_independent false used) [0.01; 0.01; 10] = Ok [s; aa; ll] -> s <> 0 -> ll <> 0 -> gp_density 0.01 0.01 10 (observations used) d0 -> gp_density s aa ll (observations used) d -> d0 <= d.
Proof.
  intros minimize used s aa ll d0 d Op Em Ns Nl H0 H. assert (Pi := PI_RGT_0). destruct (C97_likelihood 0.01 0.01 10 used ltac:(lra) ltac:(lra)) as (L0 & E0 & D0). destruct (C97_likelihood s aa ll used Ns Nl) as (L & E & D). destruct (Op _ _ _ _ Em E0) as (b & Eb & Lb). rewrite E in Eb. apply Ok_inj in Eb. subst b.
  apply D0 in H0. apply D in H. assert (PP : 0 < (2 * PI) ^ length used) by (apply pow_lt; lra). apply Rmult_le_reg_l with ((2 * PI) ^ length used); [exact PP|]. rewrite <- H0, <- H. destruct Lb as [Lb|Lb]; [left; apply exp_increasing; lra|right; now rewrite Lb].
Qed.
Print Assumptions C97_improves.
(** One spot: the offsets are normal with the variance of the process and of the noise. *)
Lemma density_one s aa ll p x y : gp_density s aa ll [(p, (x, y))] (normal 0 (aa ^ 2 + s ^ 2) x * normal 0 (aa ^ 2 + s ^ 2) y).
Proof.
  rewrite <- Rmult_1_l. apply (density_next s aa ll [] 1 p x y 0 0 0 (aa ^ 2 + s ^ 2)); [constructor| | | |lra]; (exists []; split; [reflexivity|]; split; [cbn; intros i Hi; lia|reflexivity]).
Qed.
Example C97_example : exists L, loss_independent false [{| d_pos := (3, 4); d_dx := 0.02; d_dy := -0.01 |}] [0.01; 0.01; 10] = Ok L /\
  exp (- L) = 2 * PI * (normal 0 (0.01 ^ 2 + 0.01 ^ 2) 0.02 * normal 0 (0.01 ^ 2 + 0.01 ^ 2) (-0.01)).
Proof.
  destruct (C97_likelihood 0.01 0.01 10 [{| d_pos := (3, 4); d_dx := 0.02; d_dy := -0.01 |}] ltac:(lra) ltac:(lra)) as (L & E & D). exists L. split; [exact E|]. rewrite <- (Rmult_1_r (2 * PI)). change (2 * PI * 1) with ((2 * PI) ^ 1). apply D. apply density_one.
Qed.
(** It is not "-0.5 * log(marginal likelihood)", up to a constant, as the documentation of the function says. *)
Theorem C97_half_refuted : ~ (exists c : nat -> R, forall s aa ll data L d, s <> 0 -> ll <> 0 -> loss_independent false data [s; aa; ll] = Ok L -> gp_density s aa ll (observations data) d -> L = - 0.5 * ln d + c (length data)).
Proof.
  intros (c & H). assert (Pi := PI_RGT_0). set (one := fun x => [{| d_pos := (0, 0); d_dx := x; d_dy := 0 |}]).
  assert (V : forall x, exists L, L = - 0.5 * ln (exp (- L) / (2 * PI)) + c 1%nat /\ exp (- L) = 2 * PI * (normal 0 2 x * normal 0 2 0)).
  { intros x. destruct (C97_likelihood 1 1 1 (one x) ltac:(lra) ltac:(lra)) as (L & E & D). assert (G := density_one 1 1 1 (0, 0) x 0). assert (G' := G). apply D in G. change (length (one x)) with 1%nat in *. cbn [pow] in G. rewrite Rmult_1_r in G. replace (1 * (1 * 1) + 1 * (1 * 1)) with 2 in G by lra. replace (1 ^ 2 + 1 ^ 2) with 2 in G' by lra. exists L. split; [|exact G].
    rewrite (H 1 1 1 (one x) L _ ltac:(lra) ltac:(lra) E G') at 1. change (length (one x)) with 1%nat. f_equal. f_equal. f_equal. rewrite G. field. lra. }
  destruct (V 0) as (L0 & A0 & B0). destruct (V 1) as (L1 & A1 & B1).
  assert (Ln : forall L, ln (exp (- L) / (2 * PI)) = - L - ln (2 * PI)). { intros L. unfold Rdiv. rewrite ln_mult; [|apply exp_pos|apply Rinv_0_lt_compat; lra]. rewrite ln_exp, ln_Rinv by lra. lra. }
  rewrite Ln in A0, A1. assert (E : L0 = L1) by lra. rewrite E, B1 in B0. assert (N0 : 0 < normal 0 2 0) by (unfold normal; apply Rdiv_lt_0_compat; [apply exp_pos|apply sqrt_lt_R0; lra]). assert (N : normal 0 2 1 = normal 0 2 0). { apply Rmult_eq_reg_r with (normal 0 2 0); [|lra]. apply Rmult_eq_reg_l with (2 * PI); lra. }
  unfold normal in N. assert (Sp : 0 < sqrt (2 * PI * 2)) by (apply sqrt_lt_R0; lra). apply Rmult_eq_reg_r in N; [|apply Rinv_neq_0_compat; lra]. apply exp_inv in N. lra.
Qed.
Print Assumptions C97_half_refuted.
