(** C59, C61: turbulence correction with Gaussian processes. *)
From Verif.Model Require Import Turbulence.
From Verif.Proofs Require Import Prelude RealNum Stats LinAlg Turbulence Gaussian.
From Coq Require Import Reals Lra.
Local Open Scope R_scope.

Lemma kernel_sym rq param k : kernel rq param = Ok k -> forall p q, k p q = k q p.
Proof.
  unfold kernel. assert (D : forall p q : R * R, dist2 p q = dist2 q p) by (intros; unfold dist2; ring).
  destruct rq, param as [|a [|b [|c [|d [|]]]]]; try discriminate; destruct (Reqb c 0); try discriminate; intros H; apply Ok_inj in H; subst k; intros p q; cbv beta zeta; now rewrite (D p q).
Qed.
(** What [solve_independent] returns is the solution for the parameters of the covariance it returns. *)
Theorem C59_parameters : forall argsort minimize rq nuse data ex at_ fx sc xt yt p, solve_independent argsort minimize rq nuse data ex at_ fx sc = Ok (xt, yt, p) -> independent_at rq p data ex at_ = Ok (xt, yt).
Proof. intros argsort minimize rq nuse data ex at_ fx sc xt yt p. unfold solve_independent. destruct (if fx then _ else _) as [q|]; [|discriminate]. cbn [rbind]. destruct (independent_at _ _ _ _ _) as [[x y]|] eqn:E; [|discriminate]. cbn. intros H. apply Ok_inj in H. injection H as <- <- <-. exact E. Qed.
Print Assumptions C59_parameters.

Lemma both_Ok (f : list R -> res (list R)) a b x y : rbind (f a) (fun x => rbind (f b) (fun y => Ok (x, y))) = Ok (x, y) <-> f a = Ok x /\ f b = Ok y.
Proof. destruct (f a) as [x'|]; cbn; [|split; [discriminate|intros [? _]; discriminate]]. destruct (f b) as [y'|]; cbn; [|split; [discriminate|intros [_ ?]; discriminate]]. split; [intros H; apply Ok_inj in H; injection H as -> ->; auto|intros [H H']; apply Ok_inj in H, H'; now subst]. Qed.

(** C59. With excludeself, the turbulence of a spot is the one predicted at its position from the other spots alone, with the same parameters of the covariance. *)
Theorem C59_leave_one_out : forall rq param pre d post xt yt xo yo,
  independent_at rq param (pre ++ d :: post) true None = Ok (xt, yt) -> independent_at rq param (pre ++ post) false (Some [d_pos d]) = Ok (xo, yo) ->
  xo = [nth (length pre) xt 0] /\ yo = [nth (length pre) yt 0].
Proof.
  intros rq param pre d post xt yt xo yo H H'. unfold independent_at, make_covar_independent in H, H'. destruct (kernel rq param) as [k|] eqn:K; [|discriminate]. cbn [rmap rbind] in H, H'. assert (KS := kernel_sym _ _ _ K).
  apply both_Ok in H as [Hx Hy]. apply both_Ok in H' as [Ox Oy]. unfold predict_other, cho_solve in Ox, Oy. destruct (cho_factor _) as [l|]; [|discriminate]. cbn [rbind] in Ox, Oy. rewrite !map_app in *. cbn [map] in *.
  destruct (linalg_solve _ (map d_dx pre ++ map d_dx post)) as [sx|] eqn:Ex; [|discriminate]. destruct (linalg_solve _ (map d_dy pre ++ map d_dy post)) as [sy|] eqn:Ey; [|discriminate]. cbn [rmap] in Ox, Oy. apply Ok_inj in Ox, Oy. rewrite cov_matvec in Ox, Oy. cbn [map] in Ox, Oy. subst xo yo.
  pose proof (leave_one_out k (hd 0 param ^ 2) (map d_pos pre) (d_pos d) (map d_pos post) (map d_dx pre) (d_dx d) (map d_dx post) xt KS) as Lx. pose proof (leave_one_out k (hd 0 param ^ 2) (map d_pos pre) (d_pos d) (map d_pos post) (map d_dy pre) (d_dy d) (map d_dy post) yt KS) as Ly.
  rewrite !map_length in Lx, Ly. split; f_equal; symmetry; [eapply Lx|eapply Ly]; eauto.
Qed.
Print Assumptions C59_leave_one_out.
(** So it does not change when the offset of that spot does. *)
Theorem C59_own_offset : forall rq param pre d d' post xt yt xt' yt', d_pos d' = d_pos d ->
  independent_at rq param (pre ++ d :: post) true None = Ok (xt, yt) -> independent_at rq param (pre ++ d' :: post) true None = Ok (xt', yt') ->
  nth (length pre) xt 0 = nth (length pre) xt' 0 /\ nth (length pre) yt 0 = nth (length pre) yt' 0.
Proof.
  intros rq param pre d d' post xt yt xt' yt' Ep H H'. unfold independent_at, make_covar_independent in H, H'. destruct (kernel rq param) as [k|] eqn:K; [|discriminate]. cbn [rmap rbind] in H, H'. assert (KS := kernel_sym _ _ _ K).
  rewrite !map_app in *. cbn [map] in *. rewrite Ep in H'. apply both_Ok in H as [Hx Hy]. apply both_Ok in H' as [Hx' Hy']. rewrite <- (map_length d_dx pre) at 1 2. rewrite <- (map_length d_dy pre).
  split; (eapply exclude_own; [| | |eassumption|eassumption]); try (apply add_diag_square, cov_square); try (apply add_diag_symmetric; [apply cov_square|now apply cov_symmetric]); rewrite add_diag_length, cov_length, app_length; cbn; rewrite !map_length; reflexivity.
Qed.
Print Assumptions C59_own_offset.
(** Without excludeself, the turbulence of the spots is the one predicted at their positions. *)
Theorem C59_smoothing : forall rq param data x y x' y',
  independent_at rq param data false None = Ok (x, y) -> independent_at rq param data false (Some (map d_pos data)) = Ok (x', y') -> x = x' /\ y = y'.
Proof.
  intros rq param data x y x' y' H H'. unfold independent_at, make_covar_independent in H, H'. destruct (kernel rq param) as [k|] eqn:K; [|discriminate]. cbn [rmap rbind] in H, H'.
  apply both_Ok in H as [Hx Hy]. apply both_Ok in H' as [Ox Oy]. unfold predict_other, cho_solve in Ox, Oy. destruct (cho_factor _) as [l|]; [|discriminate]. cbn [rbind] in Ox, Oy.
  assert (Ns : hd 0 param <> 0). { intros E. unfold predict_smooth in Hx. destruct (Reqb (hd 0 param) 0) eqn:B; [discriminate|]. apply Reqb_true in E. congruence. }
  destruct (linalg_solve _ (map d_dx data)) as [sx|] eqn:Ex in Ox; [|discriminate]. destruct (linalg_solve _ (map d_dy data)) as [sy|] eqn:Ey in Oy; [|discriminate]. cbn [rmap] in Ox, Oy. apply Ok_inj in Ox, Oy. subst x' y'.
  set (K0 := cov_matrix k (map d_pos data) (map d_pos data)) in *. assert (SqK : square K0) by apply cov_square. assert (LK : length K0 = length data) by (unfold K0; now rewrite cov_length, map_length). clearbody K0.
  split; [exact (smoothing_gen K0 _ (map d_dx data) Ns SqK (eq_trans (map_length _ _) (eq_sym LK)) x sx Hx Ex)|exact (smoothing_gen K0 _ (map d_dy data) Ns SqK (eq_trans (map_length _ _) (eq_sym LK)) y sy Hy Ey)].
Qed.
Print Assumptions C59_smoothing.

(** With a noise and a length other than zero, the Gaussian covariance is positive definite: nothing can fail, for any spots and offsets, coincident or not. *)
Theorem C59_total : forall sigma aa ll data, sigma <> 0 -> ll <> 0 ->
  (exists x y, independent_at false [sigma; aa; ll] data true None = Ok (x, y) /\ length x = length data /\ length y = length data) /\
  (exists x y, independent_at false [sigma; aa; ll] data false None = Ok (x, y) /\ length x = length data /\ length y = length data) /\
  (forall ps, exists x y, independent_at false [sigma; aa; ll] data false (Some ps) = Ok (x, y) /\ length x = length ps /\ length y = length ps).
Proof.
  intros sigma aa ll data Ns Nl. unfold independent_at, make_covar_independent, kernel. destruct (Reqb ll 0) eqn:B; [apply Reqb_true in B; contradiction|]. cbn [rmap rbind hd].
  set (k := fun p q => aa ^ 2 * exp (- (dist2 p q / ll ^ 2) / 2)). set (ps := map d_pos data). set (A := add_diag (sigma ^ 2) (cov_matrix k ps ps)).
  assert (Ps : 0 < sigma ^ 2). { assert (sigma ^ 2 <> 0) by (apply pow_nonzero; exact Ns). pose proof (pow2_ge_0 sigma). lra. }
  assert (Sq : square A) by apply add_diag_square, cov_square. assert (LA : length A = length data) by (unfold A, ps; now rewrite add_diag_length, cov_length, map_length).
  assert (Sy : symmetric A). { apply add_diag_symmetric; [apply cov_square|]. apply cov_symmetric. intros p q. unfold k. f_equal. f_equal. unfold dist2. field. exact Nl. }
  assert (Psd : forall v, length v = length ps -> 0 <= dot v (matvec (cov_matrix k ps ps) v)) by (intros v Lv; now apply gaussian_psd).
  assert (D : definite A). { apply add_diag_definite; [apply cov_square|exact Ps|]. rewrite cov_length. exact Psd. }
  split; [|split].
  - destruct (exclude_ok A (map d_dx data) Sq Sy D) as (x & Ex); [now rewrite map_length|]. destruct (exclude_ok A (map d_dy data) Sq Sy D) as (y & Ey); [now rewrite map_length|]. exists x, y. split; [now apply both_Ok|].
    apply exclude_row in Ex as [Lx _]; [|assumption|assumption|now rewrite map_length]. apply exclude_row in Ey as [Ly _]; [|assumption|assumption|now rewrite map_length]. rewrite map_length in *. auto.
  - destruct (smooth_ok k sigma ps (map d_dx data) Ns) as (x & Ex); [unfold ps; now rewrite !map_length|exact Psd|]. destruct (smooth_ok k sigma ps (map d_dy data) Ns) as (y & Ey); [unfold ps; now rewrite !map_length|exact Psd|]. exists x, y. split; [now apply both_Ok|].
    assert (Ls : forall d t, predict_smooth sigma A d = Ok t -> length t = length data).
    { intros d t E. unfold predict_smooth in E. destruct (Reqb sigma 0); [discriminate|]. apply linalg_solve_Ok in E as (L & _ & _).
      - now rewrite L, add_diag_length, mat_scale_length, add_diag_length.
      - now rewrite matvec_length, add_diag_length.
      - apply add_diag_square, mat_scale_square, add_diag_square, Sq. }
    split; eauto.
  - intros qs. destruct (cho_factor_definite A Sq Sy D) as (l & El). destruct (definite_solve A (map d_dx data) Sq D) as (sx & Ex); [now rewrite map_length|]. destruct (definite_solve A (map d_dy data) Sq D) as (sy & Ey); [now rewrite map_length|].
    exists (matvec (cov_matrix k ps qs) sx), (matvec (cov_matrix k ps qs) sy). unfold predict_other, cho_solve. rewrite El. cbn [rbind]. rewrite Ex, Ey. cbn. rewrite !matvec_length, cov_length. auto.
Qed.
Print Assumptions C59_total.
(** With the fixed covariance: for every spot set, the leave-one-out result exists and is the prediction from the others. *)
Theorem C59_fixed : forall argsort minimize nuse scale pre d post, scale <> 0 -> exists xt yt p,
  solve_independent argsort minimize false nuse (pre ++ d :: post) true None true scale = Ok (xt, yt, p) /\
  solve_independent argsort minimize false nuse (pre ++ post) false (Some [d_pos d]) true scale = Ok ([nth (length pre) xt 0], [nth (length pre) yt 0], p).
Proof.
  intros argsort minimize nuse scale pre d post N. unfold solve_independent, fixed_param. cbn [rbind app]. set (p := [0.005 * scale; 0.005 * scale; 50 * scale]).
  assert (N1 : 0.005 * scale <> 0) by (apply Rmult_integral_contrapositive_currified; [apply Rgt_not_eq; lra|exact N]). assert (N2 : 50 * scale <> 0) by (apply Rmult_integral_contrapositive_currified; [apply Rgt_not_eq; lra|exact N]).
  destruct (C59_total (0.005 * scale) (0.005 * scale) (50 * scale) (pre ++ d :: post) N1 N2) as ((xt & yt & E & _) & _). destruct (C59_total (0.005 * scale) (0.005 * scale) (50 * scale) (pre ++ post) N1 N2) as (_ & _ & T). destruct (T [d_pos d]) as (xo & yo & Eo & _).
  fold p in E, Eo. exists xt, yt, p. rewrite E, Eo. destruct (C59_leave_one_out _ _ _ _ _ _ _ _ _ E Eo) as [-> ->]. auto.
Qed.
Print Assumptions C59_fixed.

(** *** gradient of a wavefront *)
Lemma grad_square param ps qs K : make_covar_gradwavefront_nonoise false param ps qs = Ok K -> length K = (2 * length qs)%nat /\ Forall (fun r => length r = (2 * length ps)%nat) K.
Proof.
  unfold make_covar_gradwavefront_nonoise. destruct param as [|a [|aa [|ll [|]]]]; try discriminate. destruct (Reqb ll 0); [discriminate|]. intros H. apply Ok_inj in H. subst K. rewrite app_length, !map_length. split; [lia|].
  apply Forall_app; split; apply Forall_forall; intros r J; apply in_map_iff in J as (q & <- & _); rewrite app_length, !map_length; lia.
Qed.
Definition grad_pairing (e : R * R -> R * R -> R * R * R) (l m : list (R * R * (R * R))) : R :=
  Rsum (map (fun a => Rsum (map (fun b => let '(xx, xy, yy) := e (snd b) (snd a) in fst (fst a) * (xx * fst (fst b) + xy * snd (fst b)) + snd (fst a) * (xy * fst (fst b) + yy * snd (fst b))) m)) l).
Lemma dot_pairing (e : R * R -> R * R -> R * R * R) ps : forall vx vy q, length vx = length ps -> length vy = length ps ->
  forall cx cy, cx * dot (map (fun p => fst (fst (e p q))) ps ++ map (fun p => snd (fst (e p q))) ps) (vx ++ vy) + cy * dot (map (fun p => snd (fst (e p q))) ps ++ map (fun p => snd (e p q)) ps) (vx ++ vy) =
  Rsum (map (fun b => let '(xx, xy, yy) := e (snd b) q in cx * (xx * fst (fst b) + xy * snd (fst b)) + cy * (xy * fst (fst b) + yy * snd (fst b))) (combine (combine vx vy) ps)).
Proof.
  intros vx vy q Lx Ly cx cy. rewrite !dot_app by (rewrite map_length; lia). revert vx vy Lx Ly. induction ps as [|p ps IH]; intros [|x vx] [|y vy] Lx Ly; try discriminate; [cbn; ring|]. cbn [map combine dot]. rewrite Rsum_cons, <- IH by (cbn in *; lia). cbn [fst snd]. destruct (e p q) as [[xx xy] yy]. cbn [fst snd]. ring.
Qed.
Lemma grad_symmetric param ps K : make_covar_gradwavefront_nonoise false param ps ps = Ok K -> symmetric K.
Proof.
  intros H. pose proof (grad_square _ _ _ _ H) as [LK _]. unfold make_covar_gradwavefront_nonoise in H. destruct param as [|a [|aa [|ll [|]]]]; try discriminate. destruct (Reqb ll 0) eqn:B; [discriminate|]. apply Ok_inj in H. cbv zeta in H.
  assert (Nl : ll <> 0) by (intros E; apply Reqb_true in E; congruence).
  set (e := fun p q => grad_entries aa ll p q) in H. assert (Es : forall p q, e p q = e q p). { intros p q. unfold e, grad_entries. cbv zeta. assert (E : forall x y : R * R, ((fst x - fst y) / ll) ^ 2 + ((snd x - snd y) / ll) ^ 2 = ((fst y - fst x) / ll) ^ 2 + ((snd y - snd x) / ll) ^ 2) by (intros; field; exact Nl). rewrite (E p q). f_equal; [f_equal|]; field; exact Nl. }
  assert (F : forall u v, length u = length K -> length v = length K -> dot u (matvec K v) = grad_pairing e (combine (combine (firstn (length ps) u) (skipn (length ps) u)) ps) (combine (combine (firstn (length ps) v) (skipn (length ps) v)) ps)).
  { intros u v Lu Lv. rewrite LK in Lu, Lv. set (ux := firstn (length ps) u). set (uy := skipn (length ps) u). set (vx := firstn (length ps) v). set (vy := skipn (length ps) v).
    replace u with (ux ++ uy) by apply firstn_skipn. replace v with (vx ++ vy) at 1 by apply firstn_skipn.
    assert (Lux : length ux = length ps) by (unfold ux; rewrite firstn_length; lia). assert (Luy : length uy = length ps) by (unfold uy; rewrite skipn_length; lia). assert (Lvx : length vx = length ps) by (unfold vx; rewrite firstn_length; lia). assert (Lvy : length vy = length ps) by (unfold vy; rewrite skipn_length; lia).
    rewrite <- H. unfold matvec. rewrite map_app, !map_map. rewrite dot_app by (rewrite map_length; lia). unfold grad_pairing.
    assert (G : forall qs ux uy, length ux = length qs -> length uy = length qs -> 
       dot ux (map (fun q => dot (map (fun p => fst (fst (e p q))) ps ++ map (fun p => snd (fst (e p q))) ps) (vx ++ vy)) qs) + dot uy (map (fun q => dot (map (fun p => snd (fst (e p q))) ps ++ map (fun p => snd (e p q)) ps) (vx ++ vy)) qs) =
       Rsum (map (fun a0 => Rsum (map (fun b => let '(xx, xy, yy) := e (snd b) (snd a0) in fst (fst a0) * (xx * fst (fst b) + xy * snd (fst b)) + snd (fst a0) * (xy * fst (fst b) + yy * snd (fst b))) (combine (combine vx vy) ps))) (combine (combine ux uy) qs))).
    { clear -Lvx Lvy. induction qs as [|q qs IH]; intros [|x ux] [|y uy] Lx Ly; try discriminate; [cbn; ring|]. cbn [map combine dot]. rewrite Rsum_cons. cbn [fst snd]. rewrite <- (dot_pairing e ps vx vy q Lvx Lvy x y), <- IH by (cbn in *; lia). ring. }
    apply G; assumption. }
  intros u v Lu Lv. rewrite dot_comm, !F by assumption. unfold grad_pairing.
  generalize (combine (combine (firstn (length ps) u) (skipn (length ps) u)) ps) (combine (combine (firstn (length ps) v) (skipn (length ps) v)) ps). clear -Es. intros m l.
  induction l as [|a l IH]; cbn [map]; [cbn; symmetry; apply Rsum_zero|]. rewrite Rsum_cons, IH. rewrite <- Rsum_plus. f_equal. apply map_ext. intros b. cbn [map]. rewrite Rsum_cons. rewrite (Es (snd b)). destruct (e (snd a) (snd b)) as [[xx xy] yy]. ring.
Qed.

(** Here too smoothing is predicting at the positions of the spots. *)
Theorem C59_gradwavefront_smoothing : forall rq param data x y x' y',
  gradwavefront_at rq param data false None = Ok (x, y) -> gradwavefront_at rq param data false (Some (map d_pos data)) = Ok (x', y') -> x = x' /\ y = y'.
Proof.
  intros rq param data x y x' y' H H'. unfold gradwavefront_at, make_covar_gradwavefront in H, H'. destruct rq; [discriminate|]. destruct (make_covar_gradwavefront_nonoise _ _ _ _) as [K|] eqn:E; [|discriminate]. cbn [rmap rbind] in H, H'.
  apply grad_square in E as [LK F]. assert (Sq : square K) by (unfold square; rewrite LK; exact F). rewrite map_length in LK.
  destruct (predict_smooth _ _ _) as [t|] eqn:T; [|discriminate]. destruct (predict_other _ _ _) as [t'|] eqn:T'; [|discriminate]. cbn [rmap] in H, H'. apply Ok_inj in H, H'. rewrite map_length in H'.
  unfold predict_other, cho_solve in T'. destruct (cho_factor _) as [l|]; [|discriminate]. cbn [rbind] in T'. destruct (linalg_solve _ _) as [s|] eqn:S in T'; [|discriminate]. cbn [rmap] in T'. apply Ok_inj in T'. subst t'.
  assert (Ns : hd 0 param <> 0). { intros Z. unfold predict_smooth in T. destruct (Reqb (hd 0 param) 0) eqn:B; [discriminate|]. apply Reqb_true in Z. congruence. }
  assert (Et := smoothing_gen K _ (map d_dx data ++ map d_dy data) Ns Sq ltac:(rewrite app_length, !map_length; lia) t s T S). rewrite <- Et in H'. rewrite H in H'. now injection H'.
Qed.
Print Assumptions C59_gradwavefront_smoothing.

(** In excludeself mode the x (y) offset of a spot does not enter its own x (y) turbulence... *)
Theorem C59_gradwavefront_own : forall rq param pre d d' post xt yt xt' yt', d_pos d' = d_pos d ->
  gradwavefront_at rq param (pre ++ d :: post) true None = Ok (xt, yt) -> gradwavefront_at rq param (pre ++ d' :: post) true None = Ok (xt', yt') ->
  (d_dy d' = d_dy d -> nth (length pre) xt 0 = nth (length pre) xt' 0) /\ (d_dx d' = d_dx d -> nth (length pre) yt 0 = nth (length pre) yt' 0).
Proof.
  intros rq param pre d d' post xt yt xt' yt' Ep H H'. unfold gradwavefront_at, make_covar_gradwavefront in H, H'. destruct rq; [discriminate|]. rewrite !map_app in *. cbn [map] in *. rewrite Ep in H'.
  destruct (make_covar_gradwavefront_nonoise _ _ _ _) as [K|] eqn:E; [|discriminate]. cbn [rmap rbind] in H, H'. pose proof (grad_symmetric _ _ _ E) as SyK. apply grad_square in E as [LK F]. assert (SqK : square K) by (unfold square; rewrite LK; exact F).
  destruct (predict_exclude _ _) as [t|] eqn:T in H; [|discriminate]. destruct (predict_exclude _ _) as [t'|] eqn:T' in H'; [|discriminate]. cbn [rmap] in H, H'. apply Ok_inj in H, H'. unfold halves in H, H'. injection H as <- <-. injection H' as <- <-.
  set (n := length (pre ++ d :: post)). replace (length (pre ++ d' :: post)) with n by (unfold n; now rewrite !app_length). assert (Ln : n = (length pre + S (length post))%nat) by (unfold n; now rewrite app_length). clearbody n.
  assert (Sq := add_diag_square (hd 0 param ^ 2) K SqK). assert (Sy := add_diag_symmetric (hd 0 param ^ 2) K SqK SyK). assert (LA : length (add_diag (hd 0 param ^ 2) K) = (2 * n)%nat). { rewrite add_diag_length, LK, app_length. cbn. rewrite !map_length. lia. }
  assert (NF : forall (l : list R) i, (i < n)%nat -> nth i (firstn n l) 0 = nth i l 0). { clear. intros l i. revert l n. induction i as [|i IH]; intros [|x l] [|n] Hi; cbn; try lia; try reflexivity. apply IH. lia. }
  assert (NS : forall (l : list R) i, nth i (skipn n l) 0 = nth (n + i) l 0). { clear. intros l i. revert l. induction n as [|n IH]; intros l; [reflexivity|]. destruct l as [|x l]; [destruct i; reflexivity|]. cbn. apply IH. }
  split; intros Ed.
  - rewrite !NF by lia. rewrite <- (map_length d_dx pre). rewrite Ed in T'. rewrite <- app_assoc in T, T'. cbn [app] in T, T'. eapply exclude_own; [exact Sq|exact Sy| |exact T|exact T']. rewrite LA, !app_length. cbn. rewrite !map_length. lia.
  - rewrite !NS. rewrite Ed in T'. rewrite app_assoc in T, T'. replace (n + length pre)%nat with (length ((map d_dx pre ++ d_dx d :: map d_dx post) ++ map d_dy pre)) by (rewrite !app_length; cbn; rewrite !map_length; lia).
    eapply exclude_own; [exact Sq|exact Sy| |exact T|exact T']. rewrite LA, !app_length. cbn. rewrite !map_length. lia.
Qed.
Print Assumptions C59_gradwavefront_own.

(** ... but it does enter its own turbulence in the other coordinate: "excludeself" leaves out one number of the spot, not the spot. *)
Definition spot0 (dy : R) : datum := {| d_pos := (0, 0); d_dx := 0; d_dy := dy |}.
Definition spot1 : datum := {| d_pos := (50, 50); d_dx := 0; d_dy := 0 |}.
Definition quad4 (S al be : R) : list (list R) := [[S; al; 0; be]; [al; S; be; 0]; [0; be; S; al]; [be; 0; al; S]].
Lemma quad4_definite S al be : Rabs al + Rabs be < S -> definite (quad4 S al be).
Proof.
  intros H v L N. destruct v as [|v0 [|v1 [|v2 [|v3 [|]]]]]; try discriminate. cbn. pose proof (Rabs_pos al). pose proof (Rabs_pos be). pose proof (Rle_abs al). pose proof (Rle_abs be). pose proof (Rle_abs (- al)). pose proof (Rle_abs (- be)). rewrite Rabs_Ropp in *.
  assert (B : forall c x y, 2 * c * (x * y) >= - Rabs c * (x * x + y * y)). { intros c x y. destruct (Rcase_abs c) as [G|G]; [rewrite Rabs_left by exact G; assert (0 <= - c * ((x - y) * (x - y))) by (apply Rmult_le_pos; [lra|apply Rle_0_sqr])|rewrite Rabs_right by exact G; assert (0 <= c * ((x + y) * (x + y))) by (apply Rmult_le_pos; [lra|apply Rle_0_sqr])]; lra. }
  pose proof (B al v0 v1). pose proof (B al v2 v3). pose proof (B be v0 v3). pose proof (B be v1 v2).
  assert (P : 0 < v0 * v0 + v1 * v1 + v2 * v2 + v3 * v3). { destruct (Rlt_dec 0 (v0 * v0 + v1 * v1 + v2 * v2 + v3 * v3)) as [|G]; [assumption|]. exfalso. apply N. assert (v0 = 0 /\ v1 = 0 /\ v2 = 0 /\ v3 = 0) as (-> & -> & -> & ->); [|reflexivity]. repeat split; nra. }
  nra.
Qed.
Lemma two_spots dy : exists S al be, Rabs al + Rabs be < S /\ al <> 0 /\ be <> 0 /\ make_covar_gradwavefront false [spot0 dy; spot1] [0.005; 0.005; 100] = Ok (quad4 S al be).
Proof.
  set (g := 0.005 ^ 2 * exp (- ((1 / 2) ^ 2 + (1 / 2) ^ 2) / 2)). assert (Pg : 0 < g) by (apply Rmult_lt_0_compat; [lra|apply exp_pos]).
  assert (Bg : g < 0.005 ^ 2). { unfold g. apply Rlt_le_trans with (0.005 ^ 2 * 1); [|lra]. apply Rmult_lt_compat_l; [lra|]. apply Rlt_le_trans with (exp 0); [apply exp_increasing; lra|rewrite exp_0; lra]. }
  exists (0.005 ^ 2 + 0.005 ^ 2), (3 / 4 * g), (- (1 / 4) * g). split; [rewrite Rabs_right by lra; rewrite Rabs_left by lra; lra|]. split; [apply Rgt_not_eq; lra|]. split; [apply Rlt_not_eq; lra|].
  unfold make_covar_gradwavefront, make_covar_gradwavefront_nonoise. destruct (Reqb 100 0) eqn:B; [apply Reqb_true in B; lra|]. cbn -[pow]. unfold grad_entries. cbn -[pow].
  assert (E0 : 0.005 ^ 2 * exp (- (((0 - 0) / 100) ^ 2 + ((0 - 0) / 100) ^ 2) / 2) = 0.005 ^ 2). { replace (- (((0 - 0) / 100) ^ 2 + ((0 - 0) / 100) ^ 2) / 2) with 0 by field. rewrite exp_0. ring. }
  assert (E1 : 0.005 ^ 2 * exp (- (((50 - 50) / 100) ^ 2 + ((50 - 50) / 100) ^ 2) / 2) = 0.005 ^ 2). { replace (- (((50 - 50) / 100) ^ 2 + ((50 - 50) / 100) ^ 2) / 2) with 0 by field. rewrite exp_0. ring. }
  assert (E2 : 0.005 ^ 2 * exp (- (((0 - 50) / 100) ^ 2 + ((0 - 50) / 100) ^ 2) / 2) = g). { unfold g. f_equal. f_equal. field. }
  assert (E3 : 0.005 ^ 2 * exp (- (((50 - 0) / 100) ^ 2 + ((50 - 0) / 100) ^ 2) / 2) = g). { unfold g. f_equal. f_equal. field. }
  rewrite E0, E1, E2, E3. clearbody g. clear. unfold quad4. f_equal. repeat (apply (f_equal2 (@cons _)); [|]); try reflexivity; field.
Qed.
Theorem C59_gradwavefront_refuted : ~ (forall argsort minimize nuse pre d d' post xt yt p xt' yt' p', d_pos d' = d_pos d ->
  solve_gradwavefront argsort minimize false nuse (pre ++ d :: post) true None true = Ok (xt, yt, p) -> solve_gradwavefront argsort minimize false nuse (pre ++ d' :: post) true None true = Ok (xt', yt', p') ->
  nth (length pre) xt 0 = nth (length pre) xt' 0).
Proof.
  intros H. specialize (H (fun _ _ _ => []) (fun _ g => Ok g) 0%Z [] (spot0 0) (spot0 1) [spot1]). cbn [app length] in H.
  destruct (two_spots 0) as (S & al & be & HS & Nal & Nbe & E). assert (E' : make_covar_gradwavefront false [spot0 1; spot1] [0.005; 0.005; 100] = Ok (quad4 S al be)) by exact E.
  unfold solve_gradwavefront in H. cbn [rbind app] in H. unfold gradwavefront_at in H. rewrite E, E' in H. cbn [rbind map app length d_dx d_dy spot0 spot1] in H.
  set (A := quad4 S al be) in *. assert (D : definite A) by now apply quad4_definite. assert (Sq : square A) by (repeat constructor).
  assert (Sy : symmetric A). { intros u v Lu Lv. destruct u as [|u0 [|u1 [|u2 [|u3 [|]]]]]; try discriminate. destruct v as [|v0 [|v1 [|v2 [|v3 [|]]]]]; try discriminate. cbn. ring. }
  destruct (exclude_ok A [0; 0; 0; 0] Sq Sy D eq_refl) as (t & T). destruct (exclude_ok A [0; 0; 1; 0] Sq Sy D eq_refl) as (t' & T'). rewrite T, T' in H. cbn [rmap] in H. unfold halves in H. specialize (H _ _ _ _ _ _ eq_refl eq_refl eq_refl).
  apply exclude_row in T as [Lt T]; [|assumption|assumption|reflexivity]. apply exclude_row in T' as [Lt' T']; [|assumption|assumption|reflexivity]. destruct (T 0%nat) as (u & Eu & Nu & Et); [cbn; lia|]. destruct (T' 0%nat) as (u' & Eu' & _ & Et'); [cbn; lia|]. rewrite Eu in Eu'. apply Ok_inj in Eu'. subst u'.
  apply linalg_solve_Ok in Eu as (Lu & Mu & _); [|apply unit_vec_length|exact Sq]. destruct u as [|u0 [|u1 [|u2 [|u3 [|]]]]]; try discriminate. cbn in Mu, Nu, Et, Et'. injection Mu as M0 M1 M2 M3.
  destruct t as [|t0 t]; [discriminate|]. destruct t' as [|t0' t']; [discriminate|]. cbn in H, Et, Et'. assert (Z : u2 / u0 = 0). { rewrite H in Et. rewrite Et' in Et. assert (X : (u0 * 0 + (u1 * 0 + (u2 * 0 + (u3 * 0 + 0)))) / u0 = 0) by (field; exact Nu). rewrite X in Et. replace ((u0 * 0 + (u1 * 0 + (u2 * 1 + (u3 * 0 + 0)))) / u0) with (u2 / u0) in Et by (field; exact Nu). lra. }
  assert (Z2 : u2 = 0). { replace u2 with (u2 / u0 * u0) by (field; exact Nu). rewrite Z. ring. } subst u2. assert (PS : 0 < S) by (pose proof (Rabs_pos al); pose proof (Rabs_pos be); lra).
  assert (X1 : al * u0 = - (S * u1)) by lra. assert (X3 : be * u0 = - (S * u3)) by lra. assert (X2 : be * u1 + al * u3 = 0) by lra.
  assert (Y : al * be * u0 * 2 = 0). { replace (al * be * u0 * 2) with (be * (al * u0) + al * (be * u0)) by ring. rewrite X1, X3. replace (be * - (S * u1) + al * - (S * u3)) with (- S * (be * u1 + al * u3)) by ring. rewrite X2. ring. }
  apply Rmult_integral in Y as [Y|Y]; [|lra]. apply Rmult_integral in Y as [Y|Y]; [|contradiction]. apply Rmult_integral in Y as [Y|Y]; contradiction.
Qed.
Print Assumptions C59_gradwavefront_refuted.

(** When the covariance is fitted, as in [correct], the offset of a spot still enters its own turbulence through the fitted parameters, whatever the optimiser makes of them: here it returns the better of its starting point and another one. *)
Definition better (c : list R) (f : list R -> res R) (g : list R) : res (list R) :=
  match f g, f c with Ok a, Ok b => if Rleb a b then Ok g else Ok c | Err e, _ => Err e | _, Err e => Err e end.
Definition twin (dx : R) : datum := {| d_pos := (0, 0); d_dx := dx; d_dy := 0 |}.
Definition sym2 (a b : R) : list (list R) := [[a; b]; [b; a]].
Lemma sym2_definite a b : Rabs b < a -> definite (sym2 a b).
Proof.
  intros H v L N. destruct v as [|x [|y [|]]]; try discriminate. cbn. assert (P : 0 < x * x + y * y). { destruct (Rlt_dec 0 (x * x + y * y)) as [|G]; [assumption|]. exfalso. apply N. assert (x = 0 /\ y = 0) as (-> & ->); [|reflexivity]. split; nra. }
  assert (0 <= Rabs b * ((x + y) * (x + y))) by (apply Rmult_le_pos; [apply Rabs_pos|apply Rle_0_sqr]). assert (0 <= Rabs b * ((x - y) * (x - y))) by (apply Rmult_le_pos; [apply Rabs_pos|apply Rle_0_sqr]).
  assert (0 < (a - Rabs b) * (x * x + y * y)) by (apply Rmult_lt_0_compat; lra). destruct (Rcase_abs b) as [G|G]; [rewrite (Rabs_left b) in * by exact G|rewrite (Rabs_right b) in * by exact G]; lra.
Qed.
Lemma sym2_symmetric a b : symmetric (sym2 a b).
Proof. intros u v Lu Lv. destruct u as [|u0 [|u1 [|]]]; try discriminate. destruct v as [|v0 [|v1 [|]]]; try discriminate. cbn. ring. Qed.
Lemma sym2_square a b : square (sym2 a b).
Proof. repeat constructor. Qed.
Lemma sym2_solve a b d0 d1 : Rabs b < a -> exists x y, linalg_solve (sym2 a b) [d0; d1] = Ok [x; y] /\ a * x + b * y = d0 /\ b * x + a * y = d1.
Proof.
  intros H. destruct (definite_solve (sym2 a b) [d0; d1] (sym2_square a b) (sym2_definite a b H) eq_refl) as (s & E). rewrite E. apply linalg_solve_Ok in E as (L & M & _); [|reflexivity|apply sym2_square].
  destruct s as [|x [|y [|]]]; try discriminate. cbn in M. injection M as M0 M1. exists x, y. split; [reflexivity|]. split; lra.
Qed.
Lemma twin_covar x y s aa : make_covar_independent false [twin x; twin y] [s; aa; 10] = Ok (sym2 (aa ^ 2 + s ^ 2) (aa ^ 2)).
Proof.
  unfold make_covar_independent, kernel. destruct (Reqb 10 0) eqn:B; [apply Reqb_true in B; lra|]. cbn -[pow]. assert (E : aa ^ 2 * exp (- (dist2 (0, 0) (0, 0) / 10 ^ 2) / 2) = aa ^ 2). { unfold dist2. cbn [fst snd]. replace (- (((0 - 0) ^ 2 + (0 - 0) ^ 2) / 10 ^ 2) / 2) with 0 by field. rewrite exp_0. ring. }
  rewrite E. reflexivity.
Qed.
Lemma twin_loss x y s aa : s <> 0 -> exists u v w z, let a := aa ^ 2 + s ^ 2 in let b := aa ^ 2 in a * u + b * v = x /\ b * u + a * v = y /\ a * w + b * z = 0 /\ b * w + a * z = 0 /\
  loss_independent false [twin x; twin y] [s; aa; 10] = Ok (/ 2 * (x * u + y * v + 4 * (ln (sqrt a) + ln (sqrt (a - b * b / a))))).
Proof.
  intros N. cbv zeta. set (a := aa ^ 2 + s ^ 2). set (b := aa ^ 2). assert (Ps : 0 < s ^ 2) by (assert (s ^ 2 <> 0) by (apply pow_nonzero; exact N); pose proof (pow2_ge_0 s); lra). assert (Pb : 0 <= b) by apply pow2_ge_0.
  assert (H : Rabs b < a) by (rewrite Rabs_right by lra; unfold a; fold b; lra). destruct (sym2_solve a b x y H) as (u & v & E & Eu & Ev). destruct (sym2_solve a b 0 0 H) as (w & z & E' & Ew & Ez). exists u, v, w, z. repeat (split; [assumption|]).
  assert (W : w = 0 /\ z = 0). { assert ((a + b) * (w + z) = 0) by lra. assert ((a - b) * (w - z) = 0) by lra. rewrite Rabs_right in H by lra. apply Rmult_integral in H0 as [?|?]; [lra|]. apply Rmult_integral in H1 as [?|?]; [lra|]. split; lra. } destruct W as [-> ->].
  unfold loss_independent. rewrite twin_covar. fold a. fold b. clearbody a b. cbn [rbind map d_dx d_dy twin]. assert (P : pivots 2 (sym2 a b) = Some [a; a - b * b / a]).
  { assert (Pa : 0 < a) by (rewrite Rabs_right in H by lra; lra). cbn. destruct (Rltb 0 a) eqn:B; [|apply Rltb_false in B; lra]. replace (a + - (b / a) * b) with (a - b * b / a) by (field; apply Rgt_not_eq; lra).
    assert (0 < a - b * b / a). { rewrite Rabs_right in H by lra. replace (a - b * b / a) with ((a - b) * (a + b) / a) by (field; apply Rgt_not_eq; lra). apply Rdiv_lt_0_compat; [|exact Pa]. apply Rmult_lt_0_compat; lra. }
    destruct (Rltb 0 (a - b * b / a)) eqn:B'; [reflexivity|apply Rltb_false in B'; lra]. }
  unfold cho_factor. change (length (sym2 a b)) with 2%nat. rewrite P. cbn [rbind]. rewrite E, E'. cbn [rbind]. f_equal. cbn. ring.
Qed.
Lemma twin_loo x y s aa xt yt : s <> 0 -> independent_at false [s; aa; 10] [twin x; twin y] true None = Ok (xt, yt) -> nth 0 xt 0 = aa ^ 2 / (aa ^ 2 + s ^ 2) * y.
Proof.
  intros N H. unfold independent_at in H. rewrite twin_covar in H. cbn [rbind] in H. apply both_Ok in H as [H _]. set (a := aa ^ 2 + s ^ 2) in *. set (b := aa ^ 2) in *. assert (Ps : 0 < s ^ 2) by (assert (s ^ 2 <> 0) by (apply pow_nonzero; exact N); pose proof (pow2_ge_0 s); lra). assert (Pb : 0 <= b) by apply pow2_ge_0. assert (Ha : b < a) by (unfold a; fold b; lra). clearbody a b.
  apply exclude_row in H as [_ H]; [|apply sym2_square|apply sym2_symmetric|reflexivity]. destruct (H 0%nat) as (u & E & Nu & Et); [cbn; lia|]. apply linalg_solve_Ok in E as (L & M & _); [|apply unit_vec_length|apply sym2_square]. destruct u as [|u0 [|u1 [|]]]; try discriminate. cbn in M, Nu, Et. injection M as M0 M1. rewrite Et.
  assert (u1 = - (b / a) * u0). { apply Rmult_eq_reg_l with a; [|apply Rgt_not_eq; lra]. replace (a * (- (b / a) * u0)) with (- b * u0) by (field; apply Rgt_not_eq; lra). lra. } subst u1. field. split; [apply Rgt_not_eq; lra|exact Nu].
Qed.
Theorem C59_fitted_refuted : exists minimize, (forall f g p a, minimize f g = Ok p -> f g = Ok a -> exists b, f p = Ok b /\ b <= a) /\
  exists argsort pre d d' post xt yt p xt' yt' p', d_pos d' = d_pos d /\
  solve_independent argsort minimize false 0 (pre ++ d :: post) true None false 1 = Ok (xt, yt, p) /\ solve_independent argsort minimize false 0 (pre ++ d' :: post) true None false 1 = Ok (xt', yt', p') /\
  nth (length pre) xt 0 <> nth (length pre) xt' 0.
Proof.
  exists (better [1; 0; 10]). split.
  { intros f g p a H E. unfold better in H. rewrite E in H. destruct (f [1; 0; 10]) as [b|] eqn:Eb; [|discriminate]. destruct (Rleb a b) eqn:B; apply Ok_inj in H; subst p; [exists a|exists b]; split; trivial; [lra|]. apply Rnot_lt_le. intros G. assert (X : Rleb a b = true) by (apply Rleb_true; lra). congruence. }
  set (y := 0.001). exists (fun _ _ _ => []), [], (twin 0), (twin 10), [twin y]. cbn [app length].
  assert (N1 : (0.01 : R) <> 0) by (apply Rgt_not_eq; lra). assert (N2 : (1 : R) <> 0) by (apply Rgt_not_eq; lra). assert (N3 : (10 : R) <> 0) by (apply Rgt_not_eq; lra).
  assert (La : sqrt (0.01 ^ 2 + 0.01 ^ 2) <= 0.5). { rewrite <- (sqrt_pow2 0.5) by lra. apply sqrt_le_1_alt. lra. }
  assert (Lb : sqrt (0.01 ^ 2 + 0.01 ^ 2 - 0.01 ^ 2 * 0.01 ^ 2 / (0.01 ^ 2 + 0.01 ^ 2)) <= 0.5). { rewrite <- (sqrt_pow2 0.5) by lra. apply sqrt_le_1_alt. lra. }
  assert (Ga : 0.01 <= sqrt (0.01 ^ 2 + 0.01 ^ 2)). { rewrite <- (sqrt_pow2 0.01) at 1 by lra. apply sqrt_le_1_alt. lra. }
  assert (Gb : 0.01 <= sqrt (0.01 ^ 2 + 0.01 ^ 2 - 0.01 ^ 2 * 0.01 ^ 2 / (0.01 ^ 2 + 0.01 ^ 2))). { rewrite <- (sqrt_pow2 0.01) at 1 by lra. apply sqrt_le_1_alt. lra. }
  assert (Up : forall t, 0 < t -> ln t <= t - 1). { intros t Pt. apply Rnot_lt_le. intros G. apply exp_increasing in G. rewrite exp_ln in G by exact Pt. pose proof (exp_ineq1_le (t - 1)). lra. }
  assert (Lo : forall t, 0.01 <= t -> -99 <= ln t). { intros t Pt. assert (P : ln (/ t) <= / t - 1) by (apply Up, Rinv_0_lt_compat; lra). rewrite ln_Rinv in P by lra. assert (/ t <= / 0.01) by (apply Rinv_le_contravar; lra). lra. }
  assert (I1 : ln (sqrt (0 ^ 2 + 1 ^ 2)) = 0). { replace (0 ^ 2 + 1 ^ 2) with 1 by ring. now rewrite sqrt_1, ln_1. } assert (I2 : ln (sqrt (0 ^ 2 + 1 ^ 2 - 0 ^ 2 * 0 ^ 2 / (0 ^ 2 + 1 ^ 2))) = 0). { replace (0 ^ 2 + 1 ^ 2 - 0 ^ 2 * 0 ^ 2 / (0 ^ 2 + 1 ^ 2)) with 1 by field. now rewrite sqrt_1, ln_1. }
  set (la := sqrt (0.01 ^ 2 + 0.01 ^ 2)) in *. set (lb := sqrt (0.01 ^ 2 + 0.01 ^ 2 - 0.01 ^ 2 * 0.01 ^ 2 / (0.01 ^ 2 + 0.01 ^ 2))) in *.
  assert (M : forall x, fit_param (fun _ _ _ => []) (better [1; 0; 10]) loss_independent false 0 [twin x; twin y] = better [1; 0; 10] (loss_independent false [twin x; twin y]) [0.01; 0.01; 10]) by reflexivity.
  assert (F0 : fit_param (fun _ _ _ => []) (better [1; 0; 10]) loss_independent false 0 [twin 0; twin y] = Ok [0.01; 0.01; 10]).
  { rewrite M. unfold better. destruct (twin_loss 0 y 0.01 0.01 N1) as (u & v & _ & _ & Eu & Ev & _ & _ & ->). destruct (twin_loss 0 y 1 0 N2) as (u' & v' & _ & _ & Eu' & Ev' & _ & _ & ->). rewrite I1, I2. fold la lb. pose proof (Up la ltac:(lra)). pose proof (Up lb ltac:(lra)).
    destruct (Rleb _ _) eqn:B; [reflexivity|]. exfalso. apply Bool.not_true_iff_false in B. apply B, Rleb_true. unfold y in *. assert (v' = 0.001) by lra. assert (v = 0.001 * (2 / 3) * 10000) by lra. subst v v'. lra. }
  assert (F1 : fit_param (fun _ _ _ => []) (better [1; 0; 10]) loss_independent false 0 [twin 10; twin y] = Ok [1; 0; 10]).
  { rewrite M. unfold better. destruct (twin_loss 10 y 0.01 0.01 N1) as (u & v & _ & _ & Eu & Ev & _ & _ & ->). destruct (twin_loss 10 y 1 0 N2) as (u' & v' & _ & _ & Eu' & Ev' & _ & _ & ->). rewrite I1, I2. fold la lb. pose proof (Lo la ltac:(lra)). pose proof (Lo lb ltac:(lra)).
    destruct (Rleb _ _) eqn:B; [|reflexivity]. exfalso. apply Rleb_true in B. unfold y in *. assert (u' = 10) by lra. assert (v' = 0.001) by lra. assert (u = (20 - 0.001) / 3 * 10000) by lra. assert (v = (0.002 - 10) / 3 * 10000) by lra. subst u v u' v'. lra. }
  destruct (C59_total 0.01 0.01 10 [twin 0; twin y] N1 N3) as ((xt & yt & E & _) & _). destruct (C59_total 1 0 10 [twin 10; twin y] N2 N3) as ((xt' & yt' & E' & _) & _).
  exists xt, yt, [0.01; 0.01; 10], xt', yt', [1; 0; 10]. split; [reflexivity|]. unfold solve_independent. rewrite F0, F1. cbn [rbind]. rewrite E, E'. split; [reflexivity|]. split; [reflexivity|].
  rewrite (twin_loo _ _ _ _ _ _ N1 E), (twin_loo _ _ _ _ _ _ N2 E'). unfold y. lra.
Qed.
Print Assumptions C59_fitted_refuted.
(** The fixed covariance on two twin spots: the turbulence of the first is half the offset of the second, whatever its own offset. *)
Example C59_example : forall x, exists xt yt p, solve_independent (fun _ _ _ => []) (fun _ g => Ok g) false 500 [twin x; twin 0.02] true None true 1 = Ok (xt, yt, p) /\ nth 0 xt 0 = 0.01.
Proof.
  intros x. destruct (C59_fixed (fun _ _ _ => []) (fun _ g => Ok g) 500 1 [] (twin x) [twin 0.02]) as (xt & yt & p & E & E'); [lra|]. cbn [app length] in *. exists xt, yt, p. split; [exact E|].
  unfold solve_independent in E'. cbn [rbind fixed_param app] in E'. unfold independent_at, make_covar_independent, kernel in E'. destruct (Reqb (50 * 1) 0) eqn:B; [apply Reqb_true in B; lra|]. cbn [rmap rbind map d_pos twin d_dx d_dy cov_matrix] in E'.
  assert (K0 : (0.005 * 1) ^ 2 * exp (- (dist2 (0, 0) (0, 0) / (50 * 1) ^ 2) / 2) = 0.005 ^ 2). { unfold dist2. cbn [fst snd]. replace (- (((0 - 0) ^ 2 + (0 - 0) ^ 2) / (50 * 1) ^ 2) / 2) with 0 by field. rewrite exp_0. ring. } rewrite K0 in E'.
  unfold predict_other, cho_solve in E'. destruct (cho_factor _); [|discriminate]. cbn [rbind] in E'. destruct (linalg_solve _ [0.02]) as [s|] eqn:S1; [|discriminate]. destruct (linalg_solve _ [0]) as [s'|]; [|discriminate]. cbn [rmap rbind matvec map] in E'. apply Ok_inj in E'. injection E' as E0 _ _. rewrite <- E0.
  apply linalg_solve_Ok in S1 as (L & M & _); [|reflexivity|repeat constructor]. destruct s as [|v [|]]; try discriminate. cbn in M |- *. injection M as M. lra.
Qed.
