(** The calibration fit of one positioner: posparams/flags.py and posparams/fitter.py *)
From Verif.Model Require Import Fitter.
From Verif.Spec Require Import Trig Match Xy2tp Numpy.
From Verif.Proofs Require Import Prelude RealNum Numpy Stats Trig Fitter.
From Verif.Proofs Require Xy2qs Circles.
From Verif.Spec Require Import Fitter.
From Coq Require Import Lra Lia String List ClassicalEpsilon.
Import ListNotations.
Local Open Scope R_scope.
Local Open Scope string_scope.
Local Open Scope list_scope.

(** C62. Flags: one (THETA_STUCK) exactly when some arc of at least four moves at one phi of at most 160 degrees covers 20 degrees of
    theta and no such arc has a mean square distance to its centroid above 0.01 mm2; zero otherwise. *)
Theorem C62_theta_stuck moves :
  exists f, eval_move_flags moves = Ok f /\ (f = 0 \/ f = 1)%Z /\ (f = 1%Z <-> (exists v, testable moves v) /\ forall v, testable moves v -> spread (arc moves v) <= 0.01).
Proof.
  destruct (move_flags moves) as (f & E & F1 & F0). exists f. split; [exact E|]. destruct (Classical_Prop.classic ((exists v, testable moves v) /\ forall v, testable moves v -> spread (arc moves v) <= 0.01)) as [T|T].
  - rewrite (F1 T). split; [auto|]. tauto.
  - rewrite (F0 T). split; [auto|]. split; [discriminate|tauto].
Qed.
Print Assumptions C62_theta_stuck.

Definition at_ (t p x : R) (rehome : bool) (s : Z) : move := {| mv_t := t; mv_p := p; mv_x := x; mv_y := 0; mv_gt := 1; mv_gp := 1; mv_rehome := rehome; mv_seq := s |}.
Ltac arcs := unfold arc; cbn [filter mv_p at_]; repeat match goal with |- context [Reqb ?a ?b] => let E := fresh "E" in destruct (Reqb a b) eqn:E; [apply Reqb_true in E|apply Reqb_false in E] end; cbn [List.length]; try lia; try lra.
(** Four moves along theta which do not move are found. *)
Example C62_example : eval_move_flags (map (fun t => at_ t 90 100 true 0) [0; 10; 20; 30]) = Ok 1%Z.
Proof.
  destruct (C62_theta_stuck (map (fun t => at_ t 90 100 true 0) [0; 10; 20; 30])) as (f & E & _ & F). rewrite E. f_equal. apply F. clear E F f.
  assert (A : arc (map (fun t => at_ t 90 100 true 0) [0; 10; 20; 30]) 90 = map (fun t => at_ t 90 100 true 0) [0; 10; 20; 30]). { unfold arc. cbn. rewrite (proj2 (Reqb_true 90 90)) by reflexivity. reflexivity. }
  assert (O : forall v, testable (map (fun t => at_ t 90 100 true 0) [0; 10; 20; 30]) v -> v = 90). { intros v (L & _). destruct (Req_dec v 90) as [|N]; [assumption|]. exfalso. revert L. unfold arc. cbn. rewrite (proj2 (Reqb_false 90 v)) by lra. cbn. lia. }
  split.
  - exists 90. unfold testable. rewrite A. split; [cbn; lia|]. split; [lra|]. exists (at_ 30 90 100 true 0), (at_ 0 90 100 true 0). cbn. split; [tauto|]. split; [tauto|]. lra.
  - intros v T. rewrite (O v T), A. unfold spread, average, Rsum. cbn. lra.
Qed.
(** That a phi arm does not move is never found: however far phi was asked to go, the flags are zero. *)
Theorem C62_phi_refuted : exists moves, (forall m, In m moves -> mv_x m = 100 /\ mv_y m = 0) /\ (exists a b, In a moves /\ In b moves /\ mv_p a - mv_p b = 150) /\ eval_move_flags moves = Ok 0%Z.
Proof.
  exists (map (fun p => at_ 0 p 100 true 0) [0; 30; 60; 90; 120; 150]). split; [intros m H; cbn in H; repeat (destruct H as [<-|H]; [split; reflexivity|]); destruct H|].
  split; [exists (at_ 0 150 100 true 0), (at_ 0 0 100 true 0); cbn; split; [tauto|]; split; [tauto|]; lra|].
  destruct (C62_theta_stuck (map (fun p => at_ 0 p 100 true 0) [0; 30; 60; 90; 120; 150])) as (f & E & F & G). rewrite E. f_equal. destruct F as [F|F]; [exact F|]. exfalso. apply G in F as [(v & L & _) _]. revert L. cbn [map]. arcs.
Qed.
Print Assumptions C62_phi_refuted.

(** C51. What fit_params reports. Arguments it does not accept raise AssertionError. Otherwise a result with the flag FAILED_FIT (bit
    2) is returned, without parameters, when theta is stuck or no move was made after a rehome. In the other cases a result has no
    flag and gives all parameters; what the optimiser says of its success plays no part. *)
Theorem C51_failed_fit ls mz moves mode nominals bounds keep_fixed xerr yerr reject : same_shape mz ->
  (~ valid_args moves nominals bounds keep_fixed xerr yerr -> fst (fit_params ls mz moves mode nominals bounds keep_fixed xerr yerr reject) = Err AssertionError) /\
  (valid_args moves nominals bounds keep_fixed xerr yerr ->
   (theta_stuck moves -> fit_params ls mz moves mode nominals bounds keep_fixed xerr yerr reject = (Ok (failed 5 0), (nominals, bounds))) /\
   (~ theta_stuck moves -> (forall m, In m moves -> mv_rehome m = false) -> fit_params ls mz moves mode nominals bounds keep_fixed xerr yerr reject = (Ok (failed 4 0), (nominals, bounds))) /\
   (~ theta_stuck moves -> (exists m, In m moves /\ mv_rehome m = true) -> forall o st, fit_params ls mz moves mode nominals bounds keep_fixed xerr yerr reject = (Ok o, st) -> o_flags o = 0%Z /\ forall k, In k all_keys -> exists v, dict_get String.eqb (o_params o) k = Some v)).
Proof.
  intros SS. assert (EX : existsb mv_rehome moves = false <-> forall m, In m moves -> mv_rehome m = false). { split; [intros H m Im; destruct (mv_rehome m) eqn:E; [|reflexivity]; assert (existsb mv_rehome moves = true) by (apply existsb_exists; eauto); congruence|]. intros H. destruct (existsb mv_rehome moves) eqn:E; [|reflexivity]. apply existsb_exists in E as (m & Im & Em). rewrite (H m Im) in Em. discriminate. }
  destruct (fit_params_cases ls mz moves mode nominals bounds keep_fixed xerr yerr reject) as [[N E]|(V & C)]; [split; [intros _; now rewrite E|intros V; contradiction]|]. split; [intros N; contradiction|]. intros _.
  destruct C as [[T E]|[(T & Rh & E)|(T & Rh & C)]].
  - split; [auto|]. split; intros; contradiction.
  - split; [intros; contradiction|]. split; [auto|]. intros _ (m & Im & Em). rewrite (proj1 EX Rh m Im) in Em. discriminate.
  - split; [intros; contradiction|]. split; [intros _ H; apply EX in H; congruence|]. intros _ _ o st H. cbv zeta in C.
    assert (F : o_flags o = 0%Z). { assert (G : forall md seqs fixed n1 n2 b pts n ue, fit_rest mz md seqs fixed n1 n2 b pts n ue reject 0 = Ok o -> o_flags o = 0%Z) by (intros md seqs fixed n1 n2 b pts n ue Hf; destruct (fit_rest_Ok _ _ _ _ _ _ _ _ _ _ _ _ _ SS Hf) as (x0 & b' & x & h & pts' & r & ot & _ & _ & _ & _ & _ & _ & _ & _ & _ & _ & Fl & _); exact Fl).
      destruct mode; [destruct C as [(e & _ & E)|(n2 & _ & E)]; rewrite E in H; [discriminate|]; injection H as H _; exact (G _ _ _ _ _ _ _ _ _ H)|]. rewrite C in H. injection H as H _. destruct (dynamic_points _ _ _); [|discriminate]. exact (G _ _ _ _ _ _ _ _ _ H). }
    split; [exact F|]. intros k Hk. assert (K : In k (map fst (o_params o))) by (destruct mode; [apply (static_fit _ _ _ _ _ _ _ _ _ _ _ SS H F); left; now apply V|apply (dynamic_fit _ _ _ _ _ _ _ _ _ _ _ SS H F); now apply V]). apply lookup_keys in K as (v & K). exists v. unfold lookup, dict_getE in K. destruct (dict_get _ _ _); [|discriminate]. now apply Ok_inj in K as ->.
Qed.
Print Assumptions C51_failed_fit.

(** A fit without rejection completes, for any optimisers. *)
Theorem C51_completes ls mz moves nominals bounds keep_fixed xerr yerr : starts moves nominals bounds keep_fixed xerr yerr ->
  (forall k, In k (map fst nominals) -> In k (map fst bounds)) -> good_errors (combine moves (errors_of xerr yerr moves)) -> same_shape mz -> square_hessian mz ->
  exists o, fst (fit_params ls mz moves Static nominals bounds keep_fixed xerr yerr false) = Ok o /\ o_flags o = 0%Z.
Proof. intros S HB HE SS SH. destruct (static_completes ls mz _ _ _ _ _ _ S HB HE SS SH) as (o & b & E & F). exists o. rewrite E. auto. Qed.
Print Assumptions C51_completes.

(** Positions on the x axis *)
Lemma hyp_axis x : 0 < x -> hyp x 0 = x.
Proof. intros H. unfold hyp. replace (x ^ 2 + 0 ^ 2) with (Rsqr x) by (unfold Rsqr; ring). apply sqrt_Rsqr. lra. Qed.
Lemma flat_axis x : 0 < x -> ptl2flat x 0 = (r2s x, 0).
Proof.
  intros H. unfold ptl2flat. rewrite Xy2qs.hyp_hypot, hyp_axis by exact H. destruct (atan2_polar 0 x) as [C S]. rewrite hyp_axis in C, S by exact H.
  assert (cos (atan2 0 x) = 1) as -> by (apply (Rmult_eq_reg_l x); lra). assert (sin (atan2 0 x) = 0) as -> by (apply (Rmult_eq_reg_l x); lra). f_equal; ring.
Qed.
Lemma errors_axis m : mv_y m = 0 -> 1 <= mv_x m <= 400 -> fst (flat_errors m (1, 1)) <> 0 /\ snd (flat_errors m (1, 1)) <> 0.
Proof.
  intros Y X. unfold flat_errors. rewrite Y. set (x := mv_x m) in *. clearbody x. rewrite !flat_axis by lra. cbn [fst snd]. split.
  - pose proof (Xy2qs.r2s_increasing x (x + 0.001) ltac:(lra) ltac:(lra) ltac:(lra)) as I. rewrite Rmult_1_r. apply Rabs_no_R0. apply Rgt_not_eq, Rlt_gt. apply Rdiv_lt_0_compat; lra.
  - rewrite Rmult_1_r. apply Rabs_no_R0. replace (0 + 0.001) with 0.001 by ring. unfold ptl2flat. cbn [snd]. rewrite Xy2qs.hyp_hypot. destruct (atan2_spec 0.001 x) as [_ S]; [left; apply Rgt_not_eq; lra|]. rewrite S. pose proof (hyp_pos x 0.001 (or_introl (Rgt_not_eq x 0 ltac:(lra)))) as P.
    assert (B : hyp x 0.001 <= 421). { unfold hyp. apply Rle_trans with (sqrt (421 ^ 2)); [apply sqrt_le_1_alt; nra|]. replace (421 ^ 2) with (Rsqr 421) by (unfold Rsqr; ring). rewrite sqrt_Rsqr; lra. }
    pose proof (Xy2qs.r2s_pos (hyp x 0.001) ltac:(lra)) as P2. assert (0 < r2s (hyp x 0.001) * (0.001 / hyp x 0.001)) by (apply Rmult_lt_0_compat; [exact P2|apply Rdiv_lt_0_compat; lra]). apply Rgt_not_eq, Rlt_gt. apply Rdiv_lt_0_compat; lra.
Qed.
(** An optimiser which stays where it starts *)
Definition stay (f : list R -> res R) (x0 : list R) (b : list (R * R)) : list R * list (list R) := (x0, map (fun _ => map (fun _ => 0) x0) x0).
Lemma stay_shape : same_shape stay /\ square_hessian stay /\ never_worse stay.
Proof.
  split; [intros f x0 b; reflexivity|]. split; [intros f x0 b; cbn; rewrite map_length; split; [reflexivity|rewrite Forall_map; apply Forall_forall; intros; apply map_length]|]. intros f x0 b v H. exists v. split; [exact H|lra].
Qed.
Definition any_leastsq (f : R * R -> list R) (c : R * R) : R * R := c.
(** Three moves, the last of another sequence *)
Definition three (rehome : bool) (s : Z) : list move := [at_ 0 180 100 true 0; at_ 90 180 100 true 0; at_ 0 90 300 rehome s].
Lemma three_starts rehome s : starts (three rehome s) default_values default_bounds [] None None /\ (forall v, (List.length (arc (three rehome s) v) < 3)%nat) /\ good_errors (combine (three rehome s) (errors_of None None (three rehome s))).
Proof.
  assert (A : forall v, (List.length (arc (three rehome s) v) < 3)%nat) by (intros v; unfold three; arcs). split; [|split; [exact A|]].
  - split; [|split; [|reflexivity]]. { split; [cbn; tauto|]. split; [intros k []|]. intros l [H|H]; discriminate. }
    intros [(v & L & _) _]. specialize (A v). lia.
  - unfold good_errors, three. cbn [combine errors_of map]. repeat (constructor; [apply errors_axis; cbn; lra|]). constructor.
Qed.
Example C51_example : exists o, fst (fit_params any_leastsq stay (three false 1) Static default_values default_bounds [] None None false) = Ok o /\ o_flags o = 0%Z.
Proof. destruct (three_starts false 1) as (S & A & E). apply C51_completes; auto; apply stay_shape. Qed.

(** With rejection of outliers too few points left are not reported: the name FIT_FAILED of the flag is unknown and KeyError is
    raised. *)
Theorem C51_rejection_refuted : fst (fit_params any_leastsq stay (three true 0) Static default_values default_bounds [] None None true) = Err KeyError.
Proof.
  destruct (three_starts true 0) as ((V & T & Rh) & A & E). set (moves := three true 0) in *. destruct (fit_params_cases any_leastsq stay moves Static default_values default_bounds [] None None true) as [[N _]|(_ & [[T' _]|[(_ & R' & _)|(_ & _ & C)]])]; [contradiction|contradiction|rewrite Rh in R'; discriminate|].
  cbv zeta in C. rewrite points_of in C. set (l := combine moves (errors_of None None moves)) in *. change (sequences_without_rehome moves) with (@nil Z) in C. cbn [add_epsilons fold_left] in C.
  assert (IO : init_offsets any_leastsq (spoints l) (fixed_keys Static [] default_values) default_values = Ok default_values). { unfold init_offsets. rewrite arcs_no_circle; [reflexivity|]. intros v. rewrite spoints_arc. exact (A v). }
  destruct C as [(e & Ee & _)|(n2 & Ee & C)]; rewrite IO in Ee; [discriminate|]. injection Ee as <-. rewrite C. cbn [fst]. clear C IO.
  unfold fit_rest. assert (P : params_to_fit (fixed_keys Static [] default_values) default_values = ["LENGTH_R1"; "LENGTH_R2"; "OFFSET_P"; "OFFSET_T"; "OFFSET_X"; "OFFSET_Y"]) by reflexivity. rewrite P. set (ptf := ["LENGTH_R1"; "LENGTH_R2"; "OFFSET_P"; "OFFSET_T"; "OFFSET_X"; "OFFSET_Y"]) in *.
  change (rmapM (lookup default_values) ptf) with (@Ok (list R) [3; 3; 0; 0; 0; 0]). set (x0 := [3; 3; 0; 0; 0; 0]). cbn [rbind]. destruct (rmapM (lookup default_bounds) ptf) as [b|] eqn:Eb; [|discriminate]. cbn [rbind]. set (q := value_in default_values).
  assert (LQ : forall k, In k static_keys \/ is_eps k [] -> lookup (set_params default_values ptf x0) k = Ok (q k)). { intros k [H|(s & [] & _)]. cbn in H. repeat (destruct H as [<-|H]; [reflexivity|]). destruct H. }
  cbn [fit_loop]. unfold run_minimize. rewrite (chi2_static [] ptf default_values x0 q l LQ) by (unfold spoints; rewrite Forall_map; exact E). cbn [rbind]. change (fst (stay (compute_chi2 Static [] ptf default_values (spoints l)) x0 b)) with x0. rewrite (residuals_static [] ptf default_values x0 q l LQ). cbn [rbind].
  assert (N : forall t, ptl2flat 100 0 = (r2s 100, 0) /\ ptl2flat 300 0 = (r2s 300, 0) /\ model_position q [] 0 t 180 = (0, 0) /\ model_position q [] 0 0 90 = (3, 3)).
  { intros t. split; [apply flat_axis; lra|]. split; [apply flat_axis; lra|]. unfold model_position, q. cbn [existsb value_in default_values dict_get find String.eqb Ascii.eqb Bool.eqb fst snd]. split; f_equal.
    - replace (PI * (t + 0 + 0) / 180 + PI * (180 + 0 + 0) / 180) with (PI * (t + 0 + 0) / 180 + PI) by field. rewrite neg_cos. ring.
    - replace (PI * (t + 0 + 0) / 180 + PI * (180 + 0 + 0) / 180) with (PI * (t + 0 + 0) / 180 + PI) by field. rewrite neg_sin. ring.
    - replace (PI * (0 + 0 + 0) / 180) with 0 by field. replace (0 + PI * (90 + 0 + 0) / 180) with (PI / 2) by field. rewrite cos_0, cos_PI2. ring.
    - replace (PI * (0 + 0 + 0) / 180) with 0 by field. replace (0 + PI * (90 + 0 + 0) / 180) with (PI / 2) by field. rewrite sin_0, sin_PI2. ring. }
  set (a := r2s 100) in *. set (c := r2s 300) in *. assert (Ha : 90 < a /\ a < 110) by (unfold a, r2s, poly1d, r2s_coefs; cbn; lra). assert (Hc : 290 < c) by (unfold c, r2s, poly1d, r2s_coefs; cbn; lra). clearbody a c.
  unfold l, moves, three. cbn [combine errors_of map fst snd at_ mv_seq mv_t mv_p mv_x mv_y]. destruct (N 0) as (N1 & N2 & N3 & N4). destruct (N 90) as (_ & _ & N5 & _). rewrite N1, N2, N3, N4, N5. cbn [fst snd].
  assert (D1 : sqrt ((0 - a) ^ 2 + (0 - 0) ^ 2) = a). { replace ((0 - a) ^ 2 + (0 - 0) ^ 2) with (Rsqr a) by (unfold Rsqr; ring). apply sqrt_Rsqr. lra. }
  set (d := sqrt ((3 - c) ^ 2 + (3 - 0) ^ 2)). assert (D2 : 280 < d). { unfold d. apply Rlt_le_trans with (sqrt (Rsqr (c - 3))); [rewrite sqrt_Rsqr; lra|]. apply sqrt_le_1_alt. unfold Rsqr. nra. } rewrite D1. clearbody d.
  cbn [argmax argmax_from]. rewrite (proj2 (Rltb_false a a)) by lra. rewrite (proj2 (Rltb_true a d)) by lra. cbn [rbind negb]. rewrite (Circles.median_majority a) by (cbn [filter]; rewrite (proj2 (Reqb_true a a)) by reflexivity; rewrite (proj2 (Reqb_false d a)) by lra; cbn; lia). cbn [rbind geti nth_error]. rewrite (proj2 (Rltb_false d 0.2)) by lra. rewrite (proj2 (Rltb_false d (2.1 * a))) by lra. reflexivity.
Qed.
Print Assumptions C51_rejection_refuted.

(** An optimiser which finds the minimum when there is one *)
Definition ideal (f : list R -> res R) (x0 : list R) (b : list (R * R)) : list R * list (list R) :=
  (epsilon (inhabits x0) (fun x => List.length x = List.length x0 /\ (List.length b = List.length x0 -> forall y v, is_minimum f b y v -> is_minimum f b x v)), map (fun _ => map (fun _ => 0) x0) x0).
Lemma ideal_spec : same_shape ideal /\ square_hessian ideal /\ finds_minimum ideal.
Proof.
  assert (H : forall f (x0 : list R) b, exists x : list R, List.length x = List.length x0 /\ (List.length b = List.length x0 -> forall y v, is_minimum f b y v -> is_minimum f b x v)).
  { intros f x0 b. destruct (Classical_Prop.classic (List.length b = List.length x0 /\ exists y v, is_minimum f b y v)) as [(L & y & v & M)|N].
    - exists y. destruct M as (B & E & M). split; [unfold in_bounds in B; rewrite <- L; exact (Forall2_length _ _ _ B)|]. intros _ y' v' (B' & E' & M'). assert (v = v') as <- by (apply Rle_antisym; [apply (M y' v' B' E')|apply (M' y v B E)]). split; [exact B|]. split; [exact E|exact M].
    - exists x0. split; [reflexivity|]. intros L y v M. destruct N. split; [exact L|]. exists y, v. exact M. }
  split; [intros f x0 b; exact (proj1 (epsilon_spec _ _ (H f x0 b)))|]. split; [intros f x0 b; cbn; rewrite map_length; split; [reflexivity|rewrite Forall_map; apply Forall_forall; intros; apply map_length]|].
  intros f x0 b x v L M. exact (proj2 (epsilon_spec _ _ (H f x0 b)) L x v M).
Qed.

(** C79. Fit of noiseless data. If all measured positions are those of the model for some parameters [q] which have the nominal values
    where these are kept fixed and are within the bounds, an optimiser which finds the minimum gives a fit without residuals, with or
    without rejection of outliers. *)
Theorem C79_static ls mz moves nominals bounds keep_fixed xerr yerr reject q o st :
  finds_minimum mz -> exact_moves q moves ->
  (forall k v, In k keep_fixed -> dict_get String.eqb nominals k = Some v -> q k = v) ->
  (forall k lo hi, dict_get String.eqb bounds k = Some (lo, hi) -> lo <= q k <= hi) -> (forall s, -200 <= q (eps_t s) <= 200 /\ -200 <= q (eps_p s) <= 200) ->
  fit_params ls mz moves Static nominals bounds keep_fixed xerr yerr reject = (Ok o, st) -> o_rms o = 0.
Proof.
  intros FM EM HK HB HE H. apply (exact_static ls mz moves nominals bounds keep_fixed xerr yerr reject q o st FM EM); auto.
  - intros k v Hk E. apply HK; [exact Hk|]. unfold lookup, dict_getE in E. destruct (dict_get _ _ _); [|discriminate]. now apply Ok_inj in E as ->.
  - intros k [lo hi] E. apply HB. unfold lookup, dict_getE in E. destruct (dict_get _ _ _); [|discriminate]. now apply Ok_inj in E as ->.
Qed.
Print Assumptions C79_static.
(** In dynamic mode the nominal values of the arms, offsets and EPSILON parameters are those of the positioner, and from one move to the
    next its angles change by the motor turns asked times gear ratios [q] within the bounds. *)
Theorem C79_dynamic ls mz (l : list (move * (R * R))) nominals bounds keep_fixed xerr yerr reject q o st :
  let moves := map fst l in let seqs := sequences_without_rehome moves in
  finds_minimum mz -> 0 < q "LENGTH_R1" -> 0 < q "LENGTH_R2" ->
  driven q l -> (forall ma, In ma l -> exact_at q seqs ma /\ measurable q seqs ma) ->
  (forall k, In k static_keys -> dict_get String.eqb nominals k = Some (q k)) -> (forall s, In s seqs -> dict_get String.eqb nominals (eps_t s) = Some (q (eps_t s)) /\ dict_get String.eqb nominals (eps_p s) = Some (q (eps_p s))) ->
  (forall k lo hi, dict_get String.eqb bounds k = Some (lo, hi) -> lo <= q k <= hi) ->
  fit_params ls mz moves Dynamic nominals bounds keep_fixed xerr yerr reject = (Ok o, st) -> o_rms o = 0.
Proof.
  intros moves seqs FM R1 R2 D EM HS HE HB H. apply (exact_dynamic ls mz l nominals bounds keep_fixed xerr yerr reject q o st FM R1 R2 D); auto.
  - apply Forall_forall. intros ma I. now apply EM.
  - apply Forall_forall. intros ma I. now apply EM.
  - intros k Hk. unfold lookup, dict_getE. destruct Hk as [Hk|(s & Is & [->| ->])]; [now rewrite HS|now rewrite (proj1 (HE s Is))|now rewrite (proj2 (HE s Is))].
  - intros k [lo hi] E. apply HB. unfold lookup, dict_getE in E. destruct (dict_get _ _ _); [|discriminate]. now apply Ok_inj in E as ->.
Qed.
Print Assumptions C79_dynamic.

(** Arms of 3 mm folded back on the centre, before and after a rehome *)
Definition folded (k : string) : R :=
  if String.eqb k "LENGTH_R1" then 3 else if String.eqb k "LENGTH_R2" then 3 else if String.eqb k "OFFSET_X" then r2s 100 else if String.eqb k (eps_t 1) then 5 else 0.
Lemma r2s_100 : 90 < r2s 100 < 110.
Proof. unfold r2s, poly1d, r2s_coefs; cbn; lra. Qed.
Definition folded_moves : list move := [at_ 0 180 100 true 0; at_ 60 180 100 false 1].
Example C79_static_example : exists o st, fit_params any_leastsq ideal folded_moves Static default_values default_bounds [] None None false = (Ok o, st) /\ o_flags o = 0%Z /\ o_rms o = 0.
Proof.
  destruct ideal_spec as (SS & SH & FM). destruct (static_succeeds any_leastsq ideal folded_moves default_values default_bounds [] None None) as (o & b & E & F); auto.
  - split; [|split; [|reflexivity]]. { split; [cbn; tauto|]. split; [intros k []|]. intros l [H|H]; discriminate. } intros [(v & L & _) _]. revert L. unfold folded_moves. arcs.
  - intros v. unfold folded_moves. arcs.
  - unfold good_errors, folded_moves. cbn [combine errors_of map]. repeat (constructor; [apply errors_axis; cbn; lra|]). constructor.
  - exists o. eexists. split; [exact E|]. split; [exact F|]. apply (C79_static any_leastsq ideal folded_moves default_values default_bounds [] None None false folded o _ FM) in E; auto.
    + intros m [<-|[<-|[]]]; cbn [at_ mv_x mv_y mv_seq mv_t mv_p]; rewrite flat_axis by lra; change (sequences_without_rehome folded_moves) with [1%Z]; unfold model_position; cbn [existsb Z.eqb Pos.eqb orb].
      * change (folded "OFFSET_T") with 0. change (folded "OFFSET_P") with 0. change (folded "OFFSET_X") with (r2s 100). change (folded "OFFSET_Y") with 0. change (folded "LENGTH_R1") with 3. change (folded "LENGTH_R2") with 3. replace (PI * (0 + 0 + 0) / 180 + PI * (180 + 0 + 0) / 180) with (PI * (0 + 0 + 0) / 180 + PI) by field. rewrite neg_cos, neg_sin. f_equal; ring.
      * change (folded "OFFSET_T") with 0. change (folded "OFFSET_P") with 0. change (folded "OFFSET_X") with (r2s 100). change (folded "OFFSET_Y") with 0. change (folded "LENGTH_R1") with 3. change (folded "LENGTH_R2") with 3. change (folded (eps_t 1)) with 5. change (folded (eps_p 1)) with 0. replace (PI * (60 + 0 + 5) / 180 + PI * (180 + 0 + 0) / 180) with (PI * (60 + 0 + 5) / 180 + PI) by field. rewrite neg_cos, neg_sin. f_equal; ring.
    + intros k v [].
    + intros k lo hi H. assert (I : In k (map fst default_bounds)) by (apply lookup_keys; exists (lo, hi); unfold lookup, dict_getE; now rewrite H). cbn in I. pose proof r2s_100. repeat (destruct I as [<-|I]; [cbn in H; injection H as <- <-; unfold folded; cbn; lra|]). destruct I.
    + intros s. assert (P : forall k, has_epsilon k = true -> -200 <= folded k <= 200). { intros k Hk. unfold folded. destruct (String.eqb_spec k "LENGTH_R1"); [lra|]. destruct (String.eqb_spec k "LENGTH_R2"); [lra|]. destruct (String.eqb_spec k "OFFSET_X") as [->|]; [discriminate|]. destruct (String.eqb k (eps_t 1)); lra. } split; apply P; apply eps_epsilon.
Qed.
(** Two turns of theta asked with the gear ratio one, one made *)
Definition half (k : string) : R :=
  if String.eqb k "LENGTH_R1" then 3 else if String.eqb k "LENGTH_R2" then 3 else if String.eqb k "OFFSET_X" then r2s 100 - 3 else if String.eqb k "OFFSET_Y" then -3 else if String.eqb k "SCALE_T" then / 2 else 0.
Definition half_nominals : dict string R := [("LENGTH_R1", 3); ("LENGTH_R2", 3); ("OFFSET_T", 0); ("OFFSET_P", 0); ("OFFSET_X", r2s 100 - 3); ("OFFSET_Y", -3); ("SCALE_T", 1); ("SCALE_P", 1)].
Definition half_moves : list (move * (R * R)) := [(at_ 0 90 100 true 0, (0, 90)); (at_ 720 90 100 true 0, (360, 90))].
Lemma half_exact ma : In ma half_moves -> exact_at half [] ma /\ measurable half [] ma.
Proof.
  assert (M : forall t, (t = 0 \/ t = 360) -> model_position half [] 0 t 90 = (r2s 100, 0)).
  { intros t Ht. unfold model_position. cbn [existsb]. change (half "OFFSET_T") with 0. change (half "OFFSET_P") with 0. change (half "OFFSET_X") with (r2s 100 - 3). change (half "OFFSET_Y") with (-3). change (half "LENGTH_R1") with 3. change (half "LENGTH_R2") with 3.
    replace (PI * (t + 0 + 0) / 180 + PI * (90 + 0 + 0) / 180) with (PI * (t + 0 + 0) / 180 + PI / 2) by field. rewrite cos_plus, sin_plus, cos_PI2, sin_PI2.
    assert (C : cos (PI * (t + 0 + 0) / 180) = 1 /\ sin (PI * (t + 0 + 0) / 180) = 0) by (destruct Ht as [->| ->]; [replace (PI * (0 + 0 + 0) / 180) with 0 by field; split; [apply cos_0|apply sin_0]|replace (PI * (360 + 0 + 0) / 180) with (2 * PI) by field; split; [apply cos_2PI|apply sin_2PI]]).
    destruct C as [-> ->]. f_equal; ring. }
  intros [<-|[<-|[]]]; (split; [unfold exact_at; cbn [at_ mv_x mv_y mv_seq]; rewrite flat_axis by lra; symmetry; apply M; auto|]); unfold measurable; cbn [at_ mv_x mv_y mv_seq existsb]; rewrite M by auto; cbn [fst snd];
    change (half "OFFSET_P") with 0; change (half "OFFSET_X") with (r2s 100 - 3); change (half "OFFSET_Y") with (-3); change (half "LENGTH_R1") with 3; change (half "LENGTH_R2") with 3;
    (assert (D : 3 < sqrt ((r2s 100 - (r2s 100 - 3)) ^ 2 + (0 - -3) ^ 2) < 5) by (replace ((r2s 100 - (r2s 100 - 3)) ^ 2 + (0 - -3) ^ 2) with 18 by ring; split; [replace 3 with (sqrt (Rsqr 3)) at 1 by (apply sqrt_Rsqr; lra)|replace 5 with (sqrt (Rsqr 5)) by (apply sqrt_Rsqr; lra)]; apply sqrt_lt_1_alt; unfold Rsqr; lra));
    assert (T : 0 < tiny < 0.001) by (unfold tiny; lra); assert (T2 : 0 < / 2 ^ 52 < 1) by (split; [apply Rinv_0_lt_compat; lra|lra]); replace (3 - 3) with 0 by ring; rewrite Rabs_R0; (split; [lra|]); (split; [lra|]); (split; [lra|]); [exists 0%Z|exists (-1)%Z]; lra.
Qed.
Example C79_dynamic_example : exists o st, fit_params any_leastsq ideal (map fst half_moves) Dynamic half_nominals default_bounds [] None None false = (Ok o, st) /\ o_flags o = 0%Z /\ o_rms o = 0.
Proof.
  destruct ideal_spec as (SS & SH & FM). assert (HS : forall k, In k static_keys -> dict_get String.eqb half_nominals k = Some (half k)) by (intros k Hk; cbn in Hk; repeat (destruct Hk as [<-|Hk]; [reflexivity|]); destruct Hk).
  assert (LK : forall k, In k static_keys \/ is_eps k [] -> lookup half_nominals k = Ok (half k)) by (intros k [Hk|(s & [] & _)]; unfold lookup, dict_getE; now rewrite HS).
  assert (R1 : 0 < half "LENGTH_R1") by (unfold half; cbn; lra). assert (R2 : 0 < half "LENGTH_R2") by (unfold half; cbn; lra).
  destruct (dynamic_points_total half_nominals [] half LK R1 R2 half_moves (flat_points (map fst half_moves) None None)) as (pts & EP); [reflexivity|apply Forall_forall; intros; now apply half_exact|apply Forall_forall; intros; now apply half_exact|repeat constructor; cbn; lra|].
  destruct (dynamic_succeeds any_leastsq ideal (map fst half_moves) half_nominals default_bounds [] None None pts) as (o & E & F); auto.
  - split; [|split; [|reflexivity]]. { split; [cbn; tauto|]. split; [intros k []|]. intros l [H|H]; discriminate. } intros [(v & L & _) _]. revert L. unfold half_moves. cbn [map fst]. arcs.
  - intros k (s & [] & _).
  - unfold good_errors, half_moves. cbn [combine errors_of map fst]. repeat (constructor; [apply errors_axis; cbn; lra|]). constructor.
  - exists o, (half_nominals, default_bounds). split; [exact E|]. split; [exact F|]. apply (C79_dynamic any_leastsq ideal half_moves half_nominals default_bounds [] None None false half o (half_nominals, default_bounds)); auto.
    + cbn. split; [|split]; [| |exact I]; unfold half; cbn; lra.
    + exact half_exact.
    + intros s [].
    + intros k lo hi H. assert (IK : In k (map fst default_bounds)) by (apply lookup_keys; exists (lo, hi); unfold lookup, dict_getE; now rewrite H). cbn in IK. pose proof r2s_100. repeat (destruct IK as [<-|IK]; [cbn in H; injection H as <- <-; unfold half; cbn; lra|]). destruct IK.
Qed.

(** C80. What a fit leaves alone. Parameters kept fixed, and in static mode the gear ratios, are returned with their nominal values, but
    OFFSET_T which is brought into (-180, 180] by turns. The parameters returned are the nominal ones, and the EPSILON parameters of the
    sequences without rehome. *)
Theorem C80_static ls mz moves nominals bounds keep_fixed xerr yerr reject o st : same_shape mz -> fit_params ls mz moves Static nominals bounds keep_fixed xerr yerr reject = (Ok o, st) -> o_flags o = 0%Z ->
  (forall k, In k keep_fixed \/ k = "SCALE_T" \/ k = "SCALE_P" -> k <> "OFFSET_T" -> dict_get String.eqb (o_params o) k = dict_get String.eqb nominals k) /\
  (exists t, dict_get String.eqb (o_params o) "OFFSET_T" = Some t /\ -180 < t <= 180 /\ (In "OFFSET_T" keep_fixed -> exists t', dict_get String.eqb nominals "OFFSET_T" = Some t' /\ same_angle t t')) /\
  (forall k, In k (map fst (o_params o)) <-> In k (map fst nominals) \/ exists m, In m moves /\ mv_rehome m = false /\ (k = eps_t (mv_seq m) \/ k = eps_p (mv_seq m))).
Proof.
  intros SS H F. destruct (static_fit _ _ _ _ _ _ _ _ _ _ _ SS H F) as (K & Fx & (ot & EO & HO) & _). assert (LD : forall (a b : dict string R) k, lookup a k = lookup b k -> dict_get String.eqb a k = dict_get String.eqb b k) by (intros a b k; unfold lookup, dict_getE; destruct (dict_get _ a k), (dict_get _ b k); intros E; try discriminate; [now apply Ok_inj in E as ->|reflexivity]). assert (LS : forall (a : dict string R) k v, lookup a k = Ok v -> dict_get String.eqb a k = Some v) by (intros a k v; unfold lookup, dict_getE; destruct (dict_get _ a k); intros E; [now apply Ok_inj in E as ->|discriminate]).
  split; [intros k Hk Nk; apply LD, Fx; [cbn; intuition|exact Nk]|]. split.
  - exists (wrap_at_180 ot). destruct (wrap_at_180_spec ot) as [B S]. split; [now apply LS|]. split; [exact B|]. intros Hk. exists ot. split; [apply LS; auto|exact S].
  - intros k. rewrite K. assert (IS : is_eps k (sequences_without_rehome moves) <-> exists m, In m moves /\ mv_rehome m = false /\ (k = eps_t (mv_seq m) \/ k = eps_p (mv_seq m))); [|tauto]. unfold sequences_without_rehome. split.
    + intros (s & Is & Hk). apply (proj1 (unique_In _ _)) in Is. apply in_map_iff in Is as (m & <- & Hm). apply filter_In in Hm as [Im Hm]. exists m. split; [exact Im|]. split; [now apply negb_true_iff|exact Hk].
    + intros (m & Im & Hm & Hk). exists (mv_seq m). split; [|exact Hk]. apply (proj2 (unique_In _ _)). apply in_map. apply filter_In. split; [exact Im|now rewrite Hm].
Qed.
Print Assumptions C80_static.
(** In dynamic mode only the gear ratios change. *)
Theorem C80_dynamic ls mz moves nominals bounds keep_fixed xerr yerr reject o st : same_shape mz -> fit_params ls mz moves Dynamic nominals bounds keep_fixed xerr yerr reject = (Ok o, st) -> o_flags o = 0%Z ->
  (forall k, In k static_keys \/ has_epsilon k = true \/ In k keep_fixed -> k <> "OFFSET_T" -> dict_get String.eqb (o_params o) k = dict_get String.eqb nominals k) /\
  (exists t t', dict_get String.eqb (o_params o) "OFFSET_T" = Some t /\ dict_get String.eqb nominals "OFFSET_T" = Some t' /\ -180 < t <= 180 /\ same_angle t t') /\
  (forall k, In k (map fst (o_params o)) <-> In k (map fst nominals)) /\ st = (nominals, bounds).
Proof.
  intros SS H F. destruct (dynamic_fit _ _ _ _ _ _ _ _ _ _ _ SS H F) as (_ & _ & K & Fx & (ot & E1 & E2) & Est). assert (LD : forall (a b : dict string R) k, lookup a k = lookup b k -> dict_get String.eqb a k = dict_get String.eqb b k) by (intros a b k; unfold lookup, dict_getE; destruct (dict_get _ a k), (dict_get _ b k); intros E; try discriminate; [now apply Ok_inj in E as ->|reflexivity]). assert (LS : forall (a : dict string R) k v, lookup a k = Ok v -> dict_get String.eqb a k = Some v) by (intros a k v; unfold lookup, dict_getE; destruct (dict_get _ a k); intros E; [now apply Ok_inj in E as ->|discriminate]).
  split. { intros k Hk Nk. destruct (in_dec string_dec k (map fst nominals)) as [I|N]; [apply LD, Fx; tauto|]. assert (N' : ~ In k (map fst (o_params o))) by (rewrite K; exact N). assert (NN : forall d : dict string R, ~ In k (map fst d) -> dict_get String.eqb d k = None). { intros d Nd. destruct (dict_get String.eqb d k) as [v|] eqn:E; [|reflexivity]. destruct Nd. apply lookup_keys. exists v. unfold lookup, dict_getE. now rewrite E. } now rewrite (NN _ N), (NN _ N'). }
  split; [|auto]. exists (wrap_at_180 ot), ot. destruct (wrap_at_180_spec ot) as [B S]. repeat split; try apply B; auto.
Qed.
Print Assumptions C80_dynamic.
(** A gear ratio cannot be kept fixed in dynamic mode: no such fit succeeds. *)
Theorem C80_fixed_gear_refuted ls mz moves nominals bounds keep_fixed xerr yerr reject : same_shape mz -> In "SCALE_T" keep_fixed \/ In "SCALE_P" keep_fixed ->
  forall o st, fit_params ls mz moves Dynamic nominals bounds keep_fixed xerr yerr reject = (Ok o, st) -> o = failed 4 0 \/ o = failed 5 0.
Proof.
  intros SS HK o st H. destruct (Z.eq_dec (o_flags o) 0) as [F|F]; [destruct (dynamic_fit _ _ _ _ _ _ _ _ _ _ _ SS H F) as (N1 & N2 & _); tauto|].
  destruct (fit_params_cases ls mz moves Dynamic nominals bounds keep_fixed xerr yerr reject) as [[N E]|(V & [[T E]|[(T & Rh & E)|(T & Rh & C)]])]; [rewrite E in H; discriminate|rewrite E in H; injection H as <- _; auto|rewrite E in H; injection H as <- _; auto|].
  cbv zeta in C. rewrite C in H. injection H as H _. destruct (dynamic_points _ _ _); [|discriminate]. cbn [rbind] in H. destruct (fit_rest_Ok _ _ _ _ _ _ _ _ _ _ _ _ _ SS H) as (x0 & b' & x & h & pts' & r & ot & _ & _ & _ & _ & _ & _ & _ & _ & _ & _ & Fl & _). contradiction.
Qed.
Print Assumptions C80_fixed_gear_refuted.
(** OFFSET_T kept fixed at 270 degrees is returned as -90. *)
Example C80_example : exists o st, fit_params any_leastsq stay (three false 1) Static (dict_set String.eqb default_values "OFFSET_T" 270) default_bounds ["OFFSET_T"; "LENGTH_R1"] None None false = (Ok o, st) /\
  o_flags o = 0%Z /\ dict_get String.eqb (o_params o) "LENGTH_R1" = Some 3 /\ dict_get String.eqb (o_params o) "OFFSET_T" = Some (-90) /\ In "EPSILON_T_1" (map fst (o_params o)).
Proof.
  destruct (three_starts false 1) as (((V1 & V2 & V3) & T & Rh) & A & E). destruct stay_shape as (SS & SH & _). destruct (static_succeeds any_leastsq stay (three false 1) (dict_set String.eqb default_values "OFFSET_T" 270) default_bounds ["OFFSET_T"; "LENGTH_R1"] None None) as (o & b & H & F); auto.
  { split; [|auto]. split; [exact V1|]. split; [|exact V3]. intros k Hk. cbn in *. intuition. }
  exists o. eexists. split; [exact H|]. split; [exact F|]. destruct (C80_static _ _ _ _ _ _ _ _ _ _ _ SS H F) as (Fx & (t & Et & Bt & Ft) & K). split; [rewrite Fx by (cbn; intuition discriminate); reflexivity|]. split.
  - rewrite Et. f_equal. destruct (Ft ltac:(cbn; auto)) as (t' & Et' & [k Hk]). cbn in Et'. injection Et' as <-. assert (Lk : (-2 < k < 0)%Z) by (split; apply lt_IZR; lra). assert (k = (-1)%Z) as -> by lia. lra.
  - apply K. right. exists (at_ 0 90 300 false 1). cbn. intuition.
Qed.

(** C81. What the rms of the residuals is. In static mode it is over the moves kept by the rejection, divided by the number of all
    moves. *)
Theorem C81_static_rms ls mz moves nominals bounds keep_fixed xerr yerr reject o st : same_shape mz -> fit_params ls mz moves Static nominals bounds keep_fixed xerr yerr reject = (Ok o, st) -> o_flags o = 0%Z ->
  exists kept, sublist kept moves /\ (reject = false -> kept = moves) /\ o_npts o = List.length kept /\ moves <> [] /\
    o_rms o = sqrt (Rsum (map (misfit (fitted o) (sequences_without_rehome moves)) kept) / INR (List.length moves)).
Proof. intros SS H F. exact (proj2 (proj2 (proj2 (static_fit _ _ _ _ _ _ _ _ _ _ _ SS H F)))). Qed.
Print Assumptions C81_static_rms.
(** After a rejection the rms is less than that of the moves kept. *)
Theorem C81_after_rejection_refuted ls mz moves nominals bounds keep_fixed xerr yerr reject o st : same_shape mz -> fit_params ls mz moves Static nominals bounds keep_fixed xerr yerr reject = (Ok o, st) -> o_flags o = 0%Z ->
  (0 < o_npts o < List.length moves)%nat -> 0 < o_rms o ->
  exists kept, sublist kept moves /\ o_npts o = List.length kept /\ o_rms o < sqrt (Rsum (map (misfit (fitted o) (sequences_without_rehome moves)) kept) / INR (List.length kept)).
Proof.
  intros SS H F B P. destruct (C81_static_rms _ _ _ _ _ _ _ _ _ _ _ SS H F) as (kept & S & _ & N & _ & E). exists kept. split; [exact S|]. split; [exact N|]. rewrite N in B. rewrite E in *. set (s := Rsum _) in *. assert (N1 : 0 < INR (List.length kept)) by (apply lt_0_INR; lia). assert (N2 : INR (List.length kept) < INR (List.length moves)) by (apply lt_INR; lia).
  assert (SP : 0 < s / INR (List.length moves)). { destruct (Rlt_le_dec 0 (s / INR (List.length moves))) as [L|L]; [exact L|]. rewrite (sqrt_neg_0 _ L) in P. lra. }
  assert (S0 : 0 < s). { apply (Rmult_lt_compat_r (INR (List.length moves))) in SP; [|lra]. replace (s / INR (List.length moves) * INR (List.length moves)) with s in SP by (field; lra). lra. }
  apply sqrt_lt_1_alt. split; [lra|]. unfold Rdiv. apply Rmult_lt_compat_l; [exact S0|]. apply Rinv_lt_contravar; [apply Rmult_lt_0_compat; lra|exact N2].
Qed.
Print Assumptions C81_after_rejection_refuted.
(** Without rejection, an optimiser which does not go up gives a weighted sum of squares not above that of the nominal values after the
    circle fits, which are those found in the dictionary after the call. *)
Theorem C81_descent ls mz moves nominals bounds keep_fixed xerr yerr o st : same_shape mz -> never_worse mz -> fit_params ls mz moves Static nominals bounds keep_fixed xerr yerr false = (Ok o, st) -> o_flags o = 0%Z ->
  let seqs := sequences_without_rehome moves in let l := combine moves (errors_of xerr yerr moves) in chi_square (fitted o) seqs l <= chi_square (value_in (fst st)) seqs l.
Proof. exact (static_descent ls mz moves nominals bounds keep_fixed xerr yerr o st). Qed.
Print Assumptions C81_descent.
Example C81_example : exists o st, fit_params any_leastsq stay (three false 1) Static default_values default_bounds [] None None false = (Ok o, st) /\ o_flags o = 0%Z /\ o_rms o = sqrt (Rsum (map (misfit (fitted o) [1%Z]) (three false 1)) / 3).
Proof.
  destruct (three_starts false 1) as (S & A & E). destruct stay_shape as (SS & SH & _). destruct (static_succeeds any_leastsq stay (three false 1) default_values default_bounds [] None None) as (o & b & H & F); auto. exists o. eexists. split; [exact H|]. split; [exact F|]. destruct (C81_static_rms _ _ _ _ _ _ _ _ _ _ _ SS H F) as (kept & _ & K & _ & _ & R). rewrite (K eq_refl) in R. rewrite R. change (sequences_without_rehome (three false 1)) with [1%Z]. do 2 f_equal. cbn. lra.
Qed.

(** C50. What fits made before change. A call with its own nominal values gives the same result whatever calls were made before, if it gives
    its own bounds too or has no EPSILON parameter. *)
Theorem C50_own_nominals ls mz calls c n : c_nominals c = Some n -> (forall k, In k (map fst n) -> In k all_keys) \/ c_bounds c <> None ->
  fst (do_call ls mz (after ls mz calls) c) = fst (do_call ls mz fresh c).
Proof. exact (own_nominals ls mz calls c n). Qed.
Print Assumptions C50_own_nominals.
(** But a call without nominal values fits also the EPSILON parameters of the sequences of all static fits made so before, which its own data
    know nothing of. *)
Theorem C50_stale_refuted ls mz before c between d s o : same_shape mz ->
  c_nominals c = None -> c_bounds c = None -> c_mode c = Static -> starts (c_moves c) default_values default_bounds (c_keep c) (c_xerr c) (c_yerr c) -> In s (sequences_without_rehome (c_moves c)) ->
  c_nominals d = None -> fst (do_call ls mz (after ls mz (before ++ c :: between)) d) = Ok o -> o_flags o = 0%Z ->
  In (eps_t s) (map fst (o_params o)) /\ In (eps_p s) (map fst (o_params o)).
Proof. exact (stale_parameter ls mz before c between d s o). Qed.
Print Assumptions C50_stale_refuted.
(** So does a second fit with the dictionary of a first one, as over the windows of one positioner. *)
Theorem C50_shared_refuted ls mz moves nominals bounds keep_fixed xerr yerr reject moves' mode' keep_fixed' xerr' yerr' reject' s o st : same_shape mz ->
  starts moves nominals bounds keep_fixed xerr yerr -> In s (sequences_without_rehome moves) ->
  fit_params ls mz moves' mode' (fst (snd (fit_params ls mz moves Static nominals bounds keep_fixed xerr yerr reject))) (snd (snd (fit_params ls mz moves Static nominals bounds keep_fixed xerr yerr reject))) keep_fixed' xerr' yerr' reject' = (Ok o, st) -> o_flags o = 0%Z ->
  In (eps_t s) (map fst (o_params o)) /\ In (eps_p s) (map fst (o_params o)).
Proof.
  intros SS ST Is H F. destruct (fit_params_state ls mz moves Static nominals bounds keep_fixed xerr yerr reject) as (_ & _ & _ & _ & _ & X). specialize (X eq_refl ST).
  assert (K : forall k, is_eps k (sequences_without_rehome moves) -> In k (map fst (o_params o))) by (intros k Hk; assert (In k (map fst (fst (snd (fit_params ls mz moves Static nominals bounds keep_fixed xerr yerr reject))))) by (apply X; auto); destruct mode'; [apply (static_fit _ _ _ _ _ _ _ _ _ _ _ SS H F); auto|apply (dynamic_fit _ _ _ _ _ _ _ _ _ _ _ SS H F); assumption]).
  split; apply K; exists s; auto.
Qed.
Print Assumptions C50_shared_refuted.
(** The second of two calls without nominal values, on moves all made after a rehome *)
Definition default_call (moves : list move) : call := {| c_moves := moves; c_mode := Static; c_nominals := None; c_bounds := None; c_keep := []; c_xerr := None; c_yerr := None; c_reject := false |}.
Example C50_example : exists o o', fst (do_call any_leastsq stay fresh (default_call (three true 0))) = Ok o /\ ~ In "EPSILON_T_1" (map fst (o_params o)) /\
  fst (do_call any_leastsq stay (after any_leastsq stay [default_call (three false 1)]) (default_call (three true 0))) = Ok o' /\ In "EPSILON_T_1" (map fst (o_params o')).
Proof.
  destruct (three_starts true 0) as (S & A & E). destruct (three_starts false 1) as (S1 & A1 & E1). destruct stay_shape as (SS & SH & _).
  destruct (static_succeeds any_leastsq stay (three true 0) default_values default_bounds [] None None) as (o & b & H & F); auto.
  destruct (fit_params_state any_leastsq stay (three false 1) Static default_values default_bounds [] None None false) as (X1 & _ & _ & _ & _ & X). specialize (X eq_refl S1).
  destruct (static_succeeds any_leastsq stay (three false 1) default_values default_bounds [] None None) as (o1 & b1 & H1 & F1); auto.
  assert (B1 : b1 = add_epsilons (-200, 200) [1%Z] default_bounds). { destruct (fit_params_cases any_leastsq stay (three false 1) Static default_values default_bounds [] None None false) as [[_ C]|(_ & [[T C]|[(_ & R & C)|(_ & _ & C)]])]; [rewrite C in H1; discriminate|destruct S1 as (_ & T' & _); contradiction|destruct S1 as (_ & _ & R'); rewrite R in R'; discriminate|]. cbv zeta in C. destruct C as [(e & _ & C)|(n2 & _ & C)]; rewrite C in H1; [discriminate|]. injection H1 as _ _ <-. reflexivity. }
  subst b1. set (nom1 := add_epsilons 0 (sequences_without_rehome (three false 1)) default_values) in *. set (bnd1 := add_epsilons (-200, 200) [1%Z] default_bounds) in *.
  destruct (static_succeeds any_leastsq stay (three true 0) nom1 bnd1 [] None None) as (o' & b' & H' & F'); auto.
  { destruct S as ((V1 & V2 & V3) & T & Rh). split; [|auto]. split; [|auto]. intros k Hk. split; apply add_epsilons_keys; left; now apply V1. }
  exists o, o'. rewrite !do_call_eq. unfold call_args, after, fresh. cbn [fold_left default_call c_moves c_mode c_nominals c_bounds c_keep c_xerr c_yerr c_reject fst snd]. rewrite H. split; [reflexivity|]. split.
  - intros I1. apply (C80_static _ _ _ _ _ _ _ _ _ _ _ SS H F) in I1 as [I1|(m & Im & Rm & _)]; [cbn in I1; repeat (destruct I1 as [I1|I1]; [discriminate|]); exact I1|]. cbn in Im. repeat (destruct Im as [<-|Im]; [discriminate|]). exact Im.
  - rewrite do_call_eq. unfold call_args. cbn [default_call c_moves c_mode c_nominals c_bounds c_keep c_xerr c_yerr c_reject fst snd]. rewrite H1. cbn [fst snd]. fold nom1. rewrite H'. split; [reflexivity|]. apply (C80_static _ _ _ _ _ _ _ _ _ _ _ SS H' F'). left. apply add_epsilons_keys. right. exists 1%Z. split; [cbn; auto|left; reflexivity].
Qed.
