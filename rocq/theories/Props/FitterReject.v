(** The calibration fit of one positioner: rejection of outliers, errors of the parameters and starting values (posparams/fitter.py) *)
From Verif.Model Require Import Fitter.
From Verif.Proofs Require Import Prelude RealNum Numpy Stats Fitter FitterReject.
From Verif.Proofs Require Circles.
From Verif.Props Require Import Fitter.
From Verif.Spec Require Import Fitter FitterReject.
From Coq Require Import Lra Lia String List.
Import ListNotations.
Local Open Scope R_scope.
Local Open Scope string_scope.
Local Open Scope list_scope.

(** C87. Which moves a fit with rejection of outliers leaves out. [q l] are the parameters of the fit of the moves [l]. Moves are removed
    one at a time, each the farthest from the fit of those left, at 0.2 mm or more and at 2.1 times the median distance or more. With less than
    20 removed the last fit has no such move; after 20 the search ends, and the parameters returned are those of the fit before the last
    removal. The rms is over the moves kept, divided by the number of all moves, and for an optimiser which does not go up each of the fits is
    at least as good as the starting values. *)
Theorem C87_rejection ls mz moves nominals bounds keep_fixed xerr yerr o st : same_shape mz -> fit_params ls mz moves Static nominals bounds keep_fixed xerr yerr true = (Ok o, st) -> o_flags o = 0%Z ->
  let seqs := sequences_without_rehome moves in let all := combine moves (errors_of xerr yerr moves) in
  exists (q : list (move * (R * R)) -> string -> R) n last kept, let far := fun l me => sqrt (misfit (q l) seqs (fst me)) in
    (n <= 20)%nat /\ rejects far n all kept /\ ((n < 20)%nat -> last = kept /\ settled far kept) /\ (n = 20%nat -> rejects far 19 all last /\ rejects far 1 last kept) /\
    (forall s t p, model_position (fitted o) seqs s t p = model_position (q last) seqs s t p) /\
    o_npts o = List.length kept /\ o_rms o = sqrt (Rsum (map (fun me => misfit (fitted o) seqs (fst me)) kept) / INR (List.length moves)) /\
    (never_worse mz -> forall l, sublist l all -> chi_square (q l) seqs l <= chi_square (value_in (fst st)) seqs l).
Proof. exact (static_rejection ls mz moves nominals bounds keep_fixed xerr yerr o st). Qed.
Print Assumptions C87_rejection.
(** Two moves near each other and one far away, which is left out *)
Definition but_r1 : list string := ["LENGTH_R2"; "OFFSET_P"; "OFFSET_T"; "OFFSET_X"; "OFFSET_Y"].
Example C87_example : exists o st, fit_params any_leastsq stay (three true 0) Static default_values default_bounds but_r1 None None true = (Ok o, st) /\ o_flags o = 0%Z /\ o_npts o = 2%nat.
Proof.
  destruct (three_starts true 0) as (((V1 & V2 & V3) & T & Rh) & A & E). set (moves := three true 0) in *. assert (V : valid_args moves default_values default_bounds but_r1 None None) by (split; [exact V1|]; split; [intros k Hk; cbn in *; intuition|exact V3]).
  destruct (fit_params_cases any_leastsq stay moves Static default_values default_bounds but_r1 None None true) as [[N _]|(_ & [[T' _]|[(_ & R' & _)|(_ & _ & C)]])]; [contradiction|contradiction|rewrite Rh in R'; discriminate|].
  cbv zeta in C. rewrite points_of in C. set (l := combine moves (errors_of None None moves)) in *. change (sequences_without_rehome moves) with (@nil Z) in C. cbn [add_epsilons fold_left] in C.
  assert (IO : init_offsets any_leastsq (spoints l) (fixed_keys Static but_r1 default_values) default_values = Ok default_values). { unfold init_offsets. rewrite arcs_no_circle; [reflexivity|]. intros v. rewrite spoints_arc. exact (A v). }
  destruct C as [(e & Ee & _)|(n2 & Ee & C)]; rewrite IO in Ee; [discriminate|]. injection Ee as <-. rewrite C. clear C IO.
  unfold fit_rest. assert (P : params_to_fit (fixed_keys Static but_r1 default_values) default_values = ["LENGTH_R1"]) by reflexivity. rewrite P. set (ptf := ["LENGTH_R1"]) in *.
  change (rmapM (lookup default_values) ptf) with (@Ok (list R) [3]). set (x0 := [3]). cbn [rbind]. destruct (rmapM (lookup default_bounds) ptf) as [b|] eqn:Eb; [|discriminate]. cbn [rbind]. set (q := value_in default_values).
  assert (LQ : forall k, In k static_keys \/ is_eps k [] -> lookup (set_params default_values ptf x0) k = Ok (q k)). { intros k [H|(s & [] & _)]. cbn in H. repeat (destruct H as [<-|H]; [reflexivity|]). destruct H. }
  assert (N : forall t, ptl2flat 100 0 = (r2s 100, 0) /\ ptl2flat 300 0 = (r2s 300, 0) /\ model_position q [] 0 t 180 = (0, 0) /\ model_position q [] 0 0 90 = (3, 3)).
  { intros t. split; [apply flat_axis; lra|]. split; [apply flat_axis; lra|]. unfold model_position, q. cbn [existsb value_in default_values dict_get find String.eqb Ascii.eqb Bool.eqb fst snd]. split; f_equal.
    - replace (PI * (t + 0 + 0) / 180 + PI * (180 + 0 + 0) / 180) with (PI * (t + 0 + 0) / 180 + PI) by field. rewrite neg_cos. ring.
    - replace (PI * (t + 0 + 0) / 180 + PI * (180 + 0 + 0) / 180) with (PI * (t + 0 + 0) / 180 + PI) by field. rewrite neg_sin. ring.
    - replace (PI * (0 + 0 + 0) / 180) with 0 by field. replace (0 + PI * (90 + 0 + 0) / 180) with (PI / 2) by field. rewrite cos_0, cos_PI2. ring.
    - replace (PI * (0 + 0 + 0) / 180) with 0 by field. replace (0 + PI * (90 + 0 + 0) / 180) with (PI / 2) by field. rewrite sin_0, sin_PI2. ring. }
  set (a := r2s 100) in *. set (c := r2s 300) in *. assert (Ha : 90 < a /\ a < 110) by (unfold a, r2s, poly1d, r2s_coefs; cbn; lra). assert (Hc : 290 < c) by (unfold c, r2s, poly1d, r2s_coefs; cbn; lra). clearbody a c.
  set (d := sqrt ((3 - c) ^ 2 + (3 - 0) ^ 2)). assert (D2 : 280 < d). { unfold d. apply Rlt_le_trans with (sqrt (Rsqr (c - 3))); [rewrite sqrt_Rsqr; lra|]. apply sqrt_le_1_alt. unfold Rsqr. nra. }
  assert (D1 : sqrt ((0 - a) ^ 2 + (0 - 0) ^ 2) = a). { replace ((0 - a) ^ 2 + (0 - 0) ^ 2) with (Rsqr a) by (unfold Rsqr; ring). apply sqrt_Rsqr. lra. }
  set (l2 := [(at_ 0 180 100 true 0, (1, 1)); (at_ 90 180 100 true 0, (1, 1))]).
  set (G := fun m => map (fun e => sqrt (fst e ^ 2 + snd e ^ 2)) (map (fun me : move * (R * R) => (fst (model_position q [] (mv_seq (fst me)) (mv_t (fst me)) (mv_p (fst me))) - fst (ptl2flat (mv_x (fst me)) (mv_y (fst me))),
    snd (model_position q [] (mv_seq (fst me)) (mv_t (fst me)) (mv_p (fst me))) - snd (ptl2flat (mv_x (fst me)) (mv_y (fst me))))) m)).
  destruct (N 0) as (N1 & N2 & N3 & N4). destruct (N 90) as (_ & _ & N5 & _).
  assert (Dl : G l = [a; a; d]) by (unfold G, l, moves, three; cbn [combine errors_of map fst snd at_ mv_seq mv_t mv_p mv_x mv_y]; rewrite N1, N2, N3, N4, N5; cbn [fst snd]; rewrite D1; reflexivity).
  assert (Dl2 : G l2 = [a; a]) by (unfold G, l2; cbn [map fst snd at_ mv_seq mv_t mv_p mv_x mv_y]; rewrite N1, N3, N5; cbn [fst snd]; rewrite D1; reflexivity). unfold G in Dl, Dl2.
  assert (res : forall m, residuals Static [] ptf default_values (spoints m) x0 = Ok _) by (intros m; exact (residuals_static [] ptf default_values x0 q m LQ)).
  assert (loop : fit_loop stay 20 Static [] ptf default_values x0 b true None (spoints l) = Ok (stay (compute_chi2 Static [] ptf default_values (spoints l2)) x0 b, spoints l2)).
  { cbn [fit_loop]. unfold run_minimize. rewrite (chi2_static [] ptf default_values x0 q l LQ) by (unfold spoints; rewrite Forall_map; exact E). cbn [rbind]. change (fst (stay (compute_chi2 Static [] ptf default_values (spoints l)) x0 b)) with x0. rewrite res. cbn [rbind].
    change (delete_at (spoints l)) with (delete_at (spoints (l2 ++ [(at_ 0 90 300 true 0, (1, 1))]))).
    rewrite Dl.
    cbn [argmax argmax_from]. rewrite (proj2 (Rltb_false a a)) by lra. rewrite (proj2 (Rltb_true a d)) by lra. cbn [rbind negb]. rewrite (Circles.median_majority a) by (cbn [filter]; rewrite (proj2 (Reqb_true a a)) by reflexivity; rewrite (proj2 (Reqb_false d a)) by lra; cbn; lia). cbn [rbind geti nth_error]. rewrite (proj2 (Rltb_false d 0.2)) by lra. rewrite (proj2 (Rltb_false d (2.1 * a))) by lra. cbn [orb].
    change (delete_at (spoints (l2 ++ [(at_ 0 90 300 true 0, (1, 1))])) 2) with (spoints l2). change (List.length (spoints l2) <? List.length x0)%nat with false. cbv iota.
    rewrite (chi2_static [] ptf default_values x0 q l2 LQ) by (unfold spoints; rewrite Forall_map; inversion E as [|? ? E1 E']; inversion E' as [|? ? E2 _]; constructor; [exact E1|constructor; [exact E2|constructor]]). cbn [rbind]. change (fst (stay (compute_chi2 Static [] ptf default_values (spoints l2)) x0 b)) with x0. rewrite res. cbn [rbind].
    rewrite Dl2. cbn [argmax argmax_from]. rewrite (proj2 (Rltb_false a a)) by lra. cbn [rbind negb]. rewrite (Circles.median_majority a) by (cbn [filter]; rewrite (proj2 (Reqb_true a a)) by reflexivity; cbn; lia). cbn [rbind geti nth_error]. rewrite (proj2 (Rltb_false a 0.2)) by lra. rewrite (proj2 (Rltb_true a (2.1 * a))) by lra. reflexivity. }
  rewrite loop. cbn [rbind stay]. unfold compute_rms. rewrite res. cbn [rbind]. unfold fdiv. rewrite (proj2 (Reqb_false (INR (List.length moves)) 0)) by (change (List.length moves) with 3%nat; rewrite INR_IZR_INZ; cbn; lra).
  eexists. eexists. split; [reflexivity|]. split; reflexivity.
Qed.

(** C88. The errors of the fitted parameters. [f] is what the last call of the optimiser minimises, a function of the values of the free
    parameters in alphabetical order: the weighted sum of squares of the moves [last] left at that time. The call starts from the starting values
    with the bounds of the free parameters and gives their fitted values. The covariance of two free parameters is stored once, under the names in
    alphabetical order, and is twice the inverse Hessian element, times half the square of the rms unless both errors were given. The variances of the
    others are zero. *)
Theorem C88_covariance ls mz moves nominals bounds keep_fixed xerr yerr reject o st : same_shape mz -> NoDup (map fst nominals) ->
  fit_params ls mz moves Static nominals bounds keep_fixed xerr yerr reject = (Ok o, st) -> o_flags o = 0%Z -> (forall k, In k (map fst (o_params o)) -> no_dot k) ->
  let seqs := sequences_without_rehome moves in let all := combine moves (errors_of xerr yerr moves) in
  exists free last f x0 b, alphabetical free /\ NoDup free /\ (forall k, In k free <-> In k (map fst (o_params o)) /\ ~ In k keep_fixed /\ k <> "SCALE_T" /\ k <> "SCALE_P") /\
    sublist last all /\ (reject = false -> last = all) /\
    (forall v c, List.length v = List.length free -> f v = Ok c -> c = chi_square (with_values free v (value_in nominals)) seqs last) /\
    x0 = map (value_in (fst st)) free /\ Forall2 (fun k lh => dict_get String.eqb (snd st) k = Some lh) free b /\
    (forall i a, nth_error free i = Some a -> a <> "OFFSET_T" -> nth_error (fst (mz f x0 b)) i = Some (fitted o a)) /\
    (forall i j a a', (i <= j)%nat -> nth_error free i = Some a -> nth_error free j = Some a' -> exists row h, nth_error (snd (mz f x0 b)) i = Some row /\ nth_error row j = Some h /\
       dict_get String.eqb (o_cov o) (cov_name a a') = Some (match xerr, yerr with Some _, Some _ => 2 * h | _, _ => h * o_rms o ^ 2 end)) /\
    (forall k, In k keep_fixed \/ k = "SCALE_T" \/ k = "SCALE_P" -> dict_get String.eqb (o_cov o) (cov_name k k) = Some 0).
Proof.
  intros SS ND H F Dot seqs all. destruct (static_covariance ls mz moves nominals bounds keep_fixed xerr yerr reject o st SS ND H F Dot) as (free & last & f & x0 & b & A1 & A2 & A3 & A4 & A5 & A6 & A7 & A8 & A9 & A10 & A11).
  assert (G : forall V (d : dict string V) k v, lookup d k = Ok v -> dict_get String.eqb d k = Some v). { intros V d k v L. unfold lookup, dict_getE in L. destruct (dict_get String.eqb d k); [now apply Ok_inj in L as ->|discriminate]. }
  assert (K : forall k, In k (keep_fixed ++ dynamic_keys) <-> In k keep_fixed \/ k = "SCALE_T" \/ k = "SCALE_P") by (intros k; rewrite in_app_iff; cbn; intuition).
  exists free, last, f, x0, b. split; [exact A1|]. split; [exact A2|]. split; [intros k; rewrite A3, K; tauto|]. split; [exact A4|]. split; [exact A5|]. split; [exact A6|]. split; [exact A7|]. split; [revert A8; apply Forall2_impl; intros; now apply G|]. split; [exact A9|]. split.
  - intros i j a a' L Ei Ej. destruct (A10 i j a a' L Ei Ej) as (row & h & Er & Eh & Ec). exists row, h. split; [exact Er|]. split; [exact Eh|]. apply G. rewrite Ec. f_equal. unfold unit_errs. destruct xerr, yerr; field.
  - intros k Hk. apply G, A11. now apply K.
Qed.
Print Assumptions C88_covariance.
(** An optimiser which gives a diagonal inverse Hessian *)
Definition half_hessian (f : list R -> res R) (x0 : list R) (b : list (R * R)) : list R * list (list R) :=
  (x0, map (fun i => map (fun j => if Nat.eqb i j then / 2 else 0) (seq 0 (List.length x0))) (seq 0 (List.length x0))).
Example C88_example : exists o st, fit_params any_leastsq half_hessian (three false 1) Static default_values default_bounds [] (Some [1; 1; 1]) (Some [1; 1; 1]) false = (Ok o, st) /\ o_flags o = 0%Z /\
  (forall k, In k (map fst (o_params o)) -> no_dot k) /\ dict_get String.eqb (o_cov o) "COV.EPSILON_P_1.EPSILON_P_1" = Some 1 /\ dict_get String.eqb (o_cov o) "COV.SCALE_T.SCALE_T" = Some 0.
Proof.
  assert (SS : same_shape half_hessian) by (intros f x0 b; reflexivity). assert (SH : square_hessian half_hessian). { intros f x0 b. cbn. rewrite map_length, seq_length. split; [reflexivity|]. rewrite Forall_map. apply Forall_forall. intros. now rewrite map_length, seq_length. }
  destruct (three_starts false 1) as (((V1 & V2 & V3) & T & Rh) & A & E). destruct (static_succeeds any_leastsq half_hessian (three false 1) default_values default_bounds [] (Some [1; 1; 1]) (Some [1; 1; 1])) as (o & b & H & F); auto.
  { split; [|auto]. split; [exact V1|]. split; [exact V2|]. intros l [L|L]; injection L as <-; reflexivity. }
  exists o. eexists. split; [exact H|]. split; [exact F|].
  assert (Dot : forall k, In k (map fst (o_params o)) -> no_dot k).
  { intros k Hk. apply (C80_static _ _ _ _ _ _ _ _ _ _ _ SS H F) in Hk. destruct Hk as [Hk|(m & Hm & Hr & Hk)].
    - cbn in Hk. repeat (destruct Hk as [<-|Hk]; [intros J; cbn in J; repeat (destruct J as [J|J]; [discriminate|]); exact J|]). destruct Hk.
    - destruct Hm as [<-|[<-|[<-|[]]]]; try discriminate Hr. destruct Hk as [->| ->]; intros J; cbn in J; repeat (destruct J as [J|J]; [discriminate|]); exact J. }
  split; [exact Dot|]. assert (Nd : NoDup (map fst default_values)) by (cbn; repeat (constructor; [cbn; intuition discriminate|]); constructor). destruct (C88_covariance _ _ _ _ _ _ _ _ _ _ _ SS Nd H F Dot) as (free & last & f & x0 & b' & _ & _ & Fr & _ & _ & _ & Ex & _ & _ & Cv & Z0). split; [|apply (Z0 "SCALE_T"); auto].
  assert (Ik : In "EPSILON_P_1" free). { apply Fr. split; [|split; [intros []|split; discriminate]]. apply (C80_static _ _ _ _ _ _ _ _ _ _ _ SS H F). right. exists (at_ 0 90 300 false 1). cbn. intuition. }
  apply In_nth_error in Ik as [i Ei]. destruct (Cv i i _ _ (le_n i) Ei Ei) as (row & h & Er & Eh & Ec). change "COV.EPSILON_P_1.EPSILON_P_1" with (cov_name "EPSILON_P_1" "EPSILON_P_1"). rewrite Ec. f_equal. cbn [half_hessian snd] in Er.
  rewrite nth_error_map in Er. assert (L : (i < List.length x0)%nat) by (rewrite Ex, map_length; apply nth_error_Some; congruence). assert (Ns : nth_error (seq 0 (List.length x0)) i = Some i) by (rewrite (nth_error_nth' _ 0%nat) by (rewrite seq_length; exact L); rewrite seq_nth by exact L; reflexivity). rewrite Ns in Er. cbn in Er. injection Er as <-. rewrite nth_error_map, Ns in Eh. cbn in Eh. rewrite Nat.eqb_refl in Eh. injection Eh as <-. lra.
Qed.

(** C89. The values a static fit starts from, which are found in the nominal values after the call: EPSILON parameters of the sequences without a rehome are zero,
    the centre is the median of those of the circles fitted to the moves at one phi angle, unless it is kept fixed or there is no such circle, and the
    others are the nominal values. *)
Theorem C89_start ls mz moves nominals bounds keep_fixed xerr yerr reject o st : fit_params ls mz moves Static nominals bounds keep_fixed xerr yerr reject = (Ok o, st) -> o_flags o = 0%Z ->
  (forall s, In s (sequences_without_rehome moves) -> value_in (fst st) (eps_t s) = 0 /\ value_in (fst st) (eps_p s) = 0) /\
  (forall k, In k all_keys -> k <> "OFFSET_X" /\ k <> "OFFSET_Y" \/ In k keep_fixed -> value_in (fst st) k = value_in nominals k) /\
  exists phis, NoDup phis /\ (forall v, In v phis <-> In v (map mv_p moves)) /\ let cs := arc_centers ls moves phis in
    (cs = [] -> value_in (fst st) "OFFSET_X" = value_in nominals "OFFSET_X" /\ value_in (fst st) "OFFSET_Y" = value_in nominals "OFFSET_Y") /\
    (cs <> [] -> ~ In "OFFSET_X" keep_fixed -> median (map fst cs) = Ok (value_in (fst st) "OFFSET_X")) /\ (cs <> [] -> ~ In "OFFSET_Y" keep_fixed -> median (map snd cs) = Ok (value_in (fst st) "OFFSET_Y")).
Proof. intros H F. exact (proj2 (static_start ls mz moves nominals bounds keep_fixed xerr yerr reject o st H F)). Qed.
Print Assumptions C89_start.
(** Three moves at one place give a circle of radius zero there. *)
Definition place : list move := [at_ 0 180 100 true 0; at_ 60 180 100 true 0; at_ 120 180 100 true 0].
Example C89_example : exists o st, fit_params any_leastsq stay place Static default_values default_bounds [] None None false = (Ok o, st) /\ o_flags o = 0%Z /\ value_in (fst st) "OFFSET_X" = r2s 100.
Proof.
  destruct stay_shape as (SS & SH & _). destruct (static_completes any_leastsq stay place default_values default_bounds [] None None) as (o & st & H & F); auto.
  - split; [|split; [|reflexivity]]. { split; [cbn; tauto|]. split; [intros k []|]. intros l [H|H]; discriminate. }
    intros [(v & L & _) _]. revert L. unfold place. arcs.
  - unfold good_errors, place. cbn [combine errors_of map]. repeat (constructor; [apply errors_axis; cbn; lra|]). constructor.
  - exists o, st. split; [exact H|]. split; [exact F|]. destruct (C89_start _ _ _ _ _ _ _ _ _ _ _ H F) as (_ & _ & phis & ND & Hp & E0 & EX & _).
    assert (phis = [180]) as ->. { assert (P : forall v, In v phis <-> v = 180) by (intros v; rewrite Hp; cbn; intuition). destruct phis as [|a [|b phis]]; [exfalso; now apply (P 180)|assert (a = 180) as -> by (apply P; now left); reflexivity|]. exfalso. assert (a = 180) as -> by (apply P; now left). assert (b = 180) as -> by (apply P; right; now left). inversion ND as [|? ? Nn _]. apply Nn. now left. }
    assert (C : arc_centers any_leastsq place [180] = [(r2s 100, 0)]).
    { unfold arc_centers. cbn [flat_map]. assert (arc place 180 = place) as -> by (unfold arc, place; cbn [filter at_ mv_p]; rewrite (proj2 (Reqb_true 180 180)) by reflexivity; reflexivity). change (3 <=? List.length place)%nat with true. cbv iota. unfold place. cbn [map at_ mv_x mv_y]. rewrite flat_axis by lra. set (p := (r2s 100, 0)).
      assert (Fm : fast_fit_circle true [p; p; p] = Ok (p, 0) /\ fast_fit_circle false [p; p; p] = Ok (p, 0)).
      { assert (D : dist_to p p = 0) by (unfold dist_to, hypot; replace ((fst p - fst p) ^ 2 + (snd p - snd p) ^ 2) with 0 by ring; apply sqrt_0). assert (Ce := Circles.few_centers [p; p; p] ltac:(cbn; lia)). unfold fast_fit_circle. rewrite Ce. cbn [map]. change (fst p) with (r2s 100). change (snd p) with 0.
        assert (M : forall x, median [x; x; x] = Ok x) by (intros x; apply Circles.median_majority; cbn [filter]; rewrite (proj2 (Reqb_true x x)) by reflexivity; cbn; lia). assert (M' : forall x, mean [x; x; x] = Ok x) by (intros x; apply Circles.mean_all; [discriminate|repeat constructor]).
        rewrite !M, !M'. cbn [rbind]. fold p. rewrite D, M, M'. split; reflexivity. }
      destruct Fm as [F1 F2]. unfold robust_fit_circle. cbn [reject List.length repeat]. change (masked [p; p; p] [true; true; true]) with [p; p; p]. rewrite F1. cbn [rbind map]. assert (D : Rabs (dist_to p p - 0) = 0) by (unfold dist_to, hypot; replace ((fst p - fst p) ^ 2 + (snd p - snd p) ^ 2) with 0 by ring; rewrite sqrt_0, Rminus_0_r; apply Rabs_R0). rewrite D.
      rewrite (Circles.median_majority 0) by (cbn [filter]; rewrite (proj2 (Reqb_true 0 0)) by reflexivity; cbn; lia). cbn [rbind argmax argmax_from]. rewrite (proj2 (Rltb_false 0 0)) by lra. cbn [rbind geti nth_error]. rewrite (proj2 (Rltb_true 0 0.1)) by lra. rewrite Bool.orb_true_r. cbn [rbind]. change (masked [p; p; p] [true; true; true]) with [p; p; p]. unfold fit_circle. rewrite F2. unfold bad_radius. rewrite (proj2 (Rltb_true 0 1)) by lra. reflexivity. }
    cbv zeta in EX. rewrite C in EX. specialize (EX ltac:(discriminate) ltac:(intros [])). cbn [map fst] in EX. rewrite (Circles.median_majority (r2s 100)) in EX by (cbn [filter]; rewrite (proj2 (Reqb_true (r2s 100) (r2s 100))) by reflexivity; cbn; lia). apply Ok_inj in EX. now symmetry.
Qed.
