From Verif.Model Require Import Circles.
From Verif.Spec Require Import Circles.
From Verif.Proofs Require Import Prelude RealNum LinAlg Stats Circles.
From Verif.Proofs Require Numpy.
From Coq Require Import Lra Lia Permutation.
Local Open Scope R_scope.

(** C44. Four or more different points of a circle give its centre and radius, with either average. *)
Theorem C44_exact : forall use_median c r P, (4 <= length P)%nat -> NoDup P -> Forall (on_circle c r) P -> fast_fit_circle use_median P = Ok (c, r).
Proof.
  intros [|] c r P N D F; [|now apply fast_mean]. apply fast_median; [exact N|now rewrite all_good_filter|]. rewrite all_good by exact F. cbn. lia.
Qed.
Print Assumptions C44_exact.
(** With medians also when less than one point in six is off the circle. *)
Theorem C44_median : forall c r P bad, (4 <= length P)%nat ->
  (forall i j p, nth_error P i = Some p -> nth_error P j = Some p -> on_circle c r p -> i = j) ->
  (forall i p, nth_error P i = Some p -> ~ on_circle c r p -> In i bad) -> (6 * length bad < length P)%nat ->
  fast_fit_circle true P = Ok (c, r).
Proof.
  intros c r P bd N D B L. apply fast_median; [exact N| |].
  - clear - D. induction P as [|a P IH]; [constructor|]. cbn [filter]. assert (IH' : NoDup (filter (good c r) P)) by (apply IH; intros i j p Hi Hj O; specialize (D (S i) (S j) p Hi Hj O); lia).
    destruct (good c r a) eqn:G; [|exact IH']. constructor; [|exact IH']. intros H. apply filter_In in H. destruct H as [H _]. apply In_nth_error in H. destruct H as [j Hj]. apply good_on in G. specialize (D 0%nat (S j) a eq_refl Hj G). lia.
  - assert (length (filter (bad c r) P) <= length bd)%nat; [|lia]. rewrite <- (count_nth (0, 0)). apply NoDup_incl_length; [apply NoDup_filter, seq_NoDup|]. intros i Hi. apply filter_In in Hi. destruct Hi as [Hi O]. apply in_seq in Hi. apply bad_off in O. apply (B i (nth i P (0, 0))); [|exact O]. apply nth_error_nth'. lia.
Qed.
Print Assumptions C44_median.
(** The refined fit is exact too, for any solver that does not make its starting point worse, and accepts a circle
    exactly when its radius is between 1 and 5. *)
Theorem C44_refined : forall leastsq c r P, descends leastsq -> (4 <= length P)%nat -> NoDup P -> Forall (on_circle c r) P ->
  (1 <= r <= 5 -> fit_circle leastsq P = Ok (c, r)) /\ (~ (1 <= r <= 5) -> fit_circle leastsq P = Err ValueError).
Proof.
  intros leastsq c r P L N D F. rewrite (refined_exact leastsq c r P L N D F). unfold bad_radius. split; intros H.
  - assert (Rltb r 1 = false) as -> by (apply Rltb_false; lra). assert (Rltb 5 r = false) as -> by (apply Rltb_false; lra). reflexivity.
  - destruct (Rltb r 1) eqn:E1; [reflexivity|]. destruct (Rltb 5 r) eqn:E2; [reflexivity|]. apply Rltb_false in E1, E2. lra.
Qed.
Print Assumptions C44_refined.
(** Whatever the points and the solver, an accepted circle has a radius between 1 and 5, the mean distance of the points
    to its centre. *)
Theorem C44_accepted : forall leastsq P c r, fit_circle leastsq P = Ok (c, r) ->
  1 <= r <= 5 /\ r = fold_right Rplus 0 (map (fun p => sqrt ((fst p - fst c) ^ 2 + (snd p - snd c) ^ 2)) P) / INR (length P).
Proof.
  intros leastsq P c r H. unfold fit_circle in H. destruct (fast_fit_circle false P) as [[c0 r0]|e]; [|destruct e; discriminate]. destruct (bad_radius r0); [discriminate|]. destruct P as [|p P]; [discriminate|].
  rewrite mean_Ok in H by discriminate. cbn [rbind] in H. destruct (bad_radius _) eqn:B; [discriminate|]. apply Ok_inj in H. set (c2 := leastsq _ _) in *. pose proof (f_equal fst H) as H1. pose proof (f_equal snd H) as H2. cbn [fst snd] in H1, H2. rewrite H2 in B. rewrite H1 in H2. split.
  - unfold bad_radius in B. apply Bool.orb_false_iff in B. destruct B as [B1 B2]. apply Rltb_false in B1, B2. lra.
  - rewrite <- H2, map_length. reflexivity.
Qed.
Print Assumptions C44_accepted.
(** Up to three points, also of a circle, the "centre" is their average: three points are not enough, contrary to the
    message of [robust_fit_circle]. *)
Theorem C44_three_points_refuted :
  (forall P, P <> [] -> (length P <= 3)%nat -> exists r, fast_fit_circle false P = Ok ((Rsum (map fst P) / INR (length P), Rsum (map snd P) / INR (length P)), r)) /\
  exists P, length P = 3%nat /\ NoDup P /\ Forall (on_circle (0, 0) 3) P /\ exists r, fast_fit_circle false P = Ok ((0, 1), r).
Proof.
  assert (G : forall P, P <> [] -> (length P <= 3)%nat -> exists r, fast_fit_circle false P = Ok ((Rsum (map fst P) / INR (length P), Rsum (map snd P) / INR (length P)), r)).
  { intros P NE L. unfold fast_fit_circle. rewrite (few_centers P L). rewrite !mean_Ok by (destruct P; [congruence|discriminate]). cbn [rbind]. rewrite !map_length. eexists. rewrite mean_Ok by (destruct P; [congruence|discriminate]). reflexivity. }
  split; [exact G|]. exists [(3, 0); (-3, 0); (0, 3)]. split; [reflexivity|]. split; [|split].
  - repeat constructor; cbn; intros H; repeat (destruct H as [H|H]; [injection H; lra|]); destruct H.
  - repeat constructor; unfold on_circle; cbn [fst snd].
    + replace ((3 - 0) ^ 2 + (0 - 0) ^ 2) with (3 * 3) by ring. apply sqrt_square. lra.
    + replace ((-3 - 0) ^ 2 + (0 - 0) ^ 2) with (3 * 3) by ring. apply sqrt_square. lra.
    + replace ((0 - 0) ^ 2 + (3 - 0) ^ 2) with (3 * 3) by ring. apply sqrt_square. lra.
  - destruct (G [(3, 0); (-3, 0); (0, 3)]) as [r E]; [discriminate|cbn; lia|]. exists r. rewrite E. f_equal. f_equal. unfold Rsum. cbn. f_equal; field.
Qed.
Print Assumptions C44_three_points_refuted.
(** Sixteen points of a circle of radius sqrt 65 / 2 about (1, 2). *)
Definition ring16 : list (R * R) := map (fun '(x, y) => (1 + IZR x / 2, 2 + IZR y / 2))
  [(1, 8); (1, -8); (-1, 8); (-1, -8); (8, 1); (8, -1); (-8, 1); (-8, -1); (4, 7); (4, -7); (-4, 7); (-4, -7); (7, 4); (7, -4); (-7, 4); (-7, -4)]%Z.
Lemma ring16_on : Forall (on_circle (1, 2) (sqrt 65 / 2)) ring16.
Proof.
  assert (H : forall x y, (x * x + y * y = 65)%Z -> on_circle (1, 2) (sqrt 65 / 2) (1 + IZR x / 2, 2 + IZR y / 2)).
  { intros x y E. unfold on_circle. cbn [fst snd]. apply (f_equal IZR) in E. rewrite plus_IZR, !mult_IZR in E. apply sqrt_lem_1; [nra|pose proof (sqrt_pos 65); lra|]. replace (sqrt 65 / 2 * (sqrt 65 / 2)) with (sqrt 65 * sqrt 65 / 4) by field. rewrite sqrt_sqrt by lra. lra. }
  unfold ring16. apply Forall_map. repeat (apply Forall_cons; [apply H; reflexivity|]). constructor.
Qed.
Lemma ring16_NoDup : NoDup ring16.
Proof.
  unfold ring16. apply FinFun.Injective_map_NoDup.
  - intros [x y] [x' y'] E. injection E as E1 E2. f_equal; apply eq_IZR; lra.
  - repeat constructor; cbn; intuition congruence.
Qed.
Lemma ring16_radius : 1 <= sqrt 65 / 2 <= 5.
Proof. assert (4 <= sqrt 65) by (rewrite <- (sqrt_square 4) by lra; apply sqrt_le_1; lra). assert (sqrt 65 <= 9) by (rewrite <- (sqrt_square 9) by lra; apply sqrt_le_1; lra). lra. Qed.
Example C44_example : fast_fit_circle true ring16 = Ok ((1, 2), sqrt 65 / 2) /\ fit_circle (fun f c => c) ring16 = Ok ((1, 2), sqrt 65 / 2).
Proof.
  split; [apply C44_exact; [cbn; lia|apply ring16_NoDup|apply ring16_on]|]. apply C44_refined; [intros f c; lra|cbn; lia|apply ring16_NoDup|apply ring16_on|apply ring16_radius].
Qed.

Lemma robust_ne leastsq nsig minerr P : P <> [] -> robust_fit_circle leastsq nsig minerr P =
  rbind (reject 12 nsig minerr P ((0, 0), 0) (repeat true (length P))) (fun s => let '(cr, ok, over) := s in
  if over then Ok (cr, ok) else match fit_circle leastsq (masked P ok) with Ok cr2 => Ok (cr2, ok) | Err ValueError => Ok (cr, ok) | Err e => Err e end).
Proof. intros H. destruct P; [congruence|reflexivity]. Qed.
Lemma fast_Ok m P : P <> [] -> exists cr, fast_fit_circle m P = Ok cr.
Proof.
  intros NE. assert (M : forall l, l <> [] -> exists v, (if m then median else mean) l = Ok v) by (intros [|x l] H; [congruence|]; destruct m; cbn [median mean]; eauto).
  unfold fast_fit_circle. destruct (M (map fst (map (center_at P) (seq 0 (length P))))) as [x ->]; [destruct P; [congruence|discriminate]|]. cbn [rbind]. destruct (M (map snd (map (center_at P) (seq 0 (length P))))) as [y ->]; [destruct P; [congruence|discriminate]|]. cbn [rbind].
  destruct (M (map (dist_to (x, y)) P)) as [r ->]; [destruct P; [congruence|discriminate]|]. cbn [rbind]. eauto.
Qed.
Lemma fit_Ok leastsq P : P <> [] -> fit_circle leastsq P = Err ValueError \/ exists cr, fit_circle leastsq P = Ok cr.
Proof.
  intros NE. unfold fit_circle. destruct (fast_Ok false P NE) as [[c r] ->]. destruct (bad_radius r); [now left|]. rewrite mean_Ok by (destruct P; [congruence|discriminate]). cbn [rbind]. destruct (bad_radius _); eauto.
Qed.

(** C45. When less than one point in six is off a circle and the worst of them, p, is further from it than [minerr],
    then p, and only p, is removed: a point once removed stays the worst, and no other is looked at. *)
Theorem C45_worst_removed : forall leastsq nsig minerr c r A p B, descends leastsq ->
  let P := A ++ p :: B in let off q := Rabs (sqrt ((fst q - fst c) ^ 2 + (snd q - snd c) ^ 2) - r) in
  0 < minerr <= off p -> (forall q, In q A -> off q < off p) -> (forall q, In q B -> off q <= off p) ->
  (forall i j q, nth_error P i = Some q -> nth_error P j = Some q -> on_circle c r q -> i = j) ->
  forall bad, (forall i q, nth_error P i = Some q -> ~ on_circle c r q -> In i bad) -> (6 * length bad < length P)%nat ->
  exists fitted, robust_fit_circle leastsq nsig minerr P = Ok (fitted, repeat true (length A) ++ false :: repeat true (length B)) /\
    (Forall (on_circle c r) (A ++ B) -> fitted = (c, r)).
Proof.
  intros leastsq nsig minerr c r A p B LS P off Hp HA HB D bd HB2 L.
  assert (ND : NoDup (filter (good c r) P)).
  { clear - D. revert D. generalize P. clear. induction P as [|a P IH]; intros D; [constructor|]. cbn [filter]. assert (IH' : NoDup (filter (good c r) P)) by (apply IH; intros i j p Hi Hj O; specialize (D (S i) (S j) p Hi Hj O); lia).
    destruct (good c r a) eqn:G; [|exact IH']. constructor; [|exact IH']. intros H. apply filter_In in H. destruct H as [H _]. apply In_nth_error in H. destruct H as [j Hj]. apply good_on in G. specialize (D 0%nat (S j) a eq_refl Hj G). lia. }
  assert (FW : (6 * length (filter (bad c r) P) < length P)%nat).
  { assert (length (filter (bad c r) P) <= length bd)%nat; [|lia]. rewrite <- (count_nth (0, 0)). apply NoDup_incl_length; [apply NoDup_filter, seq_NoDup|]. intros i Hi. apply filter_In in Hi. destruct Hi as [Hi O]. apply in_seq in Hi. apply bad_off in O. apply (HB2 i (nth i P (0, 0))); [|exact O]. apply nth_error_nth'. lia. }
  pose proof (reject_all c r nsig minerr A p B (proj1 Hp) (proj2 Hp) HA HB ND FW 11 ((0, 0), 0) (all_P A B) (or_introl eq_refl)) as R. fold P in R.
  assert (E : robust_fit_circle leastsq nsig minerr P = match fit_circle leastsq (A ++ B) with Ok cr2 => Ok (cr2, but_p A B) | Err ValueError => Ok ((c, r), but_p A B) | Err e => Err e end).
  { rewrite robust_ne by (unfold P; intros EP; destruct A; discriminate). replace (repeat true (length P)) with (all_P A B) by (unfold all_P, P; rewrite app_length, repeat_app; reflexivity).
    rewrite R. cbn [rbind]. unfold P, but_p. rewrite masked_but. reflexivity. }
  pose proof (P_bad c r minerr A p B (proj1 Hp) (proj2 Hp) FW) as PB. pose proof (P_length c r A p B FW) as PL. fold P in PB, PL. rewrite PB, PL in FW.
  destruct (fit_circle leastsq (A ++ B)) as [cr2|x] eqn:F.
  - rewrite E. exists cr2. split; [reflexivity|]. intros G. assert (G' : fit_circle leastsq (A ++ B) = if bad_radius r then Err ValueError else Ok (c, r)).
    { apply refined_exact; [exact LS|rewrite app_length; lia| |exact G]. rewrite <- (all_good_filter c r (A ++ B) G), <- (P_good c r minerr A p B (proj1 Hp) (proj2 Hp)). exact ND. }
    rewrite F in G'. destruct (bad_radius r); [discriminate|]. now apply Ok_inj in G'.
  - assert (x = ValueError) as ->.
    { assert (NE : A ++ B <> []) by (intros EQ; apply (f_equal (@length _)) in EQ; rewrite app_length in EQ; cbn [length] in EQ; lia).
      destruct (fit_Ok leastsq (A ++ B) NE) as [K|[cr K]]; congruence. }
    rewrite E. exists (c, r). split; [reflexivity|auto].
Qed.
Print Assumptions C45_worst_removed.

(** So a second outlier is kept: the claim that outliers are removed one at a time until the rest agrees is false. Here
    sixteen points are exactly on a circle and the point kept is more than 40 mm off. *)
Theorem C45_second_outlier_refuted : forall leastsq, descends leastsq -> exists P fitted ok,
  robust_fit_circle leastsq 4 0.1 P = Ok (fitted, ok) /\ Forall (on_circle (1, 2) (sqrt 65 / 2)) (firstn 16 P) /\ length P = 18%nat /\
  nth_error P 17 = Some (50, 2) /\ nth_error ok 17 = Some true /\ 40 < sqrt ((50 - 1) ^ 2 + (2 - 2) ^ 2) - sqrt 65 / 2.
Proof.
  intros leastsq LS. assert (S1 : forall x, 1 <= x -> sqrt ((x - 1) ^ 2 + (2 - 2) ^ 2) = x - 1) by (intros x Hx; replace ((x - 1) ^ 2 + (2 - 2) ^ 2) with ((x - 1) * (x - 1)) by ring; apply sqrt_square; lra).
  pose proof ring16_radius as RR. pose proof ring16_on as ON. rewrite Forall_forall in ON.
  assert (O2 : forall x, 10 <= x -> ~ on_circle (1, 2) (sqrt 65 / 2) (x, 2)) by (intros x Hx H; unfold on_circle in H; cbn [fst snd] in H; rewrite S1 in H; lra).
  assert (Z : forall q, In q ring16 -> Rabs (sqrt ((fst q - 1) ^ 2 + (snd q - 2) ^ 2) - sqrt 65 / 2) = 0) by (intros q Hq; specialize (ON q Hq); unfold on_circle in ON; cbn [fst snd] in ON; rewrite ON, Rminus_diag_eq by reflexivity; apply Rabs_R0).
  assert (AB : forall x, 10 <= x -> Rabs (sqrt ((x - 1) ^ 2 + (2 - 2) ^ 2) - sqrt 65 / 2) = x - 1 - sqrt 65 / 2) by (intros x Hx; rewrite S1 by lra; apply Rabs_right; lra).
  destruct (C45_worst_removed leastsq 4 0.1 (1, 2) (sqrt 65 / 2) ring16 (100, 2) [(50, 2)] LS) with (bad := [16%nat; 17%nat]) as (fitted & E & _); cbn [fst snd].
  - rewrite AB by lra. lra.
  - intros q Hq. rewrite AB by lra. pose proof (Z q Hq) as Zq. cbn [fst snd] in Zq. rewrite Zq. lra.
  - intros q [<-|[]]. cbn [fst snd]. rewrite !AB by lra. lra.
  - intros i j q Hi Hj Hq.
    assert (K : forall i, nth_error (ring16 ++ (100, 2) :: [(50, 2)]) i = Some q -> nth_error ring16 i = Some q).
    { intros k Hk. destruct (le_lt_dec 16 k) as [L|L]; [|now rewrite nth_error_app1 in Hk by exact L]. exfalso. rewrite nth_error_app2 in Hk by exact L. change (length ring16) with 16%nat in Hk. destruct (k - 16)%nat as [|[|m]]; [| |destruct m; discriminate].
      - injection Hk as <-. apply (O2 100); [lra|exact Hq].
      - injection Hk as <-. apply (O2 50); [lra|exact Hq]. }
    apply K in Hi, Hj. apply (proj1 (NoDup_nth_error ring16) ring16_NoDup); [apply nth_error_Some; congruence|congruence].
  - intros i q Hi Hq. destruct (le_lt_dec 16 i) as [L|L].
    + assert (i < 18)%nat by (change 18%nat with (length (ring16 ++ (100, 2) :: [(50, 2)])); apply nth_error_Some; congruence). cbn. lia.
    + rewrite nth_error_app1 in Hi by exact L. apply nth_error_In in Hi. exfalso. apply Hq, ON, Hi.
  - cbn. lia.
  - exists (ring16 ++ (100, 2) :: [(50, 2)]), fitted, (repeat true 16 ++ false :: [true]). split; [exact E|]. split; [rewrite Forall_forall; exact ON|]. split; [reflexivity|]. split; [reflexivity|]. split; [reflexivity|]. rewrite S1 by lra. lra.
Qed.
Print Assumptions C45_second_outlier_refuted.
(** A circle is returned whatever the points, if there is one. *)
Theorem C45_returns leastsq nsig minerr P : P <> [] -> exists fitted ok, robust_fit_circle leastsq nsig minerr P = Ok (fitted, ok).
Proof. exact (robust_total leastsq nsig minerr P). Qed.
Print Assumptions C45_returns.
Example C45_example : robust_fit_circle (fun f c => c) 4 0.1 (ring16 ++ (100, 2) :: []) = Ok (((1, 2), sqrt 65 / 2), repeat true 16 ++ [false]).
Proof.
  pose proof ring16_radius as RR. pose proof ring16_on as ON. pose proof ON as ON'. rewrite Forall_forall in ON.
  assert (S1 : sqrt ((100 - 1) ^ 2 + (2 - 2) ^ 2) = 99) by (replace ((100 - 1) ^ 2 + (2 - 2) ^ 2) with (99 * 99) by ring; apply sqrt_square; lra).
  destruct (C45_worst_removed (fun f c => c) 4 0.1 (1, 2) (sqrt 65 / 2) ring16 (100, 2) []) with (bad := [16%nat]) as (fitted & E & F); cbn [fst snd].
  - intros f c. lra.
  - rewrite S1, Rabs_right by lra. lra.
  - intros q Hq. specialize (ON q Hq). unfold on_circle in ON. cbn [fst snd] in ON. rewrite ON, S1, Rminus_diag_eq, Rabs_R0, Rabs_right by (reflexivity || lra). lra.
  - intros q [].
  - intros i j q Hi Hj Hq.
    assert (K : forall i, nth_error (ring16 ++ [(100, 2)]) i = Some q -> nth_error ring16 i = Some q).
    { intros k Hk. destruct (le_lt_dec 16 k) as [L|L]; [|now rewrite nth_error_app1 in Hk by exact L]. exfalso. rewrite nth_error_app2 in Hk by exact L. destruct (k - length ring16)%nat as [|m]; [|destruct m; discriminate]. injection Hk as <-. unfold on_circle in Hq. cbn [fst snd] in Hq. rewrite S1 in Hq. lra. }
    apply K in Hi, Hj. apply (proj1 (NoDup_nth_error ring16) ring16_NoDup); [apply nth_error_Some; congruence|congruence].
  - intros i q Hi Hq. destruct (le_lt_dec 16 i) as [L|L].
    + assert (i < 17)%nat by (change 17%nat with (length (ring16 ++ [(100, 2)])); apply nth_error_Some; congruence). cbn. lia.
    + rewrite nth_error_app1 in Hi by exact L. apply nth_error_In in Hi. exfalso. apply Hq, ON, Hi.
  - cbn. lia.
  - rewrite E. rewrite F; [reflexivity|]. now rewrite app_nil_r.
Qed.
(** With four or more different points all on a circle nothing is removed and the result is exact. *)
Theorem C45_nothing_removed : forall leastsq nsig minerr c r P, descends leastsq -> 0 < minerr -> (4 <= length P)%nat -> NoDup P -> Forall (on_circle c r) P ->
  robust_fit_circle leastsq nsig minerr P = Ok ((c, r), repeat true (length P)).
Proof.
  intros leastsq nsig minerr c r P LS M N D F. assert (NE : P <> []) by (intros ->; cbn in N; lia). rewrite robust_ne by exact NE.
  cbn [reject]. rewrite masked_true, (C44_exact true c r P N D F). cbn [rbind].
  assert (Z : map (fun p => Rabs (dist_to c p - r)) P = repeat 0 (length P)).
  { clear - F. induction F as [|p P H F IH]; [reflexivity|]. cbn [map length repeat]. rewrite IH. f_equal. change (dist_to c p = r) in H. rewrite H, Rminus_diag_eq by reflexivity. apply Rabs_R0. }
  rewrite Z. rewrite (median_majority 0).
  2:{ replace (filter _ _) with (@nil R); [cbn; rewrite repeat_length; lia|]. clear. induction (length P) as [|n IH]; [reflexivity|]. cbn [repeat filter]. assert (Reqb 0 0 = true) as -> by (now apply Reqb_true). exact IH. }
  cbn [rbind]. destruct (length P) as [|n] eqn:LP; [lia|]. cbn [repeat argmax]. rewrite argmax_from_first by (intros x Hx; apply repeat_spec in Hx; lra). cbn [rbind geti nth_error]. assert (Rltb 0 minerr = true) as -> by now apply Rltb_true. rewrite Bool.orb_true_r. cbn [rbind].
  change (true :: repeat true n) with (repeat true (S n)). rewrite <- LP, masked_true. rewrite (refined_exact leastsq c r P LS ltac:(lia) D F). destruct (bad_radius r); reflexivity.
Qed.
Print Assumptions C45_nothing_removed.
(** For any points and solver a result is returned; at most twelve points are removed; when fewer than three are left
    the result is all zeros. *)
Theorem C45_result : forall leastsq nsig minerr P, (P = [] -> robust_fit_circle leastsq nsig minerr P = Err ValueError) /\
  (P <> [] -> exists fitted ok, robust_fit_circle leastsq nsig minerr P = Ok (fitted, ok) /\ length ok = length P /\
    (length (filter negb ok) <= 12)%nat /\ (ok = repeat true (length P) \/ (3 <= length (filter (fun b => b) ok))%nat \/ fitted = ((0, 0), 0))).
Proof.
  intros leastsq nsig minerr P. split; [intros ->; reflexivity|]. intros NE. rewrite robust_ne by exact NE.
  assert (ML : forall ok : list bool, length ok = length P -> length (masked P ok) = length (filter (fun b => b) ok)).
  { intros ok. unfold masked. rewrite map_length. revert ok. clear. induction P as [|p P IH]; intros [|b ok] H; try discriminate; [reflexivity|]. injection H as H. cbn. destruct b; cbn; rewrite IH by exact H; reflexivity. }
  assert (SL : forall (ok ok' : list bool) w, seti ok w false = Ok ok' -> length ok' = length ok /\ (length (filter negb ok') <= S (length (filter negb ok)))%nat).
  { clear. induction ok as [|b ok IH]; intros ok' w H; [discriminate|]. destruct w as [|w]; cbn in H; [injection H as <-; split; [reflexivity|]; destruct b; cbn; lia|]. destruct (seti ok w false) as [o|] eqn:E; [|discriminate]. injection H as <-. destruct (IH _ _ E) as [L1 L2]. split; [cbn; lia|]. destruct b; cbn; lia. }
  assert (G : forall k cur ok, length ok = length P -> ok = repeat true (length P) \/ (3 <= length (filter (fun b => b) ok))%nat ->
    exists cr ok' over, reject k nsig minerr P cur ok = Ok (cr, ok', over) /\ length ok' = length P /\ (length (filter negb ok') <= k + length (filter negb ok))%nat /\
      (over = false -> ok' = repeat true (length P) \/ (3 <= length (filter (fun b => b) ok'))%nat) /\ (over = true -> cr = ((0, 0), 0))).
  { induction k as [|k IH]; intros cur ok L K; [exists cur, ok, false; repeat split; auto; discriminate|]. cbn [reject].
    assert (NM : masked P ok <> []) by (intros E; apply (f_equal (@length _)) in E; rewrite (ML ok L) in E; cbn in E; destruct K as [->|K]; [rewrite count_true in E; apply length_zero_iff_nil in E; contradiction|lia]).
    destruct (fast_Ok true _ NM) as [[c r] ->]. cbn [rbind]. set (rs := map _ P). assert (LR : length rs = length P) by apply map_length. destruct rs as [|v rs]; [destruct P; [congruence|discriminate]|]. cbn [median rbind argmax].
    assert (W : (argmax_from 0 v 1 rs < length P)%nat).
    { rewrite <- LR. cbn [length]. clear. assert (H : forall l best m k, (best < k)%nat -> (argmax_from best m k l < k + length l)%nat).
      { induction l as [|x l IH]; intros best m k H; cbn [argmax_from length]; [lia|]. destruct (Rltb m x); [specialize (IH k x (S k) ltac:(lia))|specialize (IH best m (S k) ltac:(lia))]; lia. }
      apply (H rs 0%nat v 1%nat). lia. }
    set (w := argmax_from 0 v 1 rs) in *. assert (exists q, geti (v :: rs) w = Ok q) as [q ->]. { unfold geti. destruct (nth_error (v :: rs) w) eqn:E; [eauto|]. apply nth_error_None in E. lia. }
    cbn [rbind]. destruct (_ || _)%bool; [exists (c, r), ok, false; repeat split; auto; [lia|discriminate]|].
    assert (exists ok', seti ok w false = Ok ok') as [ok' E].
    { rewrite <- L in W. clearbody w. clear - W. revert w W. induction ok as [|b ok IH]; intros w W; [cbn in W; lia|]. destruct w as [|w]; [cbn; eauto|]. cbn [seti length] in *. destruct (IH w ltac:(lia)) as [o ->]. cbn. eauto. }
    rewrite E. cbn [rbind]. destruct (SL _ _ _ E) as [L1 L2]. destruct (Nat.ltb_spec (length (filter (fun b => b) ok')) 3) as [K3|K3].
    - exists ((0, 0), 0), ok', true. repeat split; try lia; discriminate.
    - destruct (IH (c, r) ok' ltac:(lia) ltac:(right; exact K3)) as (cr & o & ov & E1 & H1 & H2 & H3 & H4). exists cr, o, ov. repeat split; auto. lia. }
  destruct (G 12%nat ((0, 0), 0) (repeat true (length P)) (repeat_length _ _) (or_introl eq_refl)) as (cr & ok & over & -> & L & C & K & Z). cbn [rbind].
  assert (C' : (length (filter negb ok) <= 12)%nat) by (replace (length (filter negb (repeat true (length P)))) with 0%nat in C by (clear; induction (length P); [reflexivity|assumption]); lia).
  destruct over; [exists cr, ok; repeat split; auto|]. specialize (K eq_refl).
  assert (NM : masked P ok <> []) by (intros E; apply (f_equal (@length _)) in E; rewrite (ML ok L) in E; cbn in E; destruct K as [->|K]; [rewrite count_true in E; apply length_zero_iff_nil in E; contradiction|lia]).
  destruct (fit_Ok leastsq _ NM) as [-> |[cr2 ->]]; [exists cr, ok|exists cr2, ok]; repeat split; auto; destruct K; auto.
Qed.
Print Assumptions C45_result.

(** The first decision, for any points: p is the first of those furthest from the circle of the fast fit. If it is closer than [minerr], or than
    [nsig] times 1.483 times the median, nothing is removed and the result is the refined fit, or the fast one where that is refused; otherwise p is removed. *)
Theorem C45_threshold : forall leastsq nsig minerr c r med A p B,
  let P := A ++ p :: B in let off q := Rabs (sqrt ((fst q - fst c) ^ 2 + (snd q - snd c) ^ 2) - r) in
  fast_fit_circle true P = Ok (c, r) -> median (map off P) = Ok med -> (forall q, In q A -> off q < off p) -> (forall q, In q B -> off q <= off p) ->
  (off p < nsig * (1.483 * med) \/ off p < minerr ->
     robust_fit_circle leastsq nsig minerr P = Ok (match fit_circle leastsq P with Ok cr => cr | Err _ => (c, r) end, repeat true (length P))) /\
  (nsig * (1.483 * med) <= off p -> minerr <= off p ->
     exists fitted ok, robust_fit_circle leastsq nsig minerr P = Ok (fitted, ok) /\ length ok = length P /\ nth_error ok (length A) = Some false).
Proof.
  intros leastsq nsig minerr c r med A p B P off F M HA HB. assert (NE : P <> []) by (unfold P; now destruct A). assert (E : map (fun q => Rabs (dist_to c q - r)) P = map off A ++ off p :: map off B) by (unfold P; now rewrite map_app).
  assert (G : argmax (map (fun q => Rabs (dist_to c q - r)) P) = Ok (length A)). { rewrite E, argmax_spec, map_length; [reflexivity| |]; intros x Hx; apply in_map_iff in Hx as (q & <- & Hq); auto. }
  assert (W : geti (map (fun q => Rabs (dist_to c q - r)) P) (length A) = Ok (off p)) by (rewrite E, <- (map_length off A); apply geti_app).
  assert (M' : median (map (fun q => Rabs (dist_to c q - r)) P) = Ok med) by exact M.
  assert (T : forall k cur, reject (S k) nsig minerr P cur (repeat true (length P)) =
    if (Rltb (off p) (nsig * (1.483 * med)) || Rltb (off p) minerr)%bool then Ok ((c, r), repeat true (length P), false)
    else rbind (seti (repeat true (length P)) (length A) false) (fun ok' => if (length (filter (fun b => b) ok') <? 3)%nat then Ok (((0, 0), 0), ok', true) else reject k nsig minerr P (c, r) ok')).
  { intros k cur. cbn [reject]. rewrite masked_true, F. cbn [rbind]. rewrite M'. cbn [rbind]. rewrite G. cbn [rbind]. rewrite W. reflexivity. }
  split.
  - intros H. rewrite (robust_ne _ _ _ _ NE), T. assert ((Rltb (off p) (nsig * (1.483 * med)) || Rltb (off p) minerr)%bool = true) as ->. { apply Bool.orb_true_iff. destruct H; [left|right]; now apply Rltb_true. }
    cbn [rbind]. rewrite masked_true. destruct (fit_Ok leastsq P NE) as [-> |[cr ->]]; reflexivity.
  - intros H1 H2. destruct (C45_result leastsq nsig minerr P) as [_ R0]. destruct (R0 NE) as (fitted & ok & E0 & L & _). exists fitted, ok. split; [exact E0|]. split; [exact L|]. clear R0.
    rewrite (robust_ne _ _ _ _ NE), T in E0. assert ((Rltb (off p) (nsig * (1.483 * med)) || Rltb (off p) minerr)%bool = false) as X. { apply Bool.orb_false_iff. split; apply Rltb_false; lra. } rewrite X in E0. clear X.
    assert (Keep : forall k cur ok0 cr ok1 over, nth_error ok0 (length A) = Some false -> reject k nsig minerr P cur ok0 = Ok (cr, ok1, over) -> nth_error ok1 (length A) = Some false).
    { clear. induction k as [|k IH]; intros cur ok0 cr ok1 over N H; cbn [reject] in H; [congruence|].
      destruct (fast_fit_circle true (masked P ok0)) as [[c r]|]; [|discriminate]. cbn [rbind] in H. destruct (median _) as [m|]; [|discriminate]. cbn [rbind] in H. destruct (argmax _) as [w|]; [|discriminate]. cbn [rbind] in H.
      destruct (geti _ w) as [v|]; [|discriminate]. cbn [rbind] in H. destruct (_ || _)%bool; [congruence|]. destruct (seti ok0 w false) as [ok'|] eqn:S; [|discriminate]. cbn [rbind] in H.
      destruct (Proofs.Numpy.seti_spec _ _ _ _ S) as (S1 & S2 & S3 & S4). assert (N' : nth_error ok' (length A) = Some false) by (destruct (Nat.eq_dec (length A) w) as [Ew|Nw]; [rewrite Ew; assumption|rewrite S4 by auto; assumption]).
      destruct (_ <? 3)%nat; [congruence|]. exact (IH _ _ _ _ _ N' H). }
    destruct (seti (repeat true (length P)) (length A) false) as [ok'|] eqn:S; [|discriminate]. cbn [rbind] in E0. destruct (Proofs.Numpy.seti_spec _ _ _ _ S) as (S1 & S2 & S3 & S4).
    assert (N' : nth_error ok' (length A) = Some false) by assumption.
    destruct (_ <? 3)%nat; cbn [rbind] in E0; [congruence|]. destruct (reject 11 nsig minerr P (c, r) ok') as [[[cr ok1] over]|] eqn:Er; [|discriminate]. cbn [rbind] in E0. specialize (Keep _ _ _ _ _ _ N' Er).
    destruct over; [congruence|]. destruct (fit_circle leastsq (masked P ok1)) as [cr2|[]]; congruence.
Qed.
Print Assumptions C45_threshold.
(** The sixteen points of the circle with one 2 mm outside it: kept if [minerr] is 3, removed if it is 1. *)
Example C45_threshold_example : forall leastsq minerr, let out := (3 + sqrt 65 / 2, 2) in
  (2 < minerr -> exists fitted, robust_fit_circle leastsq 4 minerr (ring16 ++ [out]) = Ok (fitted, repeat true 17)) /\
  (minerr <= 2 -> exists fitted ok, robust_fit_circle leastsq 4 minerr (ring16 ++ [out]) = Ok (fitted, ok) /\ nth_error ok 16 = Some false).
Proof.
  intros leastsq minerr out. pose proof ring16_radius as RR.
  assert (Z : forall q, In q ring16 -> Rabs (sqrt ((fst q - 1) ^ 2 + (snd q - 2) ^ 2) - sqrt 65 / 2) = 0).
  { intros q Hq. pose proof (proj1 (Forall_forall _ _) ring16_on q Hq) as H. unfold on_circle in H. cbn [fst snd] in H. rewrite H, Rminus_diag_eq by reflexivity. apply Rabs_R0. }
  assert (O : Rabs (sqrt ((fst out - 1) ^ 2 + (snd out - 2) ^ 2) - sqrt 65 / 2) = 2).
  { cbn [fst snd out]. replace ((3 + sqrt 65 / 2 - 1) ^ 2 + (2 - 2) ^ 2) with ((2 + sqrt 65 / 2) ^ 2) by ring. rewrite sqrt_pow2 by lra. rewrite Rabs_right; lra. }
  assert (ND : ~ on_circle (1, 2) (sqrt 65 / 2) out). { unfold on_circle. cbn [fst snd]. intros H. cbn [fst snd] in O. rewrite H, Rminus_diag_eq, Rabs_R0 in O by reflexivity. lra. }
  assert (F : fast_fit_circle true (ring16 ++ [out]) = Ok ((1, 2), sqrt 65 / 2)).
  { apply (C44_median _ _ _ [16%nat]).
    - rewrite app_length. cbn. lia.
    - assert (N : NoDup (ring16 ++ [out])). { apply Permutation_NoDup with (out :: ring16); [apply Permutation_cons_append|]. constructor; [|apply ring16_NoDup]. intros H. apply ND. exact (proj1 (Forall_forall _ _) ring16_on _ H). }
      intros i j q Hi Hj _. apply (proj1 (NoDup_nth_error _) N); [apply nth_error_Some; congruence|congruence].
    - intros i q Hi Hq. destruct (Nat.lt_ge_cases i 16) as [L|L].
      + rewrite nth_error_app1 in Hi by exact L. exfalso. apply Hq. exact (proj1 (Forall_forall _ _) ring16_on _ (nth_error_In _ _ Hi)).
      + assert (i < 17)%nat by (change 17%nat with (length (ring16 ++ [out])); apply nth_error_Some; congruence). left. lia.
    - rewrite app_length. cbn. lia. }
  destruct (C45_threshold leastsq 4 minerr (1, 2) (sqrt 65 / 2) 0 ring16 out [] F) as [T1 T2].
  - apply median_majority. rewrite map_app, filter_app, app_length, app_length. cbn [map filter]. replace (filter _ (map _ ring16)) with (@nil R); [destruct (negb _); cbn; lia|]. symmetry.
    assert (G : forall l, (forall q, In q l -> In q ring16) -> filter (fun x => negb (Reqb x 0)) (map (fun q : R * R => Rabs (sqrt ((fst q - fst (1, 2)) ^ 2 + (snd q - snd (1, 2)) ^ 2) - sqrt 65 / 2)) l) = []).
    { induction l as [|q l IH]; intros H; [reflexivity|]. cbn [map filter]. cbn [fst snd]. rewrite (Z q (H q (or_introl eq_refl))). assert (Reqb 0 0 = true) as -> by now apply Reqb_true. cbn [negb]. apply IH. intros; apply H; now right. }
    now apply G.
  - intros q Hq. change (Rabs (sqrt ((fst q - 1) ^ 2 + (snd q - 2) ^ 2) - sqrt 65 / 2) < Rabs (sqrt ((fst out - 1) ^ 2 + (snd out - 2) ^ 2) - sqrt 65 / 2)). rewrite (Z q Hq), O. lra.
  - intros q [].
  - change (fst (1, 2)) with 1 in T1, T2. change (snd (1, 2)) with 2 in T1, T2. rewrite O in T1, T2. split; intros H.
    + destruct (fit_circle leastsq (ring16 ++ [out])) as [cr|e] eqn:E; eexists; rewrite (T1 (or_intror H)); cbn [length app]; reflexivity.
    + destruct (T2 ltac:(lra) H) as (fitted & ok & E & _ & N). exists fitted, ok. split; [exact E|exact N].
Qed.
