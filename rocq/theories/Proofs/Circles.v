From Verif.Model Require Import Circles.
From Verif.Spec Require Import Circles.
From Verif.Proofs Require Import Prelude RealNum LinAlg Stats.
From Coq Require Import Lra Lia Permutation.
Local Open Scope R_scope.

Lemma sq_zero x : x ^ 2 = 0 -> x = 0.
Proof. intros. nra. Qed.
Lemma sq_sum_zero x y : x ^ 2 + y ^ 2 = 0 -> x = 0 /\ y = 0.
Proof. intros H. pose proof (pow2_ge_0 x). pose proof (pow2_ge_0 y). split; apply sq_zero; lra. Qed.
Lemma circle_sq c r p : on_circle c r p -> (fst p - fst c) ^ 2 + (snd p - snd c) ^ 2 = r ^ 2.
Proof. intros <-. rewrite pow2_sqrt; [reflexivity|]. pose proof (pow2_ge_0 (fst p - fst c)). pose proof (pow2_ge_0 (snd p - snd c)). lra. Qed.

(** Three distinct points of a circle are not on a line. *)
Lemma circle_turn (c : R * R) r P Q S : on_circle c r P -> on_circle c r Q -> on_circle c r S -> P <> Q -> Q <> S -> S <> P ->
  (fst Q - fst P) * (snd S - snd Q) - (snd Q - snd P) * (fst S - fst Q) <> 0.
Proof.
  intros HP HQ HS N1 N2 N3 D. apply circle_sq in HP, HQ, HS. destruct c as [cx cy], P as [px py], Q as [qx qy], S as [sx sy]. cbn [fst snd] in *.
  set (a := px - cx) in *. set (b := py - cy) in *. 
  pose (u := qx - px). pose (v := qy - py). pose (w := sx - qx). pose (z := sy - qy).
  assert (Eq1 : qx - cx = a + u) by (unfold a, u; ring). assert (Eq2 : qy - cy = b + v) by (unfold b, v; ring).
  assert (Es1 : sx - cx = a + u + w) by (unfold a, u, w; ring). assert (Es2 : sy - cy = b + v + z) by (unfold b, v, z; ring).
  rewrite Eq1, Eq2 in HQ. rewrite Es1, Es2 in HS. change (u * z - v * w = 0) in D.
  assert (U : u ^ 2 + v ^ 2 <> 0). { intros H. apply sq_sum_zero in H. apply N1. unfold u, v in H. f_equal; lra. }
  assert (W : w ^ 2 + z ^ 2 <> 0). { intros H. apply sq_sum_zero in H. apply N2. unfold w, z in H. f_equal; lra. }
  assert (V : (u + w) ^ 2 + (v + z) ^ 2 <> 0). { intros H. apply sq_sum_zero in H. apply N3. unfold u, v, w, z in H. f_equal; lra. }
  clear - HP HQ HS D U W V. 
  (* w, z = t * (u, v) *)
  pose (t := (u * w + v * z) / (u ^ 2 + v ^ 2)).
  assert (Tw : w = t * u). { unfold t. apply (Rmult_eq_reg_r (u ^ 2 + v ^ 2)); [|exact U]. transitivity ((u * w + v * z) * u - v * (u * z - v * w)); [ring|]. rewrite D. field. exact U. }
  assert (Tz : z = t * v). { unfold t. apply (Rmult_eq_reg_r (u ^ 2 + v ^ 2)); [|exact U]. transitivity ((u * w + v * z) * v + u * (u * z - v * w)); [ring|]. rewrite D. field. exact U. }
  clearbody t w z u v a b. subst w z.
  assert (E1 : 2 * (a * u + b * v) + (u ^ 2 + v ^ 2) = 0) by lra.
  assert (E2 : t * (1 + t) * (u ^ 2 + v ^ 2) = 0) by (pose proof (f_equal (fun e => t * e) E1) as E3; cbv beta in E3; lra).
  apply Rmult_integral in E2. destruct E2 as [E2|]; [|contradiction]. apply Rmult_integral in E2. destruct E2 as [E2|E2].
  - apply W. rewrite E2. ring.
  - apply V. replace t with (-1) by lra. ring.
Qed.

Lemma center_exact (c : R * R) r P i : (i < length P)%nat ->
  let j := i2 (length P) i in let k := i2 (length P) j in
  on_circle c r (pt P i) -> on_circle c r (pt P j) -> on_circle c r (pt P k) -> pt P i <> pt P j -> pt P j <> pt P k -> pt P k <> pt P i -> center_at P i = c.
Proof.
  intros Hi j k Hpi Hpj Hpk N1 N2 N3. pose proof (circle_turn c r _ _ _ Hpi Hpj Hpk N1 N2 N3) as D. apply circle_sq in Hpi, Hpj, Hpk.
  unfold center_at, mid, nrm. fold j. fold k. destruct (pt P i) as [px py], (pt P j) as [qx qy], (pt P k) as [sx sy], c as [cx cy]. cbn [fst snd] in *.
  set (denom := _ - _ * - (_ - _)). assert (Ed : denom = - ((qx - px) * (sy - qy) - (qy - py) * (sx - qx)) \/ denom = (qx - px) * (sy - qy) - (qy - py) * (sx - qx)) by (unfold denom; (left; ring) || (right; ring)).
  assert (N : denom <> 0) by (destruct Ed; lra). assert (Reqb denom 0 = false) as -> by now apply Reqb_false.
  assert (A : (cx - (px + qx) / 2) * (qx - px) + (cy - (py + qy) / 2) * (qy - py) = 0) by lra.
  assert (B : (cx - (qx + sx) / 2) * (sx - qx) + (cy - (qy + sy) / 2) * (sy - qy) = 0) by lra.
  clear Ed Hpi Hpj Hpk D N1 N2 N3.
  f_equal; apply (Rmult_eq_reg_r denom); try exact N; field_simplify; try exact N; unfold denom; unfold denom in N.
  - pose proof (f_equal (fun e => e * (sx - qx)) A). pose proof (f_equal (fun e => e * (sy - qy)) A). pose proof (f_equal (fun e => e * (qx - px)) B). pose proof (f_equal (fun e => e * (qy - py)) B). cbv beta in *. lra.
  - pose proof (f_equal (fun e => e * (sx - qx)) A). pose proof (f_equal (fun e => e * (sy - qy)) A). pose proof (f_equal (fun e => e * (qx - px)) B). pose proof (f_equal (fun e => e * (qy - py)) B). cbv beta in *. lra.
Qed.

Lemma i2_lt n i : (i < n)%nat -> (i2 n i < n)%nat.
Proof. intros. unfold i2. apply Nat.mod_upper_bound. lia. Qed.
Lemma i2_val n i : (4 <= n)%nat -> (i < n)%nat -> (i2 n i = i + (n / 2 - 1) \/ i2 n i + n = i + (n / 2 - 1))%nat.
Proof.
  intros N H. unfold i2. assert (n / 2 <= n - 1)%nat by (assert (n / 2 < n)%nat by (apply Nat.div_lt; lia); lia). assert (2 <= n / 2)%nat by (apply (Nat.div_le_lower_bound n 2 2); lia).
  destruct (le_lt_dec n (i + n / 2 - 1)).
  - right. replace (i + n / 2 - 1)%nat with (i + n / 2 - 1 - n + 1 * n)%nat by lia. rewrite Nat.mod_add by lia. rewrite Nat.mod_small by lia. lia.
  - left. rewrite Nat.mod_small by lia. lia.
Qed.
Lemma i2_distinct n i : (4 <= n)%nat -> (i < n)%nat -> i <> i2 n i /\ i2 n i <> i2 n (i2 n i) /\ i2 n (i2 n i) <> i.
Proof.
  intros N H. assert (1 <= n / 2 - 1)%nat by (assert (2 <= n / 2)%nat by (apply (Nat.div_le_lower_bound n 2 2); lia); lia). assert (2 * (n / 2 - 1) <= n - 2)%nat by (pose proof (Nat.mul_div_le n 2); lia).
  pose proof (i2_lt n i H) as H2. pose proof (i2_lt n _ H2). destruct (i2_val n i N H), (i2_val n (i2 n i) N H2); lia.
Qed.
Lemma i2_inj n i j : (4 <= n)%nat -> (i < n)%nat -> (j < n)%nat -> i2 n i = i2 n j -> i = j.
Proof. intros N Hi Hj E. destruct (i2_val n i N Hi), (i2_val n j N Hj); lia. Qed.

(** *** Counting *)
Lemma filter_map_comm {A B} (g : A -> B) f l : filter f (map g l) = map g (filter (fun a => f (g a)) l).
Proof. induction l as [|a l IH]; cbn; [reflexivity|]. rewrite IH. now destruct (f (g a)). Qed.
Lemma filter_or_le {A} (f g : A -> bool) l : (length (filter (fun a => f a || g a)%bool l) <= length (filter f l) + length (filter g l))%nat.
Proof. induction l as [|a l IH]; cbn; [lia|]. destruct (f a), (g a); cbn; lia. Qed.
Lemma filter_imp_le {A} (f g : A -> bool) l : (forall a, In a l -> f a = true -> g a = true) -> (length (filter f l) <= length (filter g l))%nat.
Proof.
  induction l as [|a l IH]; cbn; intros H; [lia|]. specialize (IH (fun b Hb => H b (or_intror Hb))). pose proof (H a (or_introl eq_refl)). destruct (f a); [rewrite H0 by reflexivity; cbn; lia|]. destruct (g a); cbn; lia.
Qed.
Lemma i2_perm n : (4 <= n)%nat -> Permutation (map (i2 n) (seq 0 n)) (seq 0 n).
Proof.
  intros N. apply NoDup_Permutation_bis.
  - assert (G : forall l, NoDup l -> (forall i, In i l -> (i < n)%nat) -> NoDup (map (i2 n) l)).
    { induction l as [|a l IH]; intros D B; cbn; [constructor|]. inversion D; subst. constructor; [|apply IH; [assumption|intros i Hi; apply B; now right]]. intros Hin. apply in_map_iff in Hin. destruct Hin as (b & Eb & Hb). apply i2_inj in Eb; [|exact N|apply B; now right|apply B; now left]. subst. contradiction. }
    apply G; [apply seq_NoDup|]. intros i Hi. apply in_seq in Hi. lia.
  - now rewrite map_length.
  - intros i Hi. apply in_map_iff in Hi. destruct Hi as (b & <- & Hb). apply in_seq in Hb. apply in_seq. split; [lia|]. apply i2_lt. lia.
Qed.
Lemma count_shift n (f : nat -> bool) : (4 <= n)%nat -> length (filter (fun i => f (i2 n i)) (seq 0 n)) = length (filter f (seq 0 n)).
Proof. intros N. rewrite <- (map_length (i2 n)), <- filter_map_comm. apply Permutation_length, filter_perm, i2_perm, N. Qed.
Lemma count_nth {A} (d : A) (f : A -> bool) l : length (filter (fun i => f (nth i l d)) (seq 0 (length l))) = length (filter f l).
Proof.
  assert (E : map (fun i => nth i l d) (seq 0 (length l)) = l).
  { apply nth_ext with d d; rewrite map_length, seq_length; [reflexivity|]. intros i Hi. rewrite nth_indep with (d' := nth 0 l d) by (now rewrite map_length, seq_length). rewrite (map_nth (fun i => nth i l d)), seq_nth by exact Hi. reflexivity. }
  rewrite <- (map_length (fun i => nth i l d)), <- filter_map_comm, E. reflexivity.
Qed.
Lemma median_majority v l : (2 * length (filter (fun x => negb (Reqb x v)) l) < length l)%nat -> median l = Ok v.
Proof.
  intros H. assert (l <> []) by (intros ->; cbn in H; lia). destruct (median l) as [m|e] eqn:E; [|destruct l; [congruence|discriminate]]. f_equal.
  destruct (median_halves l m E) as [H1 H2]. destruct (Rtotal_order m v) as [L|[L|L]]; [|exact L|]; exfalso.
  - assert (length (filter (fun x => Rleb x m) l) <= length (filter (fun x => negb (Reqb x v)) l))%nat; [|lia]. apply filter_imp_le. intros x _ Hx. apply Rleb_true in Hx. apply Bool.negb_true_iff, Reqb_false. lra.
  - assert (length (filter (fun x => Rleb m x) l) <= length (filter (fun x => negb (Reqb x v)) l))%nat; [|lia]. apply filter_imp_le. intros x _ Hx. apply Rleb_true in Hx. apply Bool.negb_true_iff, Reqb_false. lra.
Qed.
Lemma mean_all v l : l <> [] -> Forall (fun x => x = v) l -> mean l = Ok v.
Proof.
  intros N F. rewrite mean_Ok by exact N. f_equal. assert (E : Rsum l = INR (length l) * v).
  { clear N. induction F as [|x l -> F IH]; [cbn; unfold Rsum; cbn; lra|]. rewrite Rsum_cons, IH. cbn [length]. rewrite S_INR. ring. }
  rewrite E. field. pose proof (INR_length_pos l N). lra.
Qed.

(** *** The fast fit *)
Definition good (c : R * R) (r : R) (p : R * R) : bool := Reqb (dist_to c p) r.
Definition bad (c : R * R) (r : R) (p : R * R) : bool := negb (good c r p).
Lemma good_on c r p : good c r p = true <-> on_circle c r p.
Proof. unfold good. rewrite Reqb_true. reflexivity. Qed.
Lemma bad_off c r p : bad c r p = true <-> ~ on_circle c r p.
Proof. unfold bad, good. rewrite Bool.negb_true_iff, Reqb_false. reflexivity. Qed.
Lemma nodup_filter_idx {A} (d : A) g P : NoDup (filter g P) -> forall i j, (i < j < length P)%nat -> g (nth i P d) = true -> nth i P d = nth j P d -> False.
Proof.
  induction P as [|a P IH]; cbn [filter length]; intros N i j H G E; [lia|]. destruct j as [|j]; [lia|]. destruct i as [|i]; cbn [nth] in *.
  - rewrite G in N. inversion N as [|? ? N1 _]. apply N1, filter_In. split; [|exact G]. rewrite E. apply nth_In. lia.
  - apply (IH ltac:(destruct (g a); [now inversion N|exact N]) i j); auto. lia.
Qed.
Lemma distinct_idx c r P i j : NoDup (filter (good c r) P) -> (i < length P)%nat -> (j < length P)%nat -> i <> j -> on_circle c r (pt P i) -> on_circle c r (pt P j) -> pt P i <> pt P j.
Proof.
  intros N Hi Hj D Gi Gj E. apply good_on in Gi, Gj. unfold pt in *. destruct (Nat.lt_total i j) as [L|[L|L]]; [|contradiction|].
  - exact (nodup_filter_idx (0, 0) (good c r) P N i j ltac:(lia) Gi E).
  - exact (nodup_filter_idx (0, 0) (good c r) P N j i ltac:(lia) Gj (eq_sym E)).
Qed.
Lemma centers_count c r P : (4 <= length P)%nat -> NoDup (filter (good c r) P) ->
  forall f : R * R -> R, (length (filter (fun x => negb (Reqb x (f c))) (map f (map (center_at P) (seq 0 (length P))))) <= 3 * length (filter (bad c r) P))%nat.
Proof.
  intros N D f. set (n := length P) in *. rewrite map_map, filter_map_comm, map_length.
  pose (b := fun i => bad c r (pt P i)).
  assert (L : (length (filter b (seq 0 n)) = length (filter (bad c r) P))%nat) by apply (count_nth (0, 0) (bad c r) P).
  apply Nat.le_trans with (length (filter (fun i => b i || (b (i2 n i) || b (i2 n (i2 n i))))%bool (seq 0 n))).
  - apply filter_imp_le. intros i Hi H. apply in_seq in Hi. destruct (b i || _)%bool eqn:B; [reflexivity|]. exfalso. apply Bool.orb_false_iff in B. destruct B as [B0 B]. apply Bool.orb_false_iff in B. destruct B as [B1 B2].
    unfold b, bad in B0, B1, B2. apply Bool.negb_false_iff in B0, B1, B2. apply good_on in B0, B1, B2. apply Bool.negb_true_iff, Reqb_false in H. apply H. f_equal.
    assert (Hi' : (i < n)%nat) by lia. pose proof (i2_lt n i Hi') as H1. pose proof (i2_lt n _ H1) as H2. destruct (i2_distinct n i N Hi') as (D1 & D2 & D3).
    apply (center_exact c r); fold n; auto; apply (distinct_idx c r); auto.
  - pose proof (filter_or_le b (fun i => b (i2 n i) || b (i2 n (i2 n i)))%bool (seq 0 n)). pose proof (filter_or_le (fun i => b (i2 n i)) (fun i => b (i2 n (i2 n i))) (seq 0 n)).
    pose proof (count_shift n b N). pose proof (count_shift n (fun i => b (i2 n i)) N). cbv beta in *. lia.
Qed.
Lemma fast_median c r P : (4 <= length P)%nat -> NoDup (filter (good c r) P) -> (6 * length (filter (bad c r) P) < length P)%nat -> fast_fit_circle true P = Ok (c, r).
Proof.
  intros N D B. unfold fast_fit_circle. pose proof (centers_count c r P N D fst) as X. pose proof (centers_count c r P N D snd) as Y.
  rewrite (median_majority (fst c)) by (rewrite !map_length, seq_length; lia). cbn [rbind]. rewrite (median_majority (snd c)) by (rewrite !map_length, seq_length; lia). cbn [rbind]. rewrite <- surjective_pairing.
  rewrite (median_majority r); [reflexivity|]. rewrite filter_map_comm, !map_length. change (fun a => negb (Reqb (dist_to c a) r)) with (bad c r). lia.
Qed.
Lemma all_good c r P : Forall (on_circle c r) P -> filter (bad c r) P = [].
Proof. induction 1 as [|p P H F IH]; [reflexivity|]. cbn [filter]. unfold bad at 1. apply good_on in H. rewrite H. exact IH. Qed.
Lemma all_good_filter c r P : Forall (on_circle c r) P -> filter (good c r) P = P.
Proof. induction 1 as [|p P H F IH]; [reflexivity|]. cbn [filter]. apply good_on in H. rewrite H. now f_equal. Qed.
Lemma filter_nil_Forall {A} (f : A -> bool) l : filter f l = [] -> Forall (fun a => f a = false) l.
Proof. induction l as [|a l IH]; cbn; intros H; [constructor|]. destruct (f a) eqn:E; [discriminate|]. constructor; auto. Qed.
Lemma fast_mean c r P : (4 <= length P)%nat -> NoDup P -> Forall (on_circle c r) P -> fast_fit_circle false P = Ok (c, r).
Proof.
  intros N D F. assert (D' : NoDup (filter (good c r) P)) by now rewrite all_good_filter.
  assert (NE : P <> []) by (intros ->; cbn in N; lia).
  assert (G : forall f : R * R -> R, mean (map f (map (center_at P) (seq 0 (length P)))) = Ok (f c)).
  { intros f. apply mean_all; [destruct P; [congruence|discriminate]|]. pose proof (centers_count c r P N D' f) as X. rewrite (all_good c r P F) in X. cbn [length] in X. rewrite Nat.mul_0_r in X. apply Nat.le_0_r, length_zero_iff_nil, filter_nil_Forall in X.
    eapply Forall_impl; [|exact X]. cbv beta. intros x Hx. apply Bool.negb_false_iff, Reqb_true in Hx. exact Hx. }
  unfold fast_fit_circle. rewrite (G fst). cbn [rbind]. rewrite (G snd). cbn [rbind]. rewrite <- surjective_pairing. rewrite (mean_all r); [reflexivity|destruct P; [congruence|discriminate]|].
  rewrite Forall_map. exact F.
Qed.
(** Up to three points the centre is their average. *)
Lemma few_points P i : (length P <= 3)%nat -> (i < length P)%nat -> center_at P i = pt P i.
Proof.
  intros N H. assert (E : i2 (length P) i = i).
  { unfold i2. destruct (length P) as [|[|[|[|n]]]]; try lia; destruct i as [|[|[|i]]]; try lia; reflexivity. }
  unfold center_at, mid, nrm. rewrite E, E. destruct (pt P i) as [x y]. cbn [fst snd]. f_equal; set (s := if Reqb _ 0 then _ else _); field.
Qed.
Lemma few_centers P : (length P <= 3)%nat -> map (center_at P) (seq 0 (length P)) = P.
Proof.
  intros N. apply nth_ext with (0, 0) (0, 0); rewrite map_length, seq_length; [reflexivity|]. intros i Hi. rewrite nth_indep with (d' := center_at P 0) by (now rewrite map_length, seq_length). rewrite (map_nth (center_at P)), seq_nth by exact Hi. cbn [plus]. now apply few_points.
Qed.

(** *** The refined fit *)
Lemma squares_zero l : sum_of_squares l <= 0 -> Forall (fun x => x = 0) l.
Proof.
  assert (P : forall l, 0 <= sum_of_squares l) by (induction l0 as [|x l0 IH]; cbn [sum_of_squares fold_right]; [lra|]; pose proof (pow2_ge_0 x); unfold sum_of_squares in IH; lra).
  induction l as [|x l IH]; intros H; [constructor|]. change (sum_of_squares (x :: l)) with (x ^ 2 + sum_of_squares l) in H. pose proof (pow2_ge_0 x). pose proof (P l). constructor; [apply sq_zero; lra|apply IH; lra].
Qed.
Lemma zero_squares l : Forall (fun x => x = 0) l -> sum_of_squares l = 0.
Proof. induction 1 as [|x l -> F IH]; [reflexivity|]. change (sum_of_squares (0 :: l)) with (0 ^ 2 + sum_of_squares l). rewrite IH. ring. Qed.
Lemma refined_exact leastsq c r P : descends leastsq -> (4 <= length P)%nat -> NoDup P -> Forall (on_circle c r) P ->
  fit_circle leastsq P = if bad_radius r then Err ValueError else Ok (c, r).
Proof.
  intros L N D F. unfold fit_circle. rewrite (fast_mean c r P N D F). destruct (bad_radius r) eqn:B; [reflexivity|].
  assert (NE : P <> []) by (intros ->; cbn in N; lia).
  assert (M : forall c' r', Forall (on_circle c' r') P -> mean (map (dist_to c') P) = Ok r') by (intros c' r' F'; apply mean_all; [destruct P; [congruence|discriminate]|]; rewrite Forall_map; exact F').
  assert (Z : sum_of_squares (f_2b P c) = 0).
  { apply zero_squares. unfold f_2b. rewrite Forall_map, Forall_map. pose proof (M c r F) as E. rewrite mean_Ok in E by (destruct P; [congruence|discriminate]). apply Ok_inj in E. rewrite E. eapply Forall_impl; [|exact F]. intros p Hp. cbv beta. unfold on_circle in Hp. unfold dist_to, hypot. lra. }
  pose proof (L (f_2b P) c) as L1. rewrite Z in L1. apply squares_zero in L1. set (c2 := leastsq (f_2b P) c) in *. unfold f_2b in L1. set (R2 := Rsum _ / _) in L1. rewrite !Forall_map in L1.
  assert (F2 : Forall (on_circle c2 R2) P) by (eapply Forall_impl; [|exact L1]; intros p Hp; unfold on_circle; unfold dist_to, hypot in Hp; lra).
  assert (C : c2 = c).
  { rewrite Forall_forall in F, F2. assert (H0 : (0 < length P)%nat) by lia. pose proof (i2_lt _ _ H0) as H1. pose proof (i2_lt _ _ H1) as H2. destruct (i2_distinct _ 0 N H0) as (D1 & D2 & D3).
    assert (I : forall i, (i < length P)%nat -> In (pt P i) P) by (intros i Hi; apply nth_In; exact Hi).
    assert (DI : forall i j, (i < length P)%nat -> (j < length P)%nat -> i <> j -> pt P i <> pt P j) by (intros i j Hi Hj Nij E; apply Nij; apply (proj1 (NoDup_nth P (0, 0)) D); auto).
    rewrite <- (center_exact c2 R2 P 0 H0) by (first [apply F2; apply I|apply DI]; assumption). apply (center_exact c r P 0 H0); first [apply F; apply I|apply DI]; assumption. }
  rewrite C, (M c r F). cbn [rbind]. now rewrite B.
Qed.

(** *** The robust fit *)
Lemma argmax_from_first best m : forall B k, (forall x, In x B -> x <= m) -> argmax_from best m k B = best.
Proof. induction B as [|x B IH]; intros k H; [reflexivity|]. cbn [argmax_from]. assert (Rltb m x = false) as -> by (apply Rltb_false, H; now left). apply IH. intros y Hy. apply H. now right. Qed.
Lemma argmax_from_spec v B : (forall x, In x B -> x <= v) -> forall A best m k, m < v -> (forall x, In x A -> x < v) -> argmax_from best m k (A ++ v :: B) = (k + length A)%nat.
Proof.
  intros HB. induction A as [|a A IH]; intros best m k Hm HA; cbn [app argmax_from length].
  - assert (Rltb m v = true) as -> by now apply Rltb_true. rewrite argmax_from_first by exact HB. lia.
  - assert (a < v) by (apply HA; now left). assert (forall x, In x A -> x < v) by (intros x Hx; apply HA; now right). destruct (Rltb m a); rewrite IH by assumption; lia.
Qed.
Lemma argmax_spec A v B : (forall x, In x A -> x < v) -> (forall x, In x B -> x <= v) -> argmax (A ++ v :: B) = Ok (length A).
Proof.
  intros HA HB. destruct A as [|a A]; cbn [app argmax].
  - now rewrite argmax_from_first.
  - rewrite argmax_from_spec; auto; [apply HA; now left|]. intros x Hx. apply HA. now right.
Qed.
Lemma masked_true {A} (l : list A) : masked l (repeat true (length l)) = l.
Proof. unfold masked. induction l as [|a l IH]; [reflexivity|]. cbn in *. now rewrite IH. Qed.
Lemma masked_but {A} (l : list A) p l' : masked (l ++ p :: l') (repeat true (length l) ++ false :: repeat true (length l')) = l ++ l'.
Proof. induction l as [|a l IH]; [exact (masked_true l')|]. unfold masked in *. cbn in *. now rewrite IH. Qed.
Lemma seti_app {A} (l : list A) a l' v : seti (l ++ a :: l') (length l) v = Ok (l ++ v :: l').
Proof. induction l as [|b l IH]; [reflexivity|]. cbn [app length seti]. rewrite IH. reflexivity. Qed.
Lemma geti_app {A} (l : list A) a l' : geti (l ++ a :: l') (length l) = Ok a.
Proof. unfold geti. rewrite nth_error_app2, Nat.sub_diag by lia. reflexivity. Qed.
Lemma count_true n : length (filter (fun b : bool => b) (repeat true n)) = n.
Proof. induction n; cbn; congruence. Qed.
Lemma but_count n m : length (filter (fun b : bool => b) (repeat true n ++ false :: repeat true m)) = (n + m)%nat.
Proof. rewrite filter_app, app_length. cbn [filter]. now rewrite !count_true. Qed.

Section Worst.
Variables (c : R * R) (r nsig minerr : R) (A : list (R * R)) (p : R * R) (B : list (R * R)).
Let P := A ++ p :: B.
Let e (q : R * R) : R := Rabs (dist_to c q - r).
Hypothesis minerr_pos : 0 < minerr.
Hypothesis far : minerr <= e p.
Hypothesis before : forall q, In q A -> e q < e p.
Hypothesis after : forall q, In q B -> e q <= e p.
Hypothesis distinct : NoDup (filter (good c r) P).
Hypothesis few : (6 * length (filter (bad c r) P) < length P)%nat.
Lemma p_bad : bad c r p = true.
Proof. unfold bad, good. apply Bool.negb_true_iff, Reqb_false. intros H. unfold e in far. rewrite H in far. replace (r - r) with 0 in far by ring. rewrite Rabs_R0 in far. lra. Qed.
Lemma P_length : length P = S (length A + length B).
Proof. unfold P. rewrite app_length. cbn. lia. Qed.
Lemma P_bad : length (filter (bad c r) P) = S (length (filter (bad c r) (A ++ B))).
Proof. unfold P. rewrite !filter_app, !app_length. cbn [filter]. rewrite p_bad. cbn [length]. lia. Qed.
Lemma P_good : filter (good c r) P = filter (good c r) (A ++ B).
Proof. unfold P. rewrite !filter_app. cbn [filter]. pose proof p_bad as H. unfold bad in H. apply Bool.negb_true_iff in H. now rewrite H. Qed.
Lemma both_fits : fast_fit_circle true P = Ok (c, r) /\ fast_fit_circle true (A ++ B) = Ok (c, r).
Proof.
  pose proof P_length as L. pose proof P_bad as LB. pose proof few as F. rewrite LB, L in F. split.
  - apply fast_median; [lia|exact distinct|exact few].
  - apply fast_median; [rewrite app_length; lia|rewrite <- P_good; exact distinct|rewrite app_length; lia].
Qed.
Definition but_p : list bool := repeat true (length A) ++ false :: repeat true (length B).
Definition all_P : list bool := repeat true (length A) ++ true :: repeat true (length B).
Lemma reject_turn k cur ok : ok = all_P \/ ok = but_p -> reject (S k) nsig minerr P cur ok = reject k nsig minerr P (c, r) but_p.
Proof.
  intros H. cbn [reject]. assert (E : fast_fit_circle true (masked P ok) = Ok (c, r)).
  { destruct both_fits as [F1 F2]. destruct H as [->| ->]; unfold P, but_p, all_P.
    - replace (repeat true (length A) ++ true :: repeat true (length B)) with (repeat true (length (A ++ p :: B))) by (rewrite app_length, repeat_app; reflexivity). rewrite masked_true. exact F1.
    - rewrite masked_but. exact F2. }
  rewrite E. cbn [rbind].
  assert (M : median (map (fun q => Rabs (dist_to c q - r)) P) = Ok 0).
  { apply median_majority. rewrite filter_map_comm, !map_length. pose proof few as F. assert (length (filter (fun a => negb (Reqb (Rabs (dist_to c a - r)) 0)) P) <= length (filter (bad c r) P))%nat; [|lia].
    apply filter_imp_le. intros q _ Hq. apply Bool.negb_true_iff, Reqb_false in Hq. unfold bad, good. apply Bool.negb_true_iff, Reqb_false. intros Eq. apply Hq. rewrite Eq. replace (r - r) with 0 by ring. apply Rabs_R0. }
  rewrite M. cbn [rbind]. assert (W : argmax (map (fun q => Rabs (dist_to c q - r)) P) = Ok (length A)).
  { unfold P. rewrite map_app. cbn [map]. rewrite argmax_spec; [now rewrite map_length| |]; intros x Hx; apply in_map_iff in Hx; destruct Hx as (q & <- & Hq); [apply before|apply after]; exact Hq. }
  rewrite W. cbn [rbind]. assert (G : geti (map (fun q => Rabs (dist_to c q - r)) P) (length A) = Ok (e p)).
  { unfold P. rewrite map_app. cbn [map]. rewrite <- (map_length (fun q => Rabs (dist_to c q - r)) A). apply geti_app. }
  rewrite G. cbn [rbind]. rewrite !Rmult_0_r. assert (Rltb (e p) 0 = false) as -> by (apply Rltb_false, Rabs_pos). assert (Rltb (e p) minerr = false) as -> by (apply Rltb_false; exact far). cbn [orb].
  assert (S : seti ok (length A) false = Ok but_p).
  { rewrite <- (repeat_length true (length A)) at 1. destruct H as [->| ->]; unfold all_P, but_p; apply seti_app. }
  rewrite S. cbn [rbind]. assert (C : length (filter (fun b : bool => b) but_p) = (length A + length B)%nat) by apply but_count. rewrite C.
  pose proof few as F. rewrite P_bad, P_length in F. destruct (Nat.ltb_spec (length A + length B) 3); [lia|reflexivity].
Qed.
Lemma reject_all k cur ok : ok = all_P \/ ok = but_p -> reject (S k) nsig minerr P cur ok = Ok ((c, r), but_p, false).
Proof.
  revert cur ok. induction k as [|k IH]; intros cur ok H; rewrite reject_turn by exact H; [reflexivity|]. apply IH. now right.
Qed.
End Worst.

(** *** A circle is always returned when there are points *)
Lemma median_some l : l <> [] -> exists m, median l = Ok m.
Proof. destruct l as [|a l]; [contradiction|]. intros _. eexists. reflexivity. Qed.
Lemma map_nonempty {A B} (f : A -> B) l : l <> [] -> map f l <> [].
Proof. now destruct l. Qed.
Lemma fast_total b Q : Q <> [] -> exists cr, fast_fit_circle b Q = Ok cr.
Proof.
  intros N. unfold fast_fit_circle. set (av := if b then median else mean). assert (T : forall l, l <> [] -> exists m, av l = Ok m) by (intros l Nl; unfold av; destruct b; [now apply median_some|eexists; now apply mean_Ok]). set (cs := map (center_at Q) _).
  assert (Nc : cs <> []) by (apply map_nonempty; destruct Q; [contradiction|discriminate]). destruct (T (map fst cs)) as [x ->]; [now apply map_nonempty|]. destruct (T (map snd cs)) as [y ->]; [now apply map_nonempty|]. cbn [rbind]. destruct (T (map (dist_to (x, y)) Q)) as [r ->]; [now apply map_nonempty|]. cbn. eauto.
Qed.
Lemma masked_some {A} (P : list A) ok : length ok = length P -> (0 < length (filter (fun b : bool => b) ok))%nat -> masked P ok <> [].
Proof.
  unfold masked. revert ok. induction P as [|p P IH]; intros [|b ok] L H; try discriminate L; [cbn in H; lia|]. injection L as L. cbn. destruct b; [discriminate|]. apply IH; auto.
Qed.
Lemma seti_total {A} (v : A) : forall l i, (i < length l)%nat -> exists l', seti l i v = Ok l' /\ length l' = length l.
Proof. induction l as [|a l IH]; intros [|i] L; cbn in *; try lia; [eauto|]. destruct (IH i ltac:(lia)) as (l' & -> & E). cbn. exists (a :: l'). split; [reflexivity|cbn; congruence]. Qed.
Lemma argmax_lt l w : argmax l = Ok w -> (w < length l)%nat.
Proof.
  destruct l as [|a l]; [discriminate|]. cbn. intros E. injection E as <-. assert (G : forall l best m k, (best < k)%nat -> (argmax_from best m k l < k + length l)%nat).
  { clear. induction l as [|x l IH]; intros best m k L; cbn; [lia|]. destruct (Rltb m x); [specialize (IH k x (S k))|specialize (IH best m (S k))]; lia. } specialize (G l 0%nat a 1%nat). lia.
Qed.
Lemma reject_total nsig minerr P : P <> [] -> forall k cur ok, length ok = length P -> (0 < length (filter (fun b : bool => b) ok))%nat ->
  exists cr ok' over, reject k nsig minerr P cur ok = Ok (cr, ok', over) /\ length ok' = length P /\ (over = false -> (0 < length (filter (fun b : bool => b) ok'))%nat).
Proof.
  intros NP. induction k as [|k IH]; intros cur ok L H; [exists cur, ok, false; auto|]. cbn [reject]. destruct (fast_total true _ (masked_some P ok L H)) as [[c r] ->]. cbn [rbind]. set (res_ := map _ P). assert (Nr : res_ <> []) by now apply map_nonempty. destruct (median_some _ Nr) as [med ->]. cbn [rbind].
  destruct (argmax res_) as [w|] eqn:Ew; [|destruct res_; [contradiction|discriminate]]. apply argmax_lt in Ew. cbn [rbind]. unfold geti. destruct (nth_error res_ w) as [d|] eqn:Ed; [|apply nth_error_None in Ed; lia]. cbn [rbind]. destruct (_ || _)%bool; [exists (c, r), ok, false; auto|].
  unfold res_ in Ew. rewrite map_length in Ew. destruct (seti_total false ok w ltac:(lia)) as (ok' & -> & L'). cbn [rbind]. destruct (Nat.ltb_spec (length (filter (fun b : bool => b) ok')) 3); [eexists; eexists; exists true; split; [reflexivity|]; split; [congruence|discriminate]|]. apply IH; [congruence|lia].
Qed.
Lemma robust_total leastsq nsig minerr P : P <> [] -> exists cr ok, robust_fit_circle leastsq nsig minerr P = Ok (cr, ok).
Proof.
  intros NP. unfold robust_fit_circle. destruct P as [|p P0] eqn:EP; [contradiction|]. rewrite <- EP in *. clear EP p P0. destruct (reject_total nsig minerr P NP 12 ((0, 0), 0) (repeat true (length P))) as (cr & ok & over & -> & L & H); [apply repeat_length|rewrite count_true; destruct P; [contradiction|cbn; lia]|]. cbn [rbind]. destruct over; [eauto|].
  pose proof (masked_some P ok L (H eq_refl)) as NM. unfold fit_circle. destruct (fast_total false _ NM) as [[c r] ->]. destruct (bad_radius r); [eauto|]. cbv zeta. rewrite mean_Ok by now apply map_nonempty. cbn [rbind]. destruct (bad_radius _); eauto.
Qed.
