(** C63, C84: detection of the phi arms in front illuminated images. *)
From Verif.Model Require Import BrightImage.
From Verif.Proofs Require Import Prelude RealNum Stats Pos2ptl BrightImage.
From Verif.Proofs Require Circles.
From Coq Require Import Reals Lra.
From Verif.Spec Require Import BrightImage.
Local Open Scope R_scope.

(** C63. Calls sharing the template, which each of them normalises in place, give what calls with a fresh template give, and the same however the spots are distributed over processes. *)
Theorem C63_scheduling : forall canny rotate round image ang_step t chunks,
  parallel canny rotate round image ang_step t chunks = serial canny rotate round image ang_step t (List.concat chunks).
Proof.
  intros canny rotate round image ang_step t chunks. rewrite serial_fresh, rmapM_concat. unfold parallel. f_equal. apply rmapM_ext. intros l _. apply serial_fresh.
Qed.
Print Assumptions C63_scheduling.
Theorem C63_fresh : forall canny rotate round image ang_step t spots ds i s, serial canny rotate round image ang_step t spots = Ok ds -> nth_error spots i = Some s ->
  exists d t', nth_error ds i = Some d /\ detect_phi_arm canny rotate round image ang_step t s = Ok (d, t').
Proof.
  intros canny rotate round image ang_step t spots ds i s H Hi. rewrite serial_fresh in H. apply rmapM_Ok_Forall2 in H. revert i Hi. induction H as [|x d l ds E F IH]; intros i Hi; [destruct i; discriminate|]. destruct i as [|i]; [|exact (IH i Hi)]. cbn in Hi. injection Hi as ->. destruct (detect_phi_arm _ _ _ _ _ t s) as [[d1 t1]|]; [|discriminate]. cbn in E. apply Ok_inj in E. exists d1, t1. cbn. now rewrite E.
Qed.
Print Assumptions C63_fresh.

Lemma total_Rsum l : total l = Rsum l.
Proof. reflexivity. Qed.
Lemma inner_sum a b : pixel_sum (pixel_map2 Rmult a b) = inner a b.
Proof. unfold pixel_sum, pixel_map2, inner. rewrite map_map. reflexivity. Qed.
Lemma inner_self a : pixel_sum (pixel_map (fun u => u ^ 2) a) = inner a a.
Proof.
  unfold pixel_sum, pixel_map, inner. induction a as [|r a IH]; [reflexivity|]. cbn [map combine fst snd]. cbn [total fold_right]. rewrite Rsum_cons, IH. f_equal. induction r as [|u r IHr]; [reflexivity|]. cbn [map combine fst snd total fold_right]. rewrite Rsum_cons, IHr. f_equal. ring.
Qed.
Lemma inner_div a b N : N <> 0 -> pixel_sum (pixel_map2 Rmult a (pixel_map (fun u => u / N) b)) = inner a b / N.
Proof.
  intros HN. rewrite inner_sum. unfold inner, pixel_map. revert b. induction a as [|r a IH]; intros b; [cbn; field; exact HN|]. destruct b as [|s b]; [cbn; field; exact HN|]. cbn [map combine fst snd total fold_right]. unfold total in *. rewrite IH.
  enough (E : forall s, fold_right Rplus 0 (map (fun uv => fst uv * snd uv) (combine r (map (fun u => u / N) s))) = fold_right Rplus 0 (map (fun uv => fst uv * snd uv) (combine r s)) / N) by (rewrite E; field; exact HN).
  clear. induction r as [|u r IH]; intros s; [cbn; unfold Rdiv; ring|]. destruct s as [|v s]; [cbn; unfold Rdiv; ring|]. cbn [map combine fst snd fold_right]. rewrite IH. unfold Rdiv. ring.
Qed.
Lemma disk_entry pad i j : (i < 2 * pad + 1)%nat -> (j < 2 * pad + 1)%nat -> nth j (nth i (disk pad) []) 0 = if Rlt_dec ((INR i - INR pad) ^ 2 + (INR j - INR pad) ^ 2) (INR pad ^ 2) then 1 else 0.
Proof.
  intros Hi Hj. unfold disk. set (f := fun i0 => map _ _). assert (E : nth i (map f (seq 0 (2 * pad + 1))) [] = f i) by (rewrite (nth_indep _ [] (f 0%nat)) by (now rewrite map_length, seq_length); rewrite map_nth, seq_nth by lia; reflexivity). rewrite E. unfold f. clear E f.
  set (g := fun j0 => _ : R). rewrite (nth_indep _ 0 (g 0%nat)) by (now rewrite map_length, seq_length). rewrite map_nth, seq_nth by lia. cbn [Nat.add]. unfold g. clear g.
  rewrite !INR_IZR_INZ. rewrite <- !minus_IZR. replace (IZR (Z.of_nat i - Z.of_nat pad) ^ 2 + IZR (Z.of_nat j - Z.of_nat pad) ^ 2) with (IZR ((Z.of_nat i - Z.of_nat pad) ^ 2 + (Z.of_nat j - Z.of_nat pad) ^ 2)) by (rewrite plus_IZR, !(Z.pow_2_r), !mult_IZR; ring). replace (IZR (Z.of_nat pad) ^ 2) with (IZR (Z.of_nat pad ^ 2)) by (rewrite Z.pow_2_r, mult_IZR; ring).
  destruct (Z.ltb_spec ((Z.of_nat i - Z.of_nat pad) ^ 2 + (Z.of_nat j - Z.of_nat pad) ^ 2) (Z.of_nat pad ^ 2)) as [C|C]; destruct (Rlt_dec _ _) as [D|D]; try reflexivity; exfalso; [apply D; now apply IZR_lt|apply lt_IZR in D; lia].
Qed.
Lemma map_nth_seq {A} (l : list A) (d : A) n : length l = n -> map (fun i => nth i l d) (seq 0 n) = l.
Proof. intros <-. induction l as [|x l IH]; [reflexivity|]. cbn [length seq map nth]. f_equal. rewrite <- seq_shift, map_map. exact IH. Qed.
Lemma inside_eq pad e : shape_ok (2 * pad + 1) e = true -> pixel_map2 Rmult e (disk pad) = inside pad e.
Proof.
  intros S. apply shape_spec in S as [L Hr]. pose proof (disk_shape pad) as D. apply shape_spec in D as [Ld Hd]. unfold pixel_map2, inside. set (n := (2 * pad + 1)%nat) in *.
  rewrite <- (map_nth_seq e [] n L) at 1. rewrite <- (map_nth_seq (disk pad) [] n Ld) at 1.
  assert (C : forall (f g : nat -> list R) l, combine (map f l) (map g l) = map (fun i => (f i, g i)) l) by (intros f g l; induction l; cbn; congruence). rewrite C, map_map. apply map_ext_in. intros i Hi. apply in_seq in Hi. cbn [fst snd].
  rewrite <- (map_nth_seq (nth i e []) 0 n) at 1 by (apply Hr, nth_In; lia). rewrite <- (map_nth_seq (nth i (disk pad) []) 0 n) at 1 by (apply Hd, nth_In; lia).
  assert (C' : forall (f g : nat -> R) l, combine (map f l) (map g l) = map (fun i => (f i, g i)) l) by (intros f g l; induction l; cbn; congruence). rewrite C', map_map. apply map_ext_in. intros j Hj. apply in_seq in Hj. cbn [fst snd]. rewrite disk_entry by lia. destruct (Rlt_dec _ _); ring.
Qed.

(** what one scale gives *)
Lemma edges_eq canny pad stamp sigma en : edges canny pad stamp sigma = Ok en -> en = (inside pad (canny stamp sigma), sqrt (inner (inside pad (canny stamp sigma)) (inside pad (canny stamp sigma)))).
Proof. unfold edges. cbv zeta. destruct (shape_ok (2 * pad + 1) (canny stamp sigma)) eqn:S; [|discriminate]. intros H. apply Ok_inj in H. subst en. rewrite (inside_eq _ _ S). unfold norm2. now rewrite inner_self. Qed.
Lemma geti_Ok {A} (l : list A) i a : geti l i = Ok a -> nth_error l i = Some a.
Proof. unfold geti. destruct (nth_error l i); intros H; [apply Ok_inj in H; congruence|discriminate]. Qed.
Lemma scale_best canny rotate a pad stamp step sigma ang best c N : 0 < step -> (exists n, 10 = INR n * step) -> let e := inside pad (canny stamp sigma) in inner e e <> 0 -> scale canny rotate (Finite a) pad stamp step sigma = Ok (ang, best, c, N) ->
  best = Some (correlation (rotate a (- ang)) e) /\ N = sqrt (inner e e) /\ (exists k j, (k < 72)%nat /\ ang = 5 * INR k - 10 + INR j * step /\ INR j * step < 20 + step) /\ forall k, (k < 72)%nat -> correlation (rotate a (- (5 * INR k))) e <= correlation (rotate a (- ang)) e.
Proof.
  intros Hs (n & Hn) e He H. unfold scale in H. destruct (edges canny pad stamp sigma) as [en|] eqn:E; [|discriminate]. apply edges_eq in E. fold e in E. subst en. cbn [rbind] in H.
  assert (P : 0 < inner e e). { assert (X := sum_nonneg e). rewrite inner_self in X. lra. } assert (Q : sqrt (inner e e) <> 0) by (apply Rgt_not_eq, sqrt_lt_R0; exact P).
  assert (C : forall t, ccf rotate (Finite a) (e, sqrt (inner e e)) t = Some (correlation (rotate a (- t)) e)). { intros t. unfold ccf. cbn [fst snd]. destruct (Reqb (sqrt (inner e e)) 0) eqn:Z; [apply Reqb_true in Z; contradiction|]. now rewrite inner_div by exact Q. }
  rewrite (map_ext _ _ C) in H. destruct (argmax (map _ coarse_angles)) as [pos|] eqn:A1; [|discriminate]. cbn [rbind] in H. destruct (geti coarse_angles pos) as [a0|] eqn:G1; [|discriminate]. cbn [rbind] in H. apply geti_Ok in G1.
  apply argmax_max in A1 as (w & Hw & Mw); [|intros o Ho; apply in_map_iff in Ho as (x & <- & _); discriminate]. rewrite nth_error_map, G1 in Hw. cbn [option_map] in Hw. injection Hw as Hw.
  unfold coarse_angles in G1. rewrite nth_error_map in G1. destruct (nth_error (seq 0 72) pos) as [k0|] eqn:G0; [|discriminate]. cbn in G1. injection G1 as G1. assert (K0 : (k0 < 72)%nat) by (apply nth_error_In, in_seq in G0; lia).
  unfold arange in H. destruct (Reqb step 0) eqn:Z; [apply Reqb_true in Z; lra|]. clear Z. cbn [rbind] in H. set (M := Z.to_nat _) in H.
  assert (Mb : INR M >= (20 + step) / step /\ INR M < (20 + step) / step + 1). { unfold M. replace (a0 + 2 * 5 + step - (a0 - 2 * 5)) with (20 + step) by ring. set (x := (20 + step) / step). assert (Px : 0 < x) by (apply Rdiv_lt_0_compat; lra). destruct (base_Int_part (- x)) as [B1 B2]. assert (Nn : (0 <= - Int_part (- x))%Z). { apply le_IZR. rewrite opp_IZR. lra. } rewrite INR_IZR_INZ, Z2Nat.id by exact Nn. rewrite opp_IZR. lra. }
  set (angles := map _ (seq 0 M)) in H. destruct (argmax _) as [p2|] eqn:A2 in H; [|discriminate]. cbn [rbind] in H. destruct (geti angles p2) as [ang'|] eqn:G2; [|discriminate]. cbn [rbind] in H. destruct (geti (map _ angles) p2) as [b'|] eqn:G3 in H; [|discriminate]. cbn [rbind] in H. apply Ok_inj in H. injection H as -> -> _ <-. cbn [snd].
  apply geti_Ok in G2, G3. rewrite nth_error_map, G2 in G3. cbn [option_map] in G3. rewrite C in G3. injection G3 as <-. apply argmax_max in A2 as (w2 & Hw2 & Mw2); [|intros o Ho; apply in_map_iff in Ho as (x & <- & _); rewrite C; discriminate]. rewrite nth_error_map, G2 in Hw2. cbn [option_map] in Hw2. rewrite C in Hw2. injection Hw2 as Hw2.
  split; [reflexivity|]. split; [reflexivity|]. split.
  - unfold angles in G2. rewrite nth_error_map in G2. destruct (nth_error (seq 0 M) p2) as [j|] eqn:Gj; [|discriminate]. cbn in G2. injection G2 as <-. exists k0, j. split; [exact K0|]. split; [rewrite <- G1; ring|]. assert (J : (j + 1 <= M)%nat) by (apply nth_error_In, in_seq in Gj; lia). apply le_INR in J. rewrite plus_INR in J. cbn in J. apply Rmult_lt_reg_r with (/ step); [now apply Rinv_0_lt_compat|]. rewrite Rmult_assoc, Rinv_r by lra. unfold Rdiv in Mb. lra.
  - intros k Hk. rewrite Hw2. apply Rle_trans with w.
    + apply Mw. apply in_map_iff. exists (5 * INR k). split; [reflexivity|]. unfold coarse_angles. apply in_map_iff. exists k. split; [ring|]. apply in_seq. lia.
    + apply Mw2. apply in_map_iff. exists a0. split; [rewrite C; now rewrite Hw|]. unfold angles. apply in_map_iff. exists n. split; [rewrite <- Hn; ring|]. apply in_seq. split; [lia|]. apply INR_lt. cbn [Nat.add].
      destruct Mb as [Mb _]. assert (X : INR n < (20 + step) / step). { apply Rmult_lt_reg_r with step; [exact Hs|]. replace ((20 + step) / step * step) with (20 + step) by (field; lra). lra. } lra.
Qed.
Lemma scale_nan canny rotate t pad stamp step sigma ang best c N : (t = Nans (t_size t) \/ inner (inside pad (canny stamp sigma)) (inside pad (canny stamp sigma)) = 0) -> scale canny rotate t pad stamp step sigma = Ok (ang, best, c, N) -> best = None.
Proof.
  intros Hn H. unfold scale in H. destruct (edges canny pad stamp sigma) as [en|] eqn:E; [|discriminate]. apply edges_eq in E. cbn [rbind] in H. assert (C : forall x, ccf rotate t en x = None). { intros x. unfold ccf. destruct t as [a|]; [|reflexivity]. destruct Hn as [Hn|Hn]; [discriminate|]. subst en. cbn [snd]. rewrite Hn, sqrt_0. destruct (Reqb 0 0) eqn:Z; [reflexivity|]. assert (X : Reqb 0 0 = true) by now apply Reqb_true. congruence. }
  destruct (argmax _) as [pos|] in H; [|discriminate]. cbn [rbind] in H. destruct (geti coarse_angles pos); [|discriminate]. cbn [rbind] in H. destruct (arange _ _ _) as [angles|]; [|discriminate]. cbn [rbind] in H. destruct (argmax _) as [p2|] in H; [|discriminate]. cbn [rbind] in H. destruct (geti angles p2); [|discriminate]. cbn [rbind] in H. destruct (geti (map _ angles) p2) as [b|] eqn:G in H; [|discriminate]. cbn [rbind] in H. apply Ok_inj in H. injection H as _ <- _ _. apply geti_Ok in G. rewrite nth_error_map in G. destruct (nth_error angles p2); [|discriminate]. cbn in G. rewrite C in G. congruence.
Qed.

Lemma detect_parts canny rotate round image step t xy d t' : detect_phi_arm canny rotate round image step t xy = Ok (d, t') -> exists stamp m ss bb s, cut round image (t_size t / 2) (fst xy) (snd xy) = Ok (stamp, m) /\ rmapM (scale canny rotate t' (t_size t / 2) stamp step) scales = Ok ss /\ argmax (map (fun s => snd (fst (fst s))) ss) = Ok bb /\ nth_error ss bb = Some s /\
  d_angle d = (fst (fst (fst s)) - 90) * (PI / 180) /\ d_ccf d = snd (fst (fst s)) /\ d_image d = m /\ d_norm d = last (map snd ss) 0 /\ d_mean d = option_map mean_of (all_some (snd (fst s))) /\ d_rms d = option_map std_of (all_some (snd (fst s))).
Proof.
  rewrite detect_eq. intros H. destruct (negb _); [discriminate|]. destruct (cut _ _ _ _ _) as [[stamp m]|]; [|discriminate]. cbn [rbind fst snd] in H. destruct (normalise t) as [t1|]; [|discriminate]. cbn [rbind] in H. unfold search in H. destruct (rmapM _ _) as [ss|] eqn:E in H; [|discriminate]. cbn [rbind] in H. destruct (argmax _) as [bb|] eqn:A in H; [|discriminate]. cbn [rbind] in H. destruct (geti ss bb) as [[[[a best] c] N]|] eqn:G; [|discriminate]. cbn [rbind rmap] in H. apply Ok_inj in H. injection H as <- <-.
  exists stamp, m, ss, bb, (a, best, c, N). apply geti_Ok in G. repeat (split; [assumption || reflexivity|]). reflexivity.
Qed.
(** C84. If the edges inside the disk do not vanish at any scale and a whole number of steps make 10 degrees, the coefficient returned is the correlation of the edges of one of the scales
    with the template turned by the angle returned, and no scale has a larger one at any of the 72 angles of the coarse scan. *)
Theorem C84_best : forall canny rotate round image ang_step t xy d a stamp m, 0 < ang_step -> (exists n, 10 = INR n * ang_step) -> detect_phi_arm canny rotate round image ang_step t xy = Ok (d, Finite a) ->
  let pad := (t_size t / 2)%nat in cut round image pad (fst xy) (snd xy) = Ok (stamp, m) -> (forall sigma, In sigma scales -> inner (inside pad (canny stamp sigma)) (inside pad (canny stamp sigma)) <> 0) ->
  let corr sigma angle := correlation (rotate a (- angle)) (inside pad (canny stamp sigma)) in
  exists sigma angle, In sigma scales /\ d_angle d = (angle - 90) * (PI / 180) /\ d_ccf d = Some (corr sigma angle) /\ -10 <= angle < 365 + 10 + ang_step /\ forall sigma' k, In sigma' scales -> (k < 72)%nat -> corr sigma' (5 * INR k) <= corr sigma angle.
Proof.
  intros canny rotate round image ang_step t xy d a stamp m Hs Hn H pad Hc He corr. apply detect_parts in H as (stamp' & m' & ss & bb & s & Hc' & Hss & Ha & Hb & Da & Dc & _). fold pad in Hc', Hss. rewrite Hc in Hc'. apply Ok_inj in Hc'. injection Hc' as <- <-. apply rmapM_Ok_Forall2 in Hss.
  assert (All : Forall2 (fun sigma s => snd (fst (fst s)) = Some (corr sigma (fst (fst (fst s)))) /\ (exists k j, (k < 72)%nat /\ fst (fst (fst s)) = 5 * INR k - 10 + INR j * ang_step /\ INR j * ang_step < 20 + ang_step) /\ forall k, (k < 72)%nat -> corr sigma (5 * INR k) <= corr sigma (fst (fst (fst s)))) scales ss).
  { apply (Forall2_impl_in Hss). intros x [[[ang best] c] N] Ix Hx. cbn [fst snd]. destruct (scale_best canny rotate a pad stamp ang_step x ang best c N Hs Hn (He x Ix) Hx) as (E1 & _ & E2 & E3). auto. }
  clear Hss. assert (NN : forall o, In o (map (fun s => snd (fst (fst s))) ss) -> o <> None). { intros o Ho. apply in_map_iff in Ho as (x & <- & Hx). apply In_nth_error in Hx as (i & Hi). destruct (Forall2_nth_r All Hi) as (y & _ & E & _). rewrite E. discriminate. }
  destruct (argmax_max _ _ NN Ha) as (w & Hw & Mw). rewrite nth_error_map, Hb in Hw. cbn in Hw. injection Hw as Hw. destruct (Forall2_nth_r All Hb) as (sigma & Hsig & E & (k & j & Hk & Hang & Hj) & Hmax). exists sigma, (fst (fst (fst s))). split; [now apply nth_error_In in Hsig|]. split; [exact Da|]. split; [now rewrite Dc|]. split.
  - rewrite Hang. assert (0 <= INR k) by apply pos_INR. assert (0 <= INR j * ang_step) by (apply Rmult_le_pos; [apply pos_INR|lra]). assert (INR k <= 71) by (replace 71 with (INR 71) by (cbn; lra); apply le_INR; lia). lra.
  - intros sigma' k' I' Hk'. apply In_nth_error in I' as (i & Hi). destruct (Forall2_nth_l All Hi) as (s' & Hs' & E' & _ & Hmax'). apply Rle_trans with (corr sigma' (fst (fst (fst s')))); [now apply Hmax'|]. rewrite E in Hw. injection Hw as ->. apply Mw. apply in_map_iff. exists s'. split; [exact E'|]. eapply nth_error_In. exact Hs'.
Qed.
Print Assumptions C84_best.
(** the coefficients of the fine scan *)
Lemma scale_fine canny rotate a pad stamp step n sigma ang best c N : 0 < step -> 10 = INR n * step -> let e := inside pad (canny stamp sigma) in inner e e <> 0 -> scale canny rotate (Finite a) pad stamp step sigma = Ok (ang, best, c, N) ->
  exists k j, (k < 72)%nat /\ (j <= 2 * n)%nat /\ ang = 5 * INR k - 10 + INR j * step /\ c = map Some (map (fun j => correlation (rotate a (- (5 * INR k - 10 + INR j * step))) e) (seq 0 (2 * n + 1))) /\ best = Some (correlation (rotate a (- ang)) e) /\
    (forall u, In u (map (fun j => correlation (rotate a (- (5 * INR k - 10 + INR j * step))) e) (seq 0 (2 * n + 1))) -> u <= correlation (rotate a (- ang)) e) /\ N = sqrt (inner e e).
Proof.
  intros Hs Hn e He H. unfold scale in H. destruct (edges canny pad stamp sigma) as [en|] eqn:E; [|discriminate]. apply edges_eq in E. fold e in E. subst en. cbn [rbind] in H.
  assert (P : 0 < inner e e). { assert (X := sum_nonneg e). rewrite inner_self in X. lra. } assert (Q : sqrt (inner e e) <> 0) by (apply Rgt_not_eq, sqrt_lt_R0; exact P).
  assert (C : forall t, ccf rotate (Finite a) (e, sqrt (inner e e)) t = Some (correlation (rotate a (- t)) e)). { intros t. unfold ccf. cbn [fst snd]. destruct (Reqb (sqrt (inner e e)) 0) eqn:Z; [apply Reqb_true in Z; contradiction|]. now rewrite inner_div by exact Q. }
  destruct (argmax (map _ coarse_angles)) as [pos|]; [|discriminate]. cbn [rbind] in H. destruct (geti coarse_angles pos) as [a0|] eqn:G1; [|discriminate]. cbn [rbind] in H. apply geti_Ok in G1.
  unfold coarse_angles in G1. rewrite nth_error_map in G1. destruct (nth_error (seq 0 72) pos) as [k0|] eqn:G0; [|discriminate]. cbn in G1. injection G1 as G1. assert (K0 : (k0 < 72)%nat) by (apply nth_error_In, in_seq in G0; lia).
  unfold arange in H. destruct (Reqb step 0) eqn:Z; [apply Reqb_true in Z; lra|]. clear Z. cbn [rbind] in H. set (M := Z.to_nat _) in H.
  assert (EM : M = (2 * n + 1)%nat).
  { assert (Mb : INR M >= (20 + step) / step /\ INR M < (20 + step) / step + 1). { unfold M. replace (a0 + 2 * 5 + step - (a0 - 2 * 5)) with (20 + step) by ring. set (x := (20 + step) / step). assert (Px : 0 < x) by (apply Rdiv_lt_0_compat; lra). destruct (base_Int_part (- x)) as [B1 B2]. assert (Nn : (0 <= - Int_part (- x))%Z). { apply le_IZR. rewrite opp_IZR. lra. } rewrite INR_IZR_INZ, Z2Nat.id by exact Nn. rewrite opp_IZR. lra. }
    replace ((20 + step) / step) with (INR (2 * n + 1)) in Mb. 2: { rewrite plus_INR, mult_INR. cbn [INR]. replace 20 with (2 * (INR n * step)) by lra. field. lra. }
    destruct Mb as [M1 M2]. apply Rge_le, INR_le in M1. rewrite <- S_INR in M2. apply INR_lt in M2. lia. }
  rewrite EM in H. clear M EM. set (angles := map _ (seq 0 (2 * n + 1))) in H. destruct (argmax _) as [p2|] eqn:A2 in H; [|discriminate]. cbn [rbind] in H. destruct (geti angles p2) as [ang'|] eqn:G2; [|discriminate]. cbn [rbind] in H. destruct (geti (map _ angles) p2) as [b'|] eqn:G3 in H; [|discriminate]. cbn [rbind] in H. apply Ok_inj in H. injection H as -> -> <- <-. cbn [snd].
  apply geti_Ok in G2, G3. rewrite nth_error_map, G2 in G3. cbn [option_map] in G3. rewrite C in G3. injection G3 as <-. apply argmax_max in A2 as (w2 & Hw2 & Mw2); [|intros o Ho; apply in_map_iff in Ho as (x & <- & _); rewrite C; discriminate]. rewrite nth_error_map, G2 in Hw2. cbn [option_map] in Hw2. rewrite C in Hw2. injection Hw2 as Hw2.
  assert (Ea : angles = map (fun j => 5 * INR k0 - 10 + INR j * step) (seq 0 (2 * n + 1))) by (apply map_ext; intros j; rewrite <- G1; ring). clearbody angles. subst angles.
  rewrite nth_error_map in G2. destruct (nth_error (seq 0 (2 * n + 1)) p2) as [j|] eqn:Gj; [|discriminate]. cbn in G2. injection G2 as G2. exists k0, j. split; [exact K0|]. split; [apply nth_error_In, in_seq in Gj; lia|]. split; [now symmetry|]. split; [rewrite !map_map; apply map_ext; intros i; apply C|]. split; [reflexivity|]. split; [|reflexivity].
  intros u Hu. rewrite Hw2. apply Mw2. apply in_map_iff in Hu as (i & <- & Hi). apply in_map_iff. exists (5 * INR k0 - 10 + INR i * step). split; [apply C|]. apply in_map_iff. exists i. split; [reflexivity|exact Hi].
Qed.
Lemma all_some_map l : all_some (map Some l) = Some l.
Proof. induction l as [|u l IH]; [reflexivity|]. cbn. now rewrite IH. Qed.
(** The other values returned: around one of the angles 5 k of the coarse scan, at one of the scales, the correlation is scanned from 10 degrees below to 10 degrees above in steps of [ang_step].
    The angle returned is that of the largest one; the mean and rms are those of this scan. The image level is the mean of the stamp. The norm of the edges is that of the largest scale, whichever scale gave the angle. *)
Theorem C84_report : forall canny rotate round image ang_step n t xy d a stamp m, 0 < ang_step -> 10 = INR n * ang_step -> detect_phi_arm canny rotate round image ang_step t xy = Ok (d, Finite a) ->
  let pad := (t_size t / 2)%nat in cut round image pad (fst xy) (snd xy) = Ok (stamp, m) -> (forall sigma, In sigma scales -> inner (inside pad (canny stamp sigma)) (inside pad (canny stamp sigma)) <> 0) ->
  let corr sigma angle := correlation (rotate a (- angle)) (inside pad (canny stamp sigma)) in
  exists sigma k, In sigma scales /\ (k < 72)%nat /\ let angle j := 5 * INR k - 10 + INR j * ang_step in let l := map (fun j => corr sigma (angle j)) (seq 0 (2 * n + 1)) in
    (exists j, (j <= 2 * n)%nat /\ d_angle d = (angle j - 90) * (PI / 180) /\ d_ccf d = Some (corr sigma (angle j)) /\ forall i, (i <= 2 * n)%nat -> corr sigma (angle i) <= corr sigma (angle j)) /\
    (exists mean, mean = total l / INR (2 * n + 1) /\ d_mean d = Some mean /\ d_rms d = Some (sqrt (total (map (fun u => (u - mean) ^ 2) l) / INR (2 * n + 1)))) /\
    d_image d = m /\ d_norm d = sqrt (inner (inside pad (canny stamp (15 / 10))) (inside pad (canny stamp (15 / 10)))).
Proof.
  intros canny rotate round image ang_step n t xy d a stamp m Hs Hn H pad Hc He corr. apply detect_parts in H as (stamp' & m' & ss & bb & s & Hc' & Hss & Ha & Hb & Da & Dc & Di & Dn & Dm & Dr). fold pad in Hc', Hss. rewrite Hc in Hc'. apply Ok_inj in Hc'. injection Hc' as <- <-. apply rmapM_Ok_Forall2 in Hss.
  destruct (Forall2_nth_r Hss Hb) as (sigma & Hsig & Es). destruct s as [[[ang best] c] N]. cbn [fst snd] in *. apply nth_error_In in Hsig as Isig.
  destruct (scale_fine canny rotate a pad stamp ang_step n sigma ang best c N Hs Hn (He sigma Isig) Es) as (k & j & Hk & Hj & Eang & Ec & Eb & Mx & _). exists sigma, k. split; [exact Isig|]. split; [exact Hk|]. cbv zeta. split; [|split; [|split; [exact Di|]]].
  - exists j. split; [exact Hj|]. rewrite Da, Dc, Eb, Eang. split; [reflexivity|]. split; [reflexivity|]. intros i Hi. unfold corr. rewrite Eang in Mx. apply Mx. apply in_map_iff. exists i. split; [reflexivity|]. apply in_seq. lia.
  - rewrite Ec, all_some_map in Dm, Dr. cbn [option_map] in Dm, Dr. unfold mean_of in Dm. unfold std_of, mean_of in Dr. rewrite !map_length, !seq_length in Dm, Dr. eexists. split; [reflexivity|]. split; [exact Dm|]. exact Dr.
  - rewrite Dn. assert (E5 : exists s5, nth_error ss 4 = Some s5 /\ scale canny rotate (Finite a) pad stamp ang_step (15 / 10) = Ok s5) by (apply (Forall2_nth_l Hss); reflexivity). destruct E5 as (s5 & Hs5 & E5).
    assert (L : length ss = 5%nat) by (rewrite <- (Forall2_length _ _ _ Hss); reflexivity). destruct ss as [|? [|? [|? [|? [|s5' [|]]]]]]; try discriminate. cbn in Hs5. injection Hs5 as ->. cbn. destruct s5 as [[[ang5 best5] c5] N5]. destruct (scale_fine canny rotate a pad stamp ang_step n (15 / 10) ang5 best5 c5 N5 Hs Hn (He (15 / 10) ltac:(cbn; tauto)) E5) as (_ & _ & _ & _ & _ & _ & _ & _ & EN). exact EN.
Qed.
Print Assumptions C84_report.
Lemma slice_inside {A} (l : list A) (d : A) c pad : (pad <= c)%nat -> (c + pad < length l)%nat -> slice l (Z.of_nat c - Z.of_nat pad) (Z.of_nat c + Z.of_nat pad + 1) = map (fun j => nth (c - pad + j) l d) (seq 0 (2 * pad + 1)).
Proof.
  intros H1 H2. unfold slice. cbv zeta. destruct (Z.ltb_spec (Z.of_nat c + Z.of_nat pad + 1) 0); [lia|]. destruct (Z.ltb_spec (Z.of_nat c - Z.of_nat pad) 0); [lia|]. rewrite !Z.min_l by lia.
  replace (Z.to_nat _) with (2 * pad + 1)%nat by lia. replace (Z.to_nat (Z.of_nat c - Z.of_nat pad)) with (c - pad)%nat by lia.
  apply nth_ext with d d; [rewrite firstn_length, skipn_length, map_length, seq_length; lia|]. intros i Hi. rewrite firstn_length, skipn_length in Hi. rewrite (nth_indep (map _ _) d (nth (c - pad + 0) l d)) by (rewrite map_length, seq_length; lia). rewrite (map_nth (fun j => nth (c - pad + j) l d)), seq_nth by lia. cbn [Nat.add].
  clear H H0. assert (Hi' : (i < 2 * pad + 1)%nat) by lia. clear Hi. revert i Hi'. generalize (2 * pad + 1)%nat as w. intros w i Hi. rewrite <- (firstn_skipn (c - pad) l) at 2. rewrite app_nth2; rewrite firstn_length; [|lia]. replace (c - pad + i - Nat.min (c - pad) (length l))%nat with i by lia. clear - Hi. revert w Hi. generalize (skipn (c - pad) l) as q. clear. intros q. revert i. induction q as [|x q IH]; intros [|i] [|w] Hi; cbn; try reflexivity; try lia. apply IH. lia.
Qed.
(** The stamp searched for edges, when it lies within the image: the square of pixels around the rounded position, first index y, minus their median, in units of their standard deviation; and their mean. *)
Theorem C84_stamp : forall round image pad x y cx cy W stamp m, round x = Z.of_nat cx -> round y = Z.of_nat cy -> (forall r, In r image -> length r = W) -> (pad <= cx)%nat -> (cx + pad < W)%nat -> (pad <= cy)%nat -> (cy + pad < length image)%nat ->
  cut round image pad x y = Ok (stamp, m) ->
  let w := map (fun i => map (fun j => nth (cx - pad + j) (nth (cy - pad + i) image []) 0) (seq 0 (2 * pad + 1))) (seq 0 (2 * pad + 1)) in let l := List.concat w in
  m = total l / INR (length l) /\ exists med sd, median l = Ok med /\ sd = sqrt (total (map (fun u => (u - m) ^ 2) l) / INR (length l)) /\ sd <> 0 /\ stamp = map (map (fun u => (u - med) / sd)) w.
Proof.
  intros round image pad x y cx cy W stamp m Ex Ey Rect P1 P2 P3 P4 H w l. unfold cut in H. rewrite Ex, Ey in H. cbv zeta in H. rewrite (slice_inside image [] cy pad P3 P4) in H. rewrite map_map in H.
  assert (Ew : map (fun i => slice (nth (cy - pad + i) image []) (Z.of_nat cx - Z.of_nat pad) (Z.of_nat cx + Z.of_nat pad + 1)) (seq 0 (2 * pad + 1)) = w).
  { unfold w. apply map_ext_in. intros i Hi. apply in_seq in Hi. apply slice_inside; [exact P1|]. rewrite Rect; [exact P2|]. apply nth_In. lia. }
  rewrite Ew in H. fold l in H. clear Ew. clearbody w. revert H. assert (NE : forall T (a b : T), match l with [] => a | _ :: _ => b end = if Nat.eqb (length l) 0 then a else b) by (intros; destruct l; reflexivity). rewrite NE. destruct (Nat.eqb (length l) 0) eqn:Z; [discriminate|]. apply Nat.eqb_neq in Z. destruct (median l) as [med|]; [|discriminate]. cbn [rbind]. destruct (Reqb (std_of l) 0) eqn:Sd; [discriminate|]. apply Reqb_false in Sd. intros H. apply Ok_inj in H. injection H as <- <-.
  assert (NZ : INR (length l) <> 0) by (apply not_0_INR; exact Z).
  assert (Em : mean_of (map (fun u => u - med) l) = mean_of l - med). { unfold mean_of. rewrite map_length. assert (E : forall q, Rsum (map (fun u => u - med) q) = Rsum q - INR (length q) * med) by (clear; induction q as [|u q IH]; [cbn; unfold Rsum; cbn; lra|]; cbn [map length]; rewrite S_INR; unfold Rsum in *; cbn [fold_right]; rewrite IH; lra). rewrite E. field. exact NZ. }
  assert (Es : std_of (map (fun u => u - med) l) = std_of l). { unfold std_of at 1. rewrite Em, map_map, map_length. unfold std_of. do 3 f_equal. apply map_ext. intros u. replace (u - med - (mean_of l - med)) with (u - mean_of l) by ring. reflexivity. }
  rewrite total_Rsum. split; [reflexivity|]. exists med, (std_of l). split; [reflexivity|]. split; [reflexivity|]. split; [exact Sd|]. rewrite Es. reflexivity.
Qed.
Print Assumptions C84_stamp.
(** If at one scale there are no edges inside the disk, the coefficient returned is nan, whatever the other scales show. *)
Theorem C84_no_edges : forall canny rotate round image ang_step t xy d t' stamp m sigma, detect_phi_arm canny rotate round image ang_step t xy = Ok (d, t') ->
  let pad := (t_size t / 2)%nat in cut round image pad (fst xy) (snd xy) = Ok (stamp, m) -> In sigma scales -> inner (inside pad (canny stamp sigma)) (inside pad (canny stamp sigma)) = 0 -> d_ccf d = None.
Proof.
  intros canny rotate round image ang_step t xy d t' stamp m sigma H pad Hc Hsig He. apply detect_parts in H as (stamp' & m' & ss & bb & s & Hc' & Hss & Ha & Hb & _ & Dc & _). fold pad in Hc', Hss. rewrite Hc in Hc'. apply Ok_inj in Hc'. injection Hc' as <- <-. apply rmapM_Ok_Forall2 in Hss. apply In_nth_error in Hsig as (i & Hi). destruct (Forall2_nth_l Hss Hi) as ([[[ang best] c] N] & Hs & E). apply scale_nan in E; [|now right]. subst best.
  apply argmax_nan in Ha; [|apply in_map_iff; eexists; split; [|eapply nth_error_In; exact Hs]; reflexivity]. rewrite nth_error_map, Hb in Ha. cbn in Ha. rewrite Dc. congruence.
Qed.
Print Assumptions C84_no_edges.

Lemma argmax_total l : l <> [] -> exists i, argmax l = Ok i /\ (i < length l)%nat.
Proof.
  intros H. destruct l as [|o r]; [contradiction|]. destruct (argmax (o :: r)) as [i|] eqn:E. 2: { unfold argmax in E. destruct (nan_index _); discriminate. }
  exists i. split; [reflexivity|]. apply nth_error_Some. destruct (nan_index (o :: r)) as [j|] eqn:En.
  - rewrite (argmax_nan (o :: r) i); [discriminate| |exact E]. apply nan_index_some in En. now apply nth_error_In in En.
  - destruct (argmax_max (o :: r) i) as (w & -> & _); [now apply nan_index_none|exact E|discriminate].
Qed.
Lemma geti_total {A} (l : list A) i : (i < length l)%nat -> exists a, geti l i = Ok a.
Proof. intros H. unfold geti. destruct (nth_error l i) as [a|] eqn:E; [eauto|]. apply nth_error_None in E. lia. Qed.
Lemma scale_total canny rotate t pad stamp step sigma : 0 < step -> shape_ok (2 * pad + 1) (canny stamp sigma) = true -> exists s, scale canny rotate t pad stamp step sigma = Ok s.
Proof.
  intros Hs Sh. unfold scale, edges. cbv zeta. rewrite Sh. cbn [rbind]. set (en := (_, _)). destruct (argmax_total (map (ccf rotate t en) coarse_angles)) as (p & -> & Hp); [discriminate|]. cbn [rbind]. rewrite map_length in Hp. destruct (geti_total _ _ Hp) as (a0 & ->). cbn [rbind].
  unfold arange. destruct (Reqb step 0) eqn:Z; [apply Reqb_true in Z; lra|]. cbn [rbind]. set (n := Z.to_nat _). assert (Hn : (0 < n)%nat). { unfold n. replace (a0 + 2 * 5 + step - (a0 - 2 * 5)) with (20 + step) by ring. set (x := (20 + step) / step). assert (Px : 0 < x) by (apply Rdiv_lt_0_compat; lra). destruct (base_Int_part (- x)) as [B1 B2]. enough (0 < - Int_part (- x))%Z by lia. apply lt_IZR. rewrite opp_IZR. lra. }
  set (angles := map _ (seq 0 n)). assert (L : length angles = n) by (unfold angles; now rewrite map_length, seq_length). destruct (argmax_total (map (ccf rotate t en) angles)) as (p2 & -> & Hp2); [intros X; apply (f_equal (@length _)) in X; rewrite map_length in X; cbn in X; lia|]. cbn [rbind]. destruct (geti_total angles p2) as (a1 & ->); [now rewrite map_length in Hp2|]. cbn [rbind]. destruct (geti_total _ _ Hp2) as (b & ->). cbn [rbind]. eauto.
Qed.
(** With a square template of odd size, a positive step, edge images of the size of the template and a stamp which is not constant, the detection succeeds. *)
Theorem C84_total : forall canny rotate round image ang_step a n xy stamp m, 0 < ang_step -> length a = (2 * n + 1)%nat -> (forall r, In r a -> length r = (2 * n + 1)%nat) ->
  cut round image n (fst xy) (snd xy) = Ok (stamp, m) -> (forall sigma, In sigma scales -> length (canny stamp sigma) = (2 * n + 1)%nat /\ forall r, In r (canny stamp sigma) -> length r = (2 * n + 1)%nat) ->
  exists d t', detect_phi_arm canny rotate round image ang_step (Finite a) xy = Ok (d, t') /\ d_image d = m /\
  if Rlt_dec 0 (inner (inside n a) (inside n a)) then t' = Finite (map (map (fun u => u / sqrt (inner (inside n a) (inside n a)))) (inside n a)) else t' = Nans (2 * n + 1).
Proof.
  intros canny rotate round image ang_step a n xy stamp m Hs La Ha Hc Hcan. rewrite detect_eq. assert (P : (t_size (Finite a) / 2)%nat = n) by (cbn [t_size]; rewrite La; replace (2 * n + 1)%nat with (1 + n * 2)%nat by lia; rewrite Nat.div_add by lia; reflexivity). assert (Sh : shape_ok (2 * n + 1) a = true) by (apply shape_spec; auto).
  assert (E : exists t', normalise (Finite a) = Ok t' /\ if Rlt_dec 0 (inner (inside n a) (inside n a)) then t' = Finite (map (map (fun u => u / sqrt (inner (inside n a) (inside n a)))) (inside n a)) else t' = Nans (2 * n + 1)).
  { cbn [t_size] in P. cbn [normalise]. cbv zeta. rewrite P, Sh, (inside_eq _ _ Sh). eexists. split; [reflexivity|]. unfold norm2. rewrite inner_self. assert (X := sum_nonneg (inside n a)). rewrite inner_self in X. destruct (Rlt_dec 0 _) as [Y|Y].
    - destruct (Reqb _ 0) eqn:Z; [|reflexivity]. apply Reqb_true in Z. apply sqrt_lt_R0 in Y. lra.
    - replace (inner (inside n a) (inside n a)) with 0 by lra. rewrite sqrt_0. destruct (Reqb 0 0) eqn:Z; [now rewrite La|]. assert (Z' : Reqb 0 0 = true) by now apply Reqb_true. congruence. }
  destruct E as (t' & E & Et). destruct (normalise_again _ _ E) as (_ & _ & _ & Sq). rewrite Sq, P, Hc, E. cbn [negb rbind fst snd].
  assert (F : exists ss, rmapM (scale canny rotate t' n stamp ang_step) scales = Ok ss /\ length ss = 5%nat).
  { unfold scales in Hcan |- *. cbn [rmapM]. repeat (match goal with |- context [scale canny rotate t' n stamp ang_step ?s] => let x := fresh in let Hx := fresh in destruct (scale_total canny rotate t' n stamp ang_step s Hs) as (x & Hx); [apply shape_spec, Hcan; cbn; tauto|]; rewrite Hx; clear Hx; cbn [rbind] end). eexists. split; reflexivity. }
  destruct F as (ss & F & Ls). unfold search. change [1 / 10; 2 / 10; 5 / 10; 1; 15 / 10] with scales. rewrite F. cbn [rbind]. destruct (argmax_total (map (fun s => snd (fst (fst s))) ss)) as (bb & -> & Hb); [intros X; apply (f_equal (@length _)) in X; rewrite map_length in X; cbn in X; lia|]. cbn [rbind]. rewrite map_length in Hb. destruct (geti_total ss bb Hb) as ([[[ang best] c] N] & ->). cbn [rbind rmap]. do 2 eexists. split; [reflexivity|]. split; [reflexivity|exact Et].
Qed.
Print Assumptions C84_total.

Definition one_spot : img := [[0; 0; 0]; [0; 9; 0]; [0; 0; 0]].
Lemma one_spot_cut : exists stamp, cut (fun _ => 1%Z) one_spot 1 1 1 = Ok (stamp, 1).
Proof.
  unfold cut. cbv zeta. assert (S : map (fun row => slice row (1 - Z.of_nat 1) (1 + Z.of_nat 1 + 1)) (slice one_spot (1 - Z.of_nat 1) (1 + Z.of_nat 1 + 1)) = one_spot) by reflexivity. rewrite S. change (List.concat one_spot) with [0; 0; 0; 0; 9; 0; 0; 0; 0]. cbv iota.
  destruct (median _) as [m|] eqn:Em; [|discriminate Em]. cbn [rbind]. destruct (Reqb _ 0) eqn:E.
  - exfalso. apply Reqb_true in E. unfold std_of, mean_of in E. rewrite !INR_IZR_INZ in E. unfold Rsum in E. cbn in E. apply sqrt_eq_0 in E; lra.
  - eexists. do 2 f_equal. unfold mean_of. rewrite INR_IZR_INZ. unfold Rsum. cbn. lra.
Qed.
Example C84_stamp_example : exists stamp sd, cut (fun _ => 1%Z) one_spot 1 1 1 = Ok (stamp, 1) /\ sd = sqrt 8 /\ stamp = map (map (fun u => (u - 0) / sd)) one_spot.
Proof.
  destruct one_spot_cut as (stamp & Hc). destruct (C84_stamp (fun _ => 1%Z) one_spot 1 1 1 1 1 3 stamp 1 eq_refl eq_refl) as (_ & med & sd & Em & Es & _ & E); try lia; [|cbn; lia|exact Hc|].
  - intros r Hr. cbn in Hr. destruct Hr as [<-|[<-|[<-|[]]]]; reflexivity.
  - cbn [map seq nth one_spot List.concat app Nat.add Nat.mul Nat.sub] in Em, Es. rewrite (Circles.median_majority 0) in Em. 2: { cbn [filter]. rewrite (proj2 (Reqb_true 0 0)) by reflexivity. rewrite (proj2 (Reqb_false 9 0)) by lra. cbn. lia. }
    injection Em as <-. exists stamp, sd. split; [exact Hc|]. split; [|exact E]. rewrite Es. f_equal. rewrite INR_IZR_INZ. cbn. lra.
Qed.
Definition only_centre : img := [[0; 0; 0]; [0; 1; 0]; [0; 0; 0]].
Lemma centre_inner : inner (inside 1 only_centre) (inside 1 only_centre) = 1.
Proof. unfold inner, inside, only_centre. cbn. repeat destruct (Rlt_dec _ _); cbn; lra. Qed.

(** The spot of a 3 by 3 image, with edges in its middle whatever the scale: both theorems apply, and two spots give the same on one or two processes. *)
Example C84_example : exists d a stamp, detect_phi_arm (fun _ _ => only_centre) (fun t _ => t) (fun _ => 1%Z) one_spot 1 (Finite only_centre) (1, 1) = Ok (d, Finite a) /\
  cut (fun _ => 1%Z) one_spot (t_size (Finite only_centre) / 2) 1 1 = Ok (stamp, 1) /\ 10 = INR 10 * 1 /\ d_ccf d = Some 1 /\ inner (inside 1 only_centre) (inside 1 only_centre) <> 0.
Proof.
  destruct one_spot_cut as (stamp & Hc). assert (C := centre_inner). destruct (C84_total (fun _ _ => only_centre) (fun t _ => t) (fun _ => 1%Z) one_spot 1 only_centre 1 (1, 1) stamp 1) as (d & t' & Hd & _ & Ht).
  - lra.
  - reflexivity.
  - intros r Hr. cbn in Hr. destruct Hr as [<-|[<-|[<-|[]]]]; reflexivity.
  - exact Hc.
  - intros s _. split; [reflexivity|]. intros r Hr. cbn in Hr. destruct Hr as [<-|[<-|[<-|[]]]]; reflexivity.
  - rewrite C in Ht. destruct (Rlt_dec 0 1); [|lra]. subst t'. eexists d, _, stamp. split; [exact Hd|]. split; [exact Hc|]. split; [cbn; lra|]. split; [|rewrite C; lra].
    assert (T : exists n, 10 = INR n * 1) by (exists 10%nat; cbn; lra). destruct (C84_best _ _ _ _ _ _ _ _ _ stamp 1 Rlt_0_1 T Hd Hc) as (sg & an & _ & _ & -> & _).
    + intros s _. change (t_size (Finite only_centre) / 2)%nat with 1%nat. rewrite C. lra.
    + f_equal. change (t_size (Finite only_centre) / 2)%nat with 1%nat. unfold correlation. rewrite C, sqrt_1. unfold inner, inside, only_centre. cbn. repeat destruct (Rlt_dec _ _); cbn; lra.
Qed.
Example C63_example : parallel (fun _ _ => only_centre) (fun t _ => t) (fun _ => 1%Z) one_spot 1 (Finite only_centre) [[(1, 1)]; [(1, 1)]] = serial (fun _ _ => only_centre) (fun t _ => t) (fun _ => 1%Z) one_spot 1 (Finite only_centre) [(1, 1); (1, 1)].
Proof. apply (C63_scheduling _ _ _ _ _ _ [[(1, 1)]; [(1, 1)]]). Qed.

(** The claim that a scale with edges is enough for a coefficient is false. *)
Theorem C84_some_edges_refuted : ~ (forall canny rotate round image ang_step t xy d a stamp m sigma, 0 < ang_step -> detect_phi_arm canny rotate round image ang_step t xy = Ok (d, Finite a) ->
  let pad := (t_size t / 2)%nat in cut round image pad (fst xy) (snd xy) = Ok (stamp, m) -> In sigma scales -> inner (inside pad (canny stamp sigma)) (inside pad (canny stamp sigma)) <> 0 -> d_ccf d <> None).
Proof.
  intros H. set (can := fun (_ : img) s => if Rle_dec s (1 / 10) then only_centre else [[0; 0; 0]; [0; 0; 0]; [0; 0; 0]]). destruct one_spot_cut as (stamp & Hc). assert (C := centre_inner). destruct (C84_total can (fun t _ => t) (fun _ => 1%Z) one_spot 1 only_centre 1 (1, 1) stamp 1) as (d & t' & Hd & _ & Ht).
  - lra.
  - reflexivity.
  - intros r Hr. cbn in Hr. destruct Hr as [<-|[<-|[<-|[]]]]; reflexivity.
  - exact Hc.
  - intros s _. unfold can. destruct (Rle_dec s (1 / 10)); (split; [reflexivity|]; intros r' Hr; cbn in Hr; destruct Hr as [<-|[<-|[<-|[]]]]; reflexivity).
  - rewrite C in Ht. destruct (Rlt_dec 0 1); [|lra]. subst t'. apply (H can (fun t _ => t) (fun _ => 1%Z) one_spot 1 (Finite only_centre) (1, 1) d _ stamp 1 (1 / 10) Rlt_0_1 Hd Hc); [cbn; tauto| |].
    + change (t_size (Finite only_centre) / 2)%nat with 1%nat. unfold can. destruct (Rle_dec (1 / 10) (1 / 10)); [rewrite C; lra|lra].
    + apply (C84_no_edges _ _ _ _ _ _ _ _ _ stamp 1 (15 / 10) Hd Hc); [cbn; tauto|]. change (t_size (Finite only_centre) / 2)%nat with 1%nat. unfold can. destruct (Rle_dec (15 / 10) (1 / 10)); [lra|]. unfold inner, inside. cbn. repeat destruct (Rlt_dec _ _); cbn; lra.
Qed.
Print Assumptions C84_some_edges_refuted.
