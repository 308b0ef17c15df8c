From Verif.Model Require Import DetectSpots.
From Verif.Spec Require Import DetectSpots.
From Verif.Proofs Require Import Prelude RealNum LinAlg Stats.
From Coq Require Import Lra Lia Permutation.
From Coquelicot Require Import Coquelicot.
Local Open Scope R_scope.

(** *** Windows *)
Lemma slice_far {A} (l : list A) i : (3 <= i <= length l)%nat -> slice l (Z.of_nat i - 3) (Z.of_nat i + 3 + 1) = firstn 7 (skipn (i - 3) l).
Proof.
  intros H. unfold slice. destruct (Z.ltb_spec (Z.of_nat i - 3) 0); [lia|]. destruct (Z.ltb_spec (Z.of_nat i + 3 + 1) 0); [lia|].
  rewrite (Z.min_l (Z.of_nat i - 3)) by lia. replace (Z.to_nat (Z.of_nat i - 3)) with (i - 3)%nat by lia.
  destruct (Z.min_spec (Z.of_nat i + 3 + 1) (Z.of_nat (length l))) as [[L ->]|[L ->]].
  - f_equal. lia.
  - assert (S : (length (skipn (i - 3) l) <= 7)%nat) by (rewrite skipn_length; lia). rewrite (firstn_all2 (n := 7)) by exact S. apply firstn_all2. rewrite skipn_length. lia.
Qed.
Lemma slice_near {A} (l : list A) i : (i < 3)%nat -> (7 <= length l)%nat -> slice l (Z.of_nat i - 3) (Z.of_nat i + 3 + 1) = [].
Proof.
  intros H L. unfold slice. destruct (Z.ltb_spec (Z.of_nat i - 3) 0); [|lia]. destruct (Z.ltb_spec (Z.of_nat i + 3 + 1) 0); [lia|].
  replace (Z.to_nat _) with 0%nat by lia. reflexivity.
Qed.
Lemma nth_window {A} (l : list A) i a d : (a < 7)%nat -> nth a (firstn 7 (skipn i l)) d = nth (i + a) l d.
Proof.
  intros H. assert (N : forall (m : list A) n k, (k < n)%nat -> nth k (firstn n m) d = nth k m d).
  { induction m as [|x m IH]; intros [|n] [|k] Hk; cbn; try lia; try reflexivity. apply IH. lia. }
  rewrite N by exact H. revert l. induction i as [|i IH]; intros l; [reflexivity|]. destruct l as [|x l]; [now destruct a|]. cbn [skipn Nat.add nth]. apply IH.
Qed.
Section Window.
Variables (n0 n1 : nat) (img : list (list R)).
Hypothesis rect : rectangle n0 n1 img.
Lemma row_length i : (i < n0)%nat -> length (nth i img []) = n1.
Proof. intros H. destruct rect as [L F]. rewrite Forall_forall in F. apply F, nth_In. lia. Qed.
Lemma stamp_far i0 i1 : (3 <= i0 < n0)%nat -> (3 <= i1 < n1)%nat -> stamp_at img i0 i1 = map (fun row => firstn 7 (skipn (i1 - 3) row)) (firstn 7 (skipn (i0 - 3) img)).
Proof.
  intros H0 H1. unfold stamp_at. rewrite slice_far by (rewrite (proj1 rect); lia). apply map_ext_in. intros row Hr. apply slice_far.
  assert (In row img). { revert Hr. generalize 7%nat, (i0 - 3)%nat. clear. intros n m H. rewrite <- (firstn_skipn m img). apply in_or_app. right.
    rewrite <- (firstn_skipn n (skipn m img)). apply in_or_app. left. exact H. } 
  destruct rect as [_ F]. rewrite Forall_forall in F. rewrite (F row) by assumption. lia.
Qed.
End Window.

Lemma window_shape n0 n1 img i0 i1 : rectangle n0 n1 img -> (3 <= i0 < n0)%nat -> (3 <= i1 < n1)%nat ->
  length (stamp_at img i0 i1) = Nat.min 7 (n0 - (i0 - 3)) /\ shape1 (stamp_at img i0 i1) = Nat.min 7 (n1 - (i1 - 3)).
Proof.
  intros R H0 H1. rewrite (stamp_far n0 n1 img R i0 i1 H0 H1). split.
  - rewrite map_length, firstn_length, skipn_length, (proj1 R). reflexivity.
  - pose proof (row_length n0 n1 img R (i0 - 3) ltac:(lia)) as L. destruct (skipn (i0 - 3) img) as [|row rest] eqn:E.
    + apply (f_equal (@length _)) in E. rewrite skipn_length, (proj1 R) in E. cbn in E. lia.
    + change (length (firstn 7 (skipn (i1 - 3) row)) = Nat.min 7 (n1 - (i1 - 3))). rewrite firstn_length, skipn_length. replace row with (nth (i0 - 3) img []); [now rewrite L|].
      rewrite <- (Nat.add_0_r (i0 - 3)), <- (nth_window img (i0 - 3) 0 []) by lia. rewrite E. reflexivity.
Qed.
Lemma window_pix n0 n1 img i0 i1 a b : rectangle n0 n1 img -> (3 <= i0 < n0)%nat -> (3 <= i1 < n1)%nat -> (a < 7)%nat -> (b < 7)%nat ->
  pix (stamp_at img i0 i1) a b = pix img (i0 - 3 + a) (i1 - 3 + b).
Proof.
  intros Hr H0 H1 Ha Hb. rewrite (stamp_far n0 n1 img Hr i0 i1 H0 H1). unfold pix.
  set (g := fun row : list R => firstn 7 (skipn (i1 - 3) row)). assert (G : g [] = []) by (unfold g; destruct (i1 - 3)%nat; reflexivity). rewrite <- G at 1. rewrite map_nth. unfold g. rewrite !nth_window by assumption. reflexivity.
Qed.
(** *** Centroids *)
Lemma no_pixels k sigma n0 n1 data flux xc yc A : pixels n0 n1 = [] -> gauss_newton (S k) sigma n0 n1 data flux xc yc A = Err LinAlgError.
Proof.
  intros E. cbn [gauss_newton]. rewrite E. cbn [map matvec gram dot]. unfold linalg_solve. cbn [length combine gauss split_pivot fst hd]. assert (Reqb 0 0 = true) as -> by now apply Reqb_true. reflexivity.
Qed.
Lemma empty_stamp stamp noise : stamp = [] \/ shape1 stamp = 0%nat -> fitcentroid stamp noise = Err LinAlgError.
Proof.
  intros H. unfold fitcentroid. rewrite no_pixels; [reflexivity|]. unfold pixels. destruct H as [->|H]; [reflexivity|]. rewrite H. cbn [seq map]. induction (seq 0 (length stamp)) as [|x l IH]; [reflexivity|exact IH].
Qed.
Lemma solve_err A b e : linalg_solve A b = Err e -> e = LinAlgError.
Proof. unfold linalg_solve. destruct (gauss _ _); congruence. Qed.
Lemma newton_err k sigma n0 n1 data : forall flux xc yc A e, gauss_newton k sigma n0 n1 data flux xc yc A = Err e -> e = LinAlgError.
Proof.
  induction k as [|k IH]; intros flux xc yc A e; cbn [gauss_newton]; [discriminate|]. destruct (linalg_solve _ _) as [d|e'] eqn:E; cbn [rbind].
  - destruct (_ && _)%bool; [discriminate|apply IH].
  - intros H. injection H as <-. exact (solve_err _ _ _ E).
Qed.
Lemma measure_err img noise i e : measure img noise i = Err e -> e = LinAlgError.
Proof.
  unfold measure, fitcentroid. destruct i as [i0 i1]. destruct (gauss_newton _ _ _ _ _ _ _ _ _) as [[[[flux xc] yc] A]|e'] eqn:E; cbn [rbind]; [|intros H; injection H as <-; exact (newton_err _ _ _ _ _ _ _ _ _ _ E)].
  destruct (linalg_solve A [0; 1; 0]) as [a1|e1] eqn:E1; cbn [rbind]; [|intros H; injection H as <-; exact (solve_err _ _ _ E1)].
  destruct (linalg_solve A [0; 0; 1]) as [a2|e2] eqn:E2; cbn [rbind]; [discriminate|intros H; injection H as <-; exact (solve_err _ _ _ E2)].
Qed.
Lemma step_bound d1 d2 : let val := Rmax (Rabs d1) (Rabs d2) in let f := if Rltb 0.2 val then 0.2 / val else 1 in Rabs (d1 * f) <= 0.2 /\ Rabs (d2 * f) <= 0.2.
Proof.
  intros val f. assert (V1 : Rabs d1 <= val) by apply Rmax_l. assert (V2 : Rabs d2 <= val) by apply Rmax_r. unfold f. destruct (Rltb 0.2 val) eqn:E.
  - apply Rltb_true in E. rewrite !Rabs_mult. assert (P : 0 < 0.2 / val) by (apply Rdiv_lt_0_compat; lra). rewrite (Rabs_right (0.2 / val)) by lra. assert (X : val * (0.2 / val) = 0.2) by (field; lra).
    split; rewrite <- X at 2; apply Rmult_le_compat_r; lra.
  - apply Rltb_false in E. rewrite !Rmult_1_r. lra.
Qed.
Lemma newton_bound k sigma n0 n1 data : forall flux xc yc A flux' xc' yc' A', gauss_newton k sigma n0 n1 data flux xc yc A = Ok (flux', xc', yc', A') ->
  Rabs (xc' - xc) <= 0.2 * INR k /\ Rabs (yc' - yc) <= 0.2 * INR k.
Proof.
  induction k as [|k IH]; intros flux xc yc A flux' xc' yc' A'; cbn [gauss_newton].
  - intros H. injection H as <- <- <- <-. cbn [INR]. rewrite !Rminus_diag_eq, Rabs_R0 by reflexivity. lra.
  - destruct (linalg_solve _ _) as [d|e']; cbn [rbind]; [|discriminate]. pose proof (step_bound (nth 1 d 0) (nth 2 d 0)) as S. cbv zeta in S. set (f := if Rltb 0.2 _ then _ else _) in *. destruct S as [S1 S2].
    rewrite S_INR. pose proof (pos_INR k) as Pk. destruct (_ && _)%bool.
    + intros H. injection H as _ <- <- _. replace (xc + nth 1 d 0 * f - xc) with (nth 1 d 0 * f) by ring. replace (yc + nth 2 d 0 * f - yc) with (nth 2 d 0 * f) by ring. lra.
    + intros H. apply IH in H. destruct H as [H1 H2]. split.
      * replace (xc' - xc) with ((xc' - (xc + nth 1 d 0 * f)) + nth 1 d 0 * f) by ring. eapply Rle_trans; [apply Rabs_triang|]. lra.
      * replace (yc' - yc) with ((yc' - (yc + nth 2 d 0 * f)) + nth 2 d 0 * f) by ring. eapply Rle_trans; [apply Rabs_triang|]. lra.
Qed.
Lemma fitcentroid_bound stamp noise x y ex ey c : fitcentroid stamp noise = Ok (x, y, ex, ey, c) -> Rabs x <= 1 /\ Rabs y <= 1.
Proof.
  unfold fitcentroid. destruct (gauss_newton _ _ _ _ _ _ _ _ _) as [[[[flux xc] yc] A]|e'] eqn:E; cbn [rbind]; [|discriminate]. destruct (linalg_solve A [0; 1; 0]) as [a1|e1]; cbn [rbind]; [|discriminate]. destruct (linalg_solve A [0; 0; 1]) as [a2|e2]; cbn [rbind]; [|discriminate].
  intros H. injection H as <- <- _ _ _. apply newton_bound in E. cbn [INR] in E. destruct E as [E1 E2]. split; [eapply Rle_trans; [exact E1|lra]|eapply Rle_trans; [exact E2|lra]].
Qed.
Lemma rmapM_fails {A B} (f : A -> res B) e l : (forall a e', In a l -> f a = Err e' -> e' = e) -> (exists a, In a l /\ f a = Err e) -> rmapM f l = Err e.
Proof.
  induction l as [|a l IH]; intros H (b & Hb & Eb); [destruct Hb|]. cbn [rmapM]. destruct (f a) as [v|e'] eqn:E; cbn [rbind].
  - destruct Hb as [->|Hb]; [congruence|]. rewrite IH; [reflexivity| |eauto]. intros c e' Hc. apply H. now right.
  - f_equal. apply (H a); [now left|exact E].
Qed.
(** *** Peaks *)
Lemma peaks_in n0 n1 conv th i0 i1 : In (i0, i1) (peaks n0 n1 conv th) <-> is_peak n0 n1 conv th i0 i1 = true.
Proof.
  unfold peaks. rewrite in_map_iff. split.
  - intros (x & E & H). injection E as <- <-. now apply filter_In in H.
  - intros H. exists (i0 * n1 + i1)%nat. pose proof H as H'. unfold is_peak in H'. apply Bool.andb_true_iff in H'. destruct H' as [H' _]. repeat (apply Bool.andb_true_iff in H'; destruct H' as [H' ?]). repeat match goal with X : (_ <=? _)%nat = true |- _ => apply Nat.leb_le in X end.
    assert (D : ((i0 * n1 + i1) / n1 = i0)%nat) by (rewrite Nat.add_comm, Nat.div_add by lia; rewrite Nat.div_small by lia; lia). assert (M : ((i0 * n1 + i1) mod n1 = i1)%nat) by (rewrite Nat.add_comm, Nat.mod_add by lia; apply Nat.mod_small; lia).
    rewrite D, M. split; [reflexivity|]. apply filter_In. rewrite D, M. split; [apply in_seq; nia|exact H].
Qed.
(** *** The spot model *)
Lemma gauss_continuous (t : R) : continuous (fun t : R => exp (- t ^ 2)) t.
Proof. apply (ex_derive_continuous (K := R_AbsRing) (V := R_NormedModule)). auto_derive. trivial. Qed.
Lemma erf_derive x : is_derive erf x (2 / sqrt PI * exp (- x ^ 2)).
Proof.
  unfold erf. apply (is_derive_scal (fun x => RInt (fun t => exp (- t ^ 2)) 0 x)). 
  pose proof gauss_continuous as C.
  apply (is_derive_RInt (fun t => exp (- t ^ 2)) _ 0).
  - exists (mkposreal 1 Rlt_0_1). intros y _. apply (RInt_correct (fun t => exp (- t ^ 2))), ex_RInt_continuous. intros z _. apply C.
  - apply C.
Qed.
Lemma erf_shift a k x : is_derive (fun c => erf (a * (k - c))) x (- a * (2 / sqrt PI) * exp (- (a * (k - x)) ^ 2)).
Proof.
  replace (- a * (2 / sqrt PI) * exp (- (a * (k - x)) ^ 2)) with (scal (- a) (2 / sqrt PI * exp (- (a * (k - x)) ^ 2))) by (unfold scal; cbn; unfold mult; cbn; ring).
  apply (is_derive_comp erf (fun c => a * (k - c))); [apply erf_derive|]. auto_derive; [trivial|ring].
Qed.
Lemma erf_increasing x y : x < y -> erf x < erf y.
Proof.
  intros H. unfold erf. apply Rmult_lt_compat_l; [apply Rdiv_lt_0_compat; [lra|apply sqrt_lt_R0, PI_RGT_0]|].
  pose proof gauss_continuous as C.
  rewrite <- (RInt_Chasles (fun t => exp (- t ^ 2)) 0 x y); try (apply ex_RInt_continuous; intros; apply C). change (RInt (fun t => exp (- t ^ 2)) 0 x < RInt (fun t => exp (- t ^ 2)) 0 x + RInt (fun t => exp (- t ^ 2)) x y). assert (0 < RInt (fun t => exp (- t ^ 2)) x y); [|lra].
  apply RInt_gt_0; [exact H|intros t _; apply exp_pos|intros t _; apply C].
Qed.
(** *** Duplicates *)
Lemma apart_pos p q : 0 <= apart p q.
Proof. apply sqrt_pos. Qed.
Lemma apart_sym p q : apart p q = apart q p.
Proof. unfold apart. f_equal. ring. Qed.
Lemma apart_self p : apart p p = 0.
Proof. unfold apart. rewrite !Rminus_diag_eq by reflexivity. replace (0 ^ 2 + 0 ^ 2) with 0 by ring. apply sqrt_0. Qed.
Lemma apart_zero p q : apart p q = 0 -> p = q.
Proof.
  unfold apart. intros H. pose proof (pow2_ge_0 (fst p - fst q)). pose proof (pow2_ge_0 (snd p - snd q)). apply sqrt_eq_0 in H; [|lra].
  assert (Z : forall t, t ^ 2 = 0 -> t = 0) by (intros; nra). assert (fst p - fst q = 0) by (apply Z; lra). assert (snd p - snd q = 0) by (apply Z; lra). destruct p, q. cbn in *. f_equal; lra.
Qed.
Lemma delete_in {A} (l : list A) : forall i x, In x (delete_at l i) -> In x l.
Proof. induction l as [|a l IH]; intros [|i] x; cbn; auto. intros [->|H]; [now left|right; eauto]. Qed.
Lemma delete_length {A} (l : list A) : forall i, (i < length l)%nat -> S (length (delete_at l i)) = length l.
Proof. induction l as [|a l IH]; intros [|i] H; cbn in *; try lia. now rewrite IH by lia. Qed.
Lemma delete_keeps {A} (l : list A) : forall i j x, nth_error l j = Some x -> i <> j -> In x (delete_at l i).
Proof.
  induction l as [|a l IH]; intros i j x E N; [destruct j; discriminate|]. destruct i as [|i], j as [|j]; cbn in *; try lia.
  - now apply nth_error_In in E.
  - left. congruence.
  - right. apply (IH i j); auto.
Qed.
Lemma delete_map {A B} (f : A -> B) (l : list A) : forall i, map f (delete_at l i) = delete_at (map f l) i.
Proof. induction l as [|a l IH]; intros [|i]; cbn; try reflexivity. now rewrite IH. Qed.
Lemma delete_NoDup {A} (l : list A) : forall i, NoDup l -> NoDup (delete_at l i).
Proof.
  induction l as [|a l IH]; intros [|i] H; cbn; try constructor; inversion H; subst; auto. intros X. now apply delete_in in X.
Qed.
Section Dedupe.
Variable query : list (R * R) -> nat -> option R * nat.
Hypothesis Q : second_query query.
(** The distance found is the one to the nearest other entry. *)
Lemma second_nearest l i p : nth_error l i = Some p -> (2 <= length l)%nat ->
  exists d j, query l i = (Some d, j) /\ (j < length l)%nat /\ (forall k q, nth_error l k = Some q -> k <> i -> d <= apart p q) /\
    (exists k q, k <> i /\ nth_error l k = Some q /\ apart p q = d) /\ (j = i -> d = 0) /\ (forall q, nth_error l j = Some q -> apart p q = d).
Proof.
  intros E L. destruct (Q l i p E) as [_ H]. destruct (H L) as (j1 & q1 & j & q & Eq & N & E1 & Ej & D & M). exists (apart p q), j. split; [exact Eq|]. split; [apply nth_error_Some; congruence|].
  pose proof (apart_pos p q1). pose proof (apart_pos p q). destruct (Nat.eq_dec j i) as [->|Ni].
  - assert (q = p) by congruence. subst q. rewrite apart_self in *. split; [intros; apply apart_pos|]. split; [exists j1, q1; repeat split; auto; lra|]. split; [reflexivity|]. intros q Hq. replace q with p by congruence. apply apart_self.
  - split; [|split; [exists j, q; auto|split; [contradiction|intros q' Hq'; congruence]]]. intros k s Hk Nk. destruct (Nat.eq_dec k j) as [->|Nj]; [replace s with q by congruence; lra|]. destruct (Nat.eq_dec k j1) as [->|N1]; [|now apply (M k)].
    replace s with q1 by congruence. specialize (M i p E ltac:(congruence) ltac:(congruence)). rewrite apart_self in M. lra.
Qed.
Lemma lone l i p : nth_error l i = Some p -> (length l < 2)%nat -> query l i = (None, 1%nat).
Proof. intros E L. destruct (Q l i p E) as [H _]. apply H. assert (i < length l)%nat by (apply nth_error_Some; congruence). lia. Qed.

Lemma find_none_seq {f} n : find f (seq 0 n) = None -> forall i, (i < n)%nat -> f i = false.
Proof. intros H i Hi. apply (find_none f _ H). apply in_seq. lia. Qed.

Definition separated (sigma : R) (l : list fvc_spot) : Prop :=
  forall i j s t, i <> j -> nth_error l i = Some s -> nth_error l j = Some t -> sigma <= apart (f_xy s) (f_xy t).
Lemma xy_nth l i (s : fvc_spot) : nth_error l i = Some s -> nth_error (map f_xy l) i = Some (f_xy s).
Proof. intros H. now apply map_nth_error. Qed.
(** One turn: it stops with separated spots, or removes one with a not fainter close neighbour. *)
Lemma dedupe_turn k sigma l : 
  (dedupe query (S k) sigma l = Ok l /\ separated sigma l) \/
  exists i j s t, i <> j /\ nth_error l i = Some s /\ nth_error l j = Some t /\ apart (f_xy s) (f_xy t) < sigma /\ dedupe query (S k) sigma l = dedupe query k sigma (delete_at l i) /\
    (f_counts s <= f_counts t \/ apart (f_xy s) (f_xy t) = 0).
Proof.
  cbn [dedupe]. destruct (find _ _) as [b|] eqn:F.
  - right. apply find_some in F. destruct F as [Hb C]. apply in_seq in Hb. destruct (nth_error l b) as [s|] eqn:Es; [|apply nth_error_None in Es; lia].
    assert (L2 : (2 <= length (map f_xy l))%nat). { destruct (le_lt_dec 2 (length (map f_xy l))) as [|L]; [assumption|]. rewrite (lone _ b (f_xy s) (xy_nth _ _ _ Es) L) in C. discriminate. }
    destruct (second_nearest _ b (f_xy s) (xy_nth _ _ _ Es) L2) as (d & j & Eq & Hj & Hmin & (k' & q & Nk & Ek & Dk) & Hself & Hd). rewrite Eq in *. cbn [fst snd closer] in *. apply Rltb_true in C. rewrite map_length in Hj.
    unfold geti. rewrite Es. cbn [rbind]. destruct (nth_error l j) as [t|] eqn:Et; [|apply nth_error_None in Et; lia]. cbn [rbind].
    destruct (Nat.eq_dec j b) as [->|Nj].
    + assert (s = t) by congruence. subst t. assert (Rltb (f_counts s) (f_counts s) = false) as -> by (apply Rltb_false; lra). rewrite nth_error_map in Ek. destruct (nth_error l k') as [t|] eqn:Etk; [|discriminate]. injection Ek as <-.
      exists b, k', s, t. repeat split; auto; [lra|]. right. specialize (Hself eq_refl). lra.
    + specialize (Hd _ (xy_nth _ _ _ Et)). destruct (Rltb (f_counts s) (f_counts t)) eqn:Cst.
      * apply Rltb_true in Cst. exists b, j, s, t. repeat split; auto; [lra|left; lra].
      * apply Rltb_false in Cst. exists j, b, t, s. repeat split; auto; [rewrite apart_sym; lra].
  - left. split; [reflexivity|]. intros i j s t N Ei Ej. pose proof (find_none_seq _ F i ltac:(apply nth_error_Some; congruence)) as C. cbv beta in C.
    assert (L2 : (2 <= length (map f_xy l))%nat). { rewrite map_length. assert (i < length l)%nat by (apply nth_error_Some; congruence). assert (j < length l)%nat by (apply nth_error_Some; congruence). lia. }
    destruct (second_nearest _ i (f_xy s) (xy_nth _ _ _ Ei) L2) as (d & j' & Eq & _ & Hmin & _). rewrite Eq in C. cbn in C. apply Rltb_false in C. specialize (Hmin j (f_xy t) (xy_nth _ _ _ Ej) ltac:(congruence)). lra.
Qed.
Lemma dedupe_spec k sigma : forall l, exists out, dedupe query k sigma l = Ok out /\ incl out l /\ (length l <= length out + k)%nat /\ (separated sigma out \/ length l = (length out + k)%nat).
Proof.
  induction k as [|k IH]; intros l; [exists l; repeat split; auto using incl_refl; cbn; lia|].
  destruct (dedupe_turn k sigma l) as [[E S]|(i & j & s & t & N & Ei & Ej & D & E & _)]; [exists l; repeat split; auto using incl_refl; lia|].
  destruct (IH (delete_at l i)) as (out & E1 & I & L & S). rewrite E, E1. exists out. assert (H : (i < length l)%nat) by (apply nth_error_Some; congruence). pose proof (delete_length l i H). split; [reflexivity|]. split; [intros x Hx; apply I, delete_in in Hx; exact Hx|]. split; [lia|]. destruct S; [now left|right; lia].
Qed.
Lemma dedupe_keeps k sigma s : forall l out, dedupe query k sigma l = Ok out -> NoDup (map f_xy l) -> In s l ->
  (forall t, In t l -> t <> s -> apart (f_xy s) (f_xy t) < sigma -> f_counts t < f_counts s) -> In s out.
Proof.
  induction k as [|k IH]; intros l out; [cbn; intros H; injection H as <-; auto|]. intros E ND Hs B.
  destruct (dedupe_turn k sigma l) as [[E' _]|(i & j & u & t & N & Ei & Ej & D & E' & C)]; rewrite E' in E; [injection E as <-; exact Hs|].
  apply (IH _ _ E); [rewrite delete_map; now apply delete_NoDup| |intros x Hx; apply B; now apply delete_in in Hx].
  apply In_nth_error in Hs. destruct Hs as [m Em]. apply (delete_keeps l i m s Em). intros <-. assert (u = s) by congruence. subst u.
  assert (NT : f_xy t <> f_xy s). { intros EQ. apply N. apply (proj1 (NoDup_nth_error (map f_xy l)) ND); [rewrite map_length; apply nth_error_Some; congruence|]. rewrite (xy_nth _ _ _ Ei), (xy_nth _ _ _ Ej). congruence. }
  assert (t <> s) by congruence. specialize (B t (nth_error_In _ _ Ej) H D). destruct C as [C|C]; [lra|]. apply apart_zero in C. congruence.
Qed.
Lemma delete_split {A} (s : A) l2 : forall l1 i, i <> length l1 -> exists m1 m2, delete_at (l1 ++ s :: l2) i = m1 ++ s :: m2 /\ incl (m1 ++ m2) (l1 ++ l2).
Proof.
  induction l1 as [|a l1 IH]; intros [|i] H; cbn in *; [lia|exists [], (delete_at l2 i); split; [reflexivity|intros x Hx; now apply delete_in in Hx]|exists l1, l2; split; [reflexivity|now apply incl_tl, incl_refl]|].
  destruct (IH i ltac:(lia)) as (m1 & m2 & E & I). exists (a :: m1), m2. rewrite E. split; [reflexivity|]. cbn. intros x [<-|Hx]; [now left|right; now apply I].
Qed.
(** A spot with no other one close is not removed. *)
Lemma dedupe_isolated k sigma s : forall l1 l2 out, dedupe query k sigma (l1 ++ s :: l2) = Ok out -> (forall t, In t (l1 ++ l2) -> sigma <= apart (f_xy s) (f_xy t)) -> In s out.
Proof.
  induction k as [|k IH]; intros l1 l2 out E F; [cbn in E; injection E as <-; apply in_elt|].
  destruct (dedupe_turn k sigma (l1 ++ s :: l2)) as [[E' _]|(i & j & u & t & N & Ei & Ej & D & E' & _)]; rewrite E' in E; [injection E as <-; apply in_elt|].
  destruct (Nat.eq_dec i (length l1)) as [->|Ni].
  - exfalso. rewrite nth_error_app2, Nat.sub_diag in Ei by lia. cbn in Ei. injection Ei as <-. assert (Ht : In t (l1 ++ l2)); [|specialize (F t Ht); lra]. apply in_or_app. destruct (lt_dec j (length l1)) as [Hj|Hj].
    + left. rewrite nth_error_app1 in Ej by exact Hj. now apply nth_error_In in Ej.
    + right. rewrite nth_error_app2 in Ej by lia. destruct (j - length l1)%nat eqn:Z; [lia|]. cbn in Ej. now apply nth_error_In in Ej.
  - destruct (delete_split s l2 l1 i Ni) as (m1 & m2 & Ed & I). rewrite Ed in E. apply (IH _ _ _ E). intros x Hx. apply F, I, Hx.
Qed.
End Dedupe.
(** *** Symmetric spots *)
Definition idx (n0 n1 : nat) : list (nat * nat) := List.concat (map (fun i => map (fun j => (i, j)) (seq 0 n1)) (seq 0 n0)).
Lemma concat_map_map {A B C} (g : B -> C) (f : A -> list B) l : map g (List.concat (map f l)) = List.concat (map (fun a => map g (f a)) l).
Proof. induction l as [|a l IH]; cbn; [reflexivity|]. now rewrite map_app, IH. Qed.
Lemma pixels_idx n0 n1 : pixels n0 n1 = map (fun '(i, j) => (INR i, INR j)) (idx n0 n1).
Proof. unfold pixels, idx. rewrite concat_map_map. f_equal. apply map_ext. intros i. rewrite map_map. reflexivity. Qed.
Lemma seq_nth_map {A} (l : list A) d : map (fun i => nth i l d) (seq 0 (length l)) = l.
Proof.
  apply nth_ext with d d; rewrite map_length, seq_length; [reflexivity|]. intros i Hi. rewrite nth_indep with (d' := nth 0 l d) by (now rewrite map_length, seq_length). rewrite (map_nth (fun i => nth i l d)), seq_nth by exact Hi. reflexivity.
Qed.
Lemma data_idx n0 n1 img : rectangle n0 n1 img -> List.concat img = map (fun '(i, j) => pix img i j) (idx n0 n1).
Proof.
  intros [L F]. unfold idx. rewrite concat_map_map. rewrite <- (seq_nth_map img []) at 1. rewrite L. f_equal. apply map_ext_in. intros i Hi. apply in_seq in Hi. rewrite map_map. unfold pix.
  rewrite Forall_forall in F. rewrite <- (F (nth i img [])) by (apply nth_In; lia). symmetry. apply seq_nth_map.
Qed.
Lemma dot_maps {A} (f g : A -> R) l : dot (map f l) (map g l) = Rsum (map (fun a => f a * g a) l).
Proof. induction l as [|a l IH]; [reflexivity|]. cbn [map dot]. rewrite IH. reflexivity. Qed.
Lemma sub_maps {A} (f g : A -> R) l : sub_arrays (map f l) (map g l) = map (fun a => f a - g a) l.
Proof. unfold sub_arrays. induction l as [|a l IH]; [reflexivity|]. cbn [map combine]. now rewrite IH. Qed.
Lemma flip_x (f : nat * nat -> R) : Rsum (map f (idx 7 7)) = Rsum (map (fun p => f (fst p, 6 - snd p)%nat) (idx 7 7)).
Proof. cbn. ring. Qed.
Lemma flip_y (f : nat * nat -> R) : Rsum (map f (idx 7 7)) = Rsum (map (fun p => f (6 - fst p, snd p)%nat) (idx 7 7)).
Proof. cbn. ring. Qed.
Lemma Rsum_app l m : Rsum (l ++ m) = Rsum l + Rsum m.
Proof. induction l as [|x l IH]; cbn [app]; rewrite ?Rsum_cons; [unfold Rsum; cbn; lra|]. rewrite IH. lra. Qed.
Lemma Rsum_opp {A} (f : A -> R) l : Rsum (map (fun a => - f a) l) = - Rsum (map f l).
Proof. induction l as [|a l IH]; cbn [map]; rewrite ?Rsum_cons; [unfold Rsum; cbn; ring|]. rewrite IH. ring. Qed.
Lemma idx_bound p : In p (idx 7 7) -> (fst p <= 6)%nat /\ (snd p <= 6)%nat.
Proof. unfold idx. intros H. apply in_concat in H. destruct H as (l & Hl & Hp). apply in_map_iff in Hl. destruct Hl as (i & <- & Hi). apply in_map_iff in Hp. destruct Hp as (j & <- & Hj). apply in_seq in Hi, Hj. cbn. lia. Qed.
Lemma odd_x (f : nat * nat -> R) : (forall i j, (i <= 6)%nat -> (j <= 6)%nat -> f (i, 6 - j)%nat = - f (i, j)) -> Rsum (map f (idx 7 7)) = 0.
Proof.
  intros H. assert (E : Rsum (map f (idx 7 7)) = - Rsum (map f (idx 7 7))); [|lra]. rewrite (flip_x f) at 1. rewrite <- Rsum_opp. f_equal. apply map_ext_in. intros [i j] Hp. apply idx_bound in Hp. cbn [fst snd] in *. apply H; lia.
Qed.
Lemma odd_y (f : nat * nat -> R) : (forall i j, (i <= 6)%nat -> (j <= 6)%nat -> f (6 - i, j)%nat = - f (i, j)) -> Rsum (map f (idx 7 7)) = 0.
Proof.
  intros H. assert (E : Rsum (map f (idx 7 7)) = - Rsum (map f (idx 7 7))); [|lra]. rewrite (flip_y f) at 1. rewrite <- Rsum_opp. f_equal. apply map_ext_in. intros [i j] Hp. apply idx_bound in Hp. cbn [fst snd] in *. apply H; lia.
Qed.
Lemma erf_odd x : erf (- x) = - erf x.
Proof.
  unfold erf. assert (E : RInt (fun t => exp (- t ^ 2)) 0 (- x) = - RInt (fun t => exp (- t ^ 2)) 0 x); [|rewrite E; ring].
  assert (X : forall a b, ex_RInt (fun t => exp (- t ^ 2)) a b) by (intros; apply (ex_RInt_continuous (V := R_CompleteNormedModule)); intros; apply gauss_continuous).
  pose proof (RInt_comp_lin (V := R_CompleteNormedModule) (fun t => exp (- t ^ 2)) (-1) 0 0 x (X _ _)) as H. replace (-1 * 0 + 0) with 0 in H by ring. replace (-1 * x + 0) with (- x) in H by ring. rewrite <- H. rewrite <- (RInt_opp (V := R_CompleteNormedModule)) by apply X. apply RInt_ext. intros t _. change (-1 * exp (- (-1 * t + 0) ^ 2) = - exp (- t ^ 2)). replace (- (-1 * t + 0) ^ 2) with (- t ^ 2) by ring. ring.
Qed.
Lemma INR_flip j : (j <= 6)%nat -> INR (6 - j) = 6 - INR j.
Proof. intros H. rewrite minus_INR by exact H. cbn. lra. Qed.
Section Psf.
Variable sigma : R.
Hypothesis sigma_pos : 0 < sigma.
Let a := 1 / (sqrt 2 * sigma).
Lemma a_pos : 0 < a.
Proof. unfold a. apply Rdiv_lt_0_compat; [lra|]. apply Rmult_lt_0_compat; [apply sqrt_lt_R0; lra|exact sigma_pos]. Qed.
Lemma psf_pos i0 i1 xc yc : 0 < psf i0 i1 xc yc sigma.
Proof.
  unfold psf. fold a. pose proof a_pos. assert (E : forall u, erf (a * (u - 0.5)) < erf (a * (u + 0.5))) by (intros u; apply erf_increasing, Rmult_lt_compat_l; lra).
  pose proof (E (i1 - xc)) as E1. pose proof (E (i0 - yc)) as E2. replace (i1 - xc - 0.5) with (i1 - 0.5 - xc) in E1 by ring. replace (i1 - xc + 0.5) with (i1 + 0.5 - xc) in E1 by ring. replace (i0 - yc - 0.5) with (i0 - 0.5 - yc) in E2 by ring. replace (i0 - yc + 0.5) with (i0 + 0.5 - yc) in E2 by ring.
  apply Rmult_lt_0_compat; [apply Rmult_lt_0_compat; lra|lra].
Qed.
Lemma erf_flip k : erf (a * (6 - k + 0.5 - 3)) = - erf (a * (k - 0.5 - 3)) /\ erf (a * (6 - k - 0.5 - 3)) = - erf (a * (k + 0.5 - 3)).
Proof. split; rewrite <- erf_odd; f_equal; ring. Qed.
Lemma exp_flip k : exp (- (a * (6 - k + 0.5 - 3)) ^ 2) = exp (- (a * (k - 0.5 - 3)) ^ 2) /\ exp (- (a * (6 - k - 0.5 - 3)) ^ 2) = exp (- (a * (k + 0.5 - 3)) ^ 2).
Proof. split; f_equal; ring. Qed.
Lemma psf_flip_x i j : psf i (6 - j) 3 3 sigma = psf i j 3 3 sigma.
Proof. unfold psf. fold a. destruct (erf_flip j) as [-> ->]. ring. Qed.
Lemma psf_flip_y i j : psf (6 - i) j 3 3 sigma = psf i j 3 3 sigma.
Proof. unfold psf. fold a. destruct (erf_flip i) as [-> ->]. ring. Qed.
Lemma dx_flip_x i j : dpsfdxc i (6 - j) 3 3 sigma = - dpsfdxc i j 3 3 sigma.
Proof. unfold dpsfdxc. fold a. destruct (exp_flip j) as [-> ->]. unfold Rdiv. ring. Qed.
Lemma dx_flip_y i j : dpsfdxc (6 - i) j 3 3 sigma = dpsfdxc i j 3 3 sigma.
Proof. unfold dpsfdxc. fold a. destruct (erf_flip i) as [-> ->]. unfold Rdiv. ring. Qed.
Lemma dy_flip_x i j : dpsfdyc i (6 - j) 3 3 sigma = dpsfdyc i j 3 3 sigma.
Proof. unfold dpsfdyc. fold a. destruct (erf_flip j) as [-> ->]. unfold Rdiv. ring. Qed.
Lemma dy_flip_y i j : dpsfdyc (6 - i) j 3 3 sigma = - dpsfdyc i j 3 3 sigma.
Proof. unfold dpsfdyc. fold a. destruct (exp_flip i) as [-> ->]. unfold Rdiv. ring. Qed.
Lemma dx_nonzero : dpsfdxc 3 4 3 3 sigma <> 0.
Proof.
  unfold dpsfdxc. fold a. pose proof a_pos as A. assert (S : 0 < sqrt PI) by (apply sqrt_lt_R0, PI_RGT_0). assert (E1 : exp (- (a * (4 + 0.5 - 3)) ^ 2) < exp (- (a * (4 - 0.5 - 3)) ^ 2)) by (apply exp_increasing; nra).
  assert (E2 : erf (a * (3 - 0.5 - 3)) < erf (a * (3 + 0.5 - 3))) by (apply erf_increasing; nra).
  assert (0 < a * 0.25 * 2 / sqrt PI) by (apply Rdiv_lt_0_compat; lra). replace (- a * 0.25 * 2 / sqrt PI) with (- (a * 0.25 * 2 / sqrt PI)) by (field; lra).
  apply Rmult_integral_contrapositive. split; [apply Rmult_integral_contrapositive; split|]; lra.
Qed.
Lemma dy_nonzero : dpsfdyc 4 3 3 3 sigma <> 0.
Proof.
  unfold dpsfdyc. fold a. pose proof a_pos as A. assert (S : 0 < sqrt PI) by (apply sqrt_lt_R0, PI_RGT_0). assert (E1 : exp (- (a * (4 + 0.5 - 3)) ^ 2) < exp (- (a * (4 - 0.5 - 3)) ^ 2)) by (apply exp_increasing; nra).
  assert (E2 : erf (a * (3 - 0.5 - 3)) < erf (a * (3 + 0.5 - 3))) by (apply erf_increasing; nra).
  assert (0 < a * 0.25 * 2 / sqrt PI) by (apply Rdiv_lt_0_compat; lra). replace (- a * 0.25 * 2 / sqrt PI) with (- (a * 0.25 * 2 / sqrt PI)) by (field; lra).
  apply Rmult_integral_contrapositive. split; [apply Rmult_integral_contrapositive; split|]; lra.
Qed.
End Psf.
Lemma sum_sq_pos {A} (f : A -> R) l x : In x l -> f x <> 0 -> 0 < Rsum (map (fun a => f a * f a) l).
Proof.
  intros H N. induction l as [|b l IH]; [destruct H|]. cbn [map]. rewrite Rsum_cons. assert (P : 0 <= Rsum (map (fun a => f a * f a) l)) by (apply Rsum_nonneg, Forall_forall; intros y Hy; apply in_map_iff in Hy; destruct Hy as (z & <- & _); nra).
  destruct H as [->|H]; [nra|]. specialize (IH H). nra.
Qed.
Lemma diagonal_solve p q r b0 b1 b2 : p <> 0 -> q <> 0 -> r <> 0 -> linalg_solve [[p; 0; 0]; [0; q; 0]; [0; 0; r]] [b0; b1; b2] = Ok [b0 / p; b1 / q; b2 / r].
Proof.
  intros P Q R0. set (A := [_; _; _]). destruct (linalg_solve A [b0; b1; b2]) as [x|e] eqn:E.
  - apply linalg_solve_Ok in E; [|reflexivity|repeat constructor]. destruct E as (_ & _ & U). f_equal. symmetry. apply U; [reflexivity|]. unfold A. cbn. repeat f_equal; field; repeat split; assumption.
  - apply linalg_solve_Err in E; [|reflexivity|repeat constructor]. destruct E as (_ & z & L & NZ & M). exfalso. apply NZ. destruct z as [|z0 [|z1 [|z2 [|]]]]; try discriminate L. unfold A in M. cbn in M. injection M as M0 M1 M2.
    assert (H0 : p * z0 = 0) by lra. assert (H1 : q * z1 = 0) by lra. assert (H2 : r * z2 = 0) by lra. apply Rmult_integral in H0, H1, H2. cbn. destruct H0, H1, H2; try contradiction. now subst.
Qed.
Lemma symmetric_fit stamp noise : rectangle 7 7 stamp -> (forall i j, (i <= 6)%nat -> (j <= 6)%nat -> pix stamp (6 - i) j = pix stamp i j /\ pix stamp i (6 - j) = pix stamp i j) ->
  Rsum (List.concat stamp) <> 0 ->
  let error d := noise / (Rabs (Rsum (List.concat stamp)) * sqrt (Rsum (map (fun '(i, j) => d (INR i) (INR j) 3 3 1 ^ 2) (idx 7 7)))) in
  fitcentroid stamp noise = Ok (0, 0, error dpsfdxc, error dpsfdyc, Rsum (map (fun '(i, j) => pix stamp i j * psf (INR i) (INR j) 3 3 1) (idx 7 7)) / Rsum (map (fun '(i, j) => psf (INR i) (INR j) 3 3 1 * psf (INR i) (INR j) 3 3 1) (idx 7 7))).
Proof.
  intros Hr Sy F error. assert (L1 : length stamp = 7%nat) by apply Hr. assert (L2 : shape1 stamp = 7%nat). { destruct stamp as [|row rest]; [discriminate|]. destruct Hr as [_ Fr]. inversion Fr. assumption. }
  set (flux := Rsum (List.concat stamp)) in *. 
  pose (m := fun p : nat * nat => psf (INR (fst p)) (INR (snd p)) 3 3 1). pose (dx := fun p : nat * nat => flux * dpsfdxc (INR (fst p)) (INR (snd p)) 3 3 1). pose (dy := fun p : nat * nat => flux * dpsfdyc (INR (fst p)) (INR (snd p)) 3 3 1). pose (dt := fun p : nat * nat => pix stamp (fst p) (snd p)).
  assert (M6 : forall j, (j <= 6)%nat -> (6 - (6 - j))%nat = j) by (intros; lia).
  assert (S1 : forall p, psf (fst (let '(i, j) := p in (INR i, INR j))) (snd (let '(i, j) := p in (INR i, INR j))) 3 3 1 = m p) by (intros [i j]; reflexivity).
  assert (one : 0 < 1) by lra.
  assert (N : gauss_newton 5 1 7 7 (List.concat stamp) flux 3 3 [] =
    Ok (flux + (Rsum (map (fun p => m p * (dt p - flux * m p)) (idx 7 7)) / Rsum (map (fun p => m p * m p) (idx 7 7))) * 1, 3 + 0 * 1, 3 + 0 * 1,
      [[Rsum (map (fun p => m p * m p) (idx 7 7)); 0; 0]; [0; Rsum (map (fun p => dx p * dx p) (idx 7 7)); 0]; [0; 0; Rsum (map (fun p => dy p * dy p) (idx 7 7))]])).
  { cbn [gauss_newton]. rewrite (data_idx 7 7 stamp Hr), pixels_idx, !map_map. cbv zeta.
    replace (map (fun x => let '(i0, i1) := let '(i, j) := x in (INR i, INR j) in psf i0 i1 3 3 1) (idx 7 7)) with (map m (idx 7 7)) by (apply map_ext; intros [? ?]; reflexivity).
    replace (map (fun x => let '(i0, i1) := let '(i, j) := x in (INR i, INR j) in flux * dpsfdxc i0 i1 3 3 1) (idx 7 7)) with (map dx (idx 7 7)) by (apply map_ext; intros [? ?]; reflexivity).
    replace (map (fun x => let '(i0, i1) := let '(i, j) := x in (INR i, INR j) in flux * dpsfdyc i0 i1 3 3 1) (idx 7 7)) with (map dy (idx 7 7)) by (apply map_ext; intros [? ?]; reflexivity).
    replace (map (fun '(i, j) => pix stamp i j) (idx 7 7)) with (map dt (idx 7 7)) by (apply map_ext; intros [? ?]; reflexivity).
    replace (map (fun x => flux * (let '(i0, i1) := let '(i, j) := x in (INR i, INR j) in psf i0 i1 3 3 1)) (idx 7 7)) with (map (fun p => flux * m p) (idx 7 7)) by (apply map_ext; intros [? ?]; reflexivity).
    rewrite sub_maps. cbn [matvec gram map]. rewrite !dot_maps.
    assert (Zmx : Rsum (map (fun p => m p * dx p) (idx 7 7)) = 0) by (apply odd_x; intros i j Hi Hj; unfold m, dx; cbn [fst snd]; rewrite INR_flip, psf_flip_x, dx_flip_x by assumption; ring).
    assert (Zxm : Rsum (map (fun p => dx p * m p) (idx 7 7)) = 0) by (apply odd_x; intros i j Hi Hj; unfold m, dx; cbn [fst snd]; rewrite INR_flip, psf_flip_x, dx_flip_x by assumption; ring).
    assert (Zmy : Rsum (map (fun p => m p * dy p) (idx 7 7)) = 0) by (apply odd_y; intros i j Hi Hj; unfold m, dy; cbn [fst snd]; rewrite INR_flip, psf_flip_y, dy_flip_y by assumption; ring).
    assert (Zym : Rsum (map (fun p => dy p * m p) (idx 7 7)) = 0) by (apply odd_y; intros i j Hi Hj; unfold m, dy; cbn [fst snd]; rewrite INR_flip, psf_flip_y, dy_flip_y by assumption; ring).
    assert (Zxy : Rsum (map (fun p => dx p * dy p) (idx 7 7)) = 0) by (apply odd_x; intros i j Hi Hj; unfold dx, dy; cbn [fst snd]; rewrite INR_flip, dx_flip_x, dy_flip_x by assumption; ring).
    assert (Zyx : Rsum (map (fun p => dy p * dx p) (idx 7 7)) = 0) by (apply odd_x; intros i j Hi Hj; unfold dx, dy; cbn [fst snd]; rewrite INR_flip, dx_flip_x, dy_flip_x by assumption; ring).
    assert (Zx : Rsum (map (fun p => dx p * (dt p - flux * m p)) (idx 7 7)) = 0) by (apply odd_x; intros i j Hi Hj; unfold dx, dt, m; cbn [fst snd]; rewrite (proj2 (Sy i j Hi Hj)), INR_flip, psf_flip_x, dx_flip_x by assumption; ring).
    assert (Zy : Rsum (map (fun p => dy p * (dt p - flux * m p)) (idx 7 7)) = 0) by (apply odd_y; intros i j Hi Hj; unfold dy, dt, m; cbn [fst snd]; rewrite (proj1 (Sy i j Hi Hj)), INR_flip, psf_flip_y, dy_flip_y by assumption; ring).
    rewrite Zmx, Zxm, Zmy, Zym, Zxy, Zyx, Zx, Zy.
    assert (Pm : 0 < Rsum (map (fun p => m p * m p) (idx 7 7))) by (apply (sum_sq_pos m _ (0, 0)%nat); [cbn; auto|unfold m; pose proof (psf_pos 1 one (INR 0) (INR 0) 3 3); cbn [fst snd]; lra]).
    assert (Px : 0 < Rsum (map (fun p => dx p * dx p) (idx 7 7))).
    { apply (sum_sq_pos dx _ (3, 4)%nat); [cbn; tauto|unfold dx; cbn [fst snd]]. replace (INR 3) with 3 by (cbn; ring). replace (INR 4) with 4 by (cbn; ring). apply Rmult_integral_contrapositive. split; [exact F|apply dx_nonzero, one]. }
    assert (Py : 0 < Rsum (map (fun p => dy p * dy p) (idx 7 7))).
    { apply (sum_sq_pos dy _ (4, 3)%nat); [cbn; tauto|unfold dy; cbn [fst snd]]. replace (INR 3) with 3 by (cbn; ring). replace (INR 4) with 4 by (cbn; ring). apply Rmult_integral_contrapositive. split; [exact F|apply dy_nonzero, one]. }
    rewrite diagonal_solve by lra. cbn [rbind nth]. replace (0 / Rsum (map (fun p => dx p * dx p) (idx 7 7))) with 0 by (field; lra). replace (0 / Rsum (map (fun p => dy p * dy p) (idx 7 7))) with 0 by (field; lra). rewrite Rabs_R0, Rmax_left by lra. assert (Rltb 0.2 0 = false) as -> by (apply Rltb_false; lra). rewrite !Rmult_0_l, Rabs_R0. assert (Rltb 0 0.001 = true) as -> by (apply Rltb_true; lra). cbn [andb].
    reflexivity. }
  unfold fitcentroid. rewrite L1, L2. cbv zeta. fold flux. replace (INR (7 / 2)) with 3 by (cbn; ring). rewrite N. cbn [rbind].
  assert (Pm : 0 < Rsum (map (fun p => m p * m p) (idx 7 7))) by (apply (sum_sq_pos m _ (0, 0)%nat); [cbn; auto|unfold m; pose proof (psf_pos 1 one (INR 0) (INR 0) 3 3); cbn [fst snd]; lra]).
  assert (Px : 0 < Rsum (map (fun p => dx p * dx p) (idx 7 7))).
  { apply (sum_sq_pos dx _ (3, 4)%nat); [cbn; tauto|unfold dx; cbn [fst snd]]. replace (INR 3) with 3 by (cbn; ring). replace (INR 4) with 4 by (cbn; ring). apply Rmult_integral_contrapositive. split; [exact F|apply dx_nonzero, one]. }
  assert (Py : 0 < Rsum (map (fun p => dy p * dy p) (idx 7 7))).
  { apply (sum_sq_pos dy _ (4, 3)%nat); [cbn; tauto|unfold dy; cbn [fst snd]]. replace (INR 3) with 3 by (cbn; ring). replace (INR 4) with 4 by (cbn; ring). apply Rmult_integral_contrapositive. split; [exact F|apply dy_nonzero, one]. }
  assert (Er : forall (d : R -> R -> R -> R -> R -> R) q, q = Rsum (map (fun p => (flux * d (INR (fst p)) (INR (snd p)) 3 3 1) * (flux * d (INR (fst p)) (INR (snd p)) 3 3 1)) (idx 7 7)) -> 0 < q -> noise * sqrt (1 / q) = error d).
  { intros d q -> Q. unfold error. fold flux.
    assert (D : Rsum (map (fun p => flux * d (INR (fst p)) (INR (snd p)) 3 3 1 * (flux * d (INR (fst p)) (INR (snd p)) 3 3 1)) (idx 7 7)) = flux ^ 2 * Rsum (map (fun '(i, j) => d (INR i) (INR j) 3 3 1 ^ 2) (idx 7 7))).
    { clear. generalize (idx 7 7). induction l as [|[i j] l IH]; cbn [map]; rewrite ?Rsum_cons; [unfold Rsum; cbn; ring|]. rewrite IH. cbn [fst snd]. ring. }
    rewrite D in *. set (w := Rsum (map (fun '(i, j) => d (INR i) (INR j) 3 3 1 ^ 2) (idx 7 7))) in *. assert (F2 : 0 < flux ^ 2) by (pose proof (pow_nonzero flux 2 F); pose proof (pow2_ge_0 flux); lra).
    assert (W : 0 < w). { apply Rmult_lt_reg_l with (flux ^ 2); lra. } replace (1 / (flux ^ 2 * w)) with (/ (flux ^ 2 * w)) by (field; lra). rewrite sqrt_inv, sqrt_mult by lra. replace (flux ^ 2) with (flux²) by (unfold Rsqr; ring). rewrite sqrt_Rsqr_abs. reflexivity. }
  rewrite !diagonal_solve by lra. cbn [rbind nth]. f_equal. f_equal; [f_equal; [f_equal; [f_equal; ring|]|]|].
  { exact (Er dpsfdxc _ eq_refl Px). } { exact (Er dpsfdyc _ eq_refl Py). }
  replace (map (fun '(i, j) => pix stamp i j * psf (INR i) (INR j) 3 3 1) (idx 7 7)) with (map (fun p => m p * dt p) (idx 7 7)) by (apply map_ext; intros [? ?]; unfold m, dt; cbn [fst snd]; ring).
  replace (map (fun '(i, j) => psf (INR i) (INR j) 3 3 1 * psf (INR i) (INR j) 3 3 1) (idx 7 7)) with (map (fun p => m p * m p) (idx 7 7)) by (apply map_ext; intros [? ?]; reflexivity).
  assert (D : Rsum (map (fun p => m p * (dt p - flux * m p)) (idx 7 7)) = Rsum (map (fun p => m p * dt p) (idx 7 7)) - flux * Rsum (map (fun p => m p * m p) (idx 7 7))).
  { generalize (idx 7 7). induction l as [|p l IH]; cbn [map]; rewrite ?Rsum_cons; [unfold Rsum; cbn; ring|]. rewrite IH. ring. }
  rewrite D. field. lra.
Qed.

(** *** A query that satisfies the promise and names the entry itself second when it has a twin *)
Definition nearest_other (l : list (R * R)) (i : nat) : option nat :=
  let p := nth i l (0, 0) in
  fold_right (fun k acc => if (k =? i)%nat then acc else match acc with None => Some k | Some j => if Rltb (apart p (nth j l (0, 0))) (apart p (nth k l (0, 0))) then Some j else Some k end) None (seq 0 (length l)).
Definition twin_query (l : list (R * R)) (i : nat) : option R * nat :=
  match nearest_other l i with
  | None => (None, 1%nat)
  | Some j => let d := apart (nth i l (0, 0)) (nth j l (0, 0)) in (Some d, if Rleb d 0 then i else j)
  end.
Lemma nearest_other_spec l i : match nearest_other l i with
  | None => forall k, (k < length l)%nat -> k = i
  | Some j => (j < length l)%nat /\ j <> i /\ forall k, (k < length l)%nat -> k <> i -> apart (nth i l (0, 0)) (nth j l (0, 0)) <= apart (nth i l (0, 0)) (nth k l (0, 0)) end.
Proof.
  unfold nearest_other. set (p := nth i l (0, 0)). assert (G : forall ks, match fold_right (fun k acc => if (k =? i)%nat then acc else match acc with None => Some k | Some j => if Rltb (apart p (nth j l (0, 0))) (apart p (nth k l (0, 0))) then Some j else Some k end) None ks with
    | None => forall k, In k ks -> k = i | Some j => In j ks /\ j <> i /\ forall k, In k ks -> k <> i -> apart p (nth j l (0, 0)) <= apart p (nth k l (0, 0)) end).
  { induction ks as [|k ks IH]; cbn [fold_right]; [intros k []|]. destruct (fold_right _ None ks) as [j|].
    - destruct IH as (Ij & Nj & M). destruct (Nat.eqb_spec k i) as [->|Nk].
      + split; [now right|]. split; [exact Nj|]. intros m [<-|Hm] Nm; [contradiction|auto].
      + destruct (Rltb _ _) eqn:C; [apply Rltb_true in C|apply Rltb_false in C].
        * split; [now right|]. split; [exact Nj|]. intros m [<-|Hm] Nm; [lra|auto].
        * split; [now left|]. split; [exact Nk|]. intros m [<-|Hm] Nm; [lra|]. specialize (M m Hm Nm). lra.
    - destruct (Nat.eqb_spec k i) as [->|Nk]; [intros m [<-|Hm]; auto|]. split; [now left|]. split; [exact Nk|]. intros m [<-|Hm] Nm; [lra|]. specialize (IH m Hm). contradiction. }
  specialize (G (seq 0 (length l))). destruct (fold_right _ _ _) as [j|].
  - destruct G as (Ij & Nj & M). apply in_seq in Ij. split; [lia|]. split; [exact Nj|]. intros k Hk. apply M, in_seq. lia.
  - intros k Hk. apply G, in_seq. lia.
Qed.
Lemma twin_promise : second_query twin_query.
Proof.
  intros l i p E. pose proof (nearest_other_spec l i) as S. assert (Hi : (i < length l)%nat) by (apply nth_error_Some; congruence). assert (P : nth i l (0, 0) = p) by (now apply nth_error_nth). unfold twin_query. destruct (nearest_other l i) as [j|].
  - destruct S as (Hj & Nj & M). split; [lia|]. intros _. rewrite P in *. destruct (Rleb _ 0) eqn:C.
    + apply Rleb_true in C. pose proof (apart_pos p (nth j l (0, 0))). exists j, (nth j l (0, 0)), i, p. rewrite apart_self. split; [f_equal; f_equal; lra|]. split; [exact Nj|]. split; [now apply nth_error_nth'|]. split; [exact E|]. split; [lra|]. intros; apply apart_pos.
    + exists i, p, j, (nth j l (0, 0)). rewrite apart_self. split; [reflexivity|]. split; [congruence|]. split; [exact E|]. split; [now apply nth_error_nth'|]. split; [apply apart_pos|]. intros k s Hk N1 _. replace s with (nth k l (0, 0)) by (now apply nth_error_nth). apply M; [apply nth_error_Some; congruence|exact N1].
  - split; [reflexivity|]. intros L. pose proof (S 0%nat ltac:(lia)). pose proof (S 1%nat ltac:(lia)). lia.
Qed.
