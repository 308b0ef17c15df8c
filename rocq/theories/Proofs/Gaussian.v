(** The Gaussian covariance matrix is positive semidefinite, and Cholesky factorisation of a positive definite matrix. *)
From Verif.Model Require Import Turbulence.
From Verif.Proofs Require Import Prelude RealNum Stats LinAlg Turbulence.
From Coq Require Import Reals Lra.
Local Open Scope R_scope.

Notation wpoint := (R * (R * R))%type (only parsing).
Lemma pairing_ext k k' l m : (forall p q, k p q = k' p q) -> pairing k l m = pairing k' l m.
Proof. intros E. unfold pairing. f_equal. apply map_ext. intros a. f_equal. apply map_ext. intros b. now rewrite E. Qed.
Lemma pairing_plus k k' l m : pairing (fun p q => k p q + k' p q) l m = pairing k l m + pairing k' l m.
Proof. unfold pairing. rewrite <- Rsum_plus. f_equal. apply map_ext. intros a. rewrite <- Rsum_plus. f_equal. apply map_ext. intros b. ring. Qed.
Lemma pairing_scale c k l m : pairing (fun p q => c * k p q) l m = c * pairing k l m.
Proof. unfold pairing. rewrite <- Rsum_scale. f_equal. apply map_ext. intros a. rewrite <- Rsum_scale. f_equal. apply map_ext. intros b. ring. Qed.
Lemma pairing_feature f l m : pairing (fun p q => f p * f q) l m = Rsum (map (fun a => fst a * f (snd a)) l) * Rsum (map (fun a => fst a * f (snd a)) m).
Proof.
  unfold pairing. rewrite Rmult_comm, <- Rsum_scale. f_equal. apply map_ext. intros a. rewrite Rmult_comm, <- Rsum_scale. f_equal. apply map_ext. intros b. ring.
Qed.
Definition reweight (g : R * R -> R) (l : list wpoint) : list wpoint := map (fun a => (fst a * g (snd a), snd a)) l.
Lemma pairing_reweight g k l m : pairing (fun p q => g p * g q * k p q) l m = pairing k (reweight g l) (reweight g m).
Proof. unfold pairing, reweight. rewrite map_map. f_equal. apply map_ext. intros a. rewrite map_map. f_equal. apply map_ext. intros b. cbn [fst snd]. ring. Qed.
Lemma pairing_sum (F : nat -> R * R -> R * R -> R) n l m : pairing (fun p q => sum_f_R0 (fun i => F i p q) n) l m = sum_f_R0 (fun i => pairing (F i) l m) n.
Proof. induction n as [|n IH]; cbn [sum_f_R0]; [reflexivity|]. now rewrite pairing_plus, IH. Qed.
Definition inner (p q : R * R) : R := fst p * fst q + snd p * snd q.
Lemma C_pos n i : 0 <= C n i.
Proof. unfold C. apply Rmult_le_pos; [apply pos_INR|]. left. apply Rinv_0_lt_compat, Rmult_lt_0_compat; apply INR_fact_lt_0. Qed.
Lemma pairing_power n l : 0 <= pairing (fun p q => inner p q ^ n) l l.
Proof.
  rewrite (pairing_ext _ (fun p q => sum_f_R0 (fun i => C n i * ((fst p ^ i * snd p ^ (n - i)) * (fst q ^ i * snd q ^ (n - i)))) n)).
  - rewrite pairing_sum. apply cond_pos_sum. intros i. rewrite pairing_scale. apply Rmult_le_pos; [apply C_pos|]. rewrite (pairing_feature (fun p => fst p ^ i * snd p ^ (n - i))). apply Rle_0_sqr.
  - intros p q. unfold inner. rewrite binomial. apply sum_eq. intros i _. rewrite !Rpow_mult_distr. ring.
Qed.
Lemma Rsum_cv {A} (F : nat -> A -> R) (G : A -> R) l : (forall a, Un_cv (fun n => F n a) (G a)) -> Un_cv (fun n => Rsum (map (F n) l)) (Rsum (map G l)).
Proof.
  intros H. induction l as [|a l IH]; cbn [map].
  - intros e He. exists 0%nat. intros n _. unfold R_dist. cbn. rewrite Rminus_0_r, Rabs_R0. exact He.
  - assert (E : Rsum (G a :: map G l) = G a + Rsum (map G l)) by reflexivity. rewrite E. apply (CV_plus (fun n => F n a) (fun n => Rsum (map (F n) l)) _ _ (H a) IH).
Qed.
Lemma pairing_cv (F : nat -> R * R -> R * R -> R) k l m : (forall p q, Un_cv (fun n => F n p q) (k p q)) -> Un_cv (fun n => pairing (F n) l m) (pairing k l m).
Proof.
  intros H. unfold pairing. apply (Rsum_cv (fun n a => Rsum (map (fun b => fst a * fst b * F n (snd b) (snd a)) m))). intros a.
  apply (Rsum_cv (fun n b => fst a * fst b * F n (snd b) (snd a))). intros b. apply (CV_mult (fun _ => fst a * fst b)); [|apply H].
  intros e He. exists 0%nat. intros n _. unfold R_dist. rewrite Rminus_diag_eq by reflexivity. now rewrite Rabs_R0.
Qed.
Lemma limit_nonneg u x : Un_cv u x -> (forall n, 0 <= u n) -> 0 <= x.
Proof.
  intros H P. destruct (Rle_dec 0 x) as [|N]; [assumption|]. exfalso. apply Rnot_le_lt in N. destruct (H (- x) ltac:(lra)) as (n & Hn). specialize (Hn n (le_n n)). unfold R_dist in Hn. specialize (P n). rewrite Rabs_right in Hn by lra. lra.
Qed.
Lemma pairing_exp l : 0 <= pairing (fun p q => exp (inner p q)) l l.
Proof.
  apply (limit_nonneg (fun n => pairing (fun p q => sum_f_R0 (fun i => / INR (fact i) * inner p q ^ i) n) l l)).
  - apply pairing_cv. intros p q. unfold exp. destruct (exist_exp (inner p q)) as [x Hx]. cbn. exact Hx.
  - intros n. rewrite pairing_sum. apply cond_pos_sum. intros i. rewrite pairing_scale. apply Rmult_le_pos; [left; apply Rinv_0_lt_compat, INR_fact_lt_0|apply pairing_power].
Qed.
(** [k p q = aa^2 exp (-|p - q|^2 / (2 ll^2))] *)
Lemma gaussian_psd aa ll ps v : ll <> 0 -> length v = length ps -> 0 <= dot v (matvec (cov_matrix (fun p q => aa ^ 2 * exp (- (dist2 p q / ll ^ 2) / 2)) ps ps) v).
Proof.
  intros N L. rewrite cov_pairing by congruence. rewrite pairing_scale. apply Rmult_le_pos; [apply pow2_ge_0|].
  set (sc := fun p : R * R => (fst p / ll, snd p / ll)). set (g := fun p : R * R => exp (- (fst (sc p) ^ 2 + snd (sc p) ^ 2) / 2)).
  rewrite (pairing_ext _ (fun p q => g p * g q * exp (inner (sc p) (sc q)))).
  - rewrite (pairing_reweight g). generalize (reweight g (combine v ps)). intros l. assert (E : pairing (fun p q => exp (inner (sc p) (sc q))) l l = pairing (fun p q => exp (inner p q)) (map (fun a => (fst a, sc (snd a))) l) (map (fun a => (fst a, sc (snd a))) l)).
    { unfold pairing. rewrite map_map. f_equal. apply map_ext. intros a. now rewrite map_map. }
    rewrite E. apply pairing_exp.
  - intros p q. unfold g. rewrite <- !exp_plus. f_equal. unfold dist2, inner, sc. cbn [fst snd]. field. exact N.
Qed.

(** *** Cholesky *)
Lemma matvec_cons_hd rows z v : Forall (fun r => length r = S (length v)) rows -> matvec rows (z :: v) = axpy (matvec (map (@tl R) rows) v) z (map (hd 0) rows).
Proof. induction 1 as [|r rows Lr F IH]; [reflexivity|]. destruct r as [|x r]; [discriminate|]. unfold matvec in *. cbn [map dot axpy hd tl]. rewrite IH. f_equal. ring. Qed.
Definition schur (a : R) (b : list R) (rows : list (list R)) : list (list R) := map (fun r => axpy (tl r) (- (hd 0 r / a)) b) rows.
Lemma schur_matvec a b rows v : Forall (fun r => length r = S (length b)) rows -> length v = length b -> matvec (schur a b rows) v = axpy (matvec (map (@tl R) rows) v) (- (dot b v / a)) (map (hd 0) rows).
Proof. intros F L. unfold schur, matvec. induction F as [|r rows Lr F IH]; [reflexivity|]. destruct r as [|x r]; [discriminate|]. cbn in Lr. cbn [map axpy hd tl]. rewrite IH, dot_axpy by lia. f_equal. unfold Rdiv. ring. Qed.
Lemma pivots_definite n : forall A, length A = n -> square A -> symmetric A -> definite A -> exists l, pivots n A = Some l /\ Forall (fun x => 0 < x) l /\ length l = n.
Proof.
  induction n as [|n IH]; intros A LA Sq Sy D; [exists []; repeat split; constructor|]. destruct A as [|r0 rows]; [discriminate|]. cbn in LA. injection LA as LA. unfold square in Sq. cbn [length] in Sq. rewrite LA in Sq. apply Forall_cons_iff in Sq as [L0 F].
  destruct r0 as [|a b]; [discriminate|]. cbn in L0. injection L0 as Lb.
  assert (Hd : map (hd 0) rows = b).
  { (* by symmetry *)
    apply list_eq_nth; [rewrite map_length; lia|]. rewrite map_length, LA. intros i Hi.
    assert (E := Sy (unit_vec (S n) 0) (unit_vec (S n) (S i))). cbn [length] in E. rewrite LA in E. specialize (E (unit_vec_length _ _) (unit_vec_length _ _)). rewrite dot_comm in E.
    rewrite !dot_unit in E; try lia; try (rewrite matvec_length; cbn; lia).
    assert (M0 : matvec ((a :: b) :: rows) (unit_vec (S n) 0) = a :: map (hd 0) rows).
    { unfold matvec. cbn [map]. f_equal; [rewrite dot_comm, dot_unit by (cbn; lia); reflexivity|]. clear -F. induction F as [|r rows Lr F IH]; [reflexivity|]. cbn [map]. rewrite IH. f_equal. rewrite dot_comm, dot_unit by lia. now destruct r. }
    rewrite M0 in E. cbn [nth] in E. unfold matvec in E. cbn [map nth] in E. rewrite E. rewrite dot_comm, dot_unit by (cbn; lia). reflexivity. }
  assert (Pa : 0 < a).
  { assert (X := D (unit_vec (S n) 0)). cbn [length] in X. rewrite LA in X. specialize (X (unit_vec_length _ _)). rewrite dot_unit in X by (rewrite ?matvec_length; cbn; lia). unfold matvec in X. cbn [map nth] in X. rewrite dot_comm, dot_unit in X by (cbn; lia). cbn [nth] in X. apply X. cbn. intros E. injection E. lra. }
  cbn [pivots]. replace (Rltb 0 a) with true by (symmetry; now apply Rltb_true). fold (schur a b rows).
  assert (LS : length (schur a b rows) = n) by (unfold schur; now rewrite map_length).
  assert (SqS : square (schur a b rows)). { unfold square. rewrite LS. unfold schur. apply Forall_map. eapply Forall_impl; [|exact F]. cbn. intros r Lr. rewrite axpy_length; destruct r; cbn in *; lia. }
  assert (Fb : Forall (fun r : list R => length r = S (length b)) rows) by (rewrite Lb; exact F).
  assert (Tm : forall z v, length v = n -> matvec ((a :: b) :: rows) (z :: v) = (a * z + dot b v) :: axpy (matvec (map (@tl R) rows) v) z b).
  { intros z v Lv. unfold matvec at 1. cbn [map dot]. f_equal. transitivity (axpy (matvec (map (@tl R) rows) v) z (map (hd 0) rows)); [|now rewrite Hd]. apply (matvec_cons_hd rows z v). rewrite Lv. exact F. }
  assert (LT : forall v, length (matvec (map (@tl R) rows) v) = n) by (intros v; rewrite matvec_length, map_length; exact LA).
  assert (St : forall u v, length u = n -> length v = n -> dot (matvec (map (@tl R) rows) u) v = dot u (matvec (map (@tl R) rows) v)).
  { intros u v Lu Lv. assert (E := Sy (0 :: u) (0 :: v)). cbn [length] in E. specialize (E ltac:(lia) ltac:(lia)). rewrite !Tm in E by assumption. cbn [dot] in E. rewrite dot_axpy, dot_axpy_r in E by (rewrite LT; lia). lra. }
  destruct (IH (schur a b rows) LS SqS) as (l & El & Fl & Ll).
  - intros u v Lu Lv. rewrite LS in *. rewrite !schur_matvec, Hd by (assumption || lia). rewrite dot_axpy, dot_axpy_r by (rewrite LT; lia). rewrite (St u v Lu Lv), (dot_comm u b). unfold Rdiv. ring.
  - intros v Lv Nv. rewrite LS in *. rewrite schur_matvec, Hd by (assumption || lia). rewrite dot_axpy_r by (rewrite LT; lia).
    assert (X := D (- (dot b v / a) :: v)). cbn [length] in X. rewrite LA in X. specialize (X ltac:(lia)). rewrite Tm in X by exact Lv. cbn [dot] in X. rewrite dot_axpy_r in X by (rewrite LT; lia).
    replace (a * - (dot b v / a) + dot b v) with 0 in X by (field; lra). rewrite Rmult_0_r, Rplus_0_l in X. apply X. cbn. intros E. injection E as _ E. contradiction.
  - exists (a :: l). rewrite El. repeat split; [now constructor|cbn; lia].
Qed.
Lemma cho_factor_definite A : square A -> symmetric A -> definite A -> exists l, cho_factor A = Ok l.
Proof. intros Sq Sy D. destruct (pivots_definite (length A) A eq_refl Sq Sy D) as (l & E & _). unfold cho_factor. rewrite E. eauto. Qed.
Lemma exclude_ok A d : square A -> symmetric A -> definite A -> length d = length A -> exists t, predict_exclude A d = Ok t.
Proof.
  intros Sq Sy D L. unfold predict_exclude. assert (I : exists kinv, linalg_inv A = Ok kinv).
  { unfold linalg_inv. assert (G : forall js, exists cols, rmapM (fun j => linalg_solve A (unit_vec (length A) j)) js = Ok cols). { induction js as [|j js [cols IH]]; [exists []; reflexivity|]. destruct (definite_solve A (unit_vec (length A) j) Sq D (unit_vec_length _ _)) as (x & E). cbn [rmapM]. rewrite E. cbn [rbind]. rewrite IH. cbn. eauto. }
    destruct (G (seq 0 (length A))) as (cols & ->). cbn. eauto. }
  destruct I as (kinv & K). rewrite K. cbn [rbind].
  assert (G : forall x, In x (combine (combine d kinv) (seq 0 (length d))) -> Reqb (nth (snd x) (snd (fst x)) 0) 0 = false).
  { intros [[di ki] i] J. cbn [fst snd]. destruct (Nat.eq_dec (length A) 0) as [Z|NZ]; [rewrite Z in L; destruct d; [contradiction|discriminate]|].
    assert (Lk : length kinv = length A) by (apply (inv_row A kinv 0 Sq Sy K); lia).
    assert (X : exists j, (j < length A)%nat /\ i = j /\ ki = nth j kinv []).
    { apply (In_nth _ _ (0, [], 0%nat)) in J as (j & Hj & E). rewrite !combine_length, seq_length, Lk, L, !Nat.min_id in Hj. rewrite combine_nth in E by (rewrite combine_length, seq_length; lia). rewrite combine_nth in E by lia. rewrite seq_nth in E by lia. injection E as _ <- <-. exists j. auto. }
    destruct X as (j & Hj & -> & ->). destruct (inv_row A kinv j Sq Sy K Hj) as [_ Row]. apply linalg_solve_Ok in Row as (Lu & Mu & _); [|apply unit_vec_length|exact Sq].
    destruct (Reqb _ 0) eqn:E; [|reflexivity]. exfalso. apply Reqb_true in E. assert (N : nth j kinv [] <> repeat 0 (length A)).
    { intros Z. rewrite Z in Mu. assert (M0 : nth j (matvec A (repeat 0 (length A))) 0 = 0). { assert (Z0 : forall n B j, nth j (matvec B (repeat 0 n)) 0 = 0); [|apply Z0]. clear. intros n B. unfold matvec. induction B as [|r B IH]; intros [|j]; cbn [map nth]; try reflexivity; [apply dot_repeat0|apply IH]. }
      rewrite Mu, unit_vec_nth, Nat.eqb_refl in M0 by exact Hj. lra. }
    specialize (D _ Lu N). rewrite Mu, dot_comm, dot_unit in D by assumption. lra. }
  revert G. generalize (combine (combine d kinv) (seq 0 (length d))). induction l as [|[[di ki] i] l IH]; intros G; [exists []; reflexivity|]. cbn [rmapM]. specialize (G ((di, ki), i) (or_introl eq_refl)) as G0. cbn [fst snd] in G0. rewrite G0. cbn [rbind].
  destruct IH as (t & ->); [intros x J; apply G; now right|]. cbn. eauto.
Qed.
