From Verif.Model Require Import TurbulencePol.
From Verif.Proofs Require Import Prelude RealNum Stats LinAlg Turbulence.
From Coq Require Import Reals Lra.
From Verif.Spec Require Import LinAlg Polynomial.
Local Open Scope R_scope.

Lemma exponents_S n : exponents (S n) = exponents n ++ map (fun j => (j, S n - j)%nat) (seq 0 (S n + 1)).
Proof. unfold exponents. rewrite seq_S, flat_map_app. cbn [flat_map]. now rewrite app_nil_r. Qed.
Lemma npoly_double n : (2 * (npoly n + 1) = (n + 1) * (n + 2))%nat /\ npoly n = (((n + 1) * (n + 2)) / 2 - 1)%nat.
Proof.
  split; [|reflexivity]. unfold npoly. assert (E : exists k, ((n + 1) * (n + 2) = 2 * k /\ 1 <= k)%nat). { induction n as [|n (k & E & K)]; [exists 1%nat; cbn; lia|]. exists (k + n + 2)%nat. nia. }
  destruct E as (k & E & K). rewrite E. replace (2 * k / 2)%nat with k by (rewrite (Nat.mul_comm 2 k), Nat.div_mul; lia). lia.
Qed.
Lemma exponents_length n : length (exponents n) = npoly n.
Proof. induction n as [|n IH]; [reflexivity|]. rewrite exponents_S, app_length, map_length, seq_length, IH. destruct (npoly_double n) as [E _]. destruct (npoly_double (S n)) as [E' _]. nia. Qed.
Lemma exponents_In n a b : In (a, b) (exponents n) <-> (1 <= a + b <= n)%nat.
Proof.
  unfold exponents. rewrite in_flat_map. split.
  - intros (d & Hd & H). apply in_seq in Hd. apply in_map_iff in H as (j & E & Hj). apply in_seq in Hj. injection E as <- <-. lia.
  - intros H. exists (a + b)%nat. split; [apply in_seq; lia|]. apply in_map_iff. exists a. split; [f_equal; lia|apply in_seq; lia].
Qed.
Lemma exponents_NoDup n : NoDup (exponents n).
Proof.
  induction n as [|n IH]; [constructor|]. rewrite exponents_S. revert IH. assert (D : NoDup (map (fun j => (j, S n - j)%nat) (seq 0 (S n + 1)))). { apply FinFun.Injective_map_NoDup; [|apply seq_NoDup]. intros i j E. now injection E. }
  assert (X : forall e, In e (exponents n) -> ~ In e (map (fun j => (j, S n - j)%nat) (seq 0 (S n + 1)))). { intros [a b] Ha Hb. apply exponents_In in Ha. apply in_map_iff in Hb as (j & E & Hj). apply in_seq in Hj. pose proof (f_equal fst E). pose proof (f_equal snd E). cbn [fst snd] in *. lia. }
  intros N. induction (exponents n) as [|e l IH]; [exact D|]. cbn. inversion N; subst. constructor; [|apply IH; [intros; apply X; now right|assumption]]. rewrite in_app_iff. intros [H|H]; [contradiction|]. apply (X e); [now left|exact H].
Qed.
Lemma exponents_prefix m n : (m <= n)%nat -> firstn (npoly m) (exponents n) = exponents m.
Proof.
  intros H. induction H as [|n H IH]; [rewrite <- exponents_length; apply firstn_all|]. rewrite exponents_S, firstn_app, IH. rewrite exponents_length. assert (npoly m <= npoly n)%nat. { destruct (npoly_double m) as [E _]. destruct (npoly_double n) as [E' _]. nia. }
  replace (npoly m - npoly n)%nat with 0%nat by lia. cbn. now rewrite app_nil_r.
Qed.
Lemma getpoly_eq pts n : getpoly pts n = Ok (map (poly_row pts) (exponents n)).
Proof. unfold getpoly. rewrite map_length, exponents_length, Nat.leb_refl, Nat.sub_diag. cbn. now rewrite app_nil_r. Qed.
Lemma lowered_pred i : lowered i = pred i.
Proof. destruct i; cbn; lia. Qed.

Definition dX (t : R * (nat * nat)) (p : R * R) : R := fst t * (INR (fst (snd t)) * fst p ^ pred (fst (snd t)) * snd p ^ snd (snd t)).
Definition dY (t : R * (nat * nat)) (p : R * R) : R := fst t * (INR (snd (snd t)) * fst p ^ fst (snd t) * snd p ^ pred (snd (snd t))).
Definition gradX (P : terms) (p : R * R) : R := Rsum (map (fun t => dX t p) P).
Definition gradY (P : terms) (p : R * R) : R := Rsum (map (fun t => dY t p) P).
Lemma gradient_eq P p : gradient P p (gradX P p, gradY P p).
Proof.
  destruct p as [x y]. unfold gradient. cbn [fst snd]. induction P as [|[c [a b]] P [IHx IHy]]; [split; apply derivable_pt_lim_const|]. split.
  - cbn [gradX map Rsum fold_right]. apply (derivable_pt_lim_plus (fun t => c * (t ^ a * y ^ b)) (fun t => value P t y)); [|exact IHx]. unfold dX. cbn [fst snd]. replace (c * (INR a * x ^ pred a * y ^ b)) with (c * y ^ b * (INR a * x ^ pred a)) by ring.
    assert (H := derivable_pt_lim_scal _ (c * y ^ b) x _ (derivable_pt_lim_pow x a)). intros e He. destruct (H e He) as (d & Hd). exists d. intros h Nh Lh. specialize (Hd h Nh Lh). unfold mult_real_fct in Hd. replace (c * ((x + h) ^ a * y ^ b) - c * (x ^ a * y ^ b)) with (c * y ^ b * (x + h) ^ a - c * y ^ b * x ^ a) by ring. exact Hd.
  - cbn [gradY map Rsum fold_right]. apply (derivable_pt_lim_plus (fun t => c * (x ^ a * t ^ b)) (fun t => value P x t)); [|exact IHy]. unfold dY. cbn [fst snd]. replace (c * (INR b * x ^ a * y ^ pred b)) with (c * x ^ a * (INR b * y ^ pred b)) by ring.
    assert (H := derivable_pt_lim_scal _ (c * x ^ a) y _ (derivable_pt_lim_pow y b)). intros e He. destruct (H e He) as (d & Hd). exists d. intros h Nh Lh. specialize (Hd h Nh Lh). unfold mult_real_fct in Hd. replace (c * (x ^ a * (y + h) ^ b) - c * (x ^ a * y ^ b)) with (c * x ^ a * (y + h) ^ b - c * x ^ a * y ^ b) by ring. exact Hd.
Qed.
Lemma gradient_unique P p g : gradient P p g -> g = (gradX P p, gradY P p).
Proof. intros [H1 H2]. destruct (gradient_eq P p) as [E1 E2]. destruct g as [u v]. cbn [fst snd] in *. f_equal; eapply uniqueness_limite; eassumption. Qed.
(** samples of the design: components of the gradient *)
Lemma poly_row_nth pts a b s : (s < 2 * length pts)%nat -> nth s (poly_row pts (a, b)) 0 = if (s <? length pts)%nat then dX (1, (a, b)) (nth s pts (0, 0)) else dY (1, (a, b)) (nth (s - length pts) pts (0, 0)).
Proof.
  intros H. unfold poly_row. destruct (Nat.ltb_spec s (length pts)) as [L|L].
  - rewrite app_nth1 by now rewrite map_length. rewrite (nth_indep _ 0 ((fun p : R * R => INR a * fst p ^ lowered a * snd p ^ b) (0, 0))) by now rewrite map_length. rewrite (map_nth (fun p : R * R => INR a * fst p ^ lowered a * snd p ^ b)). unfold dX. cbn [fst snd]. rewrite lowered_pred. ring.
  - rewrite app_nth2 by now rewrite map_length. rewrite map_length. rewrite (nth_indep _ 0 ((fun p : R * R => INR b * fst p ^ a * snd p ^ lowered b) (0, 0))) by (rewrite map_length; lia). rewrite (map_nth (fun p : R * R => INR b * fst p ^ a * snd p ^ lowered b)). unfold dY. cbn [fst snd]. rewrite lowered_pred. ring.
Qed.
Definition component (P : terms) (pts : list (R * R)) (s : nat) : R := if (s <? length pts)%nat then gradX P (nth s pts (0, 0)) else gradY P (nth (s - length pts) pts (0, 0)).
Lemma column_dot pts es s c : (s < 2 * length pts)%nat -> length c = length es -> dot (column (map (poly_row pts) es) s) c = component (combine c es) pts s.
Proof.
  intros Hs. revert c. induction es as [|[a b] es IH]; intros [|v c] L; try discriminate; [unfold component; destruct (s <? length pts)%nat; reflexivity|]. cbn [column map dot combine]. change (map (fun r => nth s r 0) (map (poly_row pts) es)) with (column (map (poly_row pts) es) s).
  rewrite IH by (cbn in L; lia). rewrite poly_row_nth by exact Hs. unfold component, gradX, gradY, Rsum. destruct (s <? length pts)%nat; cbn [map fold_right]; unfold dX, dY; cbn [fst snd]; lra.
Qed.

Lemma gradX_app A B p : gradX (A ++ B) p = gradX A p + gradX B p.
Proof. unfold gradX, Rsum. rewrite map_app, fold_right_app. induction A as [|t A IH]; cbn; lra. Qed.
Lemma gradY_app A B p : gradY (A ++ B) p = gradY A p + gradY B p.
Proof. unfold gradY, Rsum. rewrite map_app, fold_right_app. induction A as [|t A IH]; cbn; lra. Qed.
Definition opp_terms (P : terms) : terms := map (fun t => (- fst t, snd t)) P.
Lemma gradX_opp P p : gradX (opp_terms P) p = - gradX P p.
Proof. unfold gradX, opp_terms, Rsum. induction P as [|t P IH]; cbn; [lra|]. rewrite IH. unfold dX. cbn [fst snd]. lra. Qed.
Lemma gradY_opp P p : gradY (opp_terms P) p = - gradY P p.
Proof. unfold gradY, opp_terms, Rsum. induction P as [|t P IH]; cbn; [lra|]. rewrite IH. unfold dY. cbn [fst snd]. lra. Qed.
Lemma component_sub A B pts s : component (A ++ opp_terms B) pts s = component A pts s - component B pts s.
Proof. unfold component. destruct (s <? length pts)%nat; [rewrite gradX_app, gradX_opp|rewrite gradY_app, gradY_opp]; lra. Qed.
Lemma degree_app n A B : degree_le n A -> degree_le n B -> degree_le n (A ++ B).
Proof. intros. now apply Forall_app. Qed.
Lemma degree_opp n P : degree_le n P -> degree_le n (opp_terms P).
Proof. unfold degree_le, opp_terms. rewrite Forall_map. exact (fun H => H). Qed.
Lemma degree_coeffs n c : degree_le n (combine c (exponents n)).
Proof. apply Forall_forall. intros [v [a b]] H. apply in_combine_r in H. apply exponents_In in H. cbn. lia. Qed.
(** every polynomial is given by coefficients of the rows *)
Lemma to_coeffs n P : degree_le n P -> exists c, length c = npoly n /\ forall p, gradX (combine c (exponents n)) p = gradX P p /\ gradY (combine c (exponents n)) p = gradY P p.
Proof.
  induction P as [|[v [a b]] P IH]; intros H.
  - exists (repeat 0 (npoly n)). split; [apply repeat_length|]. rewrite <- exponents_length. unfold gradX, gradY, Rsum. intros p. induction (exponents n) as [|e es [I1 I2]]; [auto|]. cbn [length repeat combine map fold_right] in *. rewrite I1, I2. unfold dX, dY. cbn [fst snd]. split; lra.
  - inversion H as [|x y H1 H2]; subst. cbn [fst snd] in H1. destruct (IH H2) as (c & L & E). destruct (Nat.eq_dec (a + b) 0) as [Z|Z].
    + exists c. split; [exact L|]. intros p. destruct (E p) as [-> ->]. assert (a = 0%nat) by lia. assert (b = 0%nat) by lia. subst. unfold gradX, gradY, Rsum. cbn [map fold_right]. set (gx := fold_right _ _ _). set (gy := fold_right _ _ (map (fun t => dY t p) P)). unfold dX, dY. cbn [fst snd INR]. split; lra.
    + assert (I : In (a, b) (exponents n)) by (apply exponents_In; lia). apply in_split in I as (l1 & l2 & Es). rewrite <- exponents_length, Es, app_length in L. cbn [length] in L. rewrite Es in *. destruct (split_nth c (length l1)) as (c1 & w & c2 & -> & L1); [lia|]. rewrite app_length in L. cbn [length] in L.
      exists (c1 ++ (w + v) :: c2). split; [rewrite <- exponents_length, Es, !app_length; cbn [length]; lia|]. intros p. destruct (E p) as [Ex Ey].
      assert (Cb : forall u, combine (c1 ++ u :: c2) (l1 ++ (a, b) :: l2) = combine c1 l1 ++ (u, (a, b)) :: combine c2 l2). { intros u. clear - L1. revert l1 L1. induction c1 as [|z c1 IHc]; intros [|e l1] L1; try discriminate; cbn; f_equal. apply IHc. cbn in L1. lia. }
      rewrite Cb in *. rewrite gradX_app in *. rewrite gradY_app in *. unfold gradX, gradY, Rsum in *. cbn [map fold_right] in *. rewrite <- Ex, <- Ey. unfold dX, dY. cbn [fst snd]. split; ring.
Qed.
Lemma sum_sq_nonneg c ss : 0 <= sum_sq c ss.
Proof. unfold sum_sq. induction ss as [|s ss IH]; cbn [map fold_right]; [lra|]. pose proof (pow2_ge_0 (snd s - combination c (fst s))). lra. Qed.
Lemma sum_sq_zero c ss : sum_sq c ss <= 0 <-> forall s, In s ss -> combination c (fst s) = snd s.
Proof.
  unfold sum_sq. induction ss as [|s ss IH]; cbn [map fold_right In].
  - split; [tauto|lra].
  - pose proof (pow2_ge_0 (snd s - combination c (fst s))) as Q. pose proof (sum_sq_nonneg c ss) as Q'. unfold sum_sq in Q'. split.
    + intros H t [<-|J]; [|apply IH; [lra|exact J]]. assert (Z : (snd s - combination c (fst s)) ^ 2 = 0) by lra. cbn in Z. rewrite Rmult_1_r in Z. apply Rmult_integral in Z. lra.
    + intros H. assert (fold_right Rplus 0 (map (fun s => (snd s - combination c (fst s)) ^ 2) ss) <= 0) by (apply IH; auto). rewrite (H s (or_introl eq_refl)). replace (snd s - snd s) with 0 by ring. lra.
Qed.
Definition is_lstsq (lstsq : nat -> list (list R * R) -> res (list R)) : Prop :=
  forall k ss, Forall (fun s => length (fst s) = k) ss -> exists c, lstsq k ss = Ok c /\ length c = k /\ forall q, length q = k -> sum_sq c ss <= sum_sq q ss.
Lemma column_length P s : length (column P s) = length P.
Proof. apply map_length. Qed.

Lemma filter_none {A} (f : A -> bool) l : (forall x, In x l -> f x = false) -> filter f l = [].
Proof. induction l as [|x l IH]; intros H; [reflexivity|]. cbn. rewrite (H x (or_introl eq_refl)). apply IH. intros. apply H. now right. Qed.
Lemma nth_repeat_lt {A} (x d : A) n i : (i < n)%nat -> nth i (repeat x n) d = x.
Proof. revert i. induction n as [|n IH]; intros [|i] H; cbn; try lia; [reflexivity|apply IH; lia]. Qed.
Lemma own_filter k m : let t := repeat true k ++ false :: repeat true m in let N := (k + S m)%nat in
  filter (fun s => negb (nth s (t ++ t) false)) (seq 0 (2 * N)) = [k; (N + k)%nat].
Proof.
  cbv zeta. set (t := repeat true k ++ false :: repeat true m). set (N := (k + S m)%nat). assert (Lt : length t = N) by (unfold t, N; rewrite app_length; cbn; now rewrite !repeat_length).
  assert (T : forall s, (s < N)%nat -> nth s t false = negb (Nat.eqb s k)). { intros s Hs. unfold t. destruct (Nat.lt_trichotomy s k) as [C|[C|C]].
    - rewrite app_nth1, nth_repeat_lt by (rewrite ?repeat_length; lia). destruct (Nat.eqb_spec s k); [lia|reflexivity].
    - subst s. rewrite app_nth2, repeat_length, Nat.sub_diag, Nat.eqb_refl by (rewrite repeat_length; lia). reflexivity.
    - rewrite app_nth2 by (rewrite repeat_length; lia). rewrite repeat_length. destruct (s - k)%nat as [|d] eqn:D; [lia|]. cbn [nth]. rewrite nth_repeat_lt by (unfold N in Hs; lia). destruct (Nat.eqb_spec s k); [lia|reflexivity]. }
  assert (T2 : forall s, (s < 2 * N)%nat -> nth s (t ++ t) false = negb (Nat.eqb s k || Nat.eqb s (N + k))). { intros s Hs. destruct (Nat.lt_ge_cases s N) as [C|C].
    - rewrite app_nth1, T by lia. destruct (Nat.eqb_spec s (N + k)); [lia|]. now rewrite Bool.orb_false_r.
    - rewrite app_nth2, T by lia. rewrite Lt. destruct (Nat.eqb_spec s k); [unfold N in *; lia|]. cbn [orb]. f_equal. destruct (Nat.eqb_spec (s - N) k), (Nat.eqb_spec s (N + k)); trivial; lia. }
  replace (2 * N)%nat with (k + (1 + ((N - 1) + (1 + (N - 1 - k)))))%nat by (unfold N; lia). rewrite !seq_app, !filter_app. cbn [seq]. rewrite (filter_none _ (seq 0 k)), (filter_none _ (seq (0 + k + 1) (N - 1))), (filter_none _ (seq (0 + k + 1 + (N - 1) + 1) _)).
  - replace (0 + k + 1 + (N - 1))%nat with (N + k)%nat by (unfold N; lia). cbn [filter app Nat.add]. rewrite !T2 by (unfold N; lia). rewrite !Nat.eqb_refl. cbn [orb negb]. rewrite Bool.orb_true_r. reflexivity.
  - intros x Hx. apply in_seq in Hx. rewrite T2 by (unfold N in *; lia). destruct (Nat.eqb_spec x k), (Nat.eqb_spec x (N + k)); try reflexivity; unfold N in *; lia.
  - intros x Hx. apply in_seq in Hx. rewrite T2 by (unfold N in *; lia). destruct (Nat.eqb_spec x k), (Nat.eqb_spec x (N + k)); try reflexivity; unfold N in *; lia.
  - intros x Hx. apply in_seq in Hx. rewrite T2 by (unfold N in *; lia). destruct (Nat.eqb_spec x k), (Nat.eqb_spec x (N + k)); try reflexivity; unfold N in *; lia.
Qed.

Section Predictor.
Variable lstsq : nat -> list (list R * R) -> res (list R).
Hypothesis Hl : is_lstsq lstsq.
Variables (pts : list (R * R)) (dxy : list R) (k m : nat).
Hypothesis Lp : length pts = (k + S m)%nat.
Notation tofit := (repeat true k ++ false :: repeat true m).
Notation tofit2 := (tofit ++ tofit).
Notation rows n := (map (poly_row pts) (exponents n)).
Definition design (n : nat) (ss : list nat) : list (list R * R) := map (fun s => (column (rows n) s, nth s dxy 0)) ss.
Lemma design_lstsq n ss : exists c, lstsq (length (rows n)) (design n ss) = Ok c /\ length c = npoly n /\ forall q, length q = npoly n -> sum_sq c (design n ss) <= sum_sq q (design n ss).
Proof. rewrite map_length, exponents_length. apply Hl. unfold design. apply Forall_map, Forall_forall. intros s _. cbn. now rewrite column_length, map_length, exponents_length. Qed.
Definition polys_for (n : nat) (o : option (list (list R))) : Prop := o = None \/ exists n', (n <= n')%nat /\ o = Some (rows n').
Lemma Rsum_sq_nonneg {A} (f : A -> R) l : 0 <= Rsum (map (fun s => f s ^ 2) l).
Proof. unfold Rsum. induction l as [|x l IH]; cbn [map fold_right]; [lra|]. pose proof (pow2_ge_0 (f x)). lra. Qed.
Lemma own_pts : filter (fun s => negb (nth s tofit2 false)) (seq 0 (2 * length pts)) = [k; (k + S m + k)%nat].
Proof. rewrite Lp. apply own_filter. Qed.
Lemma predictor_ok n o : polys_for n o -> exists x y norm, predictor lstsq pts dxy tofit n o = Ok (x, y, norm, rows n) /\ 0 <= norm.
Proof.
  intros Ho. unfold predictor. replace (match o with None => getpoly pts n | Some P => Ok (firstn (npoly n) P) end) with (Ok (rows n)). 2: { destruct Ho as [-> | (n' & Hn & ->)]; [symmetry; apply getpoly_eq|]. now rewrite firstn_map, exponents_prefix. }
  cbn [rbind]. set (sub := fun f : nat -> bool => filter (fun s => nth s tofit2 false && f s)%bool (seq 0 (2 * length pts))).
  destruct (design_lstsq n (sub (fun s => negb (Nat.eqb (s mod 3) 0)))) as (c0 & E0 & _). destruct (design_lstsq n (sub (fun s => negb (Nat.eqb (s mod 3) 1)))) as (c1 & E1 & _). destruct (design_lstsq n (sub (fun s => negb (Nat.eqb (s mod 3) 2)))) as (c2 & E2 & _). destruct (design_lstsq n (sub (fun _ => true))) as (c & E & _).
  unfold design, sub in E0, E1, E2, E. rewrite E0, E1, E2, E. cbn [rbind rmap]. rewrite own_pts. cbn [map]. do 3 eexists. split; [reflexivity|].
  set (F := fun c s => dot (column (rows n) s) c - nth s dxy 0). pose proof (Rsum_sq_nonneg (F c0) (sub (fun s => Nat.eqb (s mod 3) 0))). pose proof (Rsum_sq_nonneg (F c1) (sub (fun s => Nat.eqb (s mod 3) 1))). pose proof (Rsum_sq_nonneg (F c2) (sub (fun s => Nat.eqb (s mod 3) 2))). unfold F, sub in *. lra.
Qed.
(** exact data which determine the polynomial *)
Variable T : terms.
Hypothesis HT : degree_le 4 T.
Hypothesis Hexact : forall s, (s < 2 * length pts)%nat -> nth s tofit2 false = true -> nth s dxy 0 = component T pts s.
Definition determined (i : nat) : Prop := forall T', degree_le 4 T' -> (forall s, (s < 2 * length pts)%nat -> nth s tofit2 false = true -> (s mod 3 <> i)%nat -> component T' pts s = 0) -> forall s, (s < 2 * length pts)%nat -> component T' pts s = 0.
Hypothesis Hdet : forall i, (i < 3)%nat -> determined i.
Lemma fit_exact i f ss : (i < 3)%nat -> ss = filter (fun s => nth s tofit2 false && f s)%bool (seq 0 (2 * length pts)) -> (forall s, (s mod 3 <> i)%nat -> f s = true) -> forall c, length c = npoly 4 -> (forall q, length q = npoly 4 -> sum_sq c (design 4 ss) <= sum_sq q (design 4 ss)) ->
  forall s, (s < 2 * length pts)%nat -> dot (column (rows 4) s) c = component T pts s.
Proof.
  intros Hi -> Hf c Lc Mc s Hs. destruct (to_coeffs 4 T HT) as (q & Lq & Eq). assert (Cq : forall s, (s < 2 * length pts)%nat -> dot (column (rows 4) s) q = component T pts s). { intros u Hu. rewrite column_dot by (rewrite ?exponents_length; assumption). unfold component. destruct (Eq (nth u pts (0, 0))) as [-> _]. destruct (Eq (nth (u - length pts) pts (0, 0))) as [_ ->]. reflexivity. }
  assert (Z : sum_sq c (design 4 (filter (fun s => nth s tofit2 false && f s)%bool (seq 0 (2 * length pts)))) <= 0). { apply Rle_trans with (1 := Mc q Lq). apply sum_sq_zero. intros u Hu. unfold design in Hu. apply in_map_iff in Hu as (v & <- & Hv). apply filter_In in Hv as [Hv B]. apply in_seq in Hv. apply andb_prop in B as [B _]. cbn [fst snd]. rewrite combination_dot, dot_comm, Cq, Hexact by (lia || assumption). reflexivity. }
  rewrite sum_sq_zero in Z. assert (D := Hdet i Hi (combine c (exponents 4) ++ opp_terms T) (degree_app _ _ _ (degree_coeffs 4 c) (degree_opp _ _ HT))).
  assert (D' : forall s, (s < 2 * length pts)%nat -> component (combine c (exponents 4) ++ opp_terms T) pts s = 0).
  { apply D. intros u Hu Bu Mu. rewrite component_sub, <- column_dot by (rewrite ?exponents_length; assumption). specialize (Z (column (rows 4) u, nth u dxy 0)). cbn [fst snd] in Z. rewrite combination_dot, dot_comm, Hexact in Z by assumption. rewrite Z; [lra|]. unfold design. apply in_map_iff. exists u. split; [now rewrite Hexact by assumption|]. apply filter_In. split; [apply in_seq; lia|]. now rewrite Bu, Hf. }
  rewrite column_dot by (rewrite ?exponents_length; assumption). assert (X := D' s Hs). rewrite component_sub in X. lra.
Qed.
Lemma predictor_exact : predictor lstsq pts dxy tofit 4 None = Ok (gradX T (nth k pts (0, 0)), gradY T (nth k pts (0, 0)), 0, rows 4).
Proof.
  unfold predictor. rewrite getpoly_eq. cbn [rbind]. set (sub := fun f : nat -> bool => filter (fun s => nth s tofit2 false && f s)%bool (seq 0 (2 * length pts))).
  destruct (design_lstsq 4 (sub (fun s => negb (Nat.eqb (s mod 3) 0)))) as (c0 & E0 & L0 & M0). destruct (design_lstsq 4 (sub (fun s => negb (Nat.eqb (s mod 3) 1)))) as (c1 & E1 & L1 & M1). destruct (design_lstsq 4 (sub (fun s => negb (Nat.eqb (s mod 3) 2)))) as (c2 & E2 & L2 & M2). destruct (design_lstsq 4 (sub (fun _ => true))) as (c & E & L & M).
  assert (G : forall s j, (s mod 3 <> j)%nat -> negb (Nat.eqb (s mod 3) j) = true) by (intros s j H; destruct (Nat.eqb_spec (s mod 3) j); [contradiction|reflexivity]).
  pose proof (fit_exact 0 _ _ ltac:(lia) eq_refl (fun s => G s 0%nat) c0 L0 M0) as X0. pose proof (fit_exact 1 _ _ ltac:(lia) eq_refl (fun s => G s 1%nat) c1 L1 M1) as X1. pose proof (fit_exact 2 _ _ ltac:(lia) eq_refl (fun s => G s 2%nat) c2 L2 M2) as X2. pose proof (fit_exact 0 _ _ ltac:(lia) eq_refl (fun s _ => eq_refl) c L M) as X.
  unfold design, sub in E0, E1, E2, E. rewrite E0, E1, E2, E. cbn [rbind rmap]. clear E0 E1 E2 E M0 M1 M2 M.
  assert (Z : forall (c : list R) g, (forall s, (s < 2 * length pts)%nat -> dot (column (rows 4) s) c = component T pts s) -> Rsum (map (fun s => (dot (column (rows 4) s) c - nth s dxy 0) ^ 2) (sub g)) = 0).
  { intros d g Hd. assert (J : forall s, In s (sub g) -> (dot (column (rows 4) s) d - nth s dxy 0) ^ 2 = 0). { intros s Hs. unfold sub in Hs. apply filter_In in Hs as [Hs B]. apply in_seq in Hs. apply andb_prop in B as [B _]. rewrite Hd, Hexact by (lia || assumption). ring. }
    unfold Rsum. induction (sub g) as [|s l IH]; [reflexivity|]. cbn [map fold_right]. rewrite (J s (or_introl eq_refl)), IH by (intros; apply J; now right). ring. }
  pose proof (Z c0 (fun s => Nat.eqb (s mod 3) 0) X0) as Z0. pose proof (Z c1 (fun s => Nat.eqb (s mod 3) 1) X1) as Z1. pose proof (Z c2 (fun s => Nat.eqb (s mod 3) 2) X2) as Z2. unfold sub in Z0, Z1, Z2. cbv beta in Z0, Z1, Z2. rewrite Z0, Z1, Z2. clear Z Z0 Z1 Z2. rewrite own_pts. cbn [map]. rewrite !X by lia. unfold component. rewrite Lp. destruct (Nat.ltb_spec k (k + S m)); [|lia]. destruct (Nat.ltb_spec (k + S m + k) (k + S m)); [lia|]. replace (k + S m + k - (k + S m))%nat with k by lia. repeat f_equal. ring.
Qed.
End Predictor.

(** *** one spot *)
Section One.
Variable lstsq : nat -> list (list R * R) -> res (list R).
Variable ball : list (R * R) -> R * R -> R -> list nat.
Hypothesis Hl : is_lstsq lstsq.
Lemma tofit_split i a b : NoDup (a ++ i :: b) -> map (fun k => negb (Nat.eqb k i)) (a ++ i :: b) = repeat true (length a) ++ false :: repeat true (length b).
Proof.
  intros N. rewrite map_app. cbn [map]. rewrite Nat.eqb_refl. assert (X : forall l, ~ In i l -> map (fun k => negb (Nat.eqb k i)) l = repeat true (length l)). { induction l as [|x l IH]; intros H; [reflexivity|]. cbn in *. destruct (Nat.eqb_spec x i); [subst; exfalso; auto|]. cbn. f_equal. apply IH. auto. }
  apply NoDup_remove_2 in N. rewrite in_app_iff in N. rewrite !X by auto. reflexivity.
Qed.
Lemma degrees_ok pts dxy k m last : length pts = (k + S m)%nat -> exists x y norm best o P, 0 <= norm /\ predictor lstsq pts dxy (repeat true k ++ false :: repeat true m) 4 None = Ok (x, y, norm, map (poly_row pts) (exponents 4)) /\
  rfold (try_degree lstsq pts dxy (repeat true k ++ false :: repeat true m)) [4; 3; 2; 1]%nat (1000000000, last, None) = Ok (best, o, P) /\ (last <> None -> o <> None) /\ (norm = 0 -> o = Some (x, y)).
Proof.
  intros L. destruct (predictor_ok lstsq Hl pts dxy k m L 4 None (or_introl eq_refl)) as (x & y & norm & E4 & N4). exists x, y, norm. cbn [rfold try_degree]. unfold try_degree at 1. rewrite E4. cbn [rmap rbind].
  assert (PF : forall n n', (n <= n')%nat -> polys_for pts n (Some (map (poly_row pts) (exponents n')))) by (intros; right; eauto).
  destruct (predictor_ok lstsq Hl pts dxy k m L 3 _ (PF 3%nat 4%nat ltac:(lia))) as (x3 & y3 & n3 & E3 & N3). destruct (predictor_ok lstsq Hl pts dxy k m L 2 _ (PF 2%nat 3%nat ltac:(lia))) as (x2 & y2 & n2 & E2 & N2). destruct (predictor_ok lstsq Hl pts dxy k m L 1 _ (PF 1%nat 2%nat ltac:(lia))) as (x1 & y1 & n1 & E1 & N1).
  set (st4 := if Rltb norm 1000000000 then _ else _). assert (S4 : exists b4 o4, st4 = (b4, o4, Some (map (poly_row pts) (exponents 4))) /\ (last <> None -> o4 <> None) /\ (norm = 0 -> b4 = 0 /\ o4 = Some (x, y))).
  { unfold st4. destruct (Rltb norm 1000000000) eqn:B; do 2 eexists; (split; [reflexivity|]); (split; [try discriminate; auto|]); intros Z; [auto|]. apply Rltb_false in B. lra. }
  destruct S4 as (b4 & o4 & -> & Q4 & Z4). unfold try_degree at 1. rewrite E3. cbn [rmap rbind].
  set (st3 := if Rltb n3 b4 then _ else _). assert (S3 : exists b3 o3, st3 = (b3, o3, Some (map (poly_row pts) (exponents 3))) /\ (last <> None -> o3 <> None) /\ (norm = 0 -> b3 = 0 /\ o3 = Some (x, y))).
  { unfold st3. destruct (Rltb n3 b4) eqn:B; do 2 eexists; (split; [reflexivity|]); (split; [try discriminate; auto|]); intros Z; [|auto]. apply Rltb_true in B. destruct (Z4 Z). lra. }
  destruct S3 as (b3 & o3 & -> & Q3 & Z3). unfold try_degree at 1. rewrite E2. cbn [rmap rbind].
  set (st2 := if Rltb n2 b3 then _ else _). assert (S2 : exists b2 o2, st2 = (b2, o2, Some (map (poly_row pts) (exponents 2))) /\ (last <> None -> o2 <> None) /\ (norm = 0 -> b2 = 0 /\ o2 = Some (x, y))).
  { unfold st2. destruct (Rltb n2 b3) eqn:B; do 2 eexists; (split; [reflexivity|]); (split; [try discriminate; auto|]); intros Z; [|auto]. apply Rltb_true in B. destruct (Z3 Z). lra. }
  destruct S2 as (b2 & o2 & -> & Q2 & Z2). rewrite E1. cbn [rmap rbind].
  set (st1 := if Rltb n1 b2 then _ else _). assert (S1 : exists b1 o1, st1 = (b1, o1, Some (map (poly_row pts) (exponents 1))) /\ (last <> None -> o1 <> None) /\ (norm = 0 -> b1 = 0 /\ o1 = Some (x, y))).
  { unfold st1. destruct (Rltb n1 b2) eqn:B; do 2 eexists; (split; [reflexivity|]); (split; [try discriminate; auto|]); intros Z; [|auto]. apply Rltb_true in B. destruct (Z2 Z). lra. }
  destruct S1 as (b1 & o1 & -> & Q1 & Z1). exists b1, o1, (Some (map (poly_row pts) (exponents 1))). split; [exact N4|]. split; [reflexivity|]. split; [reflexivity|]. split; [exact Q1|]. intros Z. now apply Z1.
Qed.
End One.
