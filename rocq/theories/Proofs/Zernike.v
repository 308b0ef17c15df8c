(** Zernike polynomials: the value at the rim, and the Cartesian form of the functions of polar coordinates. *)
From Verif.Model Require Import ZhaoBurge.
From Verif.Proofs Require Import Trig Noll Poly2.
From Coq Require Import Lra Lia ZArith QArith Qreals.
Local Open Scope R_scope.

(** *** Sums *)
Lemma fold_sum (f : nat -> R) l a : fold_left (fun r i => r + f i) l a = a + Rsum (map f l).
Proof. revert a. unfold Rsum. induction l as [|i l IH]; intros a; cbn [fold_left map fold_right]; [ring|]. rewrite IH. ring. Qed.
Definition ssum (n : nat) (f : nat -> R) : R := Rsum (map f (seq 0 n)).
Lemma ssum_0 f : ssum 0 f = 0.
Proof. reflexivity. Qed.
Lemma ssum_S n f : ssum (S n) f = ssum n f + f n.
Proof.
  unfold ssum. rewrite seq_S, map_app. unfold Rsum. rewrite fold_right_app. cbn. generalize (map f (seq 0 n)). intros l.
  replace (fold_right Rplus (f n + 0) l) with (fold_right Rplus 0 l + f n); [reflexivity|]. induction l as [|a l IH]; cbn; [ring|]. rewrite <- IH. ring.
Qed.
Lemma ssum_shift n f : ssum (S n) f = f 0%nat + ssum n (fun i => f (S i)).
Proof. unfold ssum. cbn [seq map]. rewrite <- seq_shift, map_map. reflexivity. Qed.
Lemma ssum_ext n f g : (forall i, (i < n)%nat -> f i = g i) -> ssum n f = ssum n g.
Proof. intros H. induction n as [|n IH]; [reflexivity|]. rewrite !ssum_S, IH, H by (intros; try apply H; lia). reflexivity. Qed.
Lemma ssum_plus n f g : ssum n (fun i => f i + g i) = ssum n f + ssum n g.
Proof. induction n as [|n IH]; [cbn; ring|]. rewrite !ssum_S, IH. ring. Qed.
Lemma ssum_scale n c f : ssum n (fun i => c * f i) = c * ssum n f.
Proof. induction n as [|n IH]; [cbn; ring|]. rewrite !ssum_S, IH. ring. Qed.

(** *** Binomial coefficients *)
Fixpoint bin (n k : nat) : nat :=
  match k, n with O, _ => 1 | S _, O => 0 | S k', S n' => bin n' k' + bin n' (S k') end.
Lemma bin_big n k : (n < k)%nat -> bin n k = 0%nat.
Proof. revert k. induction n as [|n IH]; intros [|k] H; cbn; try lia. rewrite !IH by lia. reflexivity. Qed.
Lemma bin_S n k : bin (S n) (S k) = (bin n k + bin n (S k))%nat.
Proof. reflexivity. Qed.
Lemma bin_0 n : bin n 0 = 1%nat.
Proof. destruct n; reflexivity. Qed.
Lemma bin_n n : bin n n = 1%nat.
Proof. induction n as [|n IH]; [reflexivity|]. rewrite bin_S, IH, bin_big by lia. reflexivity. Qed.
Lemma bin_fact a b : (bin (a + b) a * (fact a * fact b) = fact (a + b))%nat.
Proof.
  assert (G : forall s a b, (a + b = s)%nat -> (bin s a * (fact a * fact b) = fact s)%nat); [|now apply G].
  induction s as [|s IH]; intros [|a'] b' E.
  - assert (b' = 0)%nat as -> by lia. reflexivity.
  - lia.
  - cbn in E. subst b'. rewrite bin_0. cbn [fact]. lia.
  - destruct b' as [|b'].
    + assert (s = a') as -> by lia. rewrite bin_n. cbn [fact]. lia.
    + rewrite bin_S. pose proof (IH a' (S b') ltac:(lia)) as H1. pose proof (IH (S a') b' ltac:(lia)) as H2.
      change (fact (S s)) with (S s * fact s)%nat. replace (S s) with (S a' + S b')%nat by lia.
      rewrite Nat.mul_add_distr_r. change (fact (S a')) with (S a' * fact a')%nat at 1. change (fact (S b')) with (S b' * fact b')%nat at 2.
      replace (bin s a' * (S a' * fact a' * fact (S b')))%nat with (S a' * (bin s a' * (fact a' * fact (S b'))))%nat by ring.
      replace (bin s (S a') * (fact (S a') * (S b' * fact b')))%nat with (S b' * (bin s (S a') * (fact (S a') * fact b')))%nat by ring.
      rewrite H1, H2. ring.
Qed.
Definition sgn (i : nat) : R := (-1) ^ i.
(** Iterated differences. *)
Definition alt (k : nat) (g : nat -> R) : R := ssum (S k) (fun i => sgn i * INR (bin k i) * g i).
Lemma alt_S k g : alt (S k) g = alt k g - alt k (fun i => g (S i)).
Proof.
  unfold alt. rewrite ssum_shift.
  rewrite (ssum_ext (S k) _ (fun i => (sgn (S i) * INR (bin k (S i)) * g (S i)) + -1 * (sgn i * INR (bin k i) * g (S i)))).
  - rewrite ssum_plus, ssum_scale. assert (E : ssum (S k) (fun i => sgn i * INR (bin k i) * g i) = sgn 0 * INR (bin (S k) 0) * g 0%nat + ssum (S k) (fun i => sgn (S i) * INR (bin k (S i)) * g (S i))).
    { rewrite ssum_shift. rewrite bin_0, (bin_0 (S k)). f_equal. rewrite (ssum_S k (fun i => sgn (S i) * INR (bin k (S i)) * g (S i))). rewrite (bin_big k (S k)) by lia. cbn [INR]. ring. }
    rewrite E. ring.
  - intros i _. rewrite bin_S, plus_INR. unfold sgn. cbn [pow]. ring.
Qed.
Lemma alt_bin N j k : forall s, (k + s <= N)%nat -> (k <= j)%nat -> alt k (fun i => INR (bin (N - s - i) j)) = INR (bin (N - s - k) (j - k)).
Proof.
  induction k as [|k IH]; intros s H1 H2.
  - unfold alt. rewrite ssum_S, ssum_0. unfold sgn. rewrite !Nat.sub_0_r. cbn. ring.
  - rewrite alt_S, IH by lia.
    assert (E : alt k (fun i => INR (bin (N - s - S i) j)) = alt k (fun i => INR (bin (N - S s - i) j))) by (unfold alt; apply ssum_ext; intros i _; do 3 f_equal; lia).
    rewrite E, IH by lia. replace (N - s - k)%nat with (S (N - s - S k)) by lia. replace (j - k)%nat with (S (j - S k)) by lia. rewrite bin_S, plus_INR.
    replace (N - S s - k)%nat with (N - s - S k)%nat by lia. ring.
Qed.

(** *** The radial polynomial *)
Definition admissible (n m : Z) : Prop := (Z.abs m <= n)%Z /\ Z.Even (n - m).
Lemma admissible_halves n m : admissible n m -> exists h k : nat, (k <= h)%nat /\ n = Z.of_nat (h + k) /\ Z.abs m = Z.of_nat (h - k) /\ ((n + Z.abs m) / 2)%Z = Z.of_nat h /\ Z.quot (n - Z.abs m) 2 = Z.of_nat k.
Proof.
  intros [A [q B]]. set (h := ((n + Z.abs m) / 2)%Z). assert (Hh : (2 * h = n + Z.abs m)%Z) by (unfold h; divs). set (k := (n - h)%Z).
  exists (Z.to_nat h), (Z.to_nat k). assert (0 <= h)%Z by lia. assert (0 <= k)%Z by (unfold k; lia). assert (k <= h)%Z by (unfold k; lia).
  split; [lia|]. split; [unfold k in *; lia|]. split; [unfold k in *; lia|]. split; [lia|]. rewrite Z.quot_div_nonneg by lia. replace (n - Z.abs m)%Z with (k * 2)%Z by (unfold k; lia). rewrite Z.div_mul by lia. lia.
Qed.
(** The coefficient of r^(n-2i). *)
Definition rcoef (h k i : nat) : R := sgn i * INR (fact (h + k - i)) / INR (fact i * fact (h - i) * fact (k - i)).
Lemma sgn_mod i : IZR (if (Z.of_nat i mod 2 =? 0)%Z then 1 else -1) = sgn i.
Proof.
  unfold sgn. induction i as [|i IH]; [reflexivity|]. cbn [pow]. rewrite <- IH. rewrite Nat2Z.inj_succ, <- Z.add_1_r.
  destruct (Z.eqb_spec (Z.of_nat i mod 2) 0), (Z.eqb_spec ((Z.of_nat i + 1) mod 2) 0); try lra; exfalso; divs.
Qed.
Lemma INR_fact_pos n : 0 < INR (fact n).
Proof. apply lt_0_INR, lt_O_fact. Qed.
Lemma radial_sum n m r : admissible n m -> exists h k : nat, (k <= h)%nat /\ n = Z.of_nat (h + k) /\ Z.abs m = Z.of_nat (h - k) /\
  getZernRadial (n, m) r = ssum (S k) (fun i => rcoef h k i * r ^ (h + k - 2 * i)).
Proof.
  intros A. destruct (admissible_halves n m A) as (h & k & Hk & En & Em & Eh & Ek). exists h, k. split; [exact Hk|]. split; [exact En|]. split; [exact Em|].
  unfold getZernRadial. cbn [fst snd]. rewrite Eh, Ek, fold_sum. replace (Z.to_nat (Z.of_nat k + 1)) with (S k) by lia. fold (ssum (S k) (fun i => radial_term n (Z.of_nat h) (Z.of_nat k) r (Z.of_nat i))). rewrite Rplus_0_l.
  apply ssum_ext. intros i Hi. unfold radial_term, factorial. replace (Z.to_nat (n - 2 * Z.of_nat i)) with (h + k - 2 * i)%nat by lia. replace (Z.to_nat (n - Z.of_nat i)) with (h + k - i)%nat by lia.
  replace (Z.to_nat (Z.of_nat i)) with i by lia. replace (Z.to_nat (Z.of_nat h - Z.of_nat i)) with (h - i)%nat by lia. replace (Z.to_nat (Z.of_nat k - Z.of_nat i)) with (k - i)%nat by lia.
  f_equal. unfold rcoef. rewrite !mult_IZR, sgn_mod, <- !INR_IZR_INZ, !mult_INR. reflexivity.
Qed.
Lemma radial_one n m : admissible n m -> getZernRadial (n, m) 1 = 1.
Proof.
  intros A. destruct (radial_sum n m 1 A) as (h & k & Hk & _ & _ & E). rewrite E.
  transitivity (alt k (fun i => INR (bin (h + k - 0 - i) k))).
  - unfold alt. apply ssum_ext. intros i Hi. rewrite pow1, Rmult_1_r. unfold rcoef. pose proof (bin_fact k (h - i)) as F1. pose proof (bin_fact i (k - i)) as F2.
    replace (k + (h - i))%nat with (h + k - 0 - i)%nat in F1 by lia. replace (i + (k - i))%nat with k in F2 by lia. apply (f_equal INR) in F1. apply (f_equal INR) in F2. rewrite !mult_INR in F1, F2.
    replace (h + k - i)%nat with (h + k - 0 - i)%nat by lia. rewrite <- F1, <- F2, !mult_INR. pose proof (INR_fact_pos i). pose proof (INR_fact_pos (h - i)). pose proof (INR_fact_pos (k - i)). field. repeat split; lra.
  - rewrite alt_bin by lia. rewrite Nat.sub_diag, bin_0. reflexivity.
Qed.
Lemma radial_parity n m r : admissible n m -> getZernRadial (n, m) (- r) = (-1) ^ Z.to_nat n * getZernRadial (n, m) r.
Proof.
  intros A. destruct (radial_sum n m r A) as (h & k & Hk & En & Em & E). destruct (radial_sum n m (- r) A) as (h' & k' & Hk' & En' & Em' & E').
  assert (h' = h) as -> by lia. assert (k' = k) as -> by lia. rewrite E, E', <- ssum_scale. apply ssum_ext. intros i Hi.
  replace (- r) with (-1 * r) by ring. rewrite Rpow_mult_distr. replace (Z.to_nat n) with (h + k)%nat by lia.
  replace (h + k)%nat with ((h + k - 2 * i) + 2 * i)%nat at 3 by lia. rewrite pow_add, pow_1_even. ring.
Qed.

(** *** Cartesian form *)
Definition r2p : poly2 := [(1%Q, (2%nat, 0%nat)); (1%Q, (0%nat, 2%nat))].
Fixpoint ppow (p : poly2) (n : nat) : poly2 := match n with O => [(1%Q, (0%nat, 0%nat))] | S n' => pmul p (ppow p n') end.
Lemma Q2R_1 : Q2R 1 = 1.
Proof. unfold Q2R. cbn. field. Qed.
Lemma ppow_eval p n x y : peval (ppow p n) x y = peval p x y ^ n.
Proof. induction n as [|n IH]; cbn [ppow pow]; [cbn; unfold meval; cbn [fst snd pow]; rewrite Q2R_1; ring|]. now rewrite pmul_eval, IH. Qed.
Lemma r2p_eval x y : peval r2p x y = x * x + y * y.
Proof. cbn. unfold meval. cbn [fst snd pow]. rewrite Q2R_1. ring. Qed.
Definition Xp : poly2 := [(1%Q, (1%nat, 0%nat))].
Definition Yp : poly2 := [(1%Q, (0%nat, 1%nat))].
Lemma Xp_eval x y : peval Xp x y = x.
Proof. cbn. unfold meval. cbn [fst snd pow]. rewrite Q2R_1. ring. Qed.
Lemma Yp_eval x y : peval Yp x y = y.
Proof. cbn. unfold meval. cbn [fst snd pow]. rewrite Q2R_1. ring. Qed.
(** r^m cos(m t) and r^m sin(m t) *)
Fixpoint csp (m : nat) : poly2 * poly2 :=
  match m with
  | O => ([(1%Q, (0%nat, 0%nat))], [])
  | S m' => let '(c, s) := csp m' in (padd (pmul Xp c) (pscale (-1) (pmul Yp s)), padd (pmul Xp s) (pmul Yp c))
  end.
Lemma csp_eval m r t : peval (fst (csp m)) (r * cos t) (r * sin t) = r ^ m * cos (INR m * t) /\ peval (snd (csp m)) (r * cos t) (r * sin t) = r ^ m * sin (INR m * t).
Proof.
  induction m as [|m [IH1 IH2]].
  - cbn [csp fst snd pow INR]. rewrite Rmult_0_l, cos_0, sin_0. split; cbn; [unfold meval; cbn [fst snd pow]; rewrite Q2R_1|]; ring.
  - cbn [csp]. destruct (csp m) as [c s]. cbn [fst snd] in *. rewrite !padd_eval, pscale_eval, !pmul_eval, IH1, IH2, Xp_eval, Yp_eval. rewrite S_INR. rewrite !Rmult_plus_distr_r, Rmult_1_l, cos_plus, sin_plus.
    replace (Q2R (-1)) with (-1) by (unfold Q2R; cbn; lra). cbn [pow]. split; ring.
Qed.
Fixpoint psum (f : nat -> poly2) (n : nat) : poly2 := match n with O => [] | S n' => padd (psum f n') (f n') end.
Lemma psum_eval f n x y : peval (psum f n) x y = ssum n (fun i => peval (f i) x y).
Proof. induction n as [|n IH]; [reflexivity|]. cbn [psum]. rewrite padd_eval, IH, ssum_S. reflexivity. Qed.
Fixpoint zfact (n : nat) : Z := match n with O => 1 | S n' => Z.of_nat n * zfact n' end.
Lemma zfact_fact n : zfact n = Z.of_nat (fact n).
Proof. induction n as [|n IH]; [reflexivity|]. cbn [zfact]. change (fact (S n)) with (S n * fact n)%nat. rewrite Nat2Z.inj_mul, IH. reflexivity. Qed.
Definition qcoef (h k i : nat) : Q := Qred ((if Nat.even i then 1 else -1) * zfact (h + k - i) # Z.to_pos (zfact i * zfact (h - i) * zfact (k - i))).
Lemma qcoef_rcoef h k i : Q2R (qcoef h k i) = rcoef h k i.
Proof.
  unfold qcoef, rcoef. rewrite Q2R_red. unfold Q2R. cbn [Qnum Qden]. rewrite !zfact_fact.
  assert (P : (0 < Z.of_nat (fact i) * Z.of_nat (fact (h - i)) * Z.of_nat (fact (k - i)))%Z) by (pose proof (lt_O_fact i); pose proof (lt_O_fact (h - i)); pose proof (lt_O_fact (k - i)); nia).
  rewrite Z2Pos.id by exact P. rewrite <- !Nat2Z.inj_mul, mult_IZR, <- !INR_IZR_INZ. unfold Rdiv. f_equal. f_equal.
  unfold sgn. clear. induction i as [|i IH]; [reflexivity|]. rewrite Nat.even_succ. cbn [pow]. rewrite <- IH, <- Nat.negb_even. destruct (Nat.even i); cbn; ring.
Qed.
Definition zpoly (n m : Z) : poly2 :=
  let a := Z.to_nat (Z.abs m) in let h := Z.to_nat ((n + Z.abs m) / 2) in let k := (Z.to_nat n - h)%nat in
  pmul (psum (fun i => pscale (qcoef h k i) (ppow r2p (k - i))) (S k)) (if (0 <=? m)%Z then fst (csp a) else snd (csp a)).
Lemma radial_zpoly n m r t : admissible n m ->
  peval (zpoly n m) (r * cos t) (r * sin t) = getZernRadial (n, m) r * getZernAngular (n, m) t.
Proof.
  intros A. destruct (radial_sum n m r A) as (h & k & Hk & En & Em & E). unfold zpoly.
  assert (E1 : Z.to_nat (Z.abs m) = (h - k)%nat) by lia. assert (E2 : Z.to_nat ((n + Z.abs m) / 2) = h) by (replace (n + Z.abs m)%Z with (Z.of_nat h * 2)%Z by lia; rewrite Z.div_mul by lia; lia).
  rewrite E1, E2. replace (Z.to_nat n - h)%nat with k by lia. rewrite pmul_eval, psum_eval, E. destruct (csp_eval (h - k) r t) as [C S].
  assert (P : peval r2p (r * cos t) (r * sin t) = r ^ 2) by (rewrite r2p_eval; pose proof (sin2_cos2 t) as T; unfold Rsqr in T; transitivity (r ^ 2 * (sin t * sin t + cos t * cos t)); [ring|rewrite T; ring]).
  assert (SS : ssum (Datatypes.S k) (fun i => rcoef h k i * r ^ (h + k - 2 * i)) = r ^ (h - k) * ssum (Datatypes.S k) (fun i => peval (pscale (qcoef h k i) (ppow r2p (k - i))) (r * cos t) (r * sin t))).
  { rewrite <- ssum_scale. apply ssum_ext. intros i Hi. rewrite pscale_eval, ppow_eval, qcoef_rcoef, P, <- pow_mult. replace (h + k - 2 * i)%nat with ((h - k) + 2 * (k - i))%nat by lia. rewrite pow_add. ring. }
  rewrite SS. unfold getZernAngular. cbn [snd]. destruct (Z.eqb_spec m 0) as [->|Nm].
  - cbn [Z.leb Z.compare]. rewrite C. replace (h - k)%nat with 0%nat by (cbn in Em; lia). cbn [INR pow]. rewrite Rmult_0_l, cos_0. ring.
  - replace (INR (h - k)) with (IZR (Z.abs m)) in C, S by (rewrite Em, <- INR_IZR_INZ; reflexivity).
    destruct (Z.ltb_spec 0 m) as [L|L].
    + assert ((0 <=? m)%Z = true) as -> by (apply Z.leb_le; lia). rewrite C. replace (Z.abs m) with m by lia. ring.
    + assert ((0 <=? m)%Z = false) as -> by (apply Z.leb_gt; lia). rewrite S. ring.
Qed.
Lemma zernXY_zpoly n m x y : admissible n m -> getZernFuncXY (n, m) x y = peval (zpoly n m) x y.
Proof.
  intros A. unfold getZernFuncXY. destruct (atan2_polar y x) as [X Y]. unfold hyp in X, Y. rewrite <- radial_zpoly by exact A.
  replace (x ^ 2 + y ^ 2) with (x * x + y * y) in X, Y by ring. rewrite <- X, <- Y. reflexivity.
Qed.
Lemma zern_polar n m r t : admissible n m -> getZernFuncXY (n, m) (r * cos t) (r * sin t) = getZernRadial (n, m) r * getZernAngular (n, m) t.
Proof. intros A. rewrite zernXY_zpoly by exact A. now apply radial_zpoly. Qed.

(** *** Computing with Noll indices *)
Definition nollc (noll : Z) : Z * Z :=
  let n := ((Z.sqrt (8 * noll - 7) - 1) / 2)%Z in let d := (noll - 1 - n * (n + 1) / 2)%Z in
  (n, if (0 <? noll mod 2)%Z then (- noll_m n d)%Z else noll_m n d).
Lemma nollc_spec noll : (1 <= noll)%Z -> convertNolltoBW noll = nollc noll.
Proof.
  intros H. destruct (noll_decomp noll H) as (n & d & Hd & Hn). rewrite (noll_spec noll n d Hd Hn). unfold nollc.
  assert (E : ((Z.sqrt (8 * noll - 7) - 1) / 2 = n)%Z).
  { assert (S : (2 * n + 1 <= Z.sqrt (8 * noll - 7) < 2 * n + 3)%Z).
    { split; [apply Z.sqrt_le_square; nia|apply Z.sqrt_lt_square; nia]. }
    divs. }
  rewrite E. replace (noll - 1 - n * (n + 1) / 2)%Z with d; [reflexivity|]. pose proof (n_parity n). pose proof (Z.div_mod (n * (n + 1)) 2). lia.
Qed.
Lemma noll_admissible noll : (1 <= noll)%Z -> admissible (fst (nollc noll)) (snd (nollc noll)).
Proof. intros H. rewrite <- nollc_spec by exact H. destruct (convertNolltoBW noll) as [n m] eqn:E. destruct (noll_range noll n m H E) as (A & B & _). split; assumption. Qed.
Definition zp (noll : Z) : poly2 := norm (zpoly (fst (nollc noll)) (snd (nollc noll))).
Lemma getZ_poly noll x y : (1 <= noll)%Z -> getZ noll x y = sqrt (IZR (nth (Z.to_nat noll) squares 0%Z)) * peval (zp noll) x y.
Proof.
  intros H. unfold getZ, normalizeArea, zp. rewrite norm_eval, nollc_spec, <- zernXY_zpoly by (try exact H; now apply noll_admissible). destruct (nollc noll). reflexivity.
Qed.
