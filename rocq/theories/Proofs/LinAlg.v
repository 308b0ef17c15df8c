(** Gaussian elimination and normal equations. *)
From Verif.Model Require Import LinAlg.
From Verif.Spec Require Import LinAlg.
From Verif.Proofs Require Import RealNum.
From Coq Require Import Lra Permutation.
Local Open Scope R_scope.

Definition sat (x : list R) (r : equation) : Prop := dot (fst r) x = snd r.
Definition wide (n : nat) (r : equation) : Prop := length (fst r) = n.

Lemma axpy_length a f b : length a = length b -> length (axpy a f b) = length a.
Proof. revert b. induction a as [|x a IH]; intros [|y b] H; cbn in *; try discriminate; [reflexivity|]. now rewrite IH by lia. Qed.
Lemma dot_axpy a f b x : length a = length b -> dot (axpy a f b) x = dot a x + f * dot b x.
Proof.
  revert b x. induction a as [|u a IH]; intros [|v b] x H; cbn in *; try discriminate; [lra|].
  destruct x as [|z x]; [lra|]. rewrite IH by lia. lra.
Qed.
Lemma dot_nil_r a : dot a [] = 0.
Proof. destruct a; reflexivity. Qed.
Lemma dot_comm a b : dot a b = dot b a.
Proof. revert b. induction a as [|x a IH]; intros [|y b]; cbn; try reflexivity. rewrite IH. lra. Qed.
Lemma dot_repeat0 a n : dot a (repeat 0 n) = 0.
Proof. revert n. induction a as [|x a IH]; intros [|n]; cbn; try reflexivity. rewrite IH. lra. Qed.

Lemma split_pivot_Some rows p others : split_pivot rows = Some (p, others) ->
  hd 0 (fst p) <> 0 /\ Permutation rows (p :: others).
Proof.
  revert p others. induction rows as [|r rest IH]; intros p others; cbn; [discriminate|].
  destruct (Reqb (hd 0 (fst r)) 0) eqn:E.
  - destruct (split_pivot rest) as [[q o]|]; [|discriminate]. intros H. injection H as <- <-. destruct (IH q o eq_refl) as [A B].
    split; [exact A|]. rewrite B. apply perm_swap.
  - intros H. injection H as <- <-. split; [now apply Reqb_false|reflexivity].
Qed.
Lemma split_pivot_None rows : split_pivot rows = None -> Forall (fun r => hd 0 (fst r) = 0) rows.
Proof.
  induction rows as [|r rest IH]; cbn; [constructor|]. destruct (Reqb (hd 0 (fst r)) 0) eqn:E; [|discriminate].
  destruct (split_pivot rest) as [[q o]|]; [discriminate|]. intros _. constructor; [now apply Reqb_true|auto].
Qed.

Lemma wide_S n a b : wide (S n) (a, b) -> exists h t, a = h :: t /\ length t = n.
Proof. unfold wide. cbn. destruct a as [|h t]; cbn; [discriminate|]. intros H. exists h, t. split; [reflexivity|lia]. Qed.

(** Elimination keeps the solutions. *)
Lemma eliminate_sat n p r x0 xs : wide (S n) p -> wide (S n) r -> hd 0 (fst p) <> 0 -> sat (x0 :: xs) p ->
  (sat (x0 :: xs) r <-> sat xs (eliminate p r)).
Proof.
  destruct p as [pa pb], r as [ra rb]. intros Hp Hr Hh. destruct (wide_S _ _ _ Hp) as (h & t & -> & Lt). destruct (wide_S _ _ _ Hr) as (h' & t' & -> & Lt').
  unfold sat, eliminate. cbn in *. intros Sp. rewrite dot_axpy by congruence. split; intros S.
  - rewrite <- Sp, <- S. field. exact Hh.
  - rewrite <- Sp in S. assert (E : dot t' xs = rb - h' * x0); [|lra].
    replace (rb - h' * x0) with (rb + - (h' / h) * (h * x0 + dot t xs) + (h' / h) * dot t xs) by (field; exact Hh). lra.
Qed.
Lemma eliminate_wide n p r : wide (S n) p -> wide (S n) r -> wide n (eliminate p r).
Proof.
  destruct p as [pa pb], r as [ra rb]. intros Hp Hr. destruct (wide_S _ _ _ Hp) as (h & t & -> & Lt). destruct (wide_S _ _ _ Hr) as (h' & t' & -> & Lt').
  unfold wide, eliminate in *. cbn in *. rewrite axpy_length; congruence.
Qed.

Lemma gauss_Some n : forall rows x, Forall (wide n) rows -> length rows = n -> gauss n rows = Some x ->
  length x = n /\ Forall (sat x) rows /\ forall y, length y = n -> Forall (sat y) rows -> y = x.
Proof.
  induction n as [|n IH]; intros rows x W L; cbn [gauss].
  - intros H. injection H as <-. destruct rows; [|discriminate]. repeat split; [constructor|]. intros y Ly _. now destruct y.
  - destruct (split_pivot rows) as [[p others]|] eqn:E; [|discriminate]. apply split_pivot_Some in E as [Hh Hp].
    destruct (gauss n (map (eliminate p) others)) as [xs|] eqn:G; [|discriminate]. intros H. injection H as <-.
    rewrite Hp in W. apply Forall_cons_iff in W as [Wp Wo]. apply IH in G.
    + destruct G as (G1 & G2 & G3). set (x0 := (snd p - dot (tl (fst p)) xs) / hd 0 (fst p)).
      assert (Sp : sat (x0 :: xs) p).
      { destruct p as [pa pb]. destruct (wide_S _ _ _ Wp) as (h & t & -> & Lt). unfold sat, x0. cbn in *. field. exact Hh. }
      split; [cbn; lia|]. split.
      * rewrite Hp. constructor; [exact Sp|]. rewrite Forall_map, Forall_forall in G2. rewrite Forall_forall in *. intros r Hr.
        apply (eliminate_sat n p); auto.
      * intros [|y0 ys] Ly Sy; [discriminate|]. rewrite Hp in Sy. apply Forall_cons_iff in Sy as [Yp Yo].
        assert (ys = xs).
        { apply G3; [cbn in Ly; lia|]. rewrite Forall_map. rewrite Forall_forall in *. intros r Hr. apply (eliminate_sat n p r y0 ys); auto. }
        subst ys. f_equal. destruct p as [pa pb]. destruct (wide_S _ _ _ Wp) as (h & t & -> & Lt). unfold sat, x0 in *. cbn in *.
        rewrite <- Yp. field. exact Hh.
    + rewrite Forall_map. rewrite Forall_forall in *. intros r Hr. apply eliminate_wide; auto.
    + rewrite map_length. apply Permutation_length in Hp. cbn in Hp. lia.
Qed.

Lemma gauss_None n : forall rows, Forall (wide n) rows -> gauss n rows = None ->
  exists z, length z = n /\ z <> repeat 0 n /\ Forall (fun r => dot (fst r) z = 0) rows.
Proof.
  induction n as [|n IH]; intros rows W; cbn [gauss]; [discriminate|].
  destruct (split_pivot rows) as [[p others]|] eqn:E.
  - apply split_pivot_Some in E as [Hh Hp].
    destruct (gauss n (map (eliminate p) others)) as [xs|] eqn:G; [discriminate|]. intros _.
    rewrite Hp in W. apply Forall_cons_iff in W as [Wp Wo]. apply IH in G.
    + destruct G as (z & Lz & Nz & Sz). exists (- dot (tl (fst p)) z / hd 0 (fst p) :: z). split; [cbn; lia|].
      split; [cbn; intros H; injection H as _ H; contradiction|]. rewrite Hp.
      destruct p as [pa pb]. destruct (wide_S _ _ _ Wp) as (h & t & -> & Lt). cbn in *.
      constructor; [cbn; field; exact Hh|]. rewrite Forall_map, Forall_forall in Sz. rewrite Forall_forall in *. intros [ra rb] Hr.
      specialize (Sz _ Hr). specialize (Wo _ Hr). destruct (wide_S _ _ _ Wo) as (h' & t' & -> & Lt'). cbn in *. rewrite dot_axpy in Sz by congruence.
      rewrite <- Sz. field. exact Hh.
    + rewrite Forall_map. rewrite Forall_forall in *. intros r Hr. apply eliminate_wide; auto.
  - intros _. apply split_pivot_None in E. exists (1 :: repeat 0 n). split; [cbn; now rewrite repeat_length|].
    split; [cbn; intros H; injection H; lra|]. rewrite Forall_forall in *. intros [a b] Hr. specialize (E _ Hr). specialize (W _ Hr).
    destruct (wide_S _ _ _ W) as (h & t & -> & Lt). cbn in *. rewrite dot_repeat0, E. lra.
Qed.

Lemma Forall_combine_map {A B} (P : A -> Prop) (l : list A) (m : list B) : length l = length m ->
  (Forall (fun r => P (fst r)) (combine l m) <-> Forall P l).
Proof.
  revert m. induction l as [|a l IH]; intros [|b m] H; cbn in *; try discriminate; [split; constructor|].
  rewrite !Forall_cons_iff, IH by lia. reflexivity.
Qed.
Lemma sat_matvec A b x : length A = length b -> (Forall (sat x) (combine A b) <-> matvec A x = b).
Proof.
  unfold matvec. revert b. induction A as [|r A IH]; intros [|c b] H; cbn in *; try discriminate; [split; [reflexivity|constructor]|].
  rewrite Forall_cons_iff, IH by lia. unfold sat at 1. cbn. split; [intros [-> ->]; reflexivity|intros E; injection E; auto].
Qed.

(** *** [np.linalg.solve] *)
Lemma linalg_solve_Ok A b x : length b = length A -> Forall (fun r => length r = length A) A -> linalg_solve A b = Ok x ->
  length x = length A /\ matvec A x = b /\ forall y, length y = length A -> matvec A y = b -> y = x.
Proof.
  intros L W. unfold linalg_solve. destruct (gauss _ _) as [x'|] eqn:G; [|discriminate]. intros H. injection H as <-.
  apply gauss_Some in G.
  - destruct G as (G1 & G2 & G3). split; [exact G1|]. split; [now apply sat_matvec|]. intros y Ly Sy. apply G3; [exact Ly|]. now apply sat_matvec.
  - unfold wide. apply (Forall_combine_map (fun r => length r = length A)); [congruence|exact W].
  - rewrite combine_length. lia.
Qed.
Lemma linalg_solve_Err A b e : length b = length A -> Forall (fun r => length r = length A) A -> linalg_solve A b = Err e ->
  e = LinAlgError /\ exists z, length z = length A /\ z <> repeat 0 (length A) /\ matvec A z = repeat 0 (length A).
Proof.
  intros L W. unfold linalg_solve. destruct (gauss _ _) as [x'|] eqn:G; [discriminate|]. intros H. injection H as <-. split; [reflexivity|].
  apply gauss_None in G; [|unfold wide; apply (Forall_combine_map (fun r => length r = length A)); [congruence|exact W]].
  destruct G as (z & Lz & Nz & Sz). exists z. split; [exact Lz|]. split; [exact Nz|].
  apply (Forall_combine_map (fun r => dot r z = 0)) in Sz; [|congruence]. clear - Sz. unfold matvec.
  induction A as [|r A IH]; cbn; [reflexivity|]. inversion Sz; subst. rewrite H1. f_equal. auto.
Qed.

(** *** Normal equations *)
Lemma combination_dot p h : combination p h = dot p h.
Proof. revert h. induction p as [|c p IH]; intros [|x h]; reflexivity. Qed.

(** Rows of H at sample i: the samples of [H] (list of basis rows, each of length N) with data v. *)
Fixpoint samples (H : list (list R)) (v : list R) : list (list R * R) :=
  match v with [] => [] | y :: v' => (map (hd 0) H, y) :: samples (map (@tl R) H) v' end.

Lemma dot_hd_tl r y v : length r = S (length v) -> dot r (y :: v) = hd 0 r * y + dot (tl r) v.
Proof. destruct r; cbn; [discriminate|reflexivity]. Qed.

Definition sdot (p : list R) (ss : list (list R * R)) (f : list R * R -> R) : R := Rsum (map (fun s => f s * dot p (fst s)) ss).

Lemma matvec_samples H : forall v, Forall (fun r => length r = length v) H ->
  matvec H v = fold_right (fun s acc => axpy acc (snd s) (fst s)) (repeat 0 (length H)) (samples H v).
Proof.
  intros v. revert H. induction v as [|y v IH]; intros H W; cbn [samples fold_right].
  - unfold matvec. induction H as [|r H IHH]; cbn; [reflexivity|]. inversion W; subst. rewrite dot_nil_r. f_equal. auto.
  - rewrite <- (map_length (@tl R) H), <- IH.
    + unfold matvec. clear IH. induction H as [|r H IHH]; cbn [map axpy]; [reflexivity|]. inversion W as [|? ? Wr WH]; subst. rewrite dot_hd_tl by exact Wr.
      rewrite IHH by exact WH. cbn [fst snd axpy]. f_equal. lra.
    + rewrite Forall_map. revert W. apply Forall_impl. intros r Hr. destruct r; cbn in *; lia.
Qed.

(** Inner products of a combination of the rows of H. *)
Lemma dot_matvec p H : forall v, Forall (fun r => length r = length v) H ->
  dot p (matvec H v) = Rsum (map (fun s => snd s * dot p (fst s)) (samples H v)).
Proof.
  intros v. revert p H. induction v as [|y v IH]; intros p H W; cbn [samples map Rsum fold_right].
  - unfold matvec. revert p. induction H as [|r H IHH]; intros p; cbn; [apply dot_nil_r|]. inversion W; subst. rewrite dot_nil_r.
    destruct p as [|c p]; cbn; [reflexivity|]. rewrite IHH by assumption. lra.
  - fold (Rsum (map (fun s => snd s * dot p (fst s)) (samples (map (@tl R) H) v))). rewrite <- IH.
    + cbn [fst snd]. unfold matvec. clear IH. revert p. induction H as [|r H IHH]; intros p; cbn [map]; [rewrite dot_nil_r; cbn; lra|].
      inversion W as [|? ? Wr WH]; subst. rewrite (dot_hd_tl r y v) by exact Wr. destruct p as [|c p]; cbn [dot]; [lra|]. rewrite IHH by exact WH. lra.
    + rewrite Forall_map. revert W. apply Forall_impl. intros r Hr. destruct r; cbn in *; lia.
Qed.

Lemma samples_length H v : length (samples H v) = length v.
Proof. revert H. induction v; intros H; cbn; auto. Qed.
Lemma samples_fst_length H v s : In s (samples H v) -> length (fst s) = length H.
Proof. revert H. induction v as [|y v IH]; intros H; cbn; [intros []|]. intros [<-|Hs]; [cbn; now rewrite map_length|]. rewrite (IH _ Hs), map_length. reflexivity. Qed.
(** The vector of values of the combination [p]. *)
Definition values (p : list R) (H : list (list R)) (n : nat) : list R := map (fun s => dot p (fst s)) (samples H (repeat 0 n)).
Lemma samples_fst H : forall v w, length v = length w -> map fst (samples H v) = map fst (samples H w).
Proof.
  intros v. revert H. induction v as [|y v IH]; intros H [|z w] L; cbn in *; try discriminate; [reflexivity|]. f_equal. apply IH. lia.
Qed.
Lemma values_any p H v : values p H (length v) = map (fun s => dot p (fst s)) (samples H v).
Proof.
  unfold values. rewrite <- !(map_map fst (dot p)). f_equal. apply samples_fst. apply repeat_length.
Qed.
Lemma samples_values p H : forall v, samples H (map (fun s => dot p (fst s)) (samples H v)) = map (fun s => (fst s, dot p (fst s))) (samples H v).
Proof.
  intros v. revert H. induction v as [|y v IH]; intros H; cbn; [reflexivity|]. f_equal. apply IH.
Qed.

Lemma matvec_map A x : matvec A x = map (fun r => dot r x) A.
Proof. reflexivity. Qed.
Lemma dot_map_scale_l p H w : Forall (fun r => length r = length w) H -> dot p (matvec H w) = Rsum (map (fun s => snd s * dot p (fst s)) (samples H w)).
Proof. apply dot_matvec. Qed.

(** gram H · p = H · (values of p) *)
Lemma gram_matvec H p v : Forall (fun r => length r = length v) H -> matvec (gram H) p = matvec H (map (fun s => dot p (fst s)) (samples H v)).
Proof.
  intros W. unfold gram, matvec. rewrite map_map. apply map_ext_in. intros r Hr.
  rewrite Forall_forall in W. pose proof (W r Hr) as Lr.
  change (map (dot r) H) with (map (dot r) H).
  (* dot (map (dot r) H) p = dot p (matvec H r) *)
  transitivity (dot p (matvec H r)).
  { rewrite dot_comm. f_equal. unfold matvec. apply map_ext. intros q. apply dot_comm. }
  rewrite dot_matvec by (apply Forall_forall; intros q Hq; rewrite (W q Hq), Lr; reflexivity).
  clear - Lr. revert r H Lr. induction v as [|y v IH]; intros [|x r] H Lr; cbn in *; try discriminate; [reflexivity|].
  rewrite <- IH by lia. reflexivity.
Qed.

Lemma Rsum_nonneg l : Forall (fun x => 0 <= x) l -> 0 <= Rsum l.
Proof. induction 1; [apply Rle_refl|]. unfold Rsum in *. cbn. lra. Qed.
Lemma Rsum_cons x l : Rsum (x :: l) = x + Rsum l.
Proof. reflexivity. Qed.
Lemma Rsum_sq_zero l : Rsum (map (fun x => x ^ 2) l) = 0 -> Forall (fun x => x = 0) l.
Proof.
  induction l as [|x l IH]; [constructor|]. cbn [map]. rewrite Rsum_cons. intros H.
  assert (0 <= Rsum (map (fun x => x ^ 2) l)) by (apply Rsum_nonneg; rewrite Forall_map; apply Forall_forall; intros; apply pow2_ge_0).
  pose proof (pow2_ge_0 x). assert (x ^ 2 = 0) by lra. constructor; [nra|]. apply IH. lra.
Qed.
Lemma Rsum_plus {A} (f g : A -> R) l : Rsum (map (fun a => f a + g a) l) = Rsum (map f l) + Rsum (map g l).
Proof. induction l; cbn [map]; rewrite ?Rsum_cons; [unfold Rsum; cbn; lra|]. rewrite IHl. lra. Qed.
Lemma Rsum_scale {A} c (f : A -> R) l : Rsum (map (fun a => c * f a) l) = c * Rsum (map f l).
Proof. induction l; cbn [map]; rewrite ?Rsum_cons; [unfold Rsum; cbn; lra|]. rewrite IHl. lra. Qed.

Lemma gram_square H : Forall (fun r => length r = length (gram H)) (gram H).
Proof. unfold gram. rewrite Forall_map. apply Forall_forall. intros. now rewrite !map_length. Qed.

(** Pythagoras: with the normal equations, the residuals are orthogonal to every combination. *)
Lemma normal_pythagoras H v p q : Forall (fun r => length r = length v) H -> length p = length H -> length q = length H ->
  matvec (gram H) p = matvec H v ->
  sum_sq q (samples H v) = sum_sq p (samples H v) + Rsum (map (fun x => x ^ 2) (map (fun s => dot (axpy q (-1) p) (fst s)) (samples H v))).
Proof.
  intros W Lp Lq E. set (d := axpy q (-1) p).
  assert (Ld : length d = length H) by (unfold d; rewrite axpy_length; congruence).
  assert (Orth : Rsum (map (fun s => (snd s - dot p (fst s)) * dot d (fst s)) (samples H v)) = 0).
  { rewrite (gram_matvec H p v W) in E. apply (f_equal (dot d)) in E.
    rewrite !dot_matvec in E by (try exact W; rewrite map_length, samples_length; exact W).
    rewrite samples_values, map_map in E. cbn [fst snd] in E.
    transitivity (Rsum (map (fun s => snd s * dot d (fst s) + (-1) * (dot p (fst s) * dot d (fst s))) (samples H v))).
    - f_equal. apply map_ext. intros s. lra.
    - rewrite Rsum_plus, Rsum_scale, E. lra. }
  unfold sum_sq. change (fold_right Rplus 0) with Rsum. rewrite map_map.
  transitivity (Rsum (map (fun s => ((snd s - combination p (fst s)) ^ 2 + dot d (fst s) ^ 2) + (-2) * ((snd s - dot p (fst s)) * dot d (fst s))) (samples H v))).
  - f_equal. apply map_ext. intros s. rewrite (combination_dot q), (combination_dot p). unfold d. rewrite dot_axpy by congruence. ring.
  - rewrite Rsum_plus, Rsum_scale, Orth, Rsum_plus. lra.
Qed.

Lemma axpy_zero q p : length q = length p -> axpy q (-1) p = repeat 0 (length q) -> q = p.
Proof.
  revert p. induction q as [|x q IH]; intros [|y p] L; cbn in *; try discriminate; [reflexivity|]. intros E. injection E as E1 E2.
  rewrite (IH p) by (auto; lia). f_equal. lra.
Qed.

(** The fit: normal equations solved by elimination. *)
Definition normal_fit (H : list (list R)) (v : list R) : res (list R) := linalg_solve (gram H) (matvec H v).

Lemma gram_kernel H v z : Forall (fun r => length r = length v) H -> length z = length H -> matvec (gram H) z = repeat 0 (length H) ->
  forall s, In s (samples H v) -> dot z (fst s) = 0.
Proof.
  intros W Lz E. rewrite (gram_matvec H z v W) in E. apply (f_equal (dot z)) in E. rewrite dot_repeat0 in E.
  rewrite dot_matvec in E by (rewrite map_length, samples_length; exact W). rewrite samples_values, map_map in E. cbn [fst snd] in E.
  assert (Q : Forall (fun x => x = 0) (map (fun s => dot z (fst s)) (samples H v))).
  { apply Rsum_sq_zero. rewrite map_map. rewrite <- E. f_equal. apply map_ext. intros. ring. }
  rewrite Forall_map, Forall_forall in Q. exact Q.
Qed.

Lemma normal_fit_Ok H v p : Forall (fun r => length r = length v) H -> normal_fit H v = Ok p ->
  least_squares (length H) (samples H v) p /\ independent (length H) (samples H v).
Proof.
  intros W. unfold normal_fit. intros E. apply linalg_solve_Ok in E; [|unfold gram, matvec; now rewrite !map_length|apply gram_square].
  assert (Lg : length (gram H) = length H) by (unfold gram; apply map_length). rewrite Lg in E. destruct E as (Lp & E & U).
  assert (Ind : independent (length H) (samples H v)).
  { intros z Lz Hz. assert (Ez : matvec (gram H) z = repeat 0 (length H)).
    { rewrite (gram_matvec H z v W). replace (map (fun s => dot z (fst s)) (samples H v)) with (repeat 0 (length v)).
      - unfold matvec. clear. induction H; cbn; [reflexivity|]. rewrite dot_repeat0. now f_equal.
      - rewrite <- (samples_length H v). clear - Hz. induction (samples H v) as [|s l IH]; cbn; [reflexivity|]. rewrite <- combination_dot, (Hz s) by now left. f_equal. apply IH. intros t Ht. apply Hz. now right. }
    assert (Hp : axpy p 1 z = p).
    { apply U; [rewrite axpy_length; congruence|]. rewrite <- E. unfold matvec. apply map_ext_in. intros r Hr.
      rewrite dot_comm, dot_axpy by congruence. rewrite dot_comm, (dot_comm z r).
      assert (dot r z = 0). { rewrite matvec_map in Ez. assert (In (dot r z) (repeat 0 (length H))) by (rewrite <- Ez; now apply (in_map (fun r => dot r z))). now apply repeat_spec in H0. }
      rewrite H0. lra. }
    clear - Hp Lp Lz. assert (L : length p = length z) by congruence. rewrite <- Lz. clear Lp Lz. revert z L Hp. induction p as [|x p IH]; intros [|y z] L; cbn in *; try discriminate; [reflexivity|].
    intros Hp. injection Hp as H1 H2. f_equal; [lra|]. apply IH; auto; lia. }
  split; [|exact Ind]. split; [exact Lp|]. intros q Lq Nq. rewrite (normal_pythagoras H v p q) by auto.
  set (d := map _ (samples H v)). assert (0 <= Rsum (map (fun x => x ^ 2) d)) by (apply Rsum_nonneg; rewrite Forall_map; apply Forall_forall; intros; nra).
  destruct (Req_dec (Rsum (map (fun x => x ^ 2) d)) 0) as [Z|NZ]; [|lra]. exfalso. apply Nq. apply axpy_zero; [congruence|]. rewrite Lq.
  apply Ind; [rewrite axpy_length; congruence|]. intros s Hs. rewrite combination_dot. apply Rsum_sq_zero in Z. unfold d in Z. rewrite Forall_map, Forall_forall in Z. now apply Z.
Qed.
Lemma normal_fit_Err H v e : Forall (fun r => length r = length v) H -> normal_fit H v = Err e ->
  e = LinAlgError /\ ~ independent (length H) (samples H v).
Proof.
  intros W. unfold normal_fit. intros E. assert (Lg : length (gram H) = length H) by (unfold gram; apply map_length).
  apply linalg_solve_Err in E; [|unfold gram, matvec; now rewrite !map_length|apply gram_square]. rewrite Lg in E.
  destruct E as (-> & z & Lz & Nz & Ez). split; [reflexivity|]. intros I. apply Nz. apply I; [exact Lz|]. intros s Hs. rewrite combination_dot.
  eapply gram_kernel; eauto.
Qed.
Lemma normal_fit_independent H v : Forall (fun r => length r = length v) H -> independent (length H) (samples H v) ->
  exists p, normal_fit H v = Ok p.
Proof.
  intros W I. destruct (normal_fit H v) as [p|e] eqn:E; [eauto|]. apply normal_fit_Err in E as [_ E]; [contradiction|exact W].
Qed.
