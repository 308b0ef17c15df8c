From Verif.Model Require Import Match.
From Verif.Spec Require Import Match.
From Verif.Proofs Require Import Numpy RealNum Match MatchTriangles.
From Coq Require Import Permutation Sorted Lra.

(** Two orderings of the same elements by an asymmetric relation are equal. *)
Lemma sorted_unique {A} (R : A -> A -> Prop) l m :
  (forall x y, R x y -> R y x -> False) ->
  Permutation l m -> StronglySorted R l -> StronglySorted R m -> l = m.
Proof.
  intros As. revert m; induction l as [|a l IH]; intros m P Sl Sm.
  - apply Permutation_nil in P. now subst.
  - destruct m as [|b m]; [apply Permutation_sym, Permutation_nil in P; discriminate|].
    inversion Sl as [|? ? Sl' Fl]; subst. inversion Sm as [|? ? Sm' Fm]; subst. rewrite Forall_forall in Fl, Fm.
    assert (a = b).
    { assert (In a (b :: m)) as [Hb|Ha] by (eapply Permutation_in; [exact P|now left]); [now symmetry|].
      assert (In b (a :: l)) as [Hb|Hb] by (eapply Permutation_in; [apply Permutation_sym; exact P|now left]); [exact Hb|].
      exfalso. eauto. }
    subst b. f_equal. apply IH; auto. now apply Permutation_cons_inv in P.
Qed.

Lemma sqr_nonneg x : (0 <= sqr x)%R. Proof. unfold sqr. nra. Qed.
Lemma sqr_pos x : x <> 0%R -> (0 < sqr x)%R. Proof. unfold sqr. intros. nra. Qed.

Lemma RminRmult p q r : (0 < r -> Rmin (r * p) (r * q) = r * Rmin p q)%R.
Proof. intros H. unfold Rmin. destruct (Rle_dec (r * p) (r * q)), (Rle_dec p q); try reflexivity; nra. Qed.

(** Scaling and translating a triangle does not change its description. *)
Lemma describe_invariant s tx ty (a b c : point) :
  (0 < s)%R -> fst a <> fst b -> fst a <> fst c -> fst b <> fst c ->
  describe (s * fst a + tx, s * snd a + ty)%R (s * fst b + tx, s * snd b + ty)%R (s * fst c + tx, s * snd c + ty)%R
  = describe a b c.
Proof.
  destruct a as [x0 y0], b as [x1 y1], c as [x2 y2]; cbn [fst snd]. intros Hs N1 N2 N3. unfold describe.
  set (l0 := (sqr (x1 - x0) + sqr (y1 - y0))%R). set (l1 := (sqr (x2 - x1) + sqr (y2 - y1))%R). set (l2 := (sqr (x0 - x2) + sqr (y0 - y2))%R).
  set (l3 := (sqr (x2 - x0) + sqr (y2 - y0))%R).
  assert (P0 : (0 < l0)%R) by (unfold l0; pose proof (sqr_pos (x1 - x0)); pose proof (sqr_nonneg (y1 - y0)); lra).
  assert (P1 : (0 < l1)%R) by (unfold l1; pose proof (sqr_pos (x2 - x1)); pose proof (sqr_nonneg (y2 - y1)); lra).
  assert (P2 : (0 < l2)%R) by (unfold l2; pose proof (sqr_pos (x0 - x2)); pose proof (sqr_nonneg (y0 - y2)); lra).
  assert (P3 : (0 < l3)%R) by (unfold l3; pose proof (sqr_pos (x2 - x0)); pose proof (sqr_nonneg (y2 - y0)); lra).
  assert (E : forall u v, (s * u + tx - (s * v + tx) = s * (u - v))%R) by (intros; ring).
  assert (E' : forall u v, (s * u + ty - (s * v + ty) = s * (u - v))%R) by (intros; ring).
  rewrite !E, !E'.
  assert (Q : forall u v, (sqr (s * u) + sqr (s * v) = (s * s) * (sqr u + sqr v))%R) by (intros; unfold sqr; ring).
  rewrite !Q. fold l0 l1 l2 l3.
  assert (Ps : (0 < s * s)%R) by nra.
  rewrite !RmaxRmult, !RminRmult by lra.
  assert (Pm : (0 < Rmin (Rmin l0 l1) l2)%R) by (repeat apply Rmin_glb_lt; assumption).
  assert (Sq : forall l, (0 < l -> sqrt (s * s * l) = s * sqrt l)%R).
  { intros l Hl. rewrite sqrt_mult by lra. rewrite sqrt_square by lra. reflexivity. }
  f_equal; [f_equal|].
  - f_equal. field. lra.
  - replace (s * s * l0 * (s * s * l3))%R with ((s * s) * (s * s) * (l0 * l3))%R by ring.
    rewrite (sqrt_mult (s * s * (s * s)) (l0 * l3)) by nra. rewrite sqrt_square by lra.
    assert (0 < sqrt (l0 * l3))%R by (apply sqrt_lt_R0; nra). field. split; lra.
  - rewrite Sq by exact P0. assert (0 < sqrt l0)%R by (apply sqrt_lt_R0; exact P0). field. split; lra.
Qed.

(** The description is the shape of the specification. *)
Lemma sqrt_Rmax x y : (0 <= x -> 0 <= y -> sqrt (Rmax x y) = Rmax (sqrt x) (sqrt y))%R.
Proof.
  intros Hx Hy. unfold Rmax. destruct (Rle_dec x y) as [H|H].
  - destruct (Rle_dec (sqrt x) (sqrt y)) as [|N]; [reflexivity|]. exfalso; apply N. now apply sqrt_le_1.
  - destruct (Rle_dec (sqrt x) (sqrt y)) as [M|]; [|reflexivity]. apply sqrt_le_0 in M; try assumption. lra.
Qed.
Lemma sqrt_Rmin x y : (0 <= x -> 0 <= y -> sqrt (Rmin x y) = Rmin (sqrt x) (sqrt y))%R.
Proof.
  intros Hx Hy. unfold Rmin. destruct (Rle_dec x y) as [H|H].
  - destruct (Rle_dec (sqrt x) (sqrt y)) as [|N]; [reflexivity|]. exfalso; apply N. now apply sqrt_le_1.
  - destruct (Rle_dec (sqrt x) (sqrt y)) as [M|]; [|reflexivity]. apply sqrt_le_0 in M; try assumption. lra.
Qed.

Lemma describe_shape (a b c : point) :
  fst a <> fst b -> fst a <> fst c -> fst b <> fst c -> describe a b c = shape a b c.
Proof.
  destruct a as [x0 y0], b as [x1 y1], c as [x2 y2]; cbn [fst snd]. intros N1 N2 N3. unfold describe, shape, distance. cbn [fst snd].
  assert (Q : forall u v w z : R, ((u - v) ^ 2 + (w - z) ^ 2 = sqr (v - u) + sqr (z - w))%R) by (intros; unfold sqr; ring).
  rewrite !Q.
  set (l0 := (sqr (x1 - x0) + sqr (y1 - y0))%R). set (l1 := (sqr (x2 - x1) + sqr (y2 - y1))%R). set (l2 := (sqr (x0 - x2) + sqr (y0 - y2))%R).
  set (l3 := (sqr (x2 - x0) + sqr (y2 - y0))%R).
  assert (P0 : (0 < l0)%R) by (unfold l0; pose proof (sqr_pos (x1 - x0)); pose proof (sqr_nonneg (y1 - y0)); lra).
  assert (P1 : (0 < l1)%R) by (unfold l1; pose proof (sqr_pos (x2 - x1)); pose proof (sqr_nonneg (y2 - y1)); lra).
  assert (P2 : (0 < l2)%R) by (unfold l2; pose proof (sqr_pos (x0 - x2)); pose proof (sqr_nonneg (y0 - y2)); lra).
  assert (P3 : (0 < l3)%R) by (unfold l3; pose proof (sqr_pos (x2 - x0)); pose proof (sqr_nonneg (y2 - y0)); lra).
  assert (Pm : (0 < Rmin (Rmin l0 l1) l2)%R) by (repeat apply Rmin_glb_lt; assumption).
  assert (PM : (0 <= Rmax l0 l1)%R) by (eapply Rle_trans; [|apply Rmax_l]; lra).
  assert (PM2 : (0 <= Rmax (Rmax l0 l1) l2)%R) by (eapply Rle_trans; [exact PM|apply Rmax_l]).
  assert (Pm1 : (0 <= Rmin l0 l1)%R) by (apply Rmin_glb; lra).
  f_equal. f_equal.
  - rewrite sqrt_div by assumption. rewrite !sqrt_Rmax, !sqrt_Rmin; try assumption; try lra.
  - rewrite sqrt_mult by lra. reflexivity.
Qed.

Lemma distance3_zero s t : distance3 s t = 0%R -> s = t.
Proof.
  destruct s as [[a b] c], t as [[a' b'] c']. unfold distance3. intros H.
  pose proof (pow2_ge_0 (a - a')). pose proof (pow2_ge_0 (b - b')). pose proof (pow2_ge_0 (c - c')).
  apply sqrt_eq_0 in H; [|lra].
  assert (a - a' = 0 /\ b - b' = 0 /\ c - c' = 0)%R as (H3 & H4 & H5)
    by (repeat split; apply Rsqr_0_uniq; unfold Rsqr; lra).
  f_equal; [f_equal|]; lra.
Qed.
Lemma distance3_refl s : distance3 s s = 0%R.
Proof. destruct s as [[a b] c]. unfold distance3. replace ((a - a) ^ 2 + (b - b) ^ 2 + (c - c) ^ 2)%R with 0%R by ring. apply sqrt_0. Qed.
Lemma distance3_nonneg s t : (0 <= distance3 s t)%R.
Proof. destruct s as [[a b] c], t as [[a' b'] c']. apply sqrt_pos. Qed.

Section Recover.
Variable argsort : forall K, (K -> K -> bool) -> list K -> list nat.
Hypothesis argsort_ok : is_argsort argsort.
Variable query3 : list descr -> descr -> edist * nat.
Hypothesis query_ok : nearest_query3 query3.

Variables xy1 xy2 : list point.
Variable sigma : nat -> nat.
Variables s tx ty : R.
Let T (p : point) : point := (s * fst p + tx, s * snd p + ty)%R.
Hypothesis Hs : (0 < s)%R.
Hypothesis Hlen : length xy2 = length xy1.
Hypothesis Hn : (3 <= length xy1)%nat.
Hypothesis Himg : forall i p, nth_error xy1 i = Some p -> nth_error xy2 (sigma i) = Some (T p).
Hypothesis Hinj : forall i j, (i < length xy1)%nat -> (j < length xy1)%nat -> sigma i = sigma j -> i = j.
Hypothesis Hx : NoDup (map fst xy1).
Hypothesis Hshape : distinct_shapes xy1.

Let o1 := argsort R Rltb (map fst xy1).
Let o2 := argsort R Rltb (map fst xy2).

Lemma sp1 : sorting_permutation Rltb (map fst xy1) o1.
Proof. apply argsort_ok, Rltb_strict_total. Qed.
Lemma sp2 : sorting_permutation Rltb (map fst xy2) o2.
Proof. apply argsort_ok, Rltb_strict_total. Qed.

Lemma sigma_bound i : (i < length xy1)%nat -> (sigma i < length xy2)%nat.
Proof.
  intros H. destruct (nth_error xy1 i) as [p|] eqn:E; [|apply nth_error_None in E; lia].
  apply Himg in E. apply nth_error_Some. congruence.
Qed.

Lemma sigma_perm : Permutation (map sigma o1) (seq 0 (length xy2)).
Proof.
  apply NoDup_Permutation_bis.
  - apply NoDup_nth_error. intros a b Ha E. rewrite map_length in Ha. rewrite !nth_error_map in E.
    destruct (nth_error o1 a) as [i|] eqn:Ei; [|apply nth_error_None in Ei; lia].
    destruct (nth_error o1 b) as [j|] eqn:Ej; [|discriminate]. cbn in E. injection E as E.
    apply Hinj in E.
    + subst j. pose proof (sorting_perm_NoDup _ _ _ sp1) as N. rewrite NoDup_nth_error in N. apply N; [exact Ha|congruence].
    + rewrite <- (map_length fst). apply (sorting_perm_lt _ _ _ _ sp1). eapply nth_error_In; eauto.
    + rewrite <- (map_length fst). apply (sorting_perm_lt _ _ _ _ sp1). eapply nth_error_In; eauto.
  - rewrite seq_length, map_length, (sorting_perm_length _ _ _ sp1), map_length. lia.
  - intros k Hk. apply in_map_iff in Hk as (i & <- & Hi). apply in_seq. cbn. split; [lia|].
    apply sigma_bound. rewrite <- (map_length fst). eapply sorting_perm_lt; [exact sp1|exact Hi].
Qed.

Definition xlt (i j : nat) : Prop :=
  exists p q, nth_error xy2 i = Some p /\ nth_error xy2 j = Some q /\ (fst p < fst q)%R.

Lemma same_order : o2 = map sigma o1.
Proof.
  apply (sorted_unique xlt).
  - intros i j (p & q & H1 & H2 & H3) (p' & q' & H4 & H5 & H6).
    assert (p = q') by congruence. assert (q = p') by congruence. subst. lra.
  - transitivity (seq 0 (length xy2)); [|apply Permutation_sym, sigma_perm].
    destruct sp2 as [P _]. rewrite map_length in P. exact P.
  - (* sorted by x, all distinct *)
    pose proof (sorting_perm_NoDup _ _ _ sp2) as ND.
    assert (B : forall i, In i o2 -> (i < length xy2)%nat).
    { intros i Hi. rewrite <- (map_length fst). exact (sorting_perm_lt _ _ _ _ sp2 Hi). }
    assert (D : forall i j p q, nth_error xy2 i = Some p -> nth_error xy2 j = Some q -> i <> j -> fst p <> fst q).
    { intros i j p q Hi Hj Nij E.
      assert (SU : forall k r, nth_error xy2 k = Some r -> exists m u, nth_error xy1 m = Some u /\ sigma m = k /\ r = T u).
      { intros k r Hk. assert (In k (map sigma o1)) as Hin.
        { eapply Permutation_in; [apply Permutation_sym, sigma_perm|]. apply in_seq. cbn. split; [lia|]. apply nth_error_Some. congruence. }
        apply in_map_iff in Hin as (m & <- & Hm). apply (sorting_perm_lt _ _ _ _ sp1) in Hm. rewrite map_length in Hm.
        destruct (nth_error xy1 m) as [u|] eqn:Eu; [|apply nth_error_None in Eu; lia].
        exists m, u. apply Himg in Eu as Eu'. rewrite Hk in Eu'. injection Eu' as ->. auto. }
      destruct (SU _ _ Hi) as (m & u & Hm & Em & ->). destruct (SU _ _ Hj) as (m' & u' & Hm' & Em' & ->).
      unfold T in E. cbn in E. assert (fst u = fst u') by nra.
      assert (m = m'); [|congruence].
      rewrite NoDup_nth_error in Hx. apply Hx; [rewrite map_length; apply nth_error_Some; congruence|].
      rewrite !nth_error_map, Hm, Hm'. cbn. congruence. }
    destruct sp2 as [_ SS]. clear - SS ND B D. revert SS. revert B. induction ND as [|i l Hni ND IH]; intros B SS; [constructor|].
    inversion SS as [|? ? S1 S2]; subst. constructor; [apply IH; auto; intros; apply B; now right|].
    apply Forall_forall. intros j Hj.
    destruct (nth_error xy2 i) as [p|] eqn:Ei; [|apply nth_error_None in Ei; specialize (B i (or_introl eq_refl)); lia].
    destruct (nth_error xy2 j) as [q|] eqn:Ej; [|apply nth_error_None in Ej; specialize (B j (or_intror Hj)); lia].
    exists p, q. repeat split; auto.
    rewrite Forall_forall in S2. specialize (S2 _ Hj (fst p) (fst q)). rewrite !nth_error_map, Ei, Ej in S2.
    specialize (S2 eq_refl eq_refl). apply Rltb_false in S2.
    assert (fst p <> fst q) by (eapply D; eauto; congruence). lra.
  - pose proof (sorting_perm_NoDup _ _ _ sp1) as ND.
    assert (B : forall i, In i o1 -> (i < length xy1)%nat).
    { intros i Hi. rewrite <- (map_length fst). exact (sorting_perm_lt _ _ _ _ sp1 Hi). }
    destruct sp1 as [_ SS]. clear - SS ND B Hx Himg Hs.
    revert SS. revert B. induction ND as [|i l Hni ND IH]; intros B SS; [constructor|].
    inversion SS as [|? ? S1 S2]; subst. cbn. constructor; [apply IH; auto; intros; apply B; now right|].
    rewrite Forall_map. apply Forall_forall. intros j Hj.
    destruct (nth_error xy1 i) as [p|] eqn:Ei; [|apply nth_error_None in Ei; specialize (B i (or_introl eq_refl)); lia].
    destruct (nth_error xy1 j) as [q|] eqn:Ej; [|apply nth_error_None in Ej; specialize (B j (or_intror Hj)); lia].
    exists (T p), (T q). split; [now apply Himg|]. split; [now apply Himg|].
    rewrite Forall_forall in S2. specialize (S2 _ Hj (fst p) (fst q)). rewrite !nth_error_map, Ei, Ej in S2.
    specialize (S2 eq_refl eq_refl). apply Rltb_false in S2.
    assert (fst p <> fst q).
    { intros E. apply Hni. assert (i = j); [|congruence].
      rewrite NoDup_nth_error in Hx. apply Hx; [rewrite map_length; apply B; now left|].
      rewrite !nth_error_map, Ei, Ej. cbn. congruence. }
    unfold T. cbn. nra.
Qed.

Let sig3 (t : tri) : tri := let '(i, j, k) := t in (sigma i, sigma j, sigma k).

(** Same triangles, with the same descriptions, in the same order. *)
Lemma triangles_correspond :
  exists tk td, compute_triangles argsort xy1 = Ok (tk, td) /\ compute_triangles argsort xy2 = Ok (map sig3 tk, td) /\
    length tk = length td /\ NoDup td /\ (forall t, In t tk -> good_tri (length xy1) t) /\
    (forall i, (i < length xy1)%nat -> exists t, In t tk /\ let '(a, b, c) := t in i = a \/ i = b \/ i = c).
Proof.
  destruct (ordered_catalogue argsort argsort_ok xy1) as (s1 & E1 & Ec1 & L1 & Mf1 & I1 & S1).
  destruct (ordered_catalogue argsort argsort_ok xy2) as (s2 & E2 & Ec2 & L2 & Mf2 & I2 & S2).
  fold o1 in E1, Ec1, L1, Mf1, I1, S1. fold o2 in E2, Ec2, L2, Mf2, I2, S2. set (l1 := combine o1 s1) in *. set (l2 := combine o2 s2) in *. cbn zeta in *.
  assert (EL : l2 = map (fun ip => (sigma (fst ip), T (snd ip))) l1).
  { apply nth_error_ext. intros k. rewrite nth_error_map.
    destruct (nth_error l1 k) as [[i p]|] eqn:Ek.
    - cbn. destruct (nth_error_length l1 l2 k (i, p)) as [[j q] Ej]; [lia|exact Ek|]. rewrite Ej. f_equal.
      assert (nth_error o1 k = Some i) by (rewrite <- Mf1, nth_error_map, Ek; reflexivity).
      assert (nth_error o2 k = Some j) by (rewrite <- Mf2, nth_error_map, Ej; reflexivity).
      rewrite same_order, nth_error_map, H in H0. cbn in H0. injection H0 as <-.
      apply nth_error_In, I1, Himg in Ek. apply nth_error_In, I2 in Ej. congruence.
    - cbn. apply nth_error_None. apply nth_error_None in Ek. lia. }
  assert (X : forall a b c, In (a, b, c) (triples_of l1) -> (fst (snd a) < fst (snd b) < fst (snd c))%R /\ nth_error xy1 (fst a) = Some (snd a) /\ nth_error xy1 (fst b) = Some (snd b) /\ nth_error xy1 (fst c) = Some (snd c)).
  { intros [a pa] [b pb] [c pc] H. cbn [fst snd]. destruct (triples_of_In _ _ _ _ H) as (Ha & Hb & Hc). apply I1 in Ha, Hb, Hc.
    destruct (triples_of_sorted _ _ _ _ _ S1 H) as (A1 & A2 & A3). cbn in *.
    assert (D : forall i j p q, nth_error xy1 i = Some p -> nth_error xy1 j = Some q -> i <> j -> fst p <> fst q).
    { intros i j p q Hi Hj Nij E. apply Nij. rewrite NoDup_nth_error in Hx. apply Hx; [rewrite map_length; apply nth_error_Some; congruence|].
      rewrite !nth_error_map, Hi, Hj. cbn. congruence. }
    assert (fst pa <> fst pb) by (eapply D; eauto; tauto). assert (fst pb <> fst pc) by (eapply D; eauto; tauto).
    repeat split; auto; lra. }
  eexists; eexists. split; [exact Ec1|]. split.
  { rewrite Ec2, EL, triples_of_map. f_equal. rewrite !map_map. f_equal.
    - apply map_ext. intros [[a b] c]. reflexivity.
    - apply map_ext_in. intros [[a b] c] H. apply X in H as [H _]. cbn.
      apply describe_invariant; [exact Hs|lra|lra|lra]. }
  split; [now rewrite !map_length|]. split.
  { (* distinct descriptions *)
    assert (N : NoDup (triples_of l1)).
    { apply triples_of_NoDup. apply (NoDup_map_inv fst). rewrite Mf1. apply (sorting_perm_NoDup _ _ _ sp1). }
    assert (G : forall t, (forall abc, In abc t -> In abc (triples_of l1)) -> NoDup t -> NoDup (map (fun abc : nat * point * (nat * point) * (nat * point) => let '(a, b, c) := abc in describe (snd a) (snd b) (snd c)) t)).
    { induction t as [|[[a b] c] t IH]; intros Hin Hnd; cbn; [constructor|]. inversion Hnd as [|? ? Hni Hnd']; subst.
      constructor; [|apply IH; auto; intros; apply Hin; now right].
      intros H. apply in_map_iff in H as ([[a' b'] c'] & E & H). apply Hni.
      destruct (X a b c) as (O & P1 & P2 & P3); [apply Hin; now left|].
      destruct (X a' b' c') as (O' & P1' & P2' & P3'); [apply Hin; now right|].
      rewrite !describe_shape in E by lra.
      destruct (Hshape (snd a') (snd b') (snd c') (snd a) (snd b) (snd c)) as (Q1 & Q2 & Q3); try (eapply nth_error_In; eassumption); try assumption.
      assert (U : forall (x y : nat * point), nth_error xy1 (fst x) = Some (snd x) -> nth_error xy1 (fst y) = Some (snd y) -> snd x = snd y -> x = y).
      { intros [i p] [j q]; cbn. intros Hi Hj <-. f_equal. rewrite NoDup_nth_error in Hx. apply Hx; [rewrite map_length; apply nth_error_Some; congruence|].
        rewrite !nth_error_map, Hi, Hj. reflexivity. }
      rewrite (U a a'), (U b b'), (U c c') by auto. exact H. }
    apply G; auto. }
  split.
  { destruct (triangles_valid argsort argsort_ok _ _ _ Ec1) as [_ V]. intros [[i j] k] H. exact (V _ _ _ H). }
  intros i Hi. destruct (nth_error xy1 i) as [p|] eqn:Ep; [|apply nth_error_None in Ep; lia].
  apply I1 in Ep. destruct (triples_of_complete l1 (i, p)) as ([[a b] c] & Ht & Hor); [lia|exact Ep|].
  exists (fst a, fst b, fst c). split; [apply in_map_iff; exists (a, b, c); auto|].
  destruct Hor as [<-|[<-|<-]]; cbn; auto.
Qed.

Lemma recover :
  exists ind dis, match_arbitrary argsort query3 xy1 xy2 = Ok (ind, dis) /\ length ind = length xy1 /\
    forall i, (i < length xy1)%nat ->
      nth_error ind i = Some (Z.of_nat (sigma i)) /\ nth_error dis i = Some (Some 0%R).
Proof.
  destruct triangles_correspond as (tk & td & E1 & E2 & Ll & Hnd & Hg & Hcov).
  unfold match_arbitrary. rewrite E1, E2. cbn [rbind fst snd].
  assert (Q : forall p d, nth_error td p = Some d -> query3 td d = (Some 0%R, p)).
  { intros p d Hp. destruct query_ok as [_ QQ]. assert (Hne : td <> []) by (intros ->; destruct p; discriminate).
    destruct (QQ td d Hne) as (i & q & Eq & Ei & Hmin). specialize (Hmin d (nth_error_In _ _ Hp)).
    rewrite distance3_refl in Hmin. pose proof (distance3_nonneg d q).
    assert (Z0 : distance3 d q = 0%R) by lra. apply distance3_zero in Z0 as Z1. subst q.
    rewrite Eq, Z0. f_equal. rewrite NoDup_nth_error in Hnd. apply Hnd; [apply nth_error_Some; congruence|congruence]. }
  set (q := map (query3 td) td). set (ranked := argsort edist edist_ltb (map fst q)).
  assert (Hq : forall p, (p < length td)%nat -> nth_error q p = Some (Some 0%R, p)).
  { intros p Hp. unfold q. rewrite nth_error_map. destruct (nth_error td p) as [d|] eqn:Ed; [|apply nth_error_None in Ed; lia].
    cbn. f_equal. now apply Q. }
  pose proof (argsort_ok edist edist_ltb (map fst q) edist_ltb_weak) as SP. fold ranked in SP.
  assert (Lq : length (map fst q) = length tk) by (unfold q; rewrite !map_length; lia).
  (* the loop *)
  assert (LOOP : forall r ind dis, Forall (fun p => (p < length tk)%nat) r ->
     length ind = length xy1 -> length dis = length xy1 ->
     (forall m z, nth_error ind m = Some z -> z = -1 \/ z = Z.of_nat (sigma m)) ->
     (forall m d, nth_error dis m = Some d -> d = Some 0%R) ->
     exists ind' dis', match_loop tk (map sig3 tk) q r (ind, dis) = Ok (ind', dis') /\
       length ind' = length xy1 /\ length dis' = length xy1 /\
       (forall m z, nth_error ind' m = Some z -> z = -1 \/ z = Z.of_nat (sigma m)) /\
       (forall m d, nth_error dis' m = Some d -> d = Some 0%R) /\
       (forall m, nth_error ind m = Some (Z.of_nat (sigma m)) -> nth_error ind' m = Some (Z.of_nat (sigma m))) /\
       (count (Z.leb 0) ind' = Z.of_nat (length ind') \/
        forall p t m, In p r -> nth_error tk p = Some t -> (let '(a, b, c) := t in m = a \/ m = b \/ m = c) ->
          nth_error ind' m = Some (Z.of_nat (sigma m)))).
  { induction r as [|p r IH]; intros ind dis Hr Li Ld Hi Hd; cbn [match_loop].
    - exists ind, dis. repeat split; auto. right. intros p t m [].
    - inversion Hr as [|? ? Hp Hr']; subst.
      destruct (nth_error tk p) as [[[i j] k]|] eqn:Et; [|apply nth_error_None in Et; lia].
      unfold geti at 1. rewrite Et. cbn [rbind].
      unfold geti at 1. rewrite Hq by lia. cbn [rbind snd].
      unfold geti at 1. rewrite nth_error_map, Et. cbn [option_map rbind].
      change (sig3 (i, j, k)) with (sigma i, sigma j, sigma k).
      assert (G : good_tri (length xy1) (i, j, k)) by (apply Hg; eapply nth_error_In; eauto). cbn in G. rewrite <- Li in G.
      destruct (use_pair_spec ind dis i j k (sigma i) (sigma j) (sigma k) (Some 0%R))
        as (a & b & c & Ea & Eb & Ec & ind1 & dis1 & Eu & L1 & L2 & Hc); [congruence|tauto..|].
      cbn [fst]. rewrite Eu. cbn [rbind fst].
      assert (NC : forall m z, nth_error ind m = Some z -> conflict z (sigma m) = false).
      { intros m z Hm. unfold conflict. destruct (Hi _ _ Hm) as [->| ->]; [reflexivity|]. rewrite Z.eqb_refl, andb_false_r. reflexivity. }
      rewrite (NC _ _ Ea), (NC _ _ Eb), (NC _ _ Ec) in Hc. cbn [orb] in Hc. destruct Hc as (C1 & C2 & C3 & C4 & C5 & C6).
      assert (Hi1 : forall m z, nth_error ind1 m = Some z -> z = -1 \/ z = Z.of_nat (sigma m)).
      { intros m z Hm. destruct (Nat.eq_dec m i) as [->|Ni]; [right; congruence|].
        destruct (Nat.eq_dec m j) as [->|Nj]; [right; congruence|]. destruct (Nat.eq_dec m k) as [->|Nk]; [right; congruence|].
        rewrite C4 in Hm by assumption. auto. }
      assert (Hd1 : forall m d, nth_error dis1 m = Some d -> d = Some 0%R).
      { intros m d Hm. destruct (Nat.eq_dec m i) as [Ni|Ni]; [rewrite C5 in Hm by auto; congruence|].
        destruct (Nat.eq_dec m j) as [Nj|Nj]; [rewrite C5 in Hm by auto; congruence|]. destruct (Nat.eq_dec m k) as [Nk|Nk]; [rewrite C5 in Hm by auto; congruence|].
        rewrite C6 in Hm by assumption. eauto. }
      assert (Kp : forall m, nth_error ind m = Some (Z.of_nat (sigma m)) \/ m = i \/ m = j \/ m = k -> nth_error ind1 m = Some (Z.of_nat (sigma m))).
      { intros m Hm. destruct (Nat.eq_dec m i) as [->|Ni]; [exact C1|]. destruct (Nat.eq_dec m j) as [->|Nj]; [exact C2|].
        destruct (Nat.eq_dec m k) as [->|Nk]; [exact C3|]. rewrite C4 by assumption. tauto. }
      destruct (count (Z.leb 0) ind1 =? Z.of_nat (length ind1)) eqn:Efull.
      + exists ind1, dis1. apply Z.eqb_eq in Efull. repeat split; auto; try congruence.
      + destruct (IH ind1 dis1) as (ind' & dis' & E & A1 & A2 & A3 & A4 & A5 & A6); auto; try congruence.
        exists ind', dis'. repeat split; auto.
        destruct A6 as [A6|A6]; [now left|right]. intros p' t m [<-|Hp'] Ht Hm.
        * rewrite Et in Ht. injection Ht as <-. apply A5, Kp. tauto.
        * eapply A6; eauto. }
  destruct (LOOP ranked (map (fun _ => -1) xy1) (map (fun _ => Some 0%R) xy1)) as (ind & dis & E & L1 & L2 & A3 & A4 & _ & A6).
  - apply Forall_forall. intros p Hp. rewrite <- Lq. eapply sorting_perm_lt; eauto.
  - apply map_length.
  - apply map_length.
  - intros m z. rewrite nth_error_map. destruct (nth_error xy1 m); cbn; [|discriminate]. intros [= <-]; auto.
  - intros m d. rewrite nth_error_map. destruct (nth_error xy1 m); cbn; [|discriminate]. intros [= <-]; auto.
  - rewrite E. cbn [rbind fst snd].
    assert (ALL : forall m, (m < length xy1)%nat -> nth_error ind m = Some (Z.of_nat (sigma m))).
    { intros m Hm. destruct A6 as [A6|A6].
      - destruct (nth_error ind m) as [z|] eqn:Ez; [|apply nth_error_None in Ez; lia].
        destruct (A3 _ _ Ez) as [->| ->]; [|reflexivity]. exfalso.
        assert (CL : forall l k, nth_error l k = Some (-1) -> (length (filter (Z.leb 0) l) < length l)%nat).
        { clear. induction l as [|a l IH]; intros [|k] H; cbn in *; try discriminate.
          - injection H as ->. cbn. pose proof (filter_length_le (Z.leb 0) l). lia.
          - specialize (IH _ H). destruct a; cbn; lia. }
        unfold count in A6. apply Nat2Z.inj in A6. specialize (CL _ _ Ez). lia.
      - destruct (Hcov m Hm) as (t & Ht & Hm'). apply In_nth_error in Ht as [p Hp]. eapply A6; eauto.
        eapply sorting_perm_In; eauto. rewrite Lq. apply nth_error_Some. congruence. }
    destruct (purge_valid (length xy2) ind) as (P1 & P2 & P3 & P4).
    { intros m z Hm. destruct (A3 _ _ Hm) as [->| ->]; [now left|right]. exists (sigma m). split; [|reflexivity].
      apply sigma_bound. rewrite <- L1. apply nth_error_Some. congruence. }
    eexists; eexists; split; [reflexivity|]. split; [congruence|]. intros i Hi. split.
    + apply P4; [auto|].
      assert (CL : forall l z, (forall k k', nth_error l k = Some z -> nth_error l k' = Some z -> k = k') -> count (Z.eqb z) l <= 1).
      { clear. unfold count. induction l as [|a l IH]; intros z H; cbn; [lia|].
        destruct (z =? a) eqn:Ea; cbn.
        - apply Z.eqb_eq in Ea. subst a.
          assert (filter (Z.eqb z) l = []) as ->; [|cbn; lia].
          destruct (filter (Z.eqb z) l) as [|y r] eqn:Ef; [reflexivity|].
          assert (Hy : In y (filter (Z.eqb z) l)) by (rewrite Ef; now left). apply filter_In in Hy as [Hy Ez]. apply Z.eqb_eq in Ez. subst y.
          apply In_nth_error in Hy as [k Hk]. discriminate (H 0%nat (S k) eq_refl Hk).
        - apply IH. intros k k' Hk Hk'. injection (H (S k) (S k') Hk Hk'). auto. }
      apply CL. intros k k' Hk Hk'.
      assert (B : forall m, nth_error ind m = Some (Z.of_nat (sigma i)) -> m = i).
      { intros m Hm. assert (Hml : (m < length xy1)%nat) by (rewrite <- L1; apply nth_error_Some; congruence).
        rewrite ALL in Hm by exact Hml. injection Hm as Hm. apply Nat2Z.inj in Hm. auto. }
      rewrite (B _ Hk), (B _ Hk'). reflexivity.
    + destruct (nth_error dis i) as [d|] eqn:Ed; [|apply nth_error_None in Ed; lia]. f_equal. eauto.
Qed.
End Recover.
