From Verif.Model Require Import Match.
From Verif.Spec Require Import Match.
From Verif.Proofs Require Import Numpy RealNum Match.
From Coq Require Import Permutation Sorted Lra.

(** *** Choices of two and three entries *)
Lemma pairs_of_In {A} (l : list A) a b : In (a, b) (pairs_of l) -> In a l /\ In b l.
Proof.
  induction l as [|x l IH]; cbn; [tauto|]. rewrite in_app_iff, in_map_iff.
  intros [(y & [= <- <-] & Hy)|H]; [auto|]. apply IH in H. tauto.
Qed.
Lemma pairs_of_sorted {A} (R : A -> A -> Prop) (l : list A) a b :
  StronglySorted R l -> In (a, b) (pairs_of l) -> R a b.
Proof.
  induction 1 as [|x l Hs IH Hf]; cbn; [tauto|]. rewrite in_app_iff, in_map_iff.
  intros [(y & [= <- <-] & Hy)|H]; [|auto]. rewrite Forall_forall in Hf. auto.
Qed.
Lemma triples_of_In {A} (l : list A) a b c : In (a, b, c) (triples_of l) -> In a l /\ In b l /\ In c l.
Proof.
  induction l as [|x l IH]; cbn; [tauto|]. rewrite in_app_iff, in_map_iff.
  intros [([y z] & [= <- <- <-] & Hy)|H]; [apply pairs_of_In in Hy; tauto|]. apply IH in H. tauto.
Qed.
Lemma triples_of_sorted {A} (R : A -> A -> Prop) (l : list A) a b c :
  StronglySorted R l -> In (a, b, c) (triples_of l) -> R a b /\ R a c /\ R b c.
Proof.
  induction 1 as [|x l Hs IH Hf]; cbn; [tauto|]. rewrite in_app_iff, in_map_iff.
  intros [([y z] & [= <- <- <-] & Hy)|H]; [|auto]. rewrite Forall_forall in Hf. cbn.
  destruct (pairs_of_In _ _ _ Hy). pose proof (pairs_of_sorted _ _ _ _ Hs Hy). auto.
Qed.
Lemma pairs_of_map {A B} (f : A -> B) l : pairs_of (map f l) = map (fun p => (f (fst p), f (snd p))) (pairs_of l).
Proof. induction l as [|x l IH]; cbn; [reflexivity|]. rewrite map_app, !map_map, IH. reflexivity. Qed.
Lemma triples_of_map {A B} (f : A -> B) l :
  triples_of (map f l) = map (fun t => let '(a, b, c) := t in (f a, f b, f c)) (triples_of l).
Proof. induction l as [|x l IH]; cbn; [reflexivity|]. rewrite map_app, pairs_of_map, !map_map, IH. reflexivity. Qed.
Lemma pairs_of_complete {A} (l : list A) x : (2 <= length l)%nat -> In x l -> exists y, In (x, y) (pairs_of l) \/ In (y, x) (pairs_of l).
Proof.
  induction l as [|a l IH]; cbn [length]; intros Hl Hi; [destruct Hi|].
  destruct Hi as [->|Hi].
  - destruct l as [|b l]; [cbn in Hl; lia|]. exists b. left. cbn. auto.
  - exists a. right. cbn. apply in_app_iff. left. apply in_map_iff. exists x. auto.
Qed.
Lemma triples_of_complete {A} (l : list A) x :
  (3 <= length l)%nat -> In x l -> exists t, In t (triples_of l) /\ (let '(a, b, c) := t in x = a \/ x = b \/ x = c).
Proof.
  induction l as [|a l IH]; cbn [length]; intros Hl Hi; [destruct Hi|].
  destruct Hi as [->|Hi].
  - destruct l as [|b [|c l]]; cbn in Hl; try lia. exists (x, b, c). cbn. split; auto.
  - destruct (pairs_of_complete l x) as (y & [H|H]); [lia|exact Hi| |];
      [exists (a, x, y)|exists (a, y, x)]; (split; [|tauto]); cbn; apply in_app_iff; left; apply in_map_iff; eexists; (split; [|exact H]); reflexivity.
Qed.
Lemma NoDup_app {A} (l m : list A) : NoDup l -> NoDup m -> (forall x, In x l -> ~ In x m) -> NoDup (l ++ m).
Proof.
  induction 1 as [|a l Hn Hd IH]; intros Hm H; cbn; [exact Hm|]. constructor.
  - rewrite in_app_iff. intros [H1|H1]; [contradiction|]. apply (H a); [now left|exact H1].
  - apply IH; [exact Hm|]. intros x Hx. apply H. now right.
Qed.
Lemma pairs_of_NoDup {A} (l : list A) : NoDup l -> NoDup (pairs_of l).
Proof.
  induction 1 as [|a l Hn Hd IH]; cbn; [constructor|]. apply NoDup_app; [|exact IH|].
  - apply FinFun.Injective_map_NoDup; [intros x y; congruence|exact Hd].
  - intros [x y] H1 H2. apply in_map_iff in H1 as (z & [= <- <-] & _). apply pairs_of_In in H2. tauto.
Qed.
Lemma triples_of_NoDup {A} (l : list A) : NoDup l -> NoDup (triples_of l).
Proof.
  induction 1 as [|a l Hn Hd IH]; cbn; [constructor|]. apply NoDup_app; [|exact IH|].
  - apply FinFun.Injective_map_NoDup; [intros [x y] [x' y'] [= -> ->]; reflexivity|now apply pairs_of_NoDup].
  - intros [[x y] z] H1 H2. apply in_map_iff in H1 as ([u v] & [= <- <- <-] & _). apply triples_of_In in H2. tauto.
Qed.

(** *** The duplicate purge *)
Lemma count_le_one z l k k' :
  count (Z.eqb z) l <= 1 -> nth_error l k = Some z -> nth_error l k' = Some z -> k = k'.
Proof.
  unfold count. revert k k'; induction l as [|a l IH]; intros k k' H Hk Hk'; [destruct k; discriminate|].
  assert (P : forall m, nth_error l m = Some z -> (1 <= length (filter (Z.eqb z) l))%nat).
  { intros m Hm. apply nth_error_In in Hm. assert (Hi : In z (filter (Z.eqb z) l)) by (apply filter_In; split; [exact Hm|apply Z.eqb_refl]).
    destruct (filter (Z.eqb z) l); [destruct Hi|cbn; lia]. }
  cbn in H. destruct k as [|k], k' as [|k']; cbn in Hk, Hk'; [reflexivity| | |f_equal; apply IH; auto].
  - injection Hk as ->. rewrite Z.eqb_refl in H. cbn in H. specialize (P _ Hk'). lia.
  - injection Hk' as ->. rewrite Z.eqb_refl in H. cbn in H. specialize (P _ Hk). lia.
  - destruct (z =? a); cbn in H; lia.
Qed.

Definition purged (us ind : list Z) (z : Z) : Z :=
  if existsb (Z.eqb z) us && (1 <? count (Z.eqb z) ind) then -1 else z.

Lemma purge_spec us ind :
  NoDup us -> (forall z, In z us -> 0 <= z) -> purge ind us = map (purged us ind) ind.
Proof.
  revert ind; induction us as [|i2 us IH]; intros ind Hn Hp; cbn [purge].
  - rewrite <- (map_id ind) at 1. apply map_ext. reflexivity.
  - inversion Hn as [|? ? Hni Hn']; subst. assert (Hi2 : 0 <= i2) by (apply Hp; now left).
    assert (Hp' : forall z, In z us -> 0 <= z) by (intros; apply Hp; now right).
    destruct (1 <? count (Z.eqb i2) ind) eqn:E.
    + rewrite IH by assumption. rewrite map_map. apply map_ext. intros z.
      assert (C : forall y, y <> i2 -> 0 <= y ->
        count (Z.eqb y) (map (fun z => if i2 =? z then -1 else z) ind) = count (Z.eqb y) ind).
      { intros y Hy Hy0. unfold count. f_equal. clear - Hy Hy0. induction ind as [|a l IHl]; cbn; [reflexivity|].
        destruct (i2 =? a) eqn:Ea.
        - apply Z.eqb_eq in Ea. subst a. replace (y =? -1) with false by (symmetry; apply Z.eqb_neq; lia).
          replace (y =? i2) with false by (symmetry; now apply Z.eqb_neq). exact IHl.
        - destruct (y =? a); cbn; congruence. }
      unfold purged. cbn [existsb]. rewrite Z.eqb_sym. destruct (z =? i2) eqn:Ez.
      * apply Z.eqb_eq in Ez. subst z. rewrite E. cbn.
        replace (existsb (Z.eqb (-1)) us) with false; [reflexivity|].
        symmetry. apply not_true_is_false. intros H. apply existsb_exists in H as (y & Hy & H). apply Z.eqb_eq in H. specialize (Hp' _ Hy). lia.
      * cbn [orb]. destruct (existsb (Z.eqb z) us) eqn:Eu; [|reflexivity]. cbn.
        apply existsb_exists in Eu as (y & Hy & H). apply Z.eqb_eq in H. subst y.
        rewrite C; [reflexivity|now apply Z.eqb_neq|auto].
    + rewrite IH by assumption. apply map_ext. intros z. unfold purged. cbn [existsb].
      destruct (z =? i2) eqn:Ez; [|reflexivity]. apply Z.eqb_eq in Ez. subst z. rewrite E, !andb_false_r. reflexivity.
Qed.

Section Tri.
Variable argsort : forall K, (K -> K -> bool) -> list K -> list nat.
Hypothesis argsort_ok : is_argsort argsort.

(** The points in the order of their x coordinate, with their catalogue index. *)
Lemma ordered_catalogue (xy : list point) :
  exists sxy, take xy (argsort R Rltb (map fst xy)) = Ok sxy /\
    let l := combine (argsort R Rltb (map fst xy)) sxy in
    compute_triangles argsort xy =
      Ok (map (fun abc => let '(a, b, c) := abc in (fst a, fst b, fst c)) (triples_of l),
          map (fun abc => let '(a, b, c) := abc in describe (snd a) (snd b) (snd c)) (triples_of l)) /\
    length l = length xy /\ map fst l = argsort R Rltb (map fst xy) /\
    (forall i p, In (i, p) l <-> nth_error xy i = Some p) /\
    StronglySorted (fun a b => fst a <> fst b /\ (fst (snd a) <= fst (snd b))%R) l.
Proof.
  pose proof (argsort_ok R Rltb (map fst xy) (st_weak _ Rltb_strict_total)) as SP.
  set (o := argsort R Rltb (map fst xy)) in *.
  destruct (take_total xy o) as [sxy E].
  { apply Forall_forall. intros i Hi. apply (sorting_perm_lt _ _ _ _ SP) in Hi. rewrite map_length in Hi. exact Hi. }
  exists sxy. split; [exact E|]. cbn zeta.
  split; [unfold compute_triangles; fold o; rewrite E; reflexivity|].
  apply take_Ok in E. assert (L : length o = length sxy) by (eapply Forall2_length; eauto).
  assert (Lo : length o = length xy) by (rewrite (sorting_perm_length _ _ _ SP); apply map_length).
  split; [rewrite combine_length; lia|].
  assert (Mf : map fst (combine o sxy) = o) by
    (clear - L; revert sxy L; induction o as [|a o IH]; intros [|b s] L; cbn in *; try discriminate; [reflexivity|f_equal; apply IH; lia]).
  split; [exact Mf|].
  assert (F : Forall (fun ip => nth_error xy (fst ip) = Some (snd ip)) (combine o sxy)).
  { clear - E. induction E; cbn; constructor; auto. }
  split.
  - intros i p. split; intros H.
    + rewrite Forall_forall in F. exact (F _ H).
    + assert (In i o) as Hi by (eapply sorting_perm_In; eauto; rewrite map_length; apply nth_error_Some; congruence).
      rewrite <- Mf in Hi. apply in_map_iff in Hi as ([i' p'] & E' & Hi). cbn in E'. subst i'.
      rewrite Forall_forall in F. specialize (F _ Hi). cbn in F. congruence.
  - pose proof (sorting_perm_NoDup _ _ _ SP) as ND. destruct SP as [_ SS]. rewrite <- Mf in SS, ND. clear - SS F ND.
    induction (combine o sxy) as [|[i p] l IH]; [constructor|].
    inversion SS as [|? ? S1 S2]; subst. inversion F as [|? ? F1 F2]; subst. inversion ND as [|? ? N1 N2]; subst.
    constructor; [auto|]. apply Forall_forall. intros [j q] Hj. cbn. split.
    + intros ->. apply N1. apply in_map_iff. exists (j, q). auto.
    + rewrite Forall_map in S2. rewrite Forall_forall in S2, F2. specialize (S2 _ Hj). specialize (F2 _ Hj). cbn in *.
      apply Rltb_false. apply S2; rewrite nth_error_map; [rewrite F1|rewrite F2]; reflexivity.
Qed.

Lemma triangles_valid xy tk td :
  compute_triangles argsort xy = Ok (tk, td) ->
  length tk = length td /\
  forall i j k, In (i, j, k) tk -> (i < length xy)%nat /\ (j < length xy)%nat /\ (k < length xy)%nat /\ i <> j /\ i <> k /\ j <> k.
Proof.
  destruct (ordered_catalogue xy) as (sxy & E & Ec & L & Mf & I & S). rewrite Ec. intros [= <- <-].
  split; [now rewrite !map_length|]. intros i j k H. apply in_map_iff in H as ([[[a pa] [b pb]] [c pc]] & [= <- <- <-] & H).
  cbn. destruct (triples_of_In _ _ _ _ H) as (Ha & Hb & Hc). apply I in Ha, Hb, Hc.
  destruct (triples_of_sorted _ _ _ _ _ S H) as (S1 & S2 & S3). cbn in *.
  repeat split; try tauto; apply nth_error_Some; congruence.
Qed.

Variable query3 : list descr -> descr -> edist * nat.

(** Validity of the running assignment. *)
Definition valid_entry (n2 : nat) (z : Z) : Prop := z = -1 \/ exists j, (j < n2)%nat /\ z = Z.of_nat j.

Lemma set_each_spec {A} (l : list A) ivs l' :
  set_each l ivs = Ok l' -> length l' = length l /\
  (forall k, ~ In k (map fst ivs) -> nth_error l' k = nth_error l k) /\
  (forall k v, NoDup (map fst ivs) -> In (k, v) ivs -> nth_error l' k = Some v).
Proof.
  revert l; induction ivs as [|[i v] r IH]; intros l H; cbn in H.
  - injection H as <-. repeat split; auto. intros k v _ [].
  - destruct (seti l i v) as [l1|] eqn:E; cbn in H; [|discriminate].
    destruct (seti_spec _ _ _ _ E) as (A1 & A2 & A3 & A4). destruct (IH _ H) as (B1 & B2 & B3).
    split; [congruence|]. cbn. split.
    + intros k Hk. rewrite B2 by tauto. apply A4. intros ->. tauto.
    + intros k w Hn [[= <- <-]|Hi]; inversion Hn as [|? ? Hx Hy]; subst.
      * rewrite B2 by exact Hx. exact A3.
      * auto.
Qed.
Lemma set_each_Ok {A} (l : list A) ivs :
  Forall (fun iv => (fst iv < length l)%nat) ivs -> exists l', set_each l ivs = Ok l'.
Proof.
  revert l; induction ivs as [|[i v] r IH]; intros l H; cbn; [eauto|]. inversion H as [|? ? Hi Hr]; subst.
  destruct (seti_Ok l i v Hi) as [l1 E]. rewrite E. cbn. apply IH. destruct (seti_spec _ _ _ _ E) as [-> _]. exact Hr.
Qed.

(** What using one pair of triangles does. *)
Lemma use_pair_spec ind dis i j k i' j' k' d :
  length dis = length ind ->
  (i < length ind)%nat -> (j < length ind)%nat -> (k < length ind)%nat -> i <> j -> i <> k -> j <> k ->
  exists a b c, nth_error ind i = Some a /\ nth_error ind j = Some b /\ nth_error ind k = Some c /\
  exists ind' dis', use_pair (ind, dis) (i, j, k) (i', j', k') d = Ok (ind', dis') /\
    length ind' = length ind /\ length dis' = length dis /\
    if conflict a i' || conflict b j' || conflict c k' then ind' = ind /\ dis' = dis
    else nth_error ind' i = Some (Z.of_nat i') /\ nth_error ind' j = Some (Z.of_nat j') /\ nth_error ind' k = Some (Z.of_nat k') /\
         (forall m, m <> i -> m <> j -> m <> k -> nth_error ind' m = nth_error ind m) /\
         (forall m, m = i \/ m = j \/ m = k -> nth_error dis' m = Some d) /\
         (forall m, m <> i -> m <> j -> m <> k -> nth_error dis' m = nth_error dis m).
Proof.
  intros Ld Hi Hj Hk Nij Nik Njk.
  destruct (nth_error ind i) as [a|] eqn:Ea; [|apply nth_error_None in Ea; lia].
  destruct (nth_error ind j) as [b|] eqn:Eb; [|apply nth_error_None in Eb; lia].
  destruct (nth_error ind k) as [c|] eqn:Ec; [|apply nth_error_None in Ec; lia].
  exists a, b, c. repeat split; auto. unfold use_pair, geti. rewrite Ea, Eb, Ec. cbn [rbind].
  destruct (conflict a i' || conflict b j' || conflict c k'); [exists ind, dis; auto|].
  destruct (set_each_Ok ind [(i, Z.of_nat i'); (j, Z.of_nat j'); (k, Z.of_nat k')]) as [ind' E1]; [repeat constructor; assumption|].
  destruct (set_all_Ok dis [i; j; k] d) as [dis' E2]; [rewrite <- Ld in *; repeat constructor; assumption|].
  rewrite E1; cbn [rbind]. rewrite E2; cbn [rbind].
  destruct (set_each_spec _ _ _ E1) as (A1 & A2 & A3). destruct (set_all_spec _ _ _ _ E2) as (B1 & B2 & B3).
  assert (ND : NoDup [i; j; k]) by (repeat constructor; cbn; intuition congruence).
  exists ind', dis'. split; [reflexivity|]. split; [exact A1|]. split; [exact B1|].
  split; [apply A3; [exact ND|cbn; auto]|]. split; [apply A3; [exact ND|cbn; auto]|]. split; [apply A3; [exact ND|cbn; auto]|].
  split; [intros m H1 H2 H3; apply A2; cbn; intuition congruence|].
  split; [intros m H; apply B2; cbn; intuition congruence|].
  intros m H1 H2 H3; apply B3; cbn; intuition congruence.
Qed.

Definition good_tri (n : nat) (t : tri) : Prop :=
  let '(i, j, k) := t in (i < n)%nat /\ (j < n)%nat /\ (k < n)%nat /\ i <> j /\ i <> k /\ j <> k.

Lemma match_loop_valid tk1 tk2 q n1 n2 :
  (forall t, In t tk1 -> good_tri n1 t) -> (forall t, In t tk2 -> good_tri n2 t) ->
  forall ranked ind dis st', length ind = n1 -> length dis = n1 ->
    (forall m z, nth_error ind m = Some z -> valid_entry n2 z) ->
    match_loop tk1 tk2 q ranked (ind, dis) = Ok st' ->
    length (fst st') = n1 /\ length (snd st') = n1 /\ forall m z, nth_error (fst st') m = Some z -> valid_entry n2 z.
Proof.
  intros H1 H2. induction ranked as [|p r IH]; intros ind dis st' Li Ld Hv E; cbn [match_loop] in E.
  - injection E as <-. auto.
  - destruct (geti tk1 p) as [k1|] eqn:E1; cbn [rbind] in E; [|discriminate].
    destruct (geti q p) as [dq|] eqn:Eq; cbn [rbind] in E; [|discriminate].
    destruct (geti tk2 (snd dq)) as [k2|] eqn:E2; cbn [rbind] in E; [|discriminate].
    apply geti_Ok, nth_error_In, H1 in E1. apply geti_Ok, nth_error_In, H2 in E2.
    destruct k1 as [[i j] k], k2 as [[i' j'] k']. cbn in E1, E2.
    destruct (use_pair_spec ind dis i j k i' j' k' (fst dq)) as (a & b & c & Ea & Eb & Ec & ind' & dis' & Eu & L1 & L2 & Hc);
      [congruence|rewrite ?Li; tauto..|].
    rewrite Eu in E. cbn [rbind] in E.
    assert (Hv' : forall m z, nth_error ind' m = Some z -> valid_entry n2 z).
    { intros m z Hm. destruct (conflict a i' || conflict b j' || conflict c k'); [destruct Hc as [-> _]; eauto|].
      destruct Hc as (C1 & C2 & C3 & C4 & _).
      destruct (Nat.eq_dec m i) as [->|Ni]; [rewrite C1 in Hm; injection Hm as <-; right; exists i'; tauto|].
      destruct (Nat.eq_dec m j) as [->|Nj]; [rewrite C2 in Hm; injection Hm as <-; right; exists j'; tauto|].
      destruct (Nat.eq_dec m k) as [->|Nk]; [rewrite C3 in Hm; injection Hm as <-; right; exists k'; tauto|].
      rewrite C4 in Hm by assumption. eauto. }
    cbn [fst] in E. destruct (_ =? _).
    + injection E as <-. cbn. repeat split; [congruence|congruence|exact Hv'].
    + eapply IH; [| |exact Hv'|exact E]; congruence.
Qed.

Lemma purge_valid n2 ind :
  (forall m z, nth_error ind m = Some z -> valid_entry n2 z) ->
  let r := purge ind (unique (filter (Z.leb 0) ind)) in
  length r = length ind /\
  (forall m z, nth_error r m = Some z -> valid_entry n2 z /\ (z = -1 \/ nth_error ind m = Some z)) /\
  (forall m m' j, nth_error r m = Some (Z.of_nat j) -> nth_error r m' = Some (Z.of_nat j) -> m = m') /\
  (forall m z, nth_error ind m = Some z -> count (Z.eqb z) ind <= 1 -> nth_error r m = Some z).
Proof.
  intros Hv. cbn zeta. set (us := unique (filter (Z.leb 0) ind)).
  assert (U : forall z, In z us <-> In z ind /\ 0 <= z).
  { intros z. unfold us. rewrite unique_In, filter_In, Z.leb_le. tauto. }
  rewrite purge_spec; [|apply unique_NoDup|intros z Hz; apply U in Hz; tauto].
  split; [apply map_length|].
  assert (G : forall m z, nth_error (map (purged us ind) ind) m = Some z ->
     exists y, nth_error ind m = Some y /\ z = purged us ind y).
  { intros m z. rewrite nth_error_map. destruct (nth_error ind m) as [y|]; cbn; [|discriminate]. intros [= <-]. eauto. }
  split; [|split].
  - intros m z Hm. apply G in Hm as (y & Hy & ->). unfold purged. destruct (_ && _); [split; left; reflexivity|]. eauto.
  - intros m m' j Hm Hm'. apply G in Hm as (y & Hy & Ey). apply G in Hm' as (y' & Hy' & Ey').
    unfold purged in Ey, Ey'. destruct (existsb (Z.eqb y) us && (1 <? count (Z.eqb y) ind)) eqn:E; [lia|].
    destruct (existsb (Z.eqb y') us && (1 <? count (Z.eqb y') ind)) eqn:E'; [lia|]. subst y y'.
    apply (count_le_one (Z.of_nat j) ind); auto.
    replace (existsb (Z.eqb (Z.of_nat j)) us) with true in E; [cbn in E; apply Z.ltb_ge in E; exact E|].
    symmetry. apply existsb_exists. exists (Z.of_nat j). split; [apply U; split; [eapply nth_error_In; eauto|lia]|apply Z.eqb_refl].
  - intros m z Hm Hc. rewrite nth_error_map, Hm. cbn. unfold purged.
    replace (1 <? count (Z.eqb z) ind) with false; [now rewrite andb_false_r|]. symmetry. apply Z.ltb_ge. exact Hc.
Qed.

Lemma match_arbitrary_valid xy1 xy2 ind dis :
  match_arbitrary argsort query3 xy1 xy2 = Ok (ind, dis) ->
  length ind = length xy1 /\ length dis = length xy1 /\
  (forall m z, nth_error ind m = Some z -> z = -1 \/ exists j q, z = Z.of_nat j /\ nth_error xy2 j = Some q) /\
  (forall m m' j, nth_error ind m = Some (Z.of_nat j) -> nth_error ind m' = Some (Z.of_nat j) -> m = m').
Proof.
  unfold match_arbitrary.
  destruct (compute_triangles argsort xy1) as [[tk1 td1]|] eqn:E1; cbn [rbind]; [|discriminate].
  destruct (compute_triangles argsort xy2) as [[tk2 td2]|] eqn:E2; cbn [rbind]; [|discriminate].
  cbn [fst snd].
  destruct (match_loop _ _ _ _ _) as [[i0 d0]|] eqn:E; cbn [rbind]; [|discriminate]. cbn [fst snd]. intros [= <- <-].
  destruct (triangles_valid _ _ _ E1) as [_ T1]. destruct (triangles_valid _ _ _ E2) as [_ T2].
  apply match_loop_valid with (n1 := length xy1) (n2 := length xy2) in E; cbn [fst snd] in *.
  - destruct E as (L1 & L2 & V). destruct (purge_valid _ _ V) as (P1 & P2 & P3 & _).
    split; [congruence|]. split; [exact L2|]. split; [|exact P3].
    intros m z Hm. apply P2 in Hm as [[->|(j & Hj & ->)] _]; [now left|right].
    destruct (nth_error xy2 j) as [q|] eqn:Eq; [eauto|apply nth_error_None in Eq; lia].
  - intros [[i j] k] H. apply T1 in H. exact H.
  - intros [[i j] k] H. apply T2 in H. exact H.
  - apply map_length.
  - apply map_length.
  - intros m z. rewrite nth_error_map. destruct (nth_error xy1 m); cbn; [|discriminate]. intros [= <-]. now left.
Qed.

(** The function returns normally when every triangle is paired with an existing one. *)
Lemma match_loop_Ok tk1 tk2 q n1 n2 :
  (forall t, In t tk1 -> good_tri n1 t) -> (forall t, In t tk2 -> good_tri n2 t) ->
  length q = length tk1 -> (forall dq, In dq q -> (snd dq < length tk2)%nat) ->
  forall ranked ind dis, Forall (fun p => (p < length tk1)%nat) ranked ->
    length ind = n1 -> length dis = n1 ->
    exists st', match_loop tk1 tk2 q ranked (ind, dis) = Ok st'.
Proof.
  intros H1 H2 Lq Hq. induction ranked as [|p r IH]; intros ind dis Hr Li Ld; cbn [match_loop]; [eauto|].
  inversion Hr as [|? ? Hp Hr']; subst. unfold geti.
  destruct (nth_error tk1 p) as [k1|] eqn:E1; [|apply nth_error_None in E1; lia].
  destruct (nth_error q p) as [dq|] eqn:Eq; [|apply nth_error_None in Eq; lia]. cbn [rbind].
  destruct (nth_error tk2 (snd dq)) as [k2|] eqn:E2; [|apply nth_error_None in E2; apply nth_error_In, Hq in Eq; lia]. cbn [rbind].
  apply nth_error_In, H1 in E1. destruct k1 as [[i j] k], k2 as [[i' j'] k'].  cbn in E1.
  destruct (use_pair_spec ind dis i j k i' j' k' (fst dq)) as (a & b & c & Ea & Eb & Ec & ind' & dis' & Eu & L1 & L2 & Hc);
      [congruence|tauto..|]. rewrite Eu. cbn [rbind fst].
  destruct (_ =? _); [eauto|]. apply IH; [exact Hr'|exact L1|congruence].
Qed.

Lemma match_arbitrary_Ok xy1 xy2 :
  (forall cat p, cat <> [] -> (snd (query3 cat p) < length cat)%nat) ->
  (3 <= length xy2)%nat \/ (length xy1 < 3)%nat ->
  exists r, match_arbitrary argsort query3 xy1 xy2 = Ok r.
Proof.
  intros Hq H3. unfold match_arbitrary.
  destruct (ordered_catalogue xy1) as (s1 & _ & Ec1 & L1 & _). destruct (ordered_catalogue xy2) as (s2 & _ & Ec2 & L2 & _).
  destruct (compute_triangles argsort xy1) as [[tk1 td1]|] eqn:E1; [|discriminate].
  destruct (compute_triangles argsort xy2) as [[tk2 td2]|] eqn:E2; [|discriminate]. cbn [rbind fst snd].
  destruct (triangles_valid _ _ _ E1) as [T1l T1]. destruct (triangles_valid _ _ _ E2) as [T2l T2].
  edestruct (match_loop_Ok tk1 tk2 (map (query3 td2) td1) (length xy1) (length xy2)) as [st' E].
  - intros [[i j] k] H. apply T1 in H. exact H.
  - intros [[i j] k] H. apply T2 in H. exact H.
  - now rewrite map_length.
  - intros dq H. apply in_map_iff in H as (t & <- & Ht). rewrite T2l. apply Hq. intros ->.
    injection Ec2 as Etk Etd. symmetry in Etd. apply map_eq_nil in Etd.
    destruct H3 as [H3|H3].
    + destruct (combine _ s2) as [|x [|y [|z l]]] in *; cbn in *; try lia. discriminate.
    + injection Ec1 as _ Etd1. rewrite Etd1 in Ht. clear - L1 H3 Ht.
      destruct (combine _ s1) as [|x [|y [|z l]]]; cbn in *; try lia; contradiction.
  - instantiate (1 := argsort edist edist_ltb (map fst (map (query3 td2) td1))).
    apply Forall_forall. intros p Hp. pose proof (argsort_ok edist edist_ltb (map fst (map (query3 td2) td1)) edist_ltb_weak) as SP.
    apply (sorting_perm_lt _ _ _ _ SP) in Hp. rewrite !map_length in Hp. lia.
  - apply map_length.
  - instantiate (1 := map (fun _ => Some 0%R) xy1). apply map_length.
  - rewrite E. cbn [rbind]. eauto.
Qed.

(** With fewer than three entries in catalogue 2 the call fails. *)
Lemma match_arbitrary_small xy1 xy2 :
  (forall p, query3 [] p = (None, 0%nat)) ->
  (length xy2 < 3)%nat -> (3 <= length xy1)%nat ->
  match_arbitrary argsort query3 xy1 xy2 = Err IndexError.
Proof.
  intros Hq H2 H1. unfold match_arbitrary.
  destruct (ordered_catalogue xy1) as (s1 & _ & Ec1 & L1 & _). destruct (ordered_catalogue xy2) as (s2 & _ & Ec2 & L2 & _).
  rewrite Ec1, Ec2. cbn [rbind fst snd].
  assert (triples_of (combine (argsort R Rltb (map fst xy2)) s2) = []) as ->.
  { destruct (combine _ s2) as [|x [|y [|z l]]] in *; cbn in *; try lia; reflexivity. }
  cbn [map]. set (t1 := triples_of _).
  assert (Hne : t1 <> []).
  { unfold t1. destruct (combine _ s1) as [|x [|y [|z l]]] in *; cbn in *; try lia; discriminate. }
  set (q := map (query3 []) _). pose proof (argsort_ok edist edist_ltb (map fst q) edist_ltb_weak) as SP.
  assert (Lq : length q = length t1) by (unfold q; now rewrite !map_length).
  destruct (argsort edist edist_ltb (map fst q)) as [|p r] eqn:Er.
  - apply sorting_perm_length in SP. rewrite map_length, Lq in SP. destruct t1; [congruence|discriminate].
  - cbn [match_loop]. assert (Hp : (p < length t1)%nat).
    { rewrite <- Lq, <- (map_length fst). apply (sorting_perm_lt _ _ _ _ SP). now left. }
    unfold geti at 1. destruct (nth_error _ p) as [k1|] eqn:E1; [|apply nth_error_None in E1; rewrite map_length in E1; lia]. cbn [rbind].
    unfold geti at 1. destruct (nth_error q p) as [dq|] eqn:Eq; [|apply nth_error_None in Eq; lia]. cbn [rbind].
    apply nth_error_In in Eq. unfold q in Eq. apply in_map_iff in Eq as (t & <- & _). rewrite Hq. reflexivity.
Qed.
End Tri.
