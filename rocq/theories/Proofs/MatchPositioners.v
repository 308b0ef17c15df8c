From Verif.Model Require Import MatchPositioners.
From Verif.Spec Require Import MatchPositioners Match.
From Verif.Proofs Require Import Numpy RealNum KeyMatch.
From Verif.Proofs Require Match.
From Coq Require Import Permutation Sorted Lra.

(** *** Extending a partial matching *)
Lemma unused_index l n : NoDup l -> (length l < n)%nat -> exists i, (i < n)%nat /\ ~ In i l.
Proof.
  intros Hn Hl.
  destruct (Exists_dec (fun i => ~ In i l) (seq 0 n)) as [H|H].
  - intros x; destruct (in_dec Nat.eq_dec x l); [right; tauto|left; assumption].
  - apply Exists_exists in H as (i & Hi & H). exists i. apply in_seq in Hi. split; [lia|exact H].
  - exfalso. assert (I : incl (seq 0 n) l).
    + intros x Hx. destruct (in_dec Nat.eq_dec x l) as [|N]; [assumption|exfalso; apply H, Exists_exists; eauto].
    + apply NoDup_incl_length in I; [rewrite seq_length in I; lia|apply seq_NoDup].
Qed.

Lemma extend_matching n m a :
  one_to_one n m a -> exists b, one_to_one n m (a ++ b) /\ length (a ++ b) = Nat.min n m.
Proof.
  intros H. assert (L : (length a <= Nat.min n m)%nat).
  { destruct H as (H1 & H2 & H3). apply Nat.min_glb.
    - rewrite <- (map_length fst), <- (seq_length n 0). apply NoDup_incl_length; [exact H1|].
      intros i Hi. apply in_map_iff in Hi as ([i' j] & <- & Hi). apply in_seq. specialize (H3 _ _ Hi). cbn. lia.
    - rewrite <- (map_length snd), <- (seq_length m 0). apply NoDup_incl_length; [exact H2|].
      intros j Hj. apply in_map_iff in Hj as ([i j'] & <- & Hj). apply in_seq. specialize (H3 _ _ Hj). cbn. lia. }
  remember (Nat.min n m - length a)%nat as k eqn:Ek. revert a H L Ek. induction k as [|k IH]; intros a H L Ek.
  - exists []. rewrite app_nil_r. split; [exact H|lia].
  - destruct H as (H1 & H2 & H3).
    destruct (unused_index (map fst a) n) as (i & Hi & Ni); [exact H1|rewrite map_length; lia|].
    destruct (unused_index (map snd a) m) as (j & Hj & Nj); [exact H2|rewrite map_length; lia|].
    destruct (IH (a ++ [(i, j)])) as (b & Hb & Lb).
    + split; [|split].
      * rewrite map_app. cbn. apply NoDup_Add with (l := map fst a) (a := i); [|auto]. rewrite <- (app_nil_r (map fst a)) at 1. apply Add_app.
      * rewrite map_app. cbn. apply NoDup_Add with (l := map snd a) (a := j); [|auto]. rewrite <- (app_nil_r (map snd a)) at 1. apply Add_app.
      * intros i' j' Hin. apply in_app_iff in Hin as [Hin|[[= <- <-]|[]]]; auto.
    + rewrite app_length. cbn. lia.
    + rewrite app_length. cbn. lia.
    + exists ((i, j) :: b). rewrite <- app_assoc in Hb, Lb. auto.
Qed.

Lemma zsum_app l m : zsum (l ++ m) = zsum l + zsum m.
Proof. unfold zsum. induction l as [|a l IH]; cbn [fold_right app]; lia. Qed.
Lemma zsum_nonneg l : (forall z, In z l -> 0 <= z) -> 0 <= zsum l.
Proof.
  unfold zsum. induction l as [|a l IH]; cbn [fold_right]; intros H; [lia|].
  assert (0 <= a) by (apply H; now left). assert (0 <= fold_right Z.add 0 l) by (apply IH; intros; apply H; now right). lia.
Qed.

(** *** Last write of a sequence of assignments *)
Definition last_write {A} (ivs : list (nat * A)) (k : nat) (v0 : A) : A :=
  fold_left (fun acc iv => if Nat.eqb (fst iv) k then snd iv else acc) ivs v0.
Lemma set_each_last {A} (l : list A) ivs l' k v0 :
  set_each l ivs = Ok l' -> nth_error l k = Some v0 -> nth_error l' k = Some (last_write ivs k v0).
Proof.
  revert l v0; induction ivs as [|[i v] r IH]; intros l v0 H Hk; cbn in H.
  - injection H as <-. exact Hk.
  - destruct (seti l i v) as [l1|] eqn:E; cbn in H; [|discriminate].
    destruct (seti_spec _ _ _ _ E) as (A1 & A2 & A3 & A4). unfold last_write. cbn [fold_left fst snd].
    destruct (Nat.eqb i k) eqn:Eik.
    + apply Nat.eqb_eq in Eik. subst i. apply (IH l1); assumption.
    + apply Nat.eqb_neq in Eik. apply (IH l1); [assumption|]. rewrite A4 by auto. exact Hk.
Qed.
Lemma set_each_length {A} (l : list A) ivs l' : set_each l ivs = Ok l' -> length l' = length l.
Proof.
  revert l; induction ivs as [|[i v] r IH]; intros l H; cbn in H; [congruence|].
  destruct (seti l i v) as [l1|] eqn:E; cbn in H; [|discriminate].
  destruct (seti_spec _ _ _ _ E) as (A1 & _). rewrite (IH _ H). exact A1.
Qed.
Lemma set_each_total {A} (l : list A) ivs :
  Forall (fun iv => (fst iv < length l)%nat) ivs -> exists l', set_each l ivs = Ok l'.
Proof.
  revert l; induction ivs as [|[i v] r IH]; intros l H; cbn; [eauto|]. inversion H as [|? ? Hi Hr]; subst.
  destruct (seti_Ok l i v Hi) as [l1 E]. rewrite E. cbn. apply IH. destruct (seti_spec _ _ _ _ E) as [-> _]. exact Hr.
Qed.

(** Writes at distinct positions. *)
Lemma last_write_In {A} (ivs : list (nat * A)) k v v0 :
  NoDup (map fst ivs) -> In (k, v) ivs -> last_write ivs k v0 = v.
Proof.
  unfold last_write. revert v0; induction ivs as [|[i w] r IH]; intros v0 Hn Hi; [destruct Hi|].
  cbn in Hn. inversion Hn as [|? ? Hx Hy]; subst. cbn [fold_left fst snd]. destruct Hi as [[= -> ->]|Hi].
  - rewrite Nat.eqb_refl. clear IH. assert (forall acc, fold_left (fun acc iv => if Nat.eqb (fst iv) k then snd iv else acc) r acc = acc) as G.
    { clear - Hx. induction r as [|[j u] r IH]; intros acc; [reflexivity|]. cbn in *. destruct (Nat.eqb j k) eqn:E; [apply Nat.eqb_eq in E; tauto|]. apply IH. tauto. }
    apply G.
  - now apply IH.
Qed.
Lemma last_write_notin {A} (ivs : list (nat * A)) k v0 : ~ In k (map fst ivs) -> last_write ivs k v0 = v0.
Proof.
  unfold last_write. revert v0; induction ivs as [|[j u] r IH]; intros v0 H; [reflexivity|]. cbn in *.
  destruct (Nat.eqb j k) eqn:E; [apply Nat.eqb_eq in E; tauto|]. apply IH. tauto.
Qed.

Section S.
Variable argsort : forall K, (K -> K -> bool) -> list K -> list nat.
Hypothesis argsort_ok : is_argsort argsort.
Context {K : Type} (ltb eqb : K -> K -> bool).
Hypothesis Hst : strict_total ltb.
Hypothesis Heq : forall x y, eqb x y = true <-> x = y.
Variable median : list R -> R.
Variable solve : nat -> nat -> (nat -> nat -> Z) -> list (nat * nat).
Hypothesis solve_ok : assignment_solver solve.

(** *** Arm lengths *)
(** The sequence of writes in the order of the calibration table gives the last entry. *)
Lemma last_write_calib (ids : list K) (cal : list (@calib K)) fudge ia ib cs i k :
  NoDup ids -> nth_error ids i = Some k ->
  length ia = length ib -> StronglySorted lt ib ->
  (forall i j, In (i, j) (combine ia ib) <-> exists v, nth_error ids i = Some v /\ nth_error (map c_id cal) j = Some v) ->
  Forall2 (fun j c => nth_error cal j = Some c) ib cs ->
  last_write (combine ia (map (fun c => (c_r1 c + c_r2 c + fudge)%R) cs)) i 0%R = calibrated_arm eqb cal fudge k.
Proof.
  intros Hnd Hik Hl Hs Hiff HF. unfold calibrated_arm.
  (* generalise: entries of [cal] from position [off] on *)
  assert (G : forall cal' off ia ib cs acc,
    length ia = length ib -> StronglySorted lt ib -> Forall (fun j => (off <= j)%nat) ib ->
    (forall i' j, In (i', j) (combine ia ib) <-> (off <= j)%nat /\ exists v, nth_error ids i' = Some v /\ nth_error (map c_id cal') (j - off) = Some v) ->
    Forall2 (fun j c => nth_error cal' (j - off) = Some c) ib cs ->
    last_write (combine ia (map (fun c => (c_r1 c + c_r2 c + fudge)%R) cs)) i acc
    = fold_left (fun acc c => if eqb (c_id c) k then (c_r1 c + c_r2 c + fudge)%R else acc) cal' acc).
  { clear Hl Hs Hiff HF ia ib cs cal. induction cal' as [|c cal' IH]; intros off ia ib cs acc Hl Hs Hoff Hiff HF.
    - destruct ib as [|j ib].
      + inversion HF; subst. destruct ia; [|discriminate]. reflexivity.
      + inversion HF as [|? c ? ? Hj]; subst. destruct (j - off)%nat; discriminate.
    - cbn [fold_left].
      (* is the first calibration entry matched? *)
      assert (TAIL : forall ia ib cs acc, length ia = length ib -> StronglySorted lt ib -> Forall (fun j => (S off <= j)%nat) ib ->
         (forall i' j, In (i', j) (combine ia ib) <-> (S off <= j)%nat /\ exists v, nth_error ids i' = Some v /\ nth_error (map c_id (c :: cal')) (j - off) = Some v) ->
         Forall2 (fun j c0 => nth_error (c :: cal') (j - off) = Some c0) ib cs ->
         last_write (combine ia (map (fun c => (c_r1 c + c_r2 c + fudge)%R) cs)) i acc
         = fold_left (fun acc c => if eqb (c_id c) k then (c_r1 c + c_r2 c + fudge)%R else acc) cal' acc).
      { intros ia' ib' cs' acc' H1 H2 H3 H4 H5. apply (IH (S off) ia' ib' cs' acc'); auto.
        - intros i' j. rewrite H4. split; intros [Hj (v & Hv1 & Hv2)]; (split; [exact Hj|]); exists v; (split; [exact Hv1|]).
          + replace (j - off)%nat with (S (j - S off)) in Hv2 by lia. exact Hv2.
          + replace (j - off)%nat with (S (j - S off)) by lia. exact Hv2.
        - clear - H3 H5. induction H5 as [|j c0 ib' cs' Hj _ IHF]; constructor; inversion H3; subst; auto.
          replace (j - off)%nat with (S (j - S off)) in Hj by lia. exact Hj. }
      destruct ib as [|j ib].
      { (* nothing matched at all *)
        inversion HF; subst. destruct ia; [|discriminate].
        assert (eqb (c_id c) k = false) as ->.
        { destruct (eqb (c_id c) k) eqn:E; [|reflexivity]. apply Heq in E. exfalso.
          assert (In (i, off) (combine (@nil nat) (@nil nat))) as []. apply Hiff. split; [lia|]. exists k. rewrite Nat.sub_diag. cbn. rewrite E. auto. }
        apply (TAIL [] [] []); auto. intros i' j. split; [intros []|]. intros [Hj (v & Hv1 & Hv2)].
        apply Hiff. split; [lia|]. exists v; auto. }
      destruct ia as [|i0 ia]; [discriminate|]. inversion HF as [|? c0 ? cs' Hj HF']; subst. cbn [length] in Hl.
      inversion Hs as [|? ? Hs' Hlt]; subst. inversion Hoff as [|? ? Hoj Hoff']; subst. rewrite Forall_forall in Hlt.
      assert (HEAD : exists v, nth_error ids i0 = Some v /\ nth_error (map c_id (c :: cal')) (j - off) = Some v).
      { apply (Hiff i0 j). now left. }
      destruct (Nat.eq_dec j off) as [->|Hne].
      + rewrite Nat.sub_diag in *. cbn in Hj. injection Hj as <-. destruct HEAD as (v & Hv1 & Hv2). cbn in Hv2. injection Hv2 as <-.
        cbn [map combine]. unfold last_write. cbn [fold_left fst snd].
        replace (Nat.eqb i0 i) with (eqb (c_id c) k).
        * apply (TAIL ia ib cs'); auto; [apply Forall_forall; intros j' Hj'; specialize (Hlt _ Hj'); lia|].
          intros i' j'. split.
          -- intros Hi'. assert (In (i', j') (combine (i0 :: ia) (off :: ib))) as Hi2 by (now right).
             apply Hiff in Hi2 as [_ Hi2]. split; [|exact Hi2]. apply in_combine_r in Hi'. specialize (Hlt _ Hi'). lia.
          -- intros [Hj' Hv]. assert (In (i', j') (combine (i0 :: ia) (off :: ib))) as [[= _ E]|Hi2] by (apply Hiff; split; [lia|exact Hv]); [lia|exact Hi2].
        * destruct (Nat.eqb i0 i) eqn:E.
          -- apply Nat.eqb_eq in E. subst i0. apply Heq. congruence.
          -- apply Nat.eqb_neq in E. destruct (eqb (c_id c) k) eqn:E2; [|reflexivity]. apply Heq in E2. exfalso. apply E.
             rewrite NoDup_nth_error in Hnd. apply Hnd; [apply nth_error_Some; congruence|congruence].
      + assert (eqb (c_id c) k = false) as ->.
        { destruct (eqb (c_id c) k) eqn:E; [|reflexivity]. apply Heq in E. exfalso.
          assert (In (i, off) (combine (i0 :: ia) (j :: ib))) as Hi.
          { apply Hiff. split; [lia|]. exists k. rewrite Nat.sub_diag. cbn. rewrite E. auto. }
          destruct Hi as [[= _ Hi]|Hi]; [congruence|]. apply in_combine_r in Hi. specialize (Hlt _ Hi). lia. }
        apply (TAIL (i0 :: ia) (j :: ib) (c0 :: cs')); auto.
        * constructor; [lia|]. apply Forall_forall. intros j' Hj'. specialize (Hlt _ Hj'). lia.
        * intros i' j'. rewrite Hiff. split; intros [H1 H2]; (split; [|exact H2]); [|lia].
          assert (In (i', j') (combine (i0 :: ia) (j :: ib))) as Hi by (apply Hiff; auto).
          apply in_combine_r in Hi. destruct Hi as [<-|Hi]; [lia|]. specialize (Hlt _ Hi). lia. }
  apply (G cal 0%nat ia ib cs 0%R); auto.
  - apply Forall_forall. intros; lia.
  - intros i' j. rewrite Hiff, Nat.sub_0_r. split; [|tauto]. intros H; split; [lia|exact H].
  - eapply Forall2_impl; [|exact HF]. cbn. intros j c. now rewrite Nat.sub_0_r.
Qed.

Lemma arm_lengths_ok fudge (metr : list (@device K)) cal :
  NoDup (map d_id metr) ->
  arm_lengths argsort ltb eqb median fudge metr cal
  = Ok (fill_arms median (map (fun d => calibrated_arm eqb cal fudge (d_id d)) metr)).
Proof.
  intros Hnd. unfold arm_lengths.
  destruct (match_keys_ok argsort argsort_ok ltb eqb Hst Heq _ (map c_id cal) Hnd) as (ia & ib & E & L & S & I).
  rewrite E. cbn [rbind fst snd].
  assert (Bi : forall j, In j ib -> (j < length cal)%nat).
  { intros j Hj. apply In_nth_error in Hj as [n Hn]. destruct (nth_error_length ib ia n j) as [i Hi]; [lia|exact Hn|].
    assert (In (i, j) (combine ia ib)) as Hc.
    { clear - Hn Hi. revert ib n Hn Hi. induction ia as [|a ia IH]; intros [|b ib] [|n] Hn Hi; cbn in *; try discriminate.
      - injection Hn as ->. injection Hi as ->. auto.
      - right. eapply IH; eauto. }
    apply I in Hc as (v & _ & Hv). rewrite <- (map_length c_id). apply nth_error_Some. congruence. }
  destruct (take_total cal ib) as [cs Ec]; [apply Forall_forall; exact Bi|]. rewrite Ec. cbn [rbind]. apply take_Ok in Ec.
  assert (Bm : Forall (fun iv => (fst iv < length (map (fun _ : @device K => 0%R) metr))%nat) (combine ia (map (fun c => (c_r1 c + c_r2 c + fudge)%R) cs))).
  { apply Forall_forall. intros [i v] Hi. cbn. apply in_combine_l in Hi. apply In_nth_error in Hi as [n Hn].
    destruct (nth_error_length ia ib n i) as [j Hj]; [exact L|exact Hn|].
    assert (In (i, j) (combine ia ib)) as Hc.
    { clear - Hn Hj. revert ib n Hn Hj. induction ia as [|a ia IH]; intros [|b ib] [|n] Hn Hi; cbn in *; try discriminate.
      - injection Hn as ->. injection Hi as ->. auto.
      - right. eapply IH; eauto. }
    apply I in Hc as (w & Hw & _). rewrite map_length, <- (map_length d_id). apply nth_error_Some. congruence. }
  destruct (set_each_total _ _ Bm) as [arms Ea]. rewrite Ea. cbn [rbind]. do 2 f_equal.
  apply nth_error_ext. intros n. rewrite nth_error_map. destruct (nth_error metr n) as [d|] eqn:Ed.
  - cbn. rewrite (set_each_last _ _ _ n 0%R Ea) by (rewrite nth_error_map, Ed; reflexivity). f_equal.
    apply (last_write_calib (map d_id metr) cal fudge ia ib cs n (d_id d)); auto. rewrite nth_error_map, Ed. reflexivity.
  - cbn. apply nth_error_None. rewrite (set_each_length _ _ _ Ea), map_length. now apply nth_error_None.
Qed.

(** *** The score matrix *)
Lemma score_matrix_spec p1 p2 arms sc :
  score_matrix p1 p2 arms = Ok sc ->
  forall i j, (sc i j = 0 \/ sc i j = 1) /\ (sc i j = 1 <-> in_reach p1 p2 arms (i, j) = true).
Proof.
  unfold score_matrix. destruct (np_max arms) as [mx|] eqn:Em; cbn [rbind]; [|discriminate].
  set (rad := match mx with Some r => Some (r + 1 / 10)%R | None => None end).
  destruct (match2d p1 p2 rad) as [|e0 es] eqn:Ec; [discriminate|]. rewrite <- Ec. intros [= <-] i j.
  set (ex := existsb _ _).
  assert (X : ex = true <-> in_reach p1 p2 arms (i, j) = true).
  { unfold ex. rewrite existsb_exists. split.
    - intros ([i' j'] & Hin & E). cbn in E. apply andb_true_iff in E as [E1 E2]. apply Nat.eqb_eq in E1, E2. subst.
      apply filter_In in Hin. tauto.
    - intros H. exists (i, j). cbn. rewrite !Nat.eqb_refl. split; [|reflexivity]. apply filter_In. split; [|exact H].
      unfold match2d. apply filter_In. unfold in_reach in H. cbn [fst snd] in *.
      destruct (nth_error p1 i) as [p|] eqn:E1; [|discriminate]. destruct (nth_error p2 j) as [q|] eqn:E2; [|discriminate].
      destruct (nth_error arms i) as [[a|]|] eqn:E3; try discriminate. apply Rltb_true in H.
      split.
      + apply in_prod; apply in_seq; cbn; (split; [lia|apply nth_error_Some; congruence]).
      + (* the radius is beyond every arm unless some arm is NaN, in which case there are no candidates *)
        destruct mx as [mx|]; [|exfalso; clear - Ec; unfold match2d in Ec;
          assert (F : forall l : list (nat * nat), filter (fun ij => match nth_error p1 (fst ij) with Some p => match nth_error p2 (snd ij) with Some q => match rad with Some r => Rleb (dist2d p q) r | None => false end | None => false end | None => false end) l = []) by
            (unfold rad; induction l as [|x l IH]; cbn; [reflexivity|]; destruct (nth_error p1 (fst x)); [destruct (nth_error p2 (snd x))|]; exact IH);
          rewrite F in Ec; discriminate].
        unfold rad. apply Rleb_true.
        assert (M : forall l acc, max_nan acc l = Some mx -> (forall x, acc = Some x -> (x <= mx)%R) /\ forall x, In (Some x) l -> (x <= mx)%R).
        { clear. induction l as [|b l IH]; intros acc Hm; cbn in Hm.
          - subst. split; [intros x [= ->]; lra|intros x []].
          - destruct (IH _ Hm) as [I1 I2]. destruct acc as [x|], b as [y|].
            + specialize (I1 _ eq_refl). split; [intros z [= <-]; pose proof (Rmax_l x y); lra|].
              intros z [[= <-]|Hz]; [pose proof (Rmax_r x y); lra|auto].
            + exfalso. clear - Hm. induction l as [|c l IH]; cbn in Hm; [discriminate|auto].
            + exfalso. clear - Hm. induction l as [|c l IH]; cbn in Hm; [discriminate|auto].
            + exfalso. clear - Hm. induction l as [|c l IH]; cbn in Hm; [discriminate|auto]. }
        assert (a <= mx)%R; [|lra]. apply nth_error_In in E3. destruct arms as [|b arms]; [discriminate|]. cbn in Em. injection Em as Em.
        destruct (M _ _ Em) as [M1 M2]. destruct E3 as [E3|E3]; [apply M1; exact E3|apply M2; exact E3]. }
  destruct ex.
  - split; [auto|]. split; [intros _; now apply X|reflexivity].
  - split; [auto|]. split; [discriminate|]. intros H. apply X in H. discriminate.
Qed.

(** *** From internal to table indices *)
Lemma where_take {A} (f : A -> bool) (l : list A) :
  exists r, take l (where_ f l) = Ok r /\ r = filter f l /\
    forall i, nth_error r i = match nth_error (where_ f l) i with Some k => nth_error l k | None => None end.
Proof.
  destruct (take_total l (where_ f l)) as [r E].
  { apply Forall_forall. intros i Hi. apply where_spec in Hi as (a & H & _). apply nth_error_Some. congruence. }
  exists r. split; [exact E|]. apply take_Ok in E as F. split.
  - clear E. unfold where_ in F.
    assert (G : forall l k r pre, length pre = k -> Forall2 (fun i a => nth_error (pre ++ l) i = Some a) (where_from f k l) r -> r = filter f l).
    { clear. induction l as [|a l IH]; intros k r pre Hk F; cbn in *; [inversion F; reflexivity|].
      destruct (f a) eqn:Ea.
      - inversion F as [|? b ? r' Hb F']; subst. rewrite nth_error_app2, Nat.sub_diag in Hb by lia. injection Hb as <-. f_equal.
        apply (IH (S (length pre)) r' (pre ++ [a])); [rewrite app_length; cbn; lia|]. rewrite <- app_assoc. exact F'.
      - apply (IH (S k) r (pre ++ [a])); [rewrite app_length; cbn; lia|]. rewrite <- app_assoc. exact F. }
    apply (G l 0%nat r []); auto.
  - intros i. destruct (nth_error (where_ f l) i) as [k|] eqn:Ek.
    + destruct (nth_error_length (where_ f l) r i k) as [a Ha]; [eapply Forall2_length; eauto|exact Ek|].
      rewrite Ha. symmetry. exact (Forall2_nth _ _ _ F _ _ _ Ek Ha).
    + apply nth_error_None in Ek. apply nth_error_None. rewrite <- (Forall2_length _ _ _ F). exact Ek.
Qed.

Lemma to_table_ok metrpos fvcpos fvclen a :
  NoDup metrpos -> NoDup fvcpos -> (forall f, In f fvcpos -> (f < fvclen)%nat) ->
  one_to_one (length metrpos) (length fvcpos) a ->
  exists ret, to_table metrpos fvcpos fvclen a = Ok ret /\ length ret = fvclen /\
    (forall f z, nth_error ret f = Some z ->
       (z = -1 /\ ~ exists i j, In (i, j) a /\ nth_error fvcpos j = Some f) \/
       exists i j p, In (i, j) a /\ nth_error fvcpos j = Some f /\ nth_error metrpos i = Some p /\ z = Z.of_nat p) /\
    (forall i j f p, In (i, j) a -> nth_error fvcpos j = Some f -> nth_error metrpos i = Some p -> nth_error ret f = Some (Z.of_nat p)).
Proof.
  intros Nm Nf Bf (O1 & O2 & O3). unfold to_table.
  destruct (take_total metrpos (map fst a)) as [ms Em].
  { apply Forall_forall. intros i Hi. apply in_map_iff in Hi as ([i' j] & <- & Hi). apply O3 in Hi. tauto. }
  destruct (take_total fvcpos (map snd a)) as [fs Ef].
  { apply Forall_forall. intros i Hi. apply in_map_iff in Hi as ([i' j] & <- & Hi). apply O3 in Hi. tauto. }
  rewrite Em, Ef. cbn [rbind]. apply take_Ok in Em, Ef.
  assert (C : forall f z, In (f, z) (combine fs (map Z.of_nat ms)) <->
     exists i j p, In (i, j) a /\ nth_error fvcpos j = Some f /\ nth_error metrpos i = Some p /\ z = Z.of_nat p).
  { clear - Em Ef. revert ms fs Em Ef. induction a as [|[i j] a IH]; intros ms fs Em Ef.
    - inversion Em; inversion Ef; subst. cbn. intros f z. split; [intros []|intros (? & ? & ? & [] & _)].
    - inversion Em as [|? p ? ms' Hp Em']; inversion Ef as [|? f0 ? fs' Hf Ef']; subst. intros f z. cbn. cbn in Hp, Hf.
      rewrite (IH _ _ Em' Ef'). split.
      + intros [[= <- <-]|(i' & j' & p' & H1 & H2)]; [exists i, j, p; auto|exists i', j', p'; auto].
      + intros (i' & j' & p' & [[= <- <-]|H1] & H2 & H3 & ->); [left; congruence|right; exists i', j', p'; auto]. }
  assert (Nfs : NoDup fs).
  { clear - Ef O2 Nf. rewrite NoDup_nth_error in *. intros x y Hx E.
    assert (L : length (map snd a) = length fs) by (eapply Forall2_length; eauto).
    destruct (nth_error fs x) as [f|] eqn:Ex; [|apply nth_error_None in Ex; lia]. symmetry in E.
    destruct (nth_error_length fs (map snd a) x f) as [jx Hjx]; [auto|exact Ex|].
    destruct (nth_error_length fs (map snd a) y f) as [jy Hjy]; [auto|exact E|].
    pose proof (Forall2_nth _ _ _ Ef _ _ _ Hjx Ex) as A1. pose proof (Forall2_nth _ _ _ Ef _ _ _ Hjy E) as A2. cbn beta in *.
    assert (jx = jy) by (apply Nf; [apply nth_error_Some; congruence|congruence]). subst jy.
    apply O2; [apply nth_error_Some; congruence|congruence]. }
  assert (Lms : length ms = length a) by (rewrite <- (Forall2_length _ _ _ Em); apply map_length).
  assert (Lfs : length fs = length a) by (rewrite <- (Forall2_length _ _ _ Ef); apply map_length).
  assert (Mf : map fst (combine fs (map Z.of_nat ms)) = fs).
  { assert (L : length fs = length (map Z.of_nat ms)) by (rewrite map_length; lia). clear - L. revert L.
    generalize (map Z.of_nat ms). induction fs as [|x fs IH]; intros [|y l] L; cbn in *; try discriminate; [reflexivity|f_equal; apply IH; lia]. }
  assert (Bfs : Forall (fun iv => (fst iv < length (repeat (-1)%Z fvclen))%nat) (combine fs (map Z.of_nat ms))).
  { apply Forall_forall. intros [f z] Hi. cbn. rewrite repeat_length. apply C in Hi as (i & j & p & _ & H & _). apply Bf. eapply nth_error_In; eauto. }
  destruct (set_each_total _ _ Bfs) as [ret Er]. exists ret. split; [exact Er|].
  assert (Lr : length ret = fvclen) by (rewrite (set_each_length _ _ _ Er); apply repeat_length).
  split; [exact Lr|].
  assert (V : forall f, (f < fvclen)%nat -> nth_error ret f = Some (last_write (combine fs (map Z.of_nat ms)) f (-1))).
  { intros f Hf. apply (set_each_last _ _ _ _ _ Er). rewrite nth_error_repeat by exact Hf. reflexivity. }
  split.
  - intros f z Hz. assert (Hf : (f < fvclen)%nat) by (rewrite <- Lr; apply nth_error_Some; congruence).
    rewrite V in Hz by exact Hf. injection Hz as <-.
    destruct (in_dec Nat.eq_dec f fs) as [Hin|Hin].
    + right. rewrite <- Mf in Hin. apply in_map_iff in Hin as ([f' z] & E & Hin). cbn in E. subst f'.
      rewrite (last_write_In _ f z) by (rewrite ?Mf; assumption). now apply C.
    + left. rewrite last_write_notin by (rewrite Mf; exact Hin). split; [reflexivity|].
      intros (i & j & Hij & Hj). apply Hin. rewrite <- Mf. apply in_map_iff.
      destruct (nth_error metrpos i) as [p|] eqn:Ep; [|apply nth_error_None in Ep; apply O3 in Hij; lia].
      exists (f, Z.of_nat p). split; [reflexivity|]. apply C. eauto 10.
  - intros i j f p Hij Hj Hi. rewrite V by (apply Bf; eapply nth_error_In; eauto). f_equal.
    apply last_write_In; [rewrite Mf; exact Nfs|]. apply C. eauto 10.
Qed.

Lemma to_scores_ok fvcpos fvclen n a sc :
  NoDup fvcpos -> (forall f, In f fvcpos -> (f < fvclen)%nat) ->
  one_to_one n (length fvcpos) a ->
  exists ret, to_scores fvcpos fvclen a sc = Ok ret /\ length ret = fvclen /\
    (forall f z, nth_error ret f = Some z ->
       (z = None /\ ~ exists i j, In (i, j) a /\ nth_error fvcpos j = Some f) \/
       exists i j, In (i, j) a /\ nth_error fvcpos j = Some f /\ z = Some (sc i j)).
Proof.
  intros Nf Bf (O1 & O2 & O3). unfold to_scores.
  destruct (take_total fvcpos (map snd a)) as [fs Ef].
  { apply Forall_forall. intros i Hi. apply in_map_iff in Hi as ([i' j] & <- & Hi). apply O3 in Hi. tauto. }
  rewrite Ef. cbn [rbind]. apply take_Ok in Ef.
  set (vs := map (fun ij => Some (sc (fst ij) (snd ij))) a).
  assert (C : forall f z, In (f, z) (combine fs vs) <-> exists i j, In (i, j) a /\ nth_error fvcpos j = Some f /\ z = Some (sc i j)).
  { unfold vs. clear - Ef. revert fs Ef. induction a as [|[i j] a IH]; intros fs Ef.
    - inversion Ef; subst. cbn. intros f z. split; [intros []|intros (? & ? & [] & _)].
    - inversion Ef as [|? f0 ? fs' Hf Ef']; subst. intros f z. cbn. cbn in Hf.
      rewrite (IH _ Ef'). split.
      + intros [[= <- <-]|(i' & j' & H1 & H2)]; [exists i, j; auto|exists i', j'; auto].
      + intros (i' & j' & [[= <- <-]|H1] & H2 & ->); [left; congruence|right; exists i', j'; auto]. }
  assert (Nfs : NoDup fs).
  { clear - Ef O2 Nf. rewrite NoDup_nth_error in *. intros x y Hx E.
    assert (L : length (map snd a) = length fs) by (eapply Forall2_length; eauto).
    destruct (nth_error fs x) as [f|] eqn:Ex; [|apply nth_error_None in Ex; lia]. symmetry in E.
    destruct (nth_error_length fs (map snd a) x f) as [jx Hjx]; [auto|exact Ex|].
    destruct (nth_error_length fs (map snd a) y f) as [jy Hjy]; [auto|exact E|].
    pose proof (Forall2_nth _ _ _ Ef _ _ _ Hjx Ex) as A1. pose proof (Forall2_nth _ _ _ Ef _ _ _ Hjy E) as A2. cbn beta in *.
    assert (jx = jy) by (apply Nf; [apply nth_error_Some; congruence|congruence]). subst jy.
    apply O2; [apply nth_error_Some; congruence|congruence]. }
  assert (Lfs : length fs = length vs) by (rewrite <- (Forall2_length _ _ _ Ef); unfold vs; now rewrite !map_length).
  assert (Mf : map fst (combine fs vs) = fs).
  { clear - Lfs. revert Lfs. generalize vs. induction fs as [|x fs IH]; intros [|y l] L; cbn in *; try discriminate; [reflexivity|f_equal; apply IH; lia]. }
  assert (Bfs : Forall (fun iv => (fst iv < length (repeat (@None Z) fvclen))%nat) (combine fs vs)).
  { apply Forall_forall. intros [f z] Hi. cbn. rewrite repeat_length. apply C in Hi as (i & j & _ & H & _). apply Bf. eapply nth_error_In; eauto. }
  destruct (set_each_total _ _ Bfs) as [ret Er]. exists ret. split; [exact Er|].
  assert (Lr : length ret = fvclen) by (rewrite (set_each_length _ _ _ Er); apply repeat_length).
  split; [exact Lr|].
  intros f z Hz. assert (Hf : (f < fvclen)%nat) by (rewrite <- Lr; apply nth_error_Some; congruence).
  rewrite (set_each_last _ _ _ f None Er) in Hz by (rewrite nth_error_repeat by exact Hf; reflexivity). injection Hz as <-.
  destruct (in_dec Nat.eq_dec f fs) as [Hin|Hin].
  - right. rewrite <- Mf in Hin. apply in_map_iff in Hin as ([f' z] & E & Hin). cbn in E. subst f'.
    rewrite (last_write_In _ f z) by (rewrite ?Mf; assumption). now apply C.
  - left. rewrite last_write_notin by (rewrite Mf; exact Hin). split; [reflexivity|].
    intros (i & j & Hij & Hj). apply Hin. rewrite <- Mf. apply in_map_iff. exists (f, Some (sc i j)). split; [reflexivity|]. apply C. eauto.
Qed.

(** *** The whole function *)
Section Whole.
Variable fvc : list spot.
Variable metr : list (@device K).
Variable cal : list (@calib K).
Variable thresh fudge : R.
Let fvcpos := where_ (usable_spot thresh) fvc.
Let metrpos := where_ is_positioner metr.
Let spots := filter (usable_spot thresh) fvc.
Let devs := filter is_positioner metr.
Let arms := fill_arms median (map (fun d => calibrated_arm eqb cal fudge (d_id d)) devs).

Lemma spots_nth j : nth_error spots j = match nth_error fvcpos j with Some k => nth_error fvc k | None => None end.
Proof. destruct (where_take (usable_spot thresh) fvc) as (r & _ & E & H). unfold spots. rewrite <- E. apply H. Qed.
Lemma devs_nth j : nth_error devs j = match nth_error metrpos j with Some k => nth_error metr k | None => None end.
Proof. destruct (where_take is_positioner metr) as (r & _ & E & H). unfold devs. rewrite <- E. apply H. Qed.
Lemma spots_length : length spots = length fvcpos.
Proof.
  destruct (where_take (usable_spot thresh) fvc) as (r & T & E & H). unfold spots. rewrite <- E.
  apply take_Ok in T. symmetry. eapply Forall2_length; eauto.
Qed.
Lemma devs_length : length devs = length metrpos.
Proof.
  destruct (where_take is_positioner metr) as (r & T & E & H). unfold devs. rewrite <- E.
  apply take_Ok in T. symmetry. eapply Forall2_length; eauto.
Qed.

Lemma pos_assignable i j f p : nth_error fvcpos j = Some f -> nth_error metrpos i = Some p -> assignable fvc metr thresh f p.
Proof.
  intros Hf Hp. apply nth_error_In in Hf, Hp. apply where_spec in Hf as (s & Hs & Us). apply where_spec in Hp as (d & Hd & Ud).
  unfold usable_spot in Us. apply andb_true_iff in Us as [U1 U2]. apply Z.eqb_eq in U1. apply Rltb_true in U2.
  unfold is_positioner in Ud. apply Z.eqb_eq in Ud. exists s, d. auto 10.
Qed.
Lemma assignable_pos f p : assignable fvc metr thresh f p ->
  exists i j, nth_error fvcpos j = Some f /\ nth_error metrpos i = Some p.
Proof.
  intros (s & d & H1 & H2 & H3 & H4 & H5).
  assert (In f fvcpos) as Hf.
  { apply where_spec. exists s. split; [exact H1|]. unfold usable_spot. rewrite H2. cbn. now apply Rltb_true. }
  assert (In p metrpos) as Hp.
  { apply where_spec. exists d. split; [exact H4|]. unfold is_positioner. rewrite H5. reflexivity. }
  apply In_nth_error in Hf as [j Hj]. apply In_nth_error in Hp as [i Hi]. eauto.
Qed.

Lemma known_arms_eq : known_arms eqb metr cal fudge = filter (fun a => negb (Reqb a 0)) (map (fun d => calibrated_arm eqb cal fudge (d_id d)) devs).
Proof.
  unfold known_arms. apply filter_ext. intros a. destruct (Reqb a 0) eqn:E.
  - apply Reqb_true in E. destruct (Req_EM_T a 0); [reflexivity|contradiction].
  - apply Reqb_false in E. destruct (Req_EM_T a 0); [contradiction|reflexivity].
Qed.
Lemma arms_nth i d a : nth_error devs i = Some d -> nth_error arms i = Some (Some a) <-> reach eqb median metr cal fudge d a.
Proof.
  intros Hd. unfold arms, fill_arms. rewrite <- known_arms_eq. rewrite nth_error_map, nth_error_map, Hd. cbn [option_map].
  unfold reach. set (v := calibrated_arm eqb cal fudge (d_id d)). destruct (Reqb v 0) eqn:E.
  - apply Reqb_true in E. destruct (known_arms eqb metr cal fudge) as [|x l] eqn:Ek.
    + split; [discriminate|]. intros [[H _]|(_ & H & _)]; contradiction.
    + split; [intros [= <-]; right; repeat split; auto; discriminate|]. intros [[H _]|(_ & _ & ->)]; [contradiction|reflexivity].
  - apply Reqb_false in E. split; [intros [= <-]; left; auto|]. intros [[_ ->]|[H _]]; [reflexivity|contradiction].
Qed.
Lemma in_reach_spec i j f p : nth_error fvcpos j = Some f -> nth_error metrpos i = Some p ->
  in_reach (map d_xy devs) (map s_xy spots) arms (i, j) = true <-> within_reach eqb median fvc metr cal fudge f p.
Proof.
  intros Hf Hp. unfold in_reach. cbn [fst snd]. rewrite !nth_error_map. pose proof (devs_nth i) as Ed. pose proof (spots_nth j) as Es.
  rewrite Hp in Ed. rewrite Hf in Es. 
  destruct (pos_assignable _ _ _ _ Hf Hp) as (s & d & H1 & _ & _ & H4 & _). rewrite H4 in Ed. rewrite H1 in Es. rewrite Ed, Es. cbn [option_map].
  unfold within_reach. split.
  - destruct (nth_error arms i) as [[a|]|] eqn:Ea; try discriminate. intros H. apply Rltb_true in H.
    exists s, d, a. repeat split; auto; [now apply (arms_nth i d a)|]. now rewrite Match.distance_dist2d.
  - intros (s' & d' & a & E1 & E2 & E3 & E4). assert (s' = s) by congruence. assert (d' = d) by congruence. subst.
    apply (arms_nth i d a Ed) in E3. rewrite E3. rewrite Match.distance_dist2d in E4. now apply Rltb_true.
Qed.

Lemma match_positioners_inv out :
  match_positioners argsort ltb eqb median solve fvc metr cal thresh fudge = Ok out ->
  NoDup (map d_id devs) /\ exists sc,
    (forall i j f p, nth_error fvcpos j = Some f -> nth_error metrpos i = Some p ->
       (sc i j = 0 \/ sc i j = 1) /\ (sc i j = 1 <-> within_reach eqb median fvc metr cal fudge f p)) /\
    let '(ret, scores, total, alts) := out in
    let best := solve_assignment solve (length metrpos) (length fvcpos) sc in
    to_table metrpos fvcpos (length fvc) (fst best) = Ok ret /\
    to_scores fvcpos (length fvc) (fst best) sc = Ok scores /\
    total = snd best /\
    Forall2 (fun a alt => to_table metrpos fvcpos (length fvc) a = Ok alt)
      (alternatives_of solve (length metrpos) (length fvcpos) sc best) alts.
Proof.
  unfold match_positioners. fold fvcpos metrpos.
  destruct (where_take (usable_spot thresh) fvc) as (r & T & E & _). fold fvcpos in T. fold spots in E. rewrite T. subst r.
  destruct (where_take is_positioner metr) as (r & T' & E & _). fold metrpos in T'. fold devs in E. rewrite T'. subst r. cbn [rbind].
  destruct (ListDec.NoDup_dec (A := K)) with (l := map d_id devs) as [Hnd|Hnd].
  { intros x y. destruct (eqb x y) eqn:E; [left; now apply Heq|right; intros H; apply Heq in H; congruence]. }
  2:{ unfold arm_lengths. rewrite (match_keys_dup argsort ltb eqb Heq) by exact Hnd. cbn. discriminate. }
  rewrite arm_lengths_ok by exact Hnd. fold arms. cbn [rbind].
  destruct (score_matrix (map d_xy devs) (map s_xy spots) arms) as [sc|] eqn:Esc; cbn [rbind]; [|discriminate].
  rewrite spots_length, devs_length.
  set (best := solve_assignment solve (length metrpos) (length fvcpos) sc).
  destruct (rmapM _ _) as [alts|] eqn:Ea; cbn [rbind]; [|discriminate].
  destruct (to_table metrpos fvcpos (length fvc) (fst best)) as [ret|] eqn:Er; cbn [rbind]; [|discriminate].
  destruct (to_scores fvcpos (length fvc) (fst best) sc) as [scores|] eqn:Es; cbn [rbind]; [|discriminate].
  intros [= <-]. split; [exact Hnd|]. exists sc. split.
  - intros i j f p Hf Hp. destruct (score_matrix_spec _ _ _ _ Esc i j) as [S1 S2]. split; [exact S1|].
    rewrite S2. now apply in_reach_spec.
  - fold best. repeat split; auto. now apply rmapM_Ok_Forall2.
Qed.

Lemma fvcpos_lt f : In f fvcpos -> (f < length fvc)%nat.
Proof. intros H. apply where_spec in H as (s & H & _). apply nth_error_Some. congruence. Qed.

Lemma table_valid a ret : one_to_one (length metrpos) (length fvcpos) a ->
  to_table metrpos fvcpos (length fvc) a = Ok ret -> valid_result fvc metr thresh ret.
Proof.
  intros Ha Hr. destruct (to_table_ok metrpos fvcpos (length fvc) a (where_NoDup _ _) (where_NoDup _ _) fvcpos_lt Ha) as (ret' & E & L & V & _).
  rewrite Hr in E. injection E as <-. split; [exact L|]. split.
  - intros f z Hz. destruct (V f z Hz) as [[-> _]|(i & j & p & Hij & Hj & Hi & ->)]; [now left|]. right. exists p. split; [reflexivity|]. eapply pos_assignable; eauto.
  - intros f g z Hf Hg Hz.
    destruct (V f z Hf) as [[-> _]|(i & j & p & Hij & Hj & Hi & ->)]; [congruence|].
    destruct (V g _ Hg) as [[E _]|(i' & j' & p' & Hij' & Hj' & Hi' & E)]; [lia|].
    assert (p = p') by lia. subst p'. destruct Ha as (O1 & O2 & O3).
    assert (i = i').
    { pose proof (where_NoDup is_positioner metr) as N. fold metrpos in N. rewrite NoDup_nth_error in N. apply N; [apply nth_error_Some; congruence|congruence]. }
    subst i'. assert (j = j'); [|congruence].
    clear - O1 Hij Hij'. induction a as [|[x y] a IH]; [destruct Hij|]. cbn in O1. inversion O1 as [|? ? Hn Hd]; subst.
    destruct Hij as [[= -> ->]|Hij], Hij' as [Hij'|Hij']; [congruence| |injection Hij' as -> ->|auto].
    + exfalso. apply Hn. apply (in_map fst) in Hij'. exact Hij'.
    + exfalso. apply Hn. apply (in_map fst) in Hij. exact Hij.
Qed.

(** Score of an assignment = number of its pairs of score one. *)
Lemma zsum_count (g : nat * nat -> Z) (a : list (nat * nat)) : (forall e, In e a -> g e = 0 \/ g e = 1) ->
  zsum (map g a) = Z.of_nat (length (filter (fun e => g e =? 1) a)).
Proof.
  unfold zsum. induction a as [|e a IH]; intros H; [reflexivity|]. cbn [map fold_right filter].
  rewrite IH by (intros; apply H; now right). destruct (H e (or_introl eq_refl)) as [-> | ->]; cbn [Z.eqb Pos.eqb]; cbn [length]; lia.
Qed.

(** The pairs of score one of an assignment, as pairs of table indices. *)
Lemma pairs_in_reach a ret (sc : nat -> nat -> Z) :
  one_to_one (length metrpos) (length fvcpos) a -> to_table metrpos fvcpos (length fvc) a = Ok ret ->
  (forall i j f p, nth_error fvcpos j = Some f -> nth_error metrpos i = Some p -> sc i j = 1 -> within_reach eqb median fvc metr cal fudge f p) ->
  exists L, NoDup (map fst L) /\ length L = length (filter (fun e => sc (fst e) (snd e) =? 1) a) /\
    (forall f p, In (f, p) L <-> exists i j, In (i, j) a /\ nth_error fvcpos j = Some f /\ nth_error metrpos i = Some p /\ sc i j = 1) /\
    Forall (fun fp => nth_error ret (fst fp) = Some (Z.of_nat (snd fp)) /\ within_reach eqb median fvc metr cal fudge (fst fp) (snd fp)) L.
Proof.
  intros Ha Hr Hsc. destruct (to_table_ok metrpos fvcpos (length fvc) a (where_NoDup _ _) (where_NoDup _ _) fvcpos_lt Ha) as (ret' & E & _ & _ & V).
  rewrite Hr in E. injection E as <-. destruct Ha as (O1 & O2 & O3).
  set (g := fun e : nat * nat => (nth (snd e) fvcpos 0%nat, nth (fst e) metrpos 0%nat)).
  set (good := filter (fun e => sc (fst e) (snd e) =? 1) a).
  assert (G : forall i j, In (i, j) a -> nth_error fvcpos j = Some (nth j fvcpos 0%nat) /\ nth_error metrpos i = Some (nth i metrpos 0%nat)).
  { intros i j Hij. apply O3 in Hij as [H1 H2]. split; apply nth_error_nth'; assumption. }
  assert (I : forall f p, In (f, p) (map g good) <-> exists i j, In (i, j) a /\ nth_error fvcpos j = Some f /\ nth_error metrpos i = Some p /\ sc i j = 1).
  { intros f p. rewrite in_map_iff. split.
    - intros ([i j] & E & Hij). apply filter_In in Hij as [Hij H1]. cbn in *. apply Z.eqb_eq in H1. unfold g in E. cbn in E. injection E as <- <-.
      destruct (G _ _ Hij). exists i, j. auto.
    - intros (i & j & Hij & Hj & Hi & H1). exists (i, j). split.
      + unfold g. cbn. f_equal; apply nth_error_nth; assumption.
      + apply filter_In. cbn. now rewrite H1. }
  exists (map g good). split; [|split; [apply map_length|split; [exact I|]]].
  - assert (Ng : NoDup (map snd good)).
    { unfold good. clear - O2. induction a as [|e a IH]; cbn; [constructor|]. cbn in O2. inversion O2 as [|? ? Hn Hd]; subst.
      destruct (_ =? 1); [|auto]. cbn. constructor; [|auto]. intros H. apply Hn. apply in_map_iff in H as (x & <- & Hx). apply filter_In in Hx as [Hx _]. now apply in_map. }
    rewrite map_map. unfold g. cbn. rewrite <- map_map with (f := snd) (g := fun j => nth j fvcpos 0%nat).
    assert (B : forall j, In j (map snd good) -> (j < length fvcpos)%nat).
    { intros j Hj. apply in_map_iff in Hj as ([i j'] & <- & Hj). apply filter_In in Hj as [Hj _]. apply O3 in Hj. tauto. }
    pose proof (where_NoDup (usable_spot thresh) fvc) as N. fold fvcpos in N.
    clear - Ng B N. induction (map snd good) as [|j l IH]; cbn; [constructor|]. inversion Ng as [|? ? Hn Hd]; subst. constructor.
    + intros H. apply in_map_iff in H as (j' & E & Hj'). apply Hn. rewrite (NoDup_nth _ 0%nat) in N. assert (j' = j) as <-; [|exact Hj'].
      apply N; [apply B; now right|apply B; now left|exact E].
    + apply IH; [exact Hd|]. intros; apply B; now right.
  - apply Forall_forall. intros [f p] Hfp. apply I in Hfp as (i & j & Hij & Hj & Hi & H1). cbn. split; [eapply V; eauto|eapply Hsc; eauto].
Qed.

Lemma count_where {A} (f : A -> bool) (l : list A) : length (filter f l) = length (where_ f l).
Proof.
  destruct (where_take f l) as (r & T & E & _). rewrite <- E. apply take_Ok in T. symmetry. eapply Forall2_length; eauto.
Qed.

Theorem match_positioners_spec ret scores total alts :
  match_positioners argsort ltb eqb median solve fvc metr cal thresh fudge = Ok (ret, scores, total, alts) ->
  valid_result fvc metr thresh ret /\
  length scores = length fvc /\
  (forall f, nth_error ret f = Some (-1) -> nth_error scores f = Some None) /\
  (forall f p, nth_error ret f = Some (Z.of_nat p) ->
     (nth_error scores f = Some (Some 1) /\ within_reach eqb median fvc metr cal fudge f p) \/
     (nth_error scores f = Some (Some 0) /\ ~ within_reach eqb median fvc metr cal fudge f p)) /\
  total = Z.of_nat (length (filter (fun s => match s with Some 1 => true | _ => false end) scores)) /\
  (forall alt, In alt alts -> valid_result fvc metr thresh alt /\
     exists L, NoDup (map fst L) /\ Z.of_nat (length L) = total /\
       Forall (fun fp => nth_error alt (fst fp) = Some (Z.of_nat (snd fp)) /\ within_reach eqb median fvc metr cal fudge (fst fp) (snd fp)) L).
Proof.
  intros H. apply match_positioners_inv in H as (Hnd & sc & Hsc & Hr & Hs & Ht & Ha).
  set (best := solve_assignment solve (length metrpos) (length fvcpos) sc) in *.
  assert (Ob : one_to_one (length metrpos) (length fvcpos) (fst best)) by apply solve_ok.
  destruct (to_table_ok metrpos fvcpos (length fvc) _ (where_NoDup _ _) (where_NoDup _ _) fvcpos_lt Ob) as (ret' & E & Lr & Vr & Vr').
  rewrite Hr in E. injection E as <-.
  destruct (to_scores_ok fvcpos (length fvc) _ _ sc (where_NoDup _ _) fvcpos_lt Ob) as (scs' & E & Ls & Vs).
  rewrite Hs in E. injection E as <-.
  assert (Inj : forall i i' j j' f, In (i, j) (fst best) -> In (i', j') (fst best) -> nth_error fvcpos j = Some f -> nth_error fvcpos j' = Some f -> i = i' /\ j = j').
  { intros i i' j j' f H1 H2 H3 H4. assert (j = j') as <-.
    { pose proof (where_NoDup (usable_spot thresh) fvc) as N. fold fvcpos in N. rewrite NoDup_nth_error in N. apply N; [apply nth_error_Some; congruence|congruence]. }
    split; [|reflexivity]. destruct Ob as (_ & O2 & _). clear - O2 H1 H2. induction (fst best) as [|[x y] l IH]; [destruct H1|]. cbn in O2. inversion O2 as [|? ? Hn Hd]; subst.
    destruct H1 as [[= -> ->]|H1], H2 as [H2|H2]; [congruence| |injection H2 as -> ->|auto].
    + exfalso. apply Hn. apply (in_map snd) in H2. exact H2.
    + exfalso. apply Hn. apply (in_map snd) in H1. exact H1. }
  split; [eapply table_valid; eauto|]. split; [exact Ls|]. split; [|split; [|split]].
  - intros f Hf. assert (Hl : (f < length scores)%nat) by (rewrite Ls, <- Lr; apply nth_error_Some; congruence).
    destruct (nth_error scores f) as [s|] eqn:Es; [|apply nth_error_None in Es; lia].
    destruct (Vs f s Es) as [[-> _]|(i & j & Hij & Hj & ->)]; [reflexivity|]. exfalso.
    destruct (nth_error metrpos i) as [p|] eqn:Ep; [|apply nth_error_None in Ep; destruct Ob as (_ & _ & O3); apply O3 in Hij; lia].
    pose proof (Vr' _ _ _ _ Hij Hj Ep) as Q. rewrite Hf in Q. injection Q. lia.
  - intros f p Hf. assert (Hl : (f < length scores)%nat) by (rewrite Ls, <- Lr; apply nth_error_Some; congruence).
    destruct (Vr f _ Hf) as [[E _]|(i & j & p' & Hij & Hj & Hi & E)]; [lia|]. assert (p' = p) by lia. subst p'.
    destruct (nth_error scores f) as [s|] eqn:Es; [|apply nth_error_None in Es; lia].
    destruct (Vs f s Es) as [[_ N]|(i' & j' & Hij' & Hj' & ->)]; [exfalso; apply N; eauto|].
    destruct (Inj _ _ _ _ _ Hij Hij' Hj Hj') as [<- <-]. destruct (Hsc i j f p Hj Hi) as [S1 S2].
    destruct S1 as [S1|S1]; rewrite S1.
    + right. split; [reflexivity|]. intros W. apply S2 in W. congruence.
    + left. split; [reflexivity|]. now apply S2.
  - rewrite Ht. unfold best, solve_assignment. cbn [fst snd]. fold (solve_assignment solve (length metrpos) (length fvcpos) sc).
    change (solve (length metrpos) (length fvcpos) sc) with (fst best).
    rewrite (zsum_count (fun ij => sc (fst ij) (snd ij))).
    2:{ intros [i j] Hij. cbn. destruct (nth_error metrpos i) as [p|] eqn:Ep; [|apply nth_error_None in Ep; destruct Ob as (_ & _ & O3); apply O3 in Hij; lia].
        destruct (nth_error fvcpos j) as [f|] eqn:Ef; [|apply nth_error_None in Ef; destruct Ob as (_ & _ & O3); apply O3 in Hij; lia].
        apply (Hsc i j f p Ef Ep). }
    f_equal. destruct (pairs_in_reach (fst best) ret sc Ob Hr) as (L & NL & LL & IL & _).
    { intros i j f p H1 H2 H3. now apply (Hsc i j f p H1 H2). }
    rewrite <- LL, count_where, <- (map_length fst). apply Permutation_length. apply NoDup_Permutation; [exact NL|apply where_NoDup|].
    intros f. rewrite where_spec. split.
    + intros Hf. apply in_map_iff in Hf as ([f' p] & <- & Hf). apply IL in Hf as (i & j & Hij & Hj & Hi & H1). cbn.
      assert (Hl : (f' < length scores)%nat) by (rewrite Ls; apply fvcpos_lt; eapply nth_error_In; eauto).
      destruct (nth_error scores f') as [s|] eqn:Es; [|apply nth_error_None in Es; lia]. exists s. split; [reflexivity|].
      destruct (Vs f' s Es) as [[_ N]|(i' & j' & Hij' & Hj' & ->)]; [exfalso; apply N; eauto|].
      destruct (Inj _ _ _ _ _ Hij Hij' Hj Hj') as [<- <-]. rewrite H1. reflexivity.
    + intros (s & Es & H1). destruct (Vs f s Es) as [[-> _]|(i & j & Hij & Hj & ->)]; [discriminate|].
      destruct (nth_error metrpos i) as [p|] eqn:Ep; [|apply nth_error_None in Ep; destruct Ob as (_ & _ & O3); apply O3 in Hij; lia].
      apply in_map_iff. exists (f, p). split; [reflexivity|]. apply IL. exists i, j. repeat split; auto.
      destruct (Hsc i j f p Hj Ep) as [[S1|S1] _]; [rewrite S1 in H1; discriminate|exact S1].
  - intros alt Halt. apply In_nth_error in Halt as [k Hk].
    destruct (nth_error_length alts (alternatives_of solve (length metrpos) (length fvcpos) sc best) k alt) as [a Hka]; [symmetry; eapply Forall2_length; eauto|exact Hk|].
    pose proof (Forall2_nth _ _ _ Ha _ _ _ Hka Hk) as Et. cbn beta in Et. apply nth_error_In in Hka.
    unfold alternatives_of in Hka. apply in_map_iff in Hka as (asol & <- & Hin). apply filter_In in Hin as [Hin Htot].
    apply Z.eqb_eq in Htot. apply in_map_iff in Hin as (e & <- & He).
    unfold solve_assignment in Et, Htot. cbn [fst snd] in Et, Htot.
    set (a := solve (length metrpos) (length fvcpos) (without sc e)) in *.
    assert (Oa : one_to_one (length metrpos) (length fvcpos) a) by apply solve_ok.
    split; [eapply table_valid; eauto|].
    assert (W : forall i j, without sc e i j = 0 \/ without sc e i j = sc i j).
    { intros i j. unfold without. destruct (_ && _); auto. }
    destruct (pairs_in_reach a alt (without sc e) Oa Et) as (L & NL & LL & _ & FL).
    { intros i j f p H1 H2 H3. apply (Hsc i j f p H1 H2). destruct (W i j) as [Q|Q]; congruence. }
    exists L. split; [exact NL|]. split; [|exact FL]. rewrite LL, Ht, <- Htot. symmetry.
    apply (zsum_count (fun ij => without sc e (fst ij) (snd ij))). intros [i j] Hij. cbn.
    destruct (nth_error metrpos i) as [p|] eqn:Ep; [|apply nth_error_None in Ep; destruct Oa as (_ & _ & O3); apply O3 in Hij; lia].
    destruct (nth_error fvcpos j) as [f|] eqn:Ef; [|apply nth_error_None in Ef; destruct Oa as (_ & _ & O3); apply O3 in Hij; lia].
    destruct (Hsc i j f p Ef Ep) as [[S1|S1] _]; destruct (W i j) as [Q|Q]; rewrite Q; auto.
Qed.

(** Internal indices of a pairing of the tables. *)
Lemma internal_pairs (sc : nat -> nat -> Z) (L : list (nat * nat)) :
  (forall i j f p, nth_error fvcpos j = Some f -> nth_error metrpos i = Some p ->
     (sc i j = 0 \/ sc i j = 1) /\ (sc i j = 1 <-> within_reach eqb median fvc metr cal fudge f p)) ->
  NoDup (map fst L) -> NoDup (map snd L) ->
  (forall f p, In (f, p) L -> assignable fvc metr thresh f p /\ within_reach eqb median fvc metr cal fudge f p) ->
  exists a, one_to_one (length metrpos) (length fvcpos) a /\ length a = length L /\ Forall (fun e => sc (fst e) (snd e) = 1) a /\
    forall i j, In (i, j) a -> exists f p, In (f, p) L /\ nth_error fvcpos j = Some f /\ nth_error metrpos i = Some p.
Proof.
  intros Hsc N1 N2 HL.
  assert (Y : exists a, Forall2 (fun e fp => nth_error fvcpos (snd e) = Some (fst fp) /\ nth_error metrpos (fst e) = Some (snd fp)) a L).
    { clear - HL. induction L as [|[f p] L IH]; [exists []; constructor|]. destruct IH as [a Fa]; [intros; apply HL; now right|].
      destruct (HL f p (or_introl eq_refl)) as [As _]. apply assignable_pos in As as (i & j & Hj & Hi). exists ((i, j) :: a). constructor; auto. }
    destruct Y as [a Fa]. exists a.
    assert (In1 : forall i j, In (i, j) a -> exists f p, In (f, p) L /\ nth_error fvcpos j = Some f /\ nth_error metrpos i = Some p).
      { clear - Fa. induction Fa as [|[i j] [f p] a L [H1 H2] _ IH]; [intros i j []|]. intros i' j' [[= <- <-]|Hij].
        - exists f, p. cbn in *. auto.
        - destruct (IH _ _ Hij) as (f' & p' & Q & R). exists f', p'. split; [now right|exact R]. }
    split; [|split; [|split; [|exact In1]]].
    - split; [|split].
      + clear - Fa N2. induction Fa as [|[i j] [f p] a L [H1 H2] Fa IH]; cbn in *; [constructor|]. inversion N2 as [|? ? Hn Hd]; subst.
        constructor; [|auto]. intros Hi. apply Hn. apply in_map_iff in Hi as ([i' j'] & E & Hi). cbn in E. subst i'.
        clear - Fa Hi H2. induction Fa as [|[x y] [f' p'] a L [H3 H4] _ IH]; [destruct Hi|]. cbn in *. destruct Hi as [[= -> ->]|Hi]; [left; congruence|right; auto].
      + clear - Fa N1. induction Fa as [|[i j] [f p] a L [H1 H2] Fa IH]; cbn in *; [constructor|]. inversion N1 as [|? ? Hn Hd]; subst.
        constructor; [|auto]. intros Hi. apply Hn. apply in_map_iff in Hi as ([i' j'] & E & Hi). cbn in E. subst j'.
        clear - Fa Hi H1. induction Fa as [|[x y] [f' p'] a L [H3 H4] _ IH]; [destruct Hi|]. cbn in *. destruct Hi as [[= -> ->]|Hi]; [left; congruence|right; auto].
      + intros i j Hij. apply In1 in Hij as (f & p & _ & Q1 & Q2). split; apply nth_error_Some; congruence.
    - eapply Forall2_length; eauto.
    - apply Forall_forall. intros [i j] Hij. cbn.
      assert (exists f p, In (f, p) L /\ nth_error fvcpos j = Some f /\ nth_error metrpos i = Some p) as (f & p & Hfp & Q1 & Q2).
      { clear - Fa Hij. induction Fa as [|[x y] [f p] a L [H1 H2] _ IH]; [destruct Hij|]. destruct Hij as [[= -> ->]|Hij].
        - exists f, p. cbn in *. auto.
        - destruct (IH Hij) as (f' & p' & Q & R). exists f', p'. split; [now right|exact R]. }
      destruct (Hsc i j f p Q1 Q2) as [_ S2]. apply S2. now apply HL. 
Qed.
(** The score of a pairing of score one is a lower bound of the score of an optimal assignment. *)
Lemma optimal_ge (sc : nat -> nat -> Z) a : optimal_solver solve ->
  (forall i j, (i < length metrpos)%nat -> (j < length fvcpos)%nat -> 0 <= sc i j) ->
  one_to_one (length metrpos) (length fvcpos) a -> Forall (fun e => sc (fst e) (snd e) = 1) a ->
  Z.of_nat (length a) <= snd (solve_assignment solve (length metrpos) (length fvcpos) sc).
Proof.
  intros [_ Opt] Hsc Oa Fa. destruct (extend_matching _ _ _ Oa) as (b & Ob & Lb).
  specialize (Opt _ _ sc _ Ob Lb). unfold solve_assignment. cbn [snd].
  change (zsum (map (fun ij => sc (fst ij) (snd ij)) (solve (length metrpos) (length fvcpos) sc)))
    with (total_score sc (solve (length metrpos) (length fvcpos) sc)).
  etransitivity; [|exact Opt]. unfold total_score. rewrite map_app. fold (zsum (map (fun ij => sc (fst ij) (snd ij)) a ++ map (fun ij => sc (fst ij) (snd ij)) b)).
  rewrite zsum_app.
  assert (0 <= zsum (map (fun ij => sc (fst ij) (snd ij)) b)).
  { apply zsum_nonneg. intros z Hz. apply in_map_iff in Hz as ([i j] & <- & Hij). cbn. destruct Ob as (_ & _ & O3).
    destruct (O3 i j) as [B1 B2]; [apply in_app_iff; now right|]. now apply Hsc. }
  assert (zsum (map (fun ij => sc (fst ij) (snd ij)) a) = Z.of_nat (length a)).
  { clear - Fa. unfold zsum. induction Fa as [|e a He _ IH]; [reflexivity|]. cbn [map fold_right length]. rewrite IH, He. lia. }
  lia.
Qed.
Lemma positions_exist i j : (i < length metrpos)%nat -> (j < length fvcpos)%nat -> exists f p, nth_error fvcpos j = Some f /\ nth_error metrpos i = Some p.
Proof.
  intros B1 B2. destruct (nth_error metrpos i) as [p|] eqn:Ep; [|apply nth_error_None in Ep; lia].
  destruct (nth_error fvcpos j) as [f|] eqn:Ef; [|apply nth_error_None in Ef; lia]. eauto.
Qed.

Theorem match_positioners_optimal ret scores total alts :
  optimal_solver solve ->
  match_positioners argsort ltb eqb median solve fvc metr cal thresh fudge = Ok (ret, scores, total, alts) ->
  forall L, NoDup (map fst L) -> NoDup (map snd L) ->
    (forall f p, In (f, p) L -> assignable fvc metr thresh f p /\ within_reach eqb median fvc metr cal fudge f p) ->
    Z.of_nat (length L) <= total.
Proof.
  intros Opt H L N1 N2 HL. apply match_positioners_inv in H as (Hnd & sc & Hsc & Hr & Hs & Ht & Ha).
  destruct (internal_pairs sc L Hsc N1 N2 HL) as (a & Oa & La & Fa & _). rewrite <- La, Ht. apply optimal_ge; auto.
  intros i j B1 B2. destruct (positions_exist i j B1 B2) as (f & p & Ef & Ep). destruct (Hsc i j f p Ef Ep) as [[S1|S1] _]; lia.
Qed.

(** Any assigned pair which some pairing of the same total avoids is avoided by an alternative. *)
Theorem match_positioners_alternative ret scores total alts :
  optimal_solver solve ->
  match_positioners argsort ltb eqb median solve fvc metr cal thresh fudge = Ok (ret, scores, total, alts) ->
  forall f p L, nth_error ret f = Some (Z.of_nat p) ->
    NoDup (map fst L) -> NoDup (map snd L) ->
    (forall f p, In (f, p) L -> assignable fvc metr thresh f p /\ within_reach eqb median fvc metr cal fudge f p) ->
    Z.of_nat (length L) = total -> ~ In (f, p) L ->
    exists alt L', In alt alts /\ NoDup (map fst L') /\ Z.of_nat (length L') = total /\ ~ In (f, p) L' /\
      Forall (fun fp => nth_error alt (fst fp) = Some (Z.of_nat (snd fp)) /\ within_reach eqb median fvc metr cal fudge (fst fp) (snd fp)) L'.
Proof.
  intros Opt H f p L Hf N1 N2 HL Tot Nin. pose proof H as H0. apply match_positioners_inv in H as (Hnd & sc & Hsc & Hr & Hs & Ht & Ha).
  set (best := solve_assignment solve (length metrpos) (length fvcpos) sc) in *.
  assert (Ob : one_to_one (length metrpos) (length fvcpos) (fst best)) by apply solve_ok.
  destruct (to_table_ok metrpos fvcpos (length fvc) _ (where_NoDup _ _) (where_NoDup _ _) fvcpos_lt Ob) as (ret' & E & Lr & Vr & _).
  rewrite Hr in E. injection E as <-.
  destruct (Vr f _ Hf) as [[E _]|(i & j & p' & Hij & Hj & Hi & E)]; [lia|]. assert (p' = p) by lia. subst p'. clear E Vr.
  assert (Pos : forall (l : list nat) i i' v, NoDup l -> nth_error l i = Some v -> nth_error l i' = Some v -> i = i').
  { intros l x x' v N X X'. rewrite NoDup_nth_error in N. apply N; [apply nth_error_Some; congruence|congruence]. }
  assert (U : forall i' j', nth_error fvcpos j' = Some f -> nth_error metrpos i' = Some p -> i' = i /\ j' = j).
  { intros i' j' X Y. split; [apply (Pos metrpos _ _ p)|apply (Pos fvcpos _ _ f)]; auto; apply where_NoDup. }
  set (sc' := without sc (i, j)). set (asol := solve_assignment solve (length metrpos) (length fvcpos) sc').
  assert (W : forall x y, sc' x y = 0 \/ sc' x y = sc x y) by (intros x y; unfold sc', without; destruct (_ && _); auto).
  assert (Wij : sc' i j = 0) by (unfold sc', without; cbn; now rewrite !Nat.eqb_refl).
  assert (Sc : forall x y, (x < length metrpos)%nat -> (y < length fvcpos)%nat -> sc x y = 0 \/ sc x y = 1).
  { intros x y B1 B2. destruct (positions_exist x y B1 B2) as (g & q & Ef & Ep). apply (Hsc x y g q Ef Ep). }
  assert (Oa : one_to_one (length metrpos) (length fvcpos) (fst asol)) by apply solve_ok.
  assert (Sa : snd asol = total).
  { apply Z.le_antisymm.
    - rewrite Ht. destruct Opt as [_ Opt]. specialize (Opt (length metrpos) (length fvcpos) sc (fst asol) Oa (proj2 (solve_ok _ _ _))).
      etransitivity; [|exact Opt]. unfold asol, solve_assignment, total_score. cbn [fst snd].
      set (a := solve _ _ sc') in *. assert (Ba : forall x y, In (x, y) a -> sc' x y <= sc x y).
      { intros x y Hxy. destruct (proj2 (proj2 Oa) x y Hxy) as [B1 B2]. destruct (Sc x y B1 B2), (W x y); lia. }
      clear -Ba. unfold zsum. induction a as [|[x y] a IH]; [cbn; lia|]. cbn [map fold_right fst snd].
      specialize (Ba x y (or_introl eq_refl)) as B. cbn in *. assert (forall x y, In (x, y) a -> sc' x y <= sc x y) by auto. specialize (IH H). lia.
    - destruct (internal_pairs sc L Hsc N1 N2 HL) as (a & Oa' & La & Fa & Ia). rewrite <- Tot, <- La. unfold asol. apply optimal_ge; auto.
      + intros x y B1 B2. destruct (Sc x y B1 B2), (W x y); lia.
      + apply Forall_forall. intros [x y] Hxy. rewrite Forall_forall in Fa. specialize (Fa _ Hxy). cbn [fst snd] in *. destruct (Ia x y Hxy) as (g & q & Hgq & Hg & Hq).
        unfold sc', without. cbn [fst snd]. destruct (Nat.eqb_spec x i) as [->|]; [|exact Fa]. destruct (Nat.eqb_spec y j) as [->|]; [|exact Fa]. exfalso. apply Nin. congruence. }
  assert (Ina : In (fst asol) (alternatives_of solve (length metrpos) (length fvcpos) sc best)).
  { unfold alternatives_of. apply in_map_iff. exists asol. split; [reflexivity|]. apply filter_In. split; [|apply Z.eqb_eq; congruence].
    apply in_map_iff. exists (i, j). split; [reflexivity|exact Hij]. }
  apply In_nth_error in Ina as [k Hk].
  destruct (nth_error_length (alternatives_of solve (length metrpos) (length fvcpos) sc best) alts k _ (Forall2_length _ _ _ Ha) Hk) as [alt Hka].
  pose proof (Forall2_nth _ _ _ Ha _ _ _ Hk Hka) as Et. cbn beta in Et. apply nth_error_In in Hka.
  destruct (pairs_in_reach (fst asol) alt sc' Oa Et) as (L' & NL & LL & IL & FL).
  { intros x y g q H1 H2 H3. apply (Hsc x y g q H1 H2). destruct (W x y) as [Q|Q]; congruence. }
  exists alt, L'. split; [exact Hka|]. split; [exact NL|]. split; [|split; [|exact FL]].
  - rewrite LL, <- Sa. symmetry. apply (zsum_count (fun ij => sc' (fst ij) (snd ij))). intros [x y] Hxy. cbn.
    destruct (proj2 (proj2 Oa) x y Hxy) as [B1 B2]. destruct (Sc x y B1 B2), (W x y); lia.
  - intros Hin. apply IL in Hin as (x & y & _ & Hy & Hx & H1). destruct (U x y Hy Hx) as [-> ->]. lia.
Qed.

(** Errors, and normal return. *)
Theorem match_positioners_dup : ~ NoDup (map d_id (filter (fun d => d_pinhole d =? 0) metr)) ->
  match_positioners argsort ltb eqb median solve fvc metr cal thresh fudge = Err ValueError.
Proof.
  intros Hnd. unfold match_positioners. fold fvcpos metrpos.
  destruct (where_take (usable_spot thresh) fvc) as (r & T & E & _). fold fvcpos in T. rewrite T. cbn [rbind].
  destruct (where_take is_positioner metr) as (r' & T' & E' & _). fold metrpos in T'. rewrite T'. subst r'. cbn [rbind].
  unfold arm_lengths. rewrite (match_keys_dup argsort ltb eqb Heq) by exact Hnd. reflexivity.
Qed.

Theorem match_positioners_ok f p :
  NoDup (map d_id (filter (fun d => d_pinhole d =? 0) metr)) ->
  assignable fvc metr thresh f p -> within_reach eqb median fvc metr cal fudge f p ->
  exists out, match_positioners argsort ltb eqb median solve fvc metr cal thresh fudge = Ok out.
Proof.
  intros Hnd As W. unfold match_positioners. fold fvcpos metrpos.
  destruct (where_take (usable_spot thresh) fvc) as (r & T & E & _). fold fvcpos in T. fold spots in E. rewrite T. subst r.
  destruct (where_take is_positioner metr) as (r & T' & E & _). fold metrpos in T'. fold devs in E. rewrite T'. subst r. cbn [rbind].
  rewrite arm_lengths_ok by exact Hnd. fold arms. cbn [rbind].
  apply assignable_pos in As as (i & j & Hj & Hi). pose proof (proj2 (in_reach_spec i j f p Hj Hi) W) as IR.
  (* candidates *)
  assert (Sc : exists sc, score_matrix (map d_xy devs) (map s_xy spots) arms = Ok sc).
  { unfold score_matrix. unfold in_reach in IR. cbn [fst snd] in IR.
    destruct (nth_error (map d_xy devs) i) as [pd|] eqn:E1; [|discriminate].
    destruct (nth_error (map s_xy spots) j) as [ps|] eqn:E2; [|discriminate].
    destruct (nth_error arms i) as [[a|]|] eqn:E3; try discriminate. apply Rltb_true in IR.
    (* no arm is NaN *)
    assert (K0 : forall x, In x arms -> exists y, x = Some y).
    { intros x Hx. apply In_nth_error in Hx as [n Hn].
      assert (Ln : (n < length devs)%nat) by (assert (length arms = length devs) as <- by (unfold arms, fill_arms; now rewrite !map_length); apply nth_error_Some; congruence).
      destruct (nth_error devs n) as [d|] eqn:Ed; [|apply nth_error_None in Ed; lia].
      assert (KA : known_arms eqb metr cal fudge <> []).
      { rewrite nth_error_map in E1. destruct (nth_error devs i) as [di|] eqn:Edi; [|discriminate].
        apply (arms_nth i di a Edi) in E3. destruct E3 as [[Q1 Q2]|[_ [Q _]]]; [|exact Q].
        rewrite known_arms_eq. intros Z0. assert (In a []) as []. rewrite <- Z0. apply filter_In. split.
        - apply in_map_iff. exists di. split; [congruence|]. eapply nth_error_In; eauto.
        - rewrite negb_true_iff. apply Reqb_false. congruence. }
      destruct (Req_EM_T (calibrated_arm eqb cal fudge (d_id d)) 0) as [Z0|Z0].
      - exists (median (known_arms eqb metr cal fudge)). assert (R : reach eqb median metr cal fudge d (median (known_arms eqb metr cal fudge))) by (right; auto).
        apply (arms_nth n d _ Ed) in R. congruence.
      - exists (calibrated_arm eqb cal fudge (d_id d)). assert (R : reach eqb median metr cal fudge d (calibrated_arm eqb cal fudge (d_id d))) by (left; auto).
        apply (arms_nth n d _ Ed) in R. congruence. }
    assert (M : exists mx, np_max arms = Ok (Some mx) /\ forall y, In (Some y) arms -> (y <= mx)%R).
    { apply nth_error_In in E3. clear - K0 E3. destruct arms as [|x l]; [destruct E3|]. cbn [np_max].
      destruct (K0 x (or_introl eq_refl)) as [y ->].
      assert (G : forall l y, (forall x, In x l -> exists z, x = Some z) -> exists mx, max_nan (Some y) l = Some mx /\ (y <= mx)%R /\ forall z, In (Some z) l -> (z <= mx)%R).
      { clear. induction l as [|x l IH]; intros y H; cbn; [exists y; repeat split; [lra|intros ? []]|].
        destruct (H x (or_introl eq_refl)) as [z ->]. destruct (IH (Rmax y z)) as (mx & -> & Q1 & Q2); [intros; apply H; now right|].
        exists mx. split; [reflexivity|]. pose proof (Rmax_l y z). pose proof (Rmax_r y z). split; [lra|]. intros w [[= <-]|Hw]; [lra|auto]. }
      destruct (G l y) as (mx & -> & Q1 & Q2); [intros; apply K0; now right|]. exists mx. split; [reflexivity|].
      intros w [[= <-]|Hw]; auto. }
    destruct M as (mx & -> & Bm). cbn [rbind].
    destruct (match2d (map d_xy devs) (map s_xy spots) (Some (mx + 1 / 10)%R)) as [|e0 es] eqn:Ec; [|eauto]. exfalso.
    assert (In (i, j) []) as []. rewrite <- Ec. unfold match2d. apply filter_In. split.
    - apply in_prod; apply in_seq; cbn; (split; [lia|apply nth_error_Some; congruence]).
    - cbn [fst snd]. rewrite E1, E2. apply Rleb_true. apply nth_error_In in E3. specialize (Bm _ E3). lra. }
  destruct Sc as [sc ->]. cbn [rbind]. rewrite spots_length, devs_length.
  set (best := solve_assignment solve (length metrpos) (length fvcpos) sc).
  assert (TT : forall s, exists t, to_table metrpos fvcpos (length fvc) (solve (length metrpos) (length fvcpos) s) = Ok t).
  { intros s. destruct (to_table_ok metrpos fvcpos (length fvc) (solve (length metrpos) (length fvcpos) s) (where_NoDup _ _) (where_NoDup _ _) fvcpos_lt) as (t & Et & _); [apply solve_ok|eauto]. }
  assert (AA : exists alts, rmapM (to_table metrpos fvcpos (length fvc)) (alternatives_of solve (length metrpos) (length fvcpos) sc best) = Ok alts).
  { unfold alternatives_of. induction (fst best) as [|e l IH]; [exists []; reflexivity|]. cbn [map filter].
    destruct (_ =? _); [|exact IH]. cbn [map rmapM]. destruct IH as [al Eal]. destruct (TT (without sc e)) as [t Et].
    cbn [solve_assignment fst]. rewrite Et. cbn [rbind]. rewrite Eal. cbn. eauto. }
  destruct AA as [alts ->]. cbn [rbind]. destruct (TT sc) as [t Et]. unfold best at 1. cbn [solve_assignment fst]. rewrite Et. cbn [rbind].
  destruct (to_scores_ok fvcpos (length fvc) (length metrpos) (fst best) sc (where_NoDup _ _) fvcpos_lt) as (scs & -> & _); [apply solve_ok|]. cbn [rbind]. eauto.
Qed.

Theorem match_positioners_no_positioner : (forall d, In d metr -> d_pinhole d <> 0) ->
  match_positioners argsort ltb eqb median solve fvc metr cal thresh fudge = Err ValueError.
Proof.
  intros H. assert (E0 : devs = []).
  { unfold devs. clear - H. induction metr as [|d l IH]; [reflexivity|]. cbn. unfold is_positioner at 1.
    assert (d_pinhole d <> 0) as Q by (apply H; now left). apply Z.eqb_neq in Q. rewrite Q. apply IH. intros; apply H; now right. }
  unfold match_positioners. fold fvcpos metrpos.
  destruct (where_take (usable_spot thresh) fvc) as (r & T & E & _). fold fvcpos in T. rewrite T. cbn [rbind].
  destruct (where_take is_positioner metr) as (r' & T' & E' & _). fold metrpos in T'. fold devs in E'. rewrite T'. subst r'. cbn [rbind].
  rewrite arm_lengths_ok by (rewrite E0; constructor). rewrite E0. reflexivity.
Qed.
End Whole.
End S.

(** *** possible_assignments_dict *)
Lemma set_add_In x y s : In x (set_add y s) <-> x = y \/ In x s.
Proof.
  unfold set_add. destruct (existsb (Nat.eqb y) s) eqn:E.
  - apply existsb_exists in E as (z & Hz & E). apply Nat.eqb_eq in E. subst z. split; [auto|]. intros [->|H]; auto.
  - rewrite in_app_iff. cbn. split; [intros [H|[H|[]]]; auto|intros [->|H]; auto].
Qed.
Definition zget (d : dict Z (list nat)) (m : Z) : list nat := match dict_get Z.eqb d m with Some s => s | None => [] end.

Lemma zget_add d f m k x :
  In x (zget (add_possible d (f, m)) k) <-> In x (zget d k) \/ (m <> -1 /\ m = k /\ x = f).
Proof.
  unfold zget, add_possible. destruct (m =? -1) eqn:E.
  - apply Z.eqb_eq in E. split; [auto|]. intros [H|H]; [exact H|tauto].
  - apply Z.eqb_neq in E. destruct (Z.eq_dec m k) as [->|N].
    + rewrite (dict_get_set_same Z.eqb Z.eqb_eq), set_add_In. split; [intros [->|H]; auto|intros [H|(_ & _ & ->)]; auto].
    + rewrite (dict_get_set_other Z.eqb Z.eqb_eq) by auto. split; [auto|]. intros [H|(_ & H & _)]; [exact H|contradiction].
Qed.
Definition pinv (d : dict Z (list nat)) : Prop :=
  forall k s, dict_get Z.eqb d k = Some s -> k <> -1 /\ s <> [] /\ NoDup s.
Lemma set_add_NoDup x s : NoDup s -> NoDup (set_add x s).
Proof.
  intros H. unfold set_add. destruct (existsb (Nat.eqb x) s) eqn:E; [exact H|].
  apply NoDup_Add with (l := s) (a := x); [rewrite <- (app_nil_r s) at 1; apply Add_app|]. split; [exact H|].
  intros Hi. assert (existsb (Nat.eqb x) s = true); [|congruence]. apply existsb_exists. exists x. now rewrite Nat.eqb_refl.
Qed.
Lemma pinv_add d fm : pinv d -> pinv (add_possible d fm).
Proof.
  destruct fm as [f m]. intros H. unfold add_possible. destruct (m =? -1) eqn:E; [exact H|]. apply Z.eqb_neq in E.
  intros k s Hk. destruct (Z.eq_dec k m) as [->|N].
  - rewrite (dict_get_set_same Z.eqb Z.eqb_eq) in Hk. injection Hk as <-. split; [exact E|]. split.
    + intros Z0. assert (In f []) as []. rewrite <- Z0. apply set_add_In. auto.
    + apply set_add_NoDup. destruct (dict_get Z.eqb d m) as [s|] eqn:Es; [now apply (H m)|constructor].
  - rewrite (dict_get_set_other Z.eqb Z.eqb_eq) in Hk by exact N. now apply (H k).
Qed.
Lemma fold_add_spec l d k x :
  In x (zget (fold_left add_possible l d) k) <-> In x (zget d k) \/ (k <> -1 /\ In (x, k) l).
Proof.
  revert d; induction l as [|[f m] l IH]; intros d; cbn [fold_left].
  - cbn. tauto.
  - rewrite IH, zget_add. cbn [In]. split.
    + intros [[H|(H1 & H2 & H3)]|[H1 H2]]; [auto|right; split; [congruence|left; congruence]|auto].
    + intros [H|[H1 [[= -> ->]|H2]]]; auto.
Qed.
Lemma fold_add_inv l d : pinv d -> pinv (fold_left add_possible l d).
Proof. revert d; induction l as [|fm l IH]; intros d H; cbn; [exact H|apply IH, pinv_add, H]. Qed.

Lemma enum_nth {A} (l : list A) i a : In (i, a) (enum l) <-> nth_error l i = Some a.
Proof. apply enum_In. Qed.

Theorem possible_spec assignment alternatives k :
  let all := assignment :: match alternatives with Some l => l | None => [] end in
  let assigned x := exists a, In a all /\ nth_error a x = Some k in
  match dict_get Z.eqb (possible_assignments_dict assignment alternatives) k with
  | Some s => k <> -1 /\ s <> [] /\ NoDup s /\ forall x, In x s <-> assigned x
  | None => k = -1 \/ forall x, ~ assigned x
  end.
Proof.
  intros all assigned. unfold possible_assignments_dict. fold all.
  assert (G : forall ls d, pinv d -> pinv (fold_left (fun d a => fold_left add_possible (enum a) d) ls d) /\
     forall x, In x (zget (fold_left (fun d a => fold_left add_possible (enum a) d) ls d) k) <->
       In x (zget d k) \/ (k <> -1 /\ exists a, In a ls /\ nth_error a x = Some k)).
  { induction ls as [|a ls IH]; intros d Hd; cbn [fold_left].
    - split; [exact Hd|]. intros x. split; [auto|]. intros [H|[_ (a & [] & _)]]; exact H.
    - destruct (IH (fold_left add_possible (enum a) d)) as [I1 I2]; [now apply fold_add_inv|]. split; [exact I1|].
      intros x. rewrite I2, fold_add_spec, enum_nth. split.
      + intros [[H|[H1 H2]]|(H1 & b & H2 & H3)]; [auto|right; split; [exact H1|exists a; split; [now left|exact H2]]|right; split; [exact H1|exists b; split; [now right|exact H3]]].
      + intros [H|(H1 & b & [->|H2] & H3)]; [auto|left; right; auto|right; split; [exact H1|exists b; auto]]. }
  destruct (G all []) as [G1 G2]; [intros q s Hq; discriminate|].
  unfold zget in G2 at 1. destruct (dict_get Z.eqb _ k) as [s|] eqn:E.
  - destruct (G1 _ _ E) as (H1 & H2 & H3). repeat split; auto.
    + intros Hx. apply G2 in Hx as [Hx|[_ Hx]]; [destruct Hx|exact Hx].
    + intros Hx. apply G2. right. split; [exact H1|exact Hx].
  - destruct (Z.eq_dec k (-1)) as [->|N]; [now left|]. right. intros x Hx. destruct (proj2 (G2 x)). right. split; [exact N|exact Hx].
Qed.
