From Verif.Model Require Import KeyMatch.
From Verif.Proofs Require Import Numpy.
From Coq Require Import Permutation Sorted.

Section S.
Variable argsort : forall K, (K -> K -> bool) -> list K -> list nat.
Hypothesis argsort_ok : is_argsort argsort.
Context {K : Type} (ltb eqb : K -> K -> bool).
Hypothesis Hst : strict_total ltb.
Hypothesis Heq : forall x y, eqb x y = true <-> x = y.

Lemma distinct_length a : (length (distinct eqb a) <= length a)%nat.
Proof. induction a as [|x a IH]; cbn; [lia|]. destruct (existsb (eqb x) a); cbn; lia. Qed.

Lemma distinct_NoDup a : length (distinct eqb a) = length a <-> NoDup a.
Proof.
  induction a as [|x a IH]; cbn; [split; [constructor|reflexivity]|].
  destruct (existsb (eqb x) a) eqn:E.
  - split; [pose proof (distinct_length a); lia|]. intros H; inversion H as [|? ? Hn _]; subst. exfalso; apply Hn.
    apply existsb_exists in E as (y & Hy & E). apply Heq in E. now subst.
  - cbn. split.
    + intros H. constructor; [|apply IH; lia]. intros Hi.
      assert (existsb (eqb x) a = true) by (apply existsb_exists; exists x; split; [exact Hi|now apply Heq]). congruence.
    + intros H; inversion H; subst. f_equal. now apply IH.
Qed.

(** In an ordered list without repetition, searchsorted finds the position of a present value
    and any other result is not that value. *)
Lemma searchsorted_found s v k :
  StronglySorted (fun x y => ltb y x = false) s -> NoDup s ->
  nth_error s k = Some v -> searchsorted ltb s v = k.
Proof.
  destruct Hst as [[Hi Ht Hn] Htot].
  intros Hs Hd; revert k; induction Hs as [|x s Hs IH Hf]; intros k Hk; [destruct k; discriminate|].
  inversion Hd as [|? ? Hnx Hds]; subst. destruct k as [|k]; cbn in *.
  - injection Hk as <-. now rewrite Hi.
  - assert (Hin : In v s) by (eapply nth_error_In; eauto). rewrite Forall_forall in Hf.
    assert (E : ltb x v = true).
    { destruct (ltb x v) eqn:E; [reflexivity|]. exfalso. apply Hnx. rewrite (Htot x v E); auto. }
    rewrite E. f_equal. auto.
Qed.

Lemma selected_pairs_In k l i j :
  In (i, j) (selected_pairs k l) <-> (k <= j)%nat /\ nth_error l (j - k) = Some (Some i).
Proof.
  revert k; induction l as [|o l IH]; intros k; cbn [selected_pairs].
  - split; [intros []|]. intros [_ H]; destruct (j - k)%nat; discriminate.
  - assert (E : (k <= j)%nat /\ nth_error (o :: l) (j - k) = Some (Some i) <->
                (j = k /\ o = Some i) \/ ((S k <= j)%nat /\ nth_error l (j - S k) = Some (Some i))).
    { split.
      - intros [H1 H2]. destruct (Nat.eq_dec j k) as [->|Hne]; [rewrite Nat.sub_diag in H2; injection H2 as ->; auto|].
        right. replace (j - k)%nat with (S (j - S k)) in H2 by lia. split; [lia|exact H2].
      - intros [[-> ->]|[H1 H2]]; [rewrite Nat.sub_diag; auto|].
        replace (j - k)%nat with (S (j - S k)) by lia. split; [lia|exact H2]. }
    rewrite E. destruct o as [i'|]; cbn [In]; rewrite IH.
    + split; intros [H|H]; auto; [left; injection H as -> ->; auto|left; destruct H as [-> [= ->]]; reflexivity].
    + split; [auto|]. intros [[_ H]|H]; [discriminate|exact H].
Qed.
Lemma selected_pairs_sorted k l : StronglySorted lt (map snd (selected_pairs k l)).
Proof.
  revert k; induction l as [|[i|] l IH]; intros k; cbn; [constructor| |apply IH].
  constructor; [apply IH|]. rewrite Forall_map. apply Forall_forall. intros [a b] H.
  apply selected_pairs_In in H as [H _]. cbn. lia.
Qed.

Lemma match_keys_dup a b : ~ NoDup a -> match_keys argsort ltb eqb a b = Err ValueError.
Proof.
  intros H. unfold match_keys.
  destruct (Nat.eqb (length (distinct eqb a)) (length a)) eqn:E; [|reflexivity].
  apply Nat.eqb_eq, distinct_NoDup in E. contradiction.
Qed.

Lemma match_keys_ok a b : NoDup a ->
  exists ia ib, match_keys argsort ltb eqb a b = Ok (ia, ib) /\ length ia = length ib /\
    StronglySorted lt ib /\
    forall i j, In (i, j) (combine ia ib) <-> exists v, nth_error a i = Some v /\ nth_error b j = Some v.
Proof.
  intros Hnd. unfold match_keys. apply distinct_NoDup in Hnd as Hl. rewrite Hl, Nat.eqb_refl. cbn [negb].
  pose proof (argsort_ok K ltb a (st_weak _ Hst)) as SP. set (sa := argsort K ltb a) in *.
  destruct (take_total a sa) as [s Es].
  { apply Forall_forall. intros i. now apply sorting_perm_lt with (1 := SP). }
  rewrite Es. cbn [rbind]. apply take_Ok in Es as F.
  assert (Ls : length s = length sa) by (symmetry; eapply Forall2_length; eauto).
  assert (Lsa : length sa = length a) by now apply sorting_perm_length with (1 := SP).
  assert (Ss : StronglySorted (fun x y => ltb y x = false) s).
  { destruct SP as [_ SS]. clear - SS F. induction F as [|i x sa s Hix F IH]; [constructor|].
    inversion SS as [|? ? S1 S2]; subst. constructor; [auto|].
    rewrite Forall_forall in *. intros y Hy. apply In_nth_error in Hy as [k Hk].
    assert (exists j, nth_error sa k = Some j) as [j Hj].
    { destruct (nth_error sa k) eqn:E; [eauto|]. apply nth_error_None in E. rewrite (Forall2_length _ _ _ F) in E.
      assert (nth_error s k <> None) by congruence. apply nth_error_Some in H. lia. }
    pose proof (Forall2_nth _ _ _ F _ _ _ Hj Hk) as Hjy. exact (S2 j (nth_error_In _ _ Hj) _ _ Hix Hjy). }
  assert (Ns : NoDup s).
  { pose proof (sorting_perm_NoDup _ _ _ SP) as Nsa. clear - F Nsa Hnd.
    rewrite NoDup_nth_error in *. intros x y Hx E.
    assert (exists j1, nth_error sa x = Some j1) as [j1 H1].
    { destruct (nth_error sa x) eqn:E1; [eauto|]. apply nth_error_None in E1. rewrite (Forall2_length _ _ _ F) in E1. lia. }
    destruct (nth_error s x) as [v|] eqn:Ev; [|apply nth_error_None in Ev; lia]. symmetry in E.
    assert (exists j2, nth_error sa y = Some j2) as [j2 H2].
    { destruct (nth_error sa y) eqn:E1; [eauto|]. apply nth_error_None in E1. rewrite (Forall2_length _ _ _ F) in E1.
      assert (nth_error s y <> None) by congruence. apply nth_error_Some in H. lia. }
    pose proof (Forall2_nth _ _ _ F _ _ _ H1 Ev) as A1. pose proof (Forall2_nth _ _ _ F _ _ _ H2 E) as A2.
    assert (j1 = j2) by (apply Hnd; [apply nth_error_Some; congruence|congruence]). subst j2.
    apply Nsa; [apply nth_error_Some; congruence|congruence]. }
  assert (M : forall v, exists o, match_one ltb eqb a sa s v = Ok o /\ forall i, o = Some i <-> nth_error a i = Some v).
  { intros v. unfold match_one. set (ind := searchsorted ltb s v).
    assert (PRES : forall i, nth_error a i = Some v -> nth_error sa ind = Some i /\ (ind < length a)%nat).
    { intros i Hi. assert (Hin : In i sa) by (apply sorting_perm_In with (1 := SP); apply nth_error_Some; congruence).
      apply In_nth_error in Hin as [k Hk].
      assert (exists x, nth_error s k = Some x) as [x Hx].
      { destruct (nth_error s k) eqn:E; [eauto|]. apply nth_error_None in E.
        assert (nth_error sa k <> None) by congruence. apply nth_error_Some in H. lia. }
      pose proof (Forall2_nth _ _ _ F _ _ _ Hk Hx) as A. cbn beta in A. rewrite Hi in A. injection A as <-.
      assert (ind = k) as -> by (apply searchsorted_found; assumption).
      split; [exact Hk|]. rewrite <- Lsa. apply nth_error_Some. congruence. }
    destruct (Nat.ltb ind (length a)) eqn:E.
    - apply Nat.ltb_lt in E. destruct (nth_error sa ind) as [i|] eqn:Ei; [|apply nth_error_None in Ei; lia].
      unfold geti. rewrite Ei. cbn [rbind].
      assert (Hil : (i < length a)%nat) by (apply (sorting_perm_lt _ _ _ _ SP); eapply nth_error_In; eauto).
      destruct (nth_error a i) as [x|] eqn:Ex; [|apply nth_error_None in Ex; lia]. cbn [rbind].
      eexists; split; [reflexivity|]. intros i'. destruct (eqb x v) eqn:Exv.
      + apply Heq in Exv; subst x. split; [intros [= <-]; exact Ex|].
        intros H. destruct (PRES _ H) as [H1 _]. congruence.
      + split; [discriminate|]. intros H. destruct (PRES _ H) as [H1 _]. injection H1 as <-.
        rewrite Ex in H. injection H as ->. assert (eqb v v = true) by now apply Heq. congruence.
    - exists None. split; [reflexivity|]. intros i. split; [discriminate|]. intros H. destruct (PRES _ H) as [_ H2].
      apply Nat.ltb_ge in E. lia. }
  assert (MM : exists os, rmapM (match_one ltb eqb a sa s) b = Ok os /\
             Forall2 (fun v o => forall i, o = Some i <-> nth_error a i = Some v) b os).
  { clear - M. induction b as [|v b (os & E & Fo)]; cbn; [exists []; auto|].
    destruct (M v) as (o & Eo & Ho). rewrite Eo, E. cbn. exists (o :: os). auto. }
  destruct MM as (os & -> & Fo). cbn [rbind]. eexists; eexists; split; [reflexivity|].
  split; [now rewrite !map_length|]. split; [apply selected_pairs_sorted|].
  intros i j.
  assert (C : forall l : list (nat * nat), combine (map fst l) (map snd l) = l) by
    (induction l as [|[? ?] l IHl]; cbn; congruence).
  rewrite C, selected_pairs_In, Nat.sub_0_r. split.
  - intros [_ H]. destruct (nth_error b j) as [v|] eqn:Ev.
    + exists v. split; [|reflexivity]. eapply (Forall2_nth _ _ _ Fo _ _ _ Ev H); reflexivity.
    + apply nth_error_None in Ev. rewrite (Forall2_length _ _ _ Fo) in Ev.
      assert (nth_error os j <> None) by congruence. apply nth_error_Some in H0. lia.
  - intros (v & Hi & Hj). split; [lia|]. destruct (nth_error os j) as [o|] eqn:Eo.
    + f_equal. eapply (Forall2_nth _ _ _ Fo _ _ _ Hj Eo); assumption.
    + apply nth_error_None in Eo. rewrite <- (Forall2_length _ _ _ Fo) in Eo.
      assert (nth_error b j <> None) by congruence. apply nth_error_Some in H. lia.
Qed.
End S.
