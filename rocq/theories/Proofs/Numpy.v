(** Lemmas on the numpy operations. *)
From Verif.Model Require Export Numpy.
From Verif.Spec Require Export Numpy.
From Verif.Proofs Require Export Prelude.
From Coq Require Import Permutation Sorted.

Lemma geti_Ok {A} (l : list A) i a : geti l i = Ok a <-> nth_error l i = Some a.
Proof. unfold geti. destruct (nth_error l i); split; intros H; congruence. Qed.

Lemma seti_Ok {A} (l : list A) i v : (i < length l)%nat -> exists l', seti l i v = Ok l'.
Proof.
  revert i; induction l as [|x l IH]; intros [|i] H; cbn in *; try lia; [eauto|].
  destruct (IH i) as [l' ->]; [lia|]. cbn. eauto.
Qed.

Lemma seti_spec {A} (l l' : list A) i v :
  seti l i v = Ok l' ->
  length l' = length l /\ (i < length l)%nat /\
  nth_error l' i = Some v /\ forall k, k <> i -> nth_error l' k = nth_error l k.
Proof.
  revert i l'; induction l as [|x l IH]; intros [|i] l' H; cbn in H; try discriminate.
  - injection H as <-. cbn. repeat split; try lia. intros [|k] Hk; [congruence|reflexivity].
  - destruct (seti l i v) as [l1|] eqn:E; cbn in H; [|discriminate]. injection H as <-.
    destruct (IH _ _ E) as (H1 & H2 & H3 & H4). cbn. repeat split; try lia; auto.
    intros [|k] Hk; [reflexivity|]. cbn. apply H4. congruence.
Qed.

Lemma set_all_Ok {A} (l : list A) idx v :
  Forall (fun i => (i < length l)%nat) idx -> exists l', set_all l idx v = Ok l'.
Proof.
  revert l; induction idx as [|i r IH]; intros l H; cbn; [eauto|].
  inversion H as [|? ? Hi Hr]; subst. destruct (seti_Ok l i v Hi) as [l1 E]. rewrite E. cbn.
  apply IH. destruct (seti_spec _ _ _ _ E) as [-> _]. exact Hr.
Qed.

Lemma set_all_spec {A} (l l' : list A) idx v :
  set_all l idx v = Ok l' ->
  length l' = length l /\
  (forall k, In k idx -> nth_error l' k = Some v) /\
  (forall k, ~ In k idx -> nth_error l' k = nth_error l k).
Proof.
  revert l; induction idx as [|i r IH]; intros l H; cbn in H.
  - injection H as <-. repeat split; auto. intros k [].
  - destruct (seti l i v) as [l1|] eqn:E; cbn in H; [|discriminate].
    destruct (seti_spec _ _ _ _ E) as (H1 & H2 & H3 & H4).
    destruct (IH _ H) as (I1 & I2 & I3). split; [congruence|]. split.
    + intros k Hk. destruct (in_dec Nat.eq_dec k r) as [Hr|Hr]; [auto|].
      rewrite I3 by exact Hr. destruct Hk as [->|Hk]; [exact H3|contradiction].
    + intros k Hk. cbn in Hk. rewrite I3 by tauto. apply H4. intros ->. tauto.
Qed.

Lemma where_from_spec {A} (f : A -> bool) k l i :
  In i (where_from f k l) <-> exists a, (k <= i)%nat /\ nth_error l (i - k) = Some a /\ f a = true.
Proof.
  revert k; induction l as [|a l IH]; intros k; cbn [where_from].
  - split; [intros []|intros (a & _ & H & _); destruct (i - k)%nat; discriminate].
  - assert (S : (exists b, (k <= i)%nat /\ nth_error (a :: l) (i - k) = Some b /\ f b = true)
                <-> (i = k /\ f a = true) \/ (exists b, (S k <= i)%nat /\ nth_error l (i - S k) = Some b /\ f b = true)).
    { split.
      - intros (b & H1 & H2 & H3). destruct (Nat.eq_dec i k) as [->|Hne].
        + rewrite Nat.sub_diag in H2. injection H2 as <-. left; auto.
        + right. exists b. replace (i - k)%nat with (S (i - S k)) in H2 by lia. cbn in H2. repeat split; auto. lia.
      - intros [[-> H]|(b & H1 & H2 & H3)].
        + exists a. rewrite Nat.sub_diag. auto.
        + exists b. replace (i - k)%nat with (S (i - S k)) by lia. cbn. repeat split; auto. lia. }
    rewrite S. destruct (f a) eqn:E; cbn [In]; rewrite IH; [|intuition discriminate].
    split; (intros [H|H]; [left|right; exact H]); [split; [now symmetry|reflexivity]|now destruct H].
Qed.

Lemma where_spec {A} (f : A -> bool) l i :
  In i (where_ f l) <-> exists a, nth_error l i = Some a /\ f a = true.
Proof.
  unfold where_. rewrite where_from_spec. split.
  - intros (a & _ & H1 & H2). rewrite Nat.sub_0_r in H1. eauto.
  - intros (a & H1 & H2). exists a. rewrite Nat.sub_0_r. repeat split; auto. lia.
Qed.

Lemma where_from_sorted {A} (f : A -> bool) k l : StronglySorted lt (where_from f k l).
Proof.
  revert k; induction l as [|a l IH]; intros k; cbn; [constructor|].
  destruct (f a); [|apply IH]. constructor; [apply IH|].
  apply Forall_forall. intros i Hi. apply where_from_spec in Hi as (b & H & _). lia.
Qed.
Lemma where_sorted {A} (f : A -> bool) l : StronglySorted lt (where_ f l).
Proof. apply where_from_sorted. Qed.

Lemma sorted_lt_NoDup l : StronglySorted lt l -> NoDup l.
Proof.
  induction 1 as [|a l _ IH H]; constructor; [|exact IH].
  intros Hi. rewrite Forall_forall in H. specialize (H _ Hi). lia.
Qed.
Lemma where_NoDup {A} (f : A -> bool) l : NoDup (where_ f l).
Proof. apply sorted_lt_NoDup, where_sorted. Qed.

Lemma insert_unique_In z y l : In y (insert_unique z l) <-> y = z \/ In y l.
Proof.
  induction l as [|x l IH]; cbn; [intuition|].
  destruct (z <? x) eqn:E1; [cbn; intuition|]. destruct (z =? x) eqn:E2; cbn.
  - apply Z.eqb_eq in E2. subst. intuition.
  - rewrite IH. tauto.
Qed.
Lemma unique_In y l : In y (unique l) <-> In y l.
Proof. unfold unique. induction l as [|x l IH]; cbn; [tauto|]. rewrite insert_unique_In, IH. intuition. Qed.

Lemma insert_unique_sorted z l : StronglySorted Z.lt l -> StronglySorted Z.lt (insert_unique z l).
Proof.
  induction 1 as [|x l Hs IH Hf]; cbn; [repeat constructor|].
  destruct (z <? x) eqn:E1.
  - apply Z.ltb_lt in E1. constructor; [constructor; assumption|]. constructor; [exact E1|].
    eapply Forall_impl; [|exact Hf]. intros a; lia.
  - destruct (z =? x) eqn:E2; [constructor; assumption|].
    apply Z.ltb_ge in E1. apply Z.eqb_neq in E2. constructor; [exact IH|].
    apply Forall_forall. intros y Hy. apply insert_unique_In in Hy as [->|Hy]; [lia|].
    rewrite Forall_forall in Hf. auto.
Qed.
Lemma unique_sorted l : StronglySorted Z.lt (unique l).
Proof. unfold unique. induction l; cbn; [constructor|now apply insert_unique_sorted]. Qed.
Lemma unique_NoDup l : NoDup (unique l).
Proof.
  generalize (unique_sorted l). induction 1 as [|a r _ IH H]; constructor; [|exact IH].
  intros Hi. rewrite Forall_forall in H. specialize (H _ Hi). lia.
Qed.

Lemma take_Ok {A} (l : list A) idx r :
  take l idx = Ok r <-> Forall2 (fun i a => nth_error l i = Some a) idx r.
Proof.
  unfold take. rewrite rmapM_Ok_Forall2. split; intros H; (eapply Forall2_impl; [|exact H]); cbn; intros; now apply geti_Ok.
Qed.
Lemma take_total {A} (l : list A) idx :
  Forall (fun i => (i < length l)%nat) idx -> exists r, take l idx = Ok r.
Proof.
  induction idx as [|i idx IH]; intros H; [exists []; reflexivity|].
  inversion H as [|? ? Hi Hr]; subst. destruct (IH Hr) as [r E].
  destruct (nth_error l i) as [a|] eqn:Ea; [|apply nth_error_None in Ea; lia].
  exists (a :: r). apply take_Ok. constructor; [exact Ea|]. now apply take_Ok.
Qed.

Lemma enum_In {A} (l : list A) i a : In (i, a) (enum l) <-> nth_error l i = Some a.
Proof.
  unfold enum.
  assert (G : forall k, In (i, a) (combine (seq k (length l)) l) <-> (k <= i)%nat /\ nth_error l (i - k) = Some a).
  { induction l as [|x l IH]; intros k; cbn [length seq combine In].
    - split; [intros []|intros [_ H]; destruct (i - k)%nat; discriminate].
    - rewrite IH. split.
      + intros [[= -> ->]|[H1 H2]]; [rewrite Nat.sub_diag; auto|].
        replace (i - k)%nat with (S (i - S k)) by lia. cbn. split; [lia|exact H2].
      + intros [H1 H2]. destruct (Nat.eq_dec i k) as [->|Hne].
        * rewrite Nat.sub_diag in H2. injection H2 as ->. left; reflexivity.
        * right. replace (i - k)%nat with (S (i - S k)) in H2 by lia. cbn in H2. split; [lia|exact H2]. }
  rewrite G, Nat.sub_0_r. split; [tauto|]. intros; split; [lia|assumption].
Qed.
Lemma enum_length {A} (l : list A) : length (enum l) = length l.
Proof. unfold enum. rewrite combine_length, seq_length. lia. Qed.
Lemma enum_fst {A} (l : list A) : map fst (enum l) = seq 0 (length l).
Proof.
  unfold enum. generalize 0%nat. induction l as [|a l IH]; intros k; cbn; [reflexivity|]. f_equal. apply IH.
Qed.

(** *** The concrete argsort meets the specification. *)
Section ISort.
Context {K : Type} (ltb : K -> K -> bool) (H : strict_weak ltb).
Lemma insert_by_perm p l : Permutation (insert_by ltb p l) (p :: l).
Proof.
  induction l as [|q l IH]; cbn; [reflexivity|]. destruct (ltb (snd q) (snd p)); [|reflexivity].
  rewrite IH. apply perm_swap.
Qed.
Lemma insert_by_sorted p l :
  StronglySorted (fun a b => ltb (snd b) (snd a) = false) l ->
  StronglySorted (fun a b => ltb (snd b) (snd a) = false) (insert_by ltb p l).
Proof.
  destruct H as [Hi Ht Hn].
  induction 1 as [|q l Hs IH Hf]; cbn; [repeat constructor|].
  destruct (ltb (snd q) (snd p)) eqn:E.
  - constructor; [exact IH|]. apply Forall_forall. intros r Hr.
    apply (Permutation_in _ (insert_by_perm p l)) in Hr as [<-|Hr].
    + destruct (ltb (snd p) (snd q)) eqn:E2; [|reflexivity]. rewrite <- (Hi (snd p)). symmetry. eapply Ht; eauto.
    + rewrite Forall_forall in Hf. auto.
  - constructor; [constructor; assumption|]. constructor; [exact E|].
    eapply Forall_impl; [|exact Hf]. cbn. intros r Hr. destruct (ltb (snd r) (snd p)) eqn:E2; [|reflexivity].
    destruct (Hn _ (snd q) _ E2); congruence.
Qed.
Lemma isort_argsort_ok a : sorting_permutation ltb a (isort_argsort K ltb a).
Proof.
  unfold isort_argsort.
  assert (P : forall l, Permutation (fold_right (insert_by ltb) [] l) l).
  { induction l as [|p l IH]; cbn; [reflexivity|]. rewrite insert_by_perm. now constructor. }
  assert (S : forall l, StronglySorted (fun a b => ltb (snd b) (snd a) = false) (fold_right (insert_by ltb) [] l)).
  { induction l as [|p l IH]; cbn; [constructor|]. now apply insert_by_sorted. }
  split.
  - rewrite (P (enum a)), enum_fst. reflexivity.
  - specialize (S (enum a)).
    assert (F : Forall (fun p => nth_error a (fst p) = Some (snd p)) (fold_right (insert_by ltb) [] (enum a))).
    { apply Forall_forall. intros [i x] Hi. apply (Permutation_in _ (P _)) in Hi. now apply enum_In in Hi. }
    induction S as [|p l Hs IH Hf]; cbn; [constructor|]. inversion F as [|? ? Fp Fl]; subst.
    constructor; [auto|]. rewrite Forall_map. rewrite Forall_forall in *. intros q Hq x y Ex Ey.
    rewrite Fp in Ex. rewrite (Fl _ Hq) in Ey. injection Ex as <-. injection Ey as <-. auto.
Qed.
End ISort.
Lemma isort_is_argsort : is_argsort isort_argsort.
Proof. intros K ltb a H. now apply isort_argsort_ok. Qed.

Lemma sorting_perm_lt {K} (ltb : K -> K -> bool) a p i :
  sorting_permutation ltb a p -> In i p -> (i < length a)%nat.
Proof. intros [P _] Hi. apply (Permutation_in _ P), in_seq in Hi. lia. Qed.
Lemma sorting_perm_In {K} (ltb : K -> K -> bool) a p i :
  sorting_permutation ltb a p -> (i < length a)%nat -> In i p.
Proof. intros [P _] Hi. apply (Permutation_in _ (Permutation_sym P)), in_seq. lia. Qed.
Lemma sorting_perm_NoDup {K} (ltb : K -> K -> bool) a p :
  sorting_permutation ltb a p -> NoDup p.
Proof. intros [P _]. apply (Permutation_NoDup (Permutation_sym P)), seq_NoDup. Qed.
Lemma sorting_perm_length {K} (ltb : K -> K -> bool) a p :
  sorting_permutation ltb a p -> length p = length a.
Proof. intros [P _]. rewrite (Permutation_length P). apply seq_length. Qed.
