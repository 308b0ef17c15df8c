(** Lemmas on the shared vocabulary. *)
From Verif.Model Require Export Prelude.
From Coq Require Import Sorted.

Section DictLemmas.
Context {K V : Type} (keq : K -> K -> bool).
Hypothesis keq_spec : forall a b, keq a b = true <-> a = b.

Lemma keq_refl k : keq k k = true.
Proof. now apply keq_spec. Qed.

Lemma dict_get_set_same (d : dict K V) k v : dict_get keq (dict_set keq d k v) k = Some v.
Proof.
  induction d as [|[k' v'] r IH]; cbn; [now rewrite keq_refl|].
  destruct (keq k k') eqn:E; cbn; rewrite E; auto.
Qed.

Lemma dict_get_set_other (d : dict K V) k k2 v :
  k2 <> k -> dict_get keq (dict_set keq d k v) k2 = dict_get keq d k2.
Proof.
  intros Hne. induction d as [|[k' v'] r IH]; cbn.
  - destruct (keq k2 k) eqn:E; [apply keq_spec in E; congruence|reflexivity].
  - destruct (keq k k') eqn:E; cbn.
    + apply keq_spec in E; subst k'. destruct (keq k2 k) eqn:E2; [apply keq_spec in E2; congruence|reflexivity].
    + destruct (keq k2 k'); auto.
Qed.

Lemma dict_get_In (d : dict K V) k v : dict_get keq d k = Some v -> In (k, v) d.
Proof.
  induction d as [|[k' v'] r IH]; cbn; [discriminate|].
  destruct (keq k k') eqn:E; intros H; [apply keq_spec in E; left; congruence|right; auto].
Qed.

Lemma dict_set_keys (d : dict K V) k v :
  map fst (dict_set keq d k v) = map fst d \/ (map fst (dict_set keq d k v) = map fst d ++ [k] /\ ~ In k (map fst d)).
Proof.
  induction d as [|[k' v'] r IH]; cbn; [right; auto|].
  destruct (keq k k') eqn:E; cbn; [left; reflexivity|].
  destruct IH as [->|[-> Hn]]; [left; reflexivity|right]. split; [reflexivity|].
  intros [->|Hi]; [rewrite keq_refl in E; discriminate|contradiction].
Qed.

Lemma dict_set_NoDup (d : dict K V) k v : NoDup (map fst d) -> NoDup (map fst (dict_set keq d k v)).
Proof.
  intros H. destruct (dict_set_keys d k v) as [->|[-> Hn]]; [exact H|].
  apply NoDup_rev in H. rewrite <- (rev_involutive (map fst d ++ [k])). apply NoDup_rev.
  rewrite rev_app_distr; cbn. constructor; [rewrite <- in_rev; exact Hn|exact H].
Qed.

Lemma dict_get_None (d : dict K V) k : dict_get keq d k = None <-> ~ In k (map fst d).
Proof.
  induction d as [|[k' v'] r IH]; cbn; [intuition|].
  destruct (keq k k') eqn:E.
  - apply keq_spec in E. split; [discriminate|]. intros H; exfalso; apply H; left; congruence.
  - rewrite IH. split; [intros H [->|Hi]; [rewrite keq_refl in E; discriminate|contradiction]|intuition].
Qed.
End DictLemmas.

Lemma rmapM_Ok_Forall2 {A B} (f : A -> res B) l bs :
  rmapM f l = Ok bs <-> Forall2 (fun a b => f a = Ok b) l bs.
Proof.
  revert bs; induction l as [|a r IH]; intros bs; cbn.
  - split; [intros [= <-]; constructor|intros H; inversion H; reflexivity].
  - split.
    + destruct (f a) as [b|] eqn:Ef; cbn; [|discriminate].
      destruct (rmapM f r) as [bs'|]; cbn; [|discriminate].
      intros [= <-]. constructor; [exact Ef|apply IH; reflexivity].
    + intros H; inversion H as [|? b ? bs' Hab Hr]; subst. rewrite Hab; cbn.
      apply IH in Hr. rewrite Hr. reflexivity.
Qed.

Lemma split_char_nonempty c s : split_char c s <> [].
Proof. destruct s as [|a r]; cbn; [discriminate|]. destruct (Ascii.eqb a c); [discriminate|]. destruct (split_char c r); discriminate. Qed.

Lemma split_char_nosep c s : has_char c s = false -> split_char c s = [s].
Proof.
  induction s as [|a r IH]; cbn; [reflexivity|].
  intros H; apply orb_false_iff in H as [H1 H2]. now rewrite H1, (IH H2).
Qed.

Lemma split_char_app c w s :
  has_char c w = false -> split_char c (append w (String c s)) = w :: split_char c s.
Proof.
  induction w as [|a r IH]; cbn; intros H.
  - now rewrite Ascii.eqb_refl.
  - apply orb_false_iff in H as [H1 H2]. rewrite H1, (IH H2). reflexivity.
Qed.

(** Splitting undoes joining for non-empty lists of separator-free words. *)
Lemma split_join c l :
  l <> [] -> Forall (fun w => has_char c w = false) l ->
  split_char c (join_str (String c EmptyString) l) = l.
Proof.
  induction l as [|w ws IH]; [congruence|]. intros _ H; inversion H as [|? ? Hw Hws]; subst.
  destruct ws as [|w2 ws]; cbn [join_str]; [now apply split_char_nosep|].
  cbn [append]. rewrite split_char_app by exact Hw. f_equal. apply IH; [discriminate|exact Hws].
Qed.

(** Every part produced by splitting is free of the separator. *)
Lemma split_char_parts c s : Forall (fun w => has_char c w = false) (split_char c s).
Proof.
  induction s as [|a r IH]; cbn; [repeat constructor|].
  destruct (Ascii.eqb a c) eqn:E; [constructor; [reflexivity|exact IH]|].
  destruct (split_char c r) as [|w ws]; [repeat constructor; cbn; now rewrite E|].
  inversion IH; subst. constructor; [cbn; rewrite E; assumption|assumption].
Qed.

(** Joining undoes splitting. *)
Lemma join_split c s : join_str (String c EmptyString) (split_char c s) = s.
Proof.
  induction s as [|a r IH]; cbn [split_char]; [reflexivity|].
  destruct (Ascii.eqb a c) eqn:E.
  - apply Ascii.eqb_eq in E; subst. destruct (split_char c r) eqn:Es; [now apply split_char_nonempty in Es|].
    cbn [join_str append] in *. rewrite IH. reflexivity.
  - destruct (split_char c r) as [|w ws] eqn:Es; [now apply split_char_nonempty in Es|].
    destruct ws as [|w2 ws]; cbn [join_str append] in *; rewrite IH; reflexivity.
Qed.

Lemma nth_error_ext {A} (l l' : list A) : (forall k, nth_error l k = nth_error l' k) -> l = l'.
Proof.
  revert l'; induction l as [|a l IH]; intros [|b l'] H; [reflexivity|discriminate (H O)|discriminate (H O)|].
  f_equal; [injection (H O) as E; exact E|]. apply IH. intros k. exact (H (S k)).
Qed.

Lemma join_str_cons2 c w w2 ws : join_str c (w :: w2 :: ws) = append w (append c (join_str c (w2 :: ws))).
Proof. reflexivity. Qed.

Lemma Forall2_impl {A B} (P Q : A -> B -> Prop) l m :
  (forall a b, P a b -> Q a b) -> Forall2 P l m -> Forall2 Q l m.
Proof. intros H F. induction F; constructor; auto. Qed.
Lemma Forall2_nth {A B} (P : A -> B -> Prop) l m :
  Forall2 P l m -> forall k a b, nth_error l k = Some a -> nth_error m k = Some b -> P a b.
Proof.
  induction 1 as [|x y l m Hp _ IH]; intros [|k] a b Ha Hb; cbn in *; try discriminate; [congruence|eauto].
Qed.
Lemma Forall2_length {A B} (P : A -> B -> Prop) l m : Forall2 P l m -> length l = length m.
Proof. induction 1; cbn; congruence. Qed.
Lemma nth_error_length {A B} (l : list A) (m : list B) k a :
  length l = length m -> nth_error l k = Some a -> exists b, nth_error m k = Some b.
Proof.
  intros E H. destruct (nth_error m k) as [b|] eqn:Eb; [eauto|]. apply nth_error_None in Eb.
  assert (H2 : nth_error l k <> None) by congruence. apply nth_error_Some in H2. lia.
Qed.
Lemma filter_length_le {A} (f : A -> bool) l : (length (filter f l) <= length l)%nat.
Proof. induction l as [|a l IH]; cbn; [lia|]. destruct (f a); cbn; lia. Qed.
