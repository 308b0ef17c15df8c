(** Consequences of [is_argsort] for distinct keys. *)
From Verif.Model Require Import Numpy.
From Verif.Spec Require Import Numpy.
From Verif.Proofs Require Import Prelude Numpy.
From Coq Require Import Lia Permutation Sorted.

Lemma Zltb_strict : strict_total Z.ltb.
Proof. split; [split|]; intros; lia. Qed.
Lemma Natltb_strict : strict_total Nat.ltb.
Proof.
  split; [split|]; intros *; rewrite ?Nat.ltb_irrefl, ?Nat.ltb_lt, ?Nat.ltb_nlt; try lia.
Qed.

Lemma take_map {A B} (f : A -> B) l idx r : take l idx = Ok r -> take (map f l) idx = Ok (map f r).
Proof.
  rewrite !take_Ok. induction 1 as [|i a idx r E H IH]; constructor; [|exact IH]. rewrite nth_error_map, E. reflexivity.
Qed.

Section Sorted.
Context {K : Type} (ltb : K -> K -> bool) (T : strict_total ltb).
Definition ascending := StronglySorted (fun x y => ltb y x = false).

Lemma ascending_unique s : forall s', ascending s -> ascending s' -> Permutation s s' -> s = s'.
Proof.
  induction s as [|x s IH]; intros s' H H' P; [now apply Permutation_nil in P|].
  destruct s' as [|y s']; [apply Permutation_sym, Permutation_nil in P; discriminate|].
  inversion H as [|? ? Hs Hx]; inversion H' as [|? ? Hs' Hy]; subst.
  assert (x = y).
  { rewrite Forall_forall in Hx, Hy. destruct (Permutation_in x P (or_introl eq_refl)) as [|I1]; [now symmetry|].
    destruct (Permutation_in y (Permutation_sym P) (or_introl eq_refl)) as [|I2]; [assumption|].
    apply (st_total _ T); [now apply Hy|now apply Hx]. }
  subst y. f_equal. apply IH; try assumption. now apply Permutation_cons_inv in P.
Qed.

Lemma Forall2_nth_map {A} (l : list A) p s : Forall2 (fun i a => nth_error l i = Some a) p s -> map Some s = map (nth_error l) p.
Proof. induction 1 as [|i a p s E H IH]; cbn; [reflexivity|]. now rewrite E, IH. Qed.
Lemma map_nth_seq {A} (l : list A) : map (nth_error l) (seq 0 (length l)) = map Some l.
Proof.
  apply nth_error_ext. intros k. rewrite !nth_error_map. destruct (Nat.ltb_spec k (length l)) as [H|H].
  - rewrite (nth_error_nth' _ 0%nat) by (now rewrite seq_length). rewrite seq_nth by assumption. cbn. destruct (nth_error l k) eqn:E; [reflexivity|]. apply nth_error_None in E. lia.
  - rewrite (proj2 (nth_error_None _ _)) by (rewrite seq_length; lia). rewrite (proj2 (nth_error_None l k)) by lia. reflexivity.
Qed.
Lemma take_perm {A} (l : list A) p s : Permutation p (seq 0 (length l)) -> take l p = Ok s -> Permutation s l.
Proof.
  intros P H. apply take_Ok, Forall2_nth_map in H. apply (Permutation_map (nth_error l)) in P. rewrite <- H, map_nth_seq in P.
  destruct l as [|d l]; [now apply Permutation_sym, Permutation_nil, map_eq_nil in P; subst|].
  apply (Permutation_map (fun o => match o with Some a => a | None => d end)) in P. rewrite !map_map, !map_id in P. exact P.
Qed.

Lemma take_sorted a p s : sorting_permutation ltb a p -> take a p = Ok s -> ascending s.
Proof.
  intros [_ S] H. apply take_Ok in H. revert s H. induction S as [|i p S IH F]; intros s H; inversion H as [|? x ? s' Ex Hs]; subst; [constructor|].
  constructor; [now apply IH|]. clear - F Ex Hs. induction Hs as [|j y p s E Hs IHs]; constructor; inversion F; subst; [|now apply IHs]. match goal with H : forall x y, _ |- _ => now apply (H x y) end.
Qed.
Lemma sorting_take {A} (f : A -> K) l p : sorting_permutation ltb (map f l) p ->
  exists s, take l p = Ok s /\ Permutation s l /\ ascending (map f s).
Proof.
  intros S. destruct (take_total l p) as [s E].
  { apply Forall_forall. intros i Hi. pose proof (sorting_perm_lt _ _ _ _ S Hi) as L. now rewrite map_length in L. }
  exists s. split; [exact E|]. split; [apply (take_perm l p); [|exact E]; destruct S as [P _]; now rewrite map_length in P|]. apply (take_sorted _ _ _ S). now apply take_map.
Qed.
End Sorted.

(** argsort of argsort is the inverse permutation. *)
Lemma argsort_inverse p r : Permutation p (seq 0 (length p)) -> sorting_permutation Nat.ltb p r -> take p r = Ok (seq 0 (length p)).
Proof.
  intros P S. rewrite <- (map_id p) in S at 1. destruct (sorting_take Nat.ltb (fun x => x) p r) as (s & E & Ps & A); [exact S|]. rewrite E. f_equal. rewrite map_id in A.
  apply (ascending_unique Nat.ltb Natltb_strict); [exact A| |now rewrite Ps].
  generalize (length p), 0%nat. clear. induction n as [|n IH]; intros k; cbn; constructor; [apply IH|]. apply Forall_forall. intros x Hx. apply in_seq in Hx. apply Nat.ltb_nlt. lia.
Qed.
