From Verif.Model Require Import UpdatePatch.
From Verif.Spec Require Import UpdatePatch.
From Verif.Proofs Require Import Prelude RealNum Stats.
From Coq Require Import Lra Lia Permutation Sorted.
Local Open Scope R_scope.
Local Open Scope list_scope.

(** * The median of a list with every element repeated *)
Definition times {A} (n : nat) (l : list A) : list A := flat_map (fun x => repeat x n) l.
Lemma times_perm {A} n (l l' : list A) : Permutation l l' -> Permutation (times n l) (times n l').
Proof. unfold times. induction 1; cbn; [constructor|now apply Permutation_app_head| |etransitivity; eassumption]. rewrite !app_assoc. apply Permutation_app_tail, Permutation_app_comm. Qed.
Lemma times_length {A} n (l : list A) : length (times n l) = (n * length l)%nat.
Proof. unfold times. induction l; cbn; [lia|]. rewrite app_length, repeat_length, IHl. lia. Qed.
Lemma times_nth n l : forall i, (0 < n)%nat -> nth i (times n l) 0 = nth (i / n) l 0.
Proof.
  unfold times. induction l as [|x l IH]; intros i Hn; cbn [flat_map]; [destruct i, (_ / n)%nat; reflexivity|]. destruct (Nat.lt_ge_cases i n) as [L|L].
  - rewrite app_nth1 by now rewrite repeat_length. rewrite Nat.div_small by exact L. cbn. clear - L. revert i L. induction n; intros [|i] L; cbn; try lia; [reflexivity|apply IHn; lia].
  - rewrite app_nth2 by now rewrite repeat_length. rewrite repeat_length, IH by exact Hn. replace (i / n)%nat with (S ((i - n) / n)); [reflexivity|]. replace i with ((i - n) + 1 * n)%nat at 2 by lia. rewrite Nat.div_add by lia. lia.
Qed.
Lemma times_sorted n l : StronglySorted Rle l -> StronglySorted Rle (times n l).
Proof.
  unfold times. induction 1 as [|x l S IH F]; cbn; [constructor|]. assert (G : Forall (Rle x) (flat_map (fun x => repeat x n) l)) by (apply Forall_forall; intros y I; apply in_flat_map in I as (z & Iz & Iy); apply repeat_spec in Iy; subst; rewrite Forall_forall in F; now apply F).
  generalize n at 1. intros m. induction m as [|m IHm]; cbn; [exact IH|]. constructor; [exact IHm|]. apply Forall_app. split; [apply Forall_forall; intros y I; apply repeat_spec in I; subst; lra|exact G].
Qed.
Lemma sorted_perm_eq l : forall l', StronglySorted Rle l -> StronglySorted Rle l' -> Permutation l l' -> l = l'.
Proof.
  induction l as [|x l IH]; intros l' H H' P; [apply Permutation_nil in P; now subst|]. destruct l' as [|y l']; [apply Permutation_sym, Permutation_nil in P; discriminate|]. inversion H as [|? ? Sl Fl]; subst. inversion H' as [|? ? Sl' Fl']; subst. rewrite Forall_forall in Fl, Fl'.
  assert (x = y). { assert (In x (y :: l')) as [->|I] by (eapply Permutation_in; [exact P|now left]); [reflexivity|]. assert (In y (x :: l)) as [->|J] by (eapply Permutation_in; [apply Permutation_sym; exact P|now left]); [reflexivity|]. apply Fl' in I. apply Fl in J. lra. }
  subst y. f_equal. apply IH; [assumption..|]. now apply Permutation_cons_inv in P.
Qed.
Lemma sort_times n l : sort_R (times n l) = times n (sort_R l).
Proof. apply sorted_perm_eq; [apply sort_R_sorted|apply times_sorted, sort_R_sorted|]. rewrite sort_R_perm. apply times_perm, Permutation_sym, sort_R_perm. Qed.
Lemma median_times n l : (0 < n)%nat -> median (times n l) = median l.
Proof.
  intros Hn. destruct l as [|a l]; [reflexivity|]. assert (L : (0 < length (a :: l))%nat) by (cbn; lia). set (t := a :: l) in *. assert (M : forall u, (0 < length u)%nat -> median u = Ok (if Nat.even (length u) then (nth (length u / 2 - 1) (sort_R u) 0 + nth (length u / 2) (sort_R u) 0) / 2 else nth (length u / 2) (sort_R u) 0)) by (intros [|b u] H; [cbn in H; lia|reflexivity]).
  rewrite !M by (rewrite ?times_length; nia). f_equal. rewrite sort_times, !times_nth, times_length by exact Hn. set (s := sort_R t). set (m := length t) in *. clearbody s. clear M.
  destruct (Nat.even m) eqn:Em.
  - apply Nat.even_spec in Em as [k Ek]. assert (Nat.even (n * m) = true) as -> by (apply Nat.even_spec; exists (n * k)%nat; lia). assert (n * m / 2 = n * k)%nat as -> by (rewrite Ek; replace (n * (2 * k))%nat with (n * k * 2)%nat by lia; apply Nat.div_mul; lia). assert (m / 2 = k)%nat as -> by (rewrite Ek, Nat.mul_comm; apply Nat.div_mul; lia).
    assert ((n * k) / n = k)%nat as -> by (rewrite Nat.mul_comm; apply Nat.div_mul; lia). assert ((n * k - 1) / n = k - 1)%nat as -> by (symmetry; apply (Nat.div_unique _ _ _ (n - 1)); [lia|]; destruct k; [lia|]; nia). reflexivity.
  - assert (Om : Nat.odd m = true) by (rewrite <- Nat.negb_even, Em; reflexivity). apply Nat.odd_spec in Om as [k Ek]. assert (m / 2 = k)%nat as -> by (symmetry; apply (Nat.div_unique _ _ _ 1); lia).
    destruct (Nat.even (n * m)) eqn:E.
    + rewrite Nat.even_mul, Em, Bool.orb_false_r in E. apply Nat.even_spec in E as [h Eh]. assert (n * m / 2 = n * k + h)%nat as -> by (symmetry; apply (Nat.div_unique _ _ _ 0); [lia|]; nia).
      assert ((n * k + h - 1) / n = k)%nat as -> by (symmetry; apply (Nat.div_unique _ _ _ (h - 1)); lia). assert ((n * k + h) / n = k)%nat as -> by (symmetry; apply (Nat.div_unique _ _ _ h); lia). lra.
    + rewrite Nat.even_mul, Em, Bool.orb_false_r in E. assert (On : Nat.odd n = true) by (rewrite <- Nat.negb_even, E; reflexivity). apply Nat.odd_spec in On as [h Eh]. assert (n * m / 2 = n * k + h)%nat as -> by (symmetry; apply (Nat.div_unique _ _ _ 1); [lia|]; nia).
      assert ((n * k + h) / n = k)%nat as -> by (symmetry; apply (Nat.div_unique _ _ _ h); lia). reflexivity.
Qed.

(** * The positions found for a code *)
Lemma eqb_spec a b : Z.eqb a b = true <-> a = b.
Proof. apply Z.eqb_eq. Qed.
Definition single (t : spot_table) (k : Z) : list (R * R) := match filter (fun s => (fst s =? k)%Z) (sloc t) with [s] => [snd s] | _ => [] end.
Lemma add_spot_found t d j k : found_at (add_spot t d j) k = found_at d k ++ (if (j =? k)%Z then single t k else []).
Proof.
  unfold add_spot, single. destruct (Z.eqb_spec j k) as [->|N].
  - destruct (filter _ (sloc t)) as [|s [|]]; try (symmetry; apply app_nil_r). unfold found_at at 1. rewrite (dict_get_set_same Z.eqb eqb_spec). reflexivity.
  - rewrite app_nil_r. destruct (filter _ (sloc t)) as [|s [|]]; try reflexivity. unfold found_at at 1. rewrite (dict_get_set_other Z.eqb eqb_spec) by congruence. reflexivity.
Qed.
Lemma one_file t k : forall locs d, found_at (fold_left (add_spot t) locs d) k = found_at d k ++ times (count_occ Z.eq_dec locs k) (single t k).
Proof.
  assert (T0 : times 0 (single t k) = []) by (unfold times; induction (single t k); [reflexivity|assumption]).
  assert (TS : forall n, times (S n) (single t k) = single t k ++ times n (single t k)) by (intros n; unfold single; destruct (filter _ (sloc t)) as [|s [|]]; cbn; rewrite ?app_nil_r; reflexivity).
  induction locs as [|j locs IH]; intros d; cbn [fold_left count_occ]; [now rewrite T0, app_nil_r|]. rewrite IH, add_spot_found, <- app_assoc. f_equal. destruct (Z.eq_dec j k) as [->|N].
  - now rewrite Z.eqb_refl, TS.
  - assert ((j =? k)%Z = false) as -> by now apply Z.eqb_neq. reflexivity.
Qed.
Lemma all_files locs k files : found_at (all_positions locs files) k = times (count_occ Z.eq_dec locs k) (flat_map (fun t => single t k) files).
Proof.
  assert (G : forall d, found_at (fold_left (fun d t => fold_left (add_spot t) locs d) files d) k = found_at d k ++ times (count_occ Z.eq_dec locs k) (flat_map (fun t => single t k) files)).
  { induction files as [|t files IH]; intros d; cbn [fold_left flat_map]; [unfold times; cbn; now rewrite app_nil_r|]. rewrite IH, one_file, <- app_assoc. f_equal. unfold times. now rewrite flat_map_app. }
  unfold all_positions. rewrite G. assert (E : found_at (empty_positions locs) k = []); [|now rewrite E]. unfold empty_positions. assert (H : forall (d : positions), found_at d k = [] -> found_at (fold_left (fun (d : positions) k => dict_set Z.eqb d k []) locs d) k = []).
  { clear. induction locs as [|j locs IH]; intros d H; [exact H|]. cbn [fold_left]. apply IH. destruct (Z.eq_dec j k) as [->|N]; unfold found_at; [now rewrite (dict_get_set_same Z.eqb eqb_spec)|]. rewrite (dict_get_set_other Z.eqb eqb_spec) by congruence. exact H. }
  now apply H.
Qed.
Lemma spots_single t c d p : three_one d p -> digits t -> single t (c * 10000 + d * 10 + p)%Z = match spots_of t c d p with [xy] => [xy] | _ => [] end.
Proof.
  intros [Hd Hp] D. unfold single.
  assert (E : map snd (filter (fun s => (fst s =? c * 10000 + d * 10 + p)%Z) (sloc t)) = spots_of t c d p).
  { destruct t as [rows|rows]; cbn [sloc spots_of digits] in *; induction D as [|r rows Hr D IH]; try reflexivity.
    - destruct r as [[l q] xy]. cbn [map filter fst]. replace ((l * 10 + q =? c * 10000 + d * 10 + p)%Z) with ((l =? 1000 * c + d)%Z && (q =? p)%Z)%bool; [destruct (_ && _)%bool; cbn [map snd]; now rewrite IH|].
      destruct (Z.eqb_spec l (1000 * c + d)), (Z.eqb_spec q p), (Z.eqb_spec (l * 10 + q) (c * 10000 + d * 10 + p)); cbn; try reflexivity; lia.
    - destruct r as [[[c' d'] q] xy]. destruct Hr as [Hd' Hq]. cbn [map filter fst]. replace ((c' * 10000 + d' * 10 + q =? c * 10000 + d * 10 + p)%Z) with ((c' =? c)%Z && (d' =? d)%Z && (q =? p)%Z)%bool; [destruct (_ && _)%bool; cbn [map snd]; now rewrite IH|].
      destruct (Z.eqb_spec c' c), (Z.eqb_spec d' d), (Z.eqb_spec q p), (Z.eqb_spec (c' * 10000 + d' * 10 + q) (c * 10000 + d * 10 + p)); cbn; try reflexivity; lia. }
  rewrite <- E. destruct (filter _ (sloc t)) as [|s [|]]; reflexivity.
Qed.
Lemma found_sightings locs files c d p : three_one d p -> Forall digits files ->
  found_at (all_positions locs files) (c * 10000 + d * 10 + p)%Z = times (count_occ Z.eq_dec locs (c * 10000 + d * 10 + p)%Z) (sightings files c d p).
Proof. intros H D. rewrite all_files. f_equal. unfold sightings. induction D as [|t files Ht D IH]; [reflexivity|]. cbn [flat_map]. now rewrite IH, spots_single. Qed.
