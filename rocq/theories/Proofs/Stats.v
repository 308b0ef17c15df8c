From Verif.Model Require Import Stats.
From Verif.Spec Require Import Numpy.
From Verif.Proofs Require Import Prelude RealNum LinAlg.
From Coq Require Import Lra Lia Permutation Sorted.
Local Open Scope R_scope.

Lemma Ok_inj {A} (a b : A) : Ok a = Ok b -> a = b.
Proof. congruence. Qed.
Lemma insert_R_perm x l : Permutation (insert_R x l) (x :: l).
Proof. induction l as [|y l IH]; cbn; [reflexivity|]. destruct (Rleb x y); [reflexivity|]. rewrite IH. apply perm_swap. Qed.
Lemma sort_R_perm l : Permutation (sort_R l) l.
Proof. unfold sort_R. induction l as [|x l IH]; cbn; [constructor|]. rewrite insert_R_perm. now constructor. Qed.
Lemma insert_R_sorted x l : StronglySorted Rle l -> StronglySorted Rle (insert_R x l).
Proof.
  induction 1 as [|y l S IH F]; cbn; [repeat constructor|]. destruct (Rleb x y) eqn:E.
  - apply Rleb_true in E. constructor; [now constructor|]. constructor; [exact E|]. eapply Forall_impl; [|exact F]. cbn; intros; lra.
  - apply Rleb_false in E. constructor; [exact IH|]. 
    apply Forall_forall. intros z Hz. apply (Permutation_in _ (insert_R_perm x l)) in Hz. destruct Hz as [<-|Hz]; [lra|]. rewrite Forall_forall in F. now apply F.
Qed.
Lemma sort_R_sorted l : StronglySorted Rle (sort_R l).
Proof. unfold sort_R. induction l; cbn; [constructor|now apply insert_R_sorted]. Qed.

Lemma sorted_nth l i j : StronglySorted Rle l -> (i <= j < length l)%nat -> nth i l 0 <= nth j l 0.
Proof.
  intros S. revert i j. induction S as [|x l S IH F]; intros i j H; cbn in H; [lia|]. destruct i, j; cbn; try lra; try lia.
  - rewrite Forall_forall in F. apply F, nth_In. lia.
  - apply IH. lia.
Qed.
Lemma Rsum_perm l l' : Permutation l l' -> Rsum l = Rsum l'.
Proof. induction 1; rewrite ?Rsum_cons; try lra; reflexivity. Qed.

(** A sorted list is split at any index into not larger and not smaller elements. *)
Lemma filter_count_le (f : R -> bool) l k : (k <= length l)%nat -> (forall i, (i < k)%nat -> f (nth i l 0) = true) -> (k <= length (filter f l))%nat.
Proof.
  revert k. induction l as [|x l IH]; intros [|k] L H; cbn in *; try lia. pose proof (H 0%nat ltac:(lia)) as H0. cbn in H0. rewrite H0. cbn. apply le_n_S, IH; [lia|]. intros i Hi. apply (H (S i)). lia.
Qed.
Lemma filter_count_ge (f : R -> bool) l k : (k <= length l)%nat -> (forall i, (k <= i < length l)%nat -> f (nth i l 0) = true) -> (length l - k <= length (filter f l))%nat.
Proof.
  revert k. induction l as [|x l IH]; intros k L H; cbn in *; [lia|]. destruct k as [|k].
  - pose proof (H 0%nat ltac:(lia)) as H0. cbn in H0. rewrite H0. cbn. specialize (IH 0%nat ltac:(lia)). assert (length l - 0 <= length (filter f l))%nat by (apply IH; intros i Hi; apply (H (S i)); lia). lia.
  - specialize (IH k ltac:(lia)). assert (length l - k <= length (filter f l))%nat by (apply IH; intros i Hi; apply (H (S i)); lia). destruct (f x); cbn; lia.
Qed.
Lemma filter_perm {A} (f : A -> bool) l l' : Permutation l l' -> Permutation (filter f l) (filter f l').
Proof.
  induction 1; cbn.
  - constructor.
  - destruct (f x); [now constructor|assumption].
  - destruct (f x), (f y); try reflexivity. apply perm_swap.
  - etransitivity; eassumption.
Qed.
(** At least half of the values are not above the median, and at least half not below. *)
Lemma median_halves l m : median l = Ok m ->
  (length l <= 2 * length (filter (fun x => Rleb x m) l))%nat /\ (length l <= 2 * length (filter (fun x => Rleb m x) l))%nat.
Proof.
  intros E0. assert (N0 : l <> []) by (intros ->; discriminate).
  assert (E : (if Nat.even (length l) then (nth (length l / 2 - 1) (sort_R l) 0 + nth (length l / 2) (sort_R l) 0) / 2 else nth (length l / 2) (sort_R l) 0) = m) by (destruct l; [congruence|]; unfold median in E0; now apply (f_equal (fun r => match r with Ok x => x | Err _ => m end)) in E0). clear E0.
  pose proof (sort_R_perm l) as P. pose proof (sort_R_sorted l) as S. set (s := sort_R l) in *. pose proof (Permutation_length P) as L.
  rewrite <- (Permutation_length (filter_perm (fun x => Rleb x m) _ _ P)), <- (Permutation_length (filter_perm (fun x => Rleb m x) _ _ P)).
  assert (N : (1 <= length l)%nat) by (destruct l; cbn; [congruence|lia]). set (n := length l) in *. set (h := (n / 2)%nat) in *.
  assert (D : (n = 2 * h + n mod 2)%nat) by (apply Nat.div_mod_eq). destruct (Nat.even n) eqn:Ev.
  - apply Nat.even_spec in Ev. destruct Ev as [c Ec]. assert (h = c) by (unfold h; rewrite Ec, Nat.mul_comm; apply Nat.div_mul; lia). assert (1 <= h)%nat by lia.
    pose proof (sorted_nth s (h - 1) h S ltac:(lia)) as Hm. split.
    + enough (h <= length (filter (fun x => Rleb x m) s))%nat by lia. apply filter_count_le; [lia|]. intros i Hi. apply Rleb_true. pose proof (sorted_nth s i (h - 1) S ltac:(lia)). lra.
    + enough (n - h <= length (filter (fun x => Rleb m x) s))%nat by lia. rewrite <- L. apply filter_count_ge; [lia|]. intros i Hi. apply Rleb_true. pose proof (sorted_nth s h i S ltac:(lia)). lra.
  - pose proof (Nat.mod_upper_bound n 2 ltac:(lia)). assert (n mod 2 = 1)%nat. { destruct (n mod 2)%nat as [|[|?]] eqn:Em; try lia. exfalso. assert (Nat.even n = true) by (apply Nat.even_spec; exists h; lia). congruence. }
    split.
    + enough (h + 1 <= length (filter (fun x => Rleb x m) s))%nat by lia. apply filter_count_le; [lia|]. intros i Hi. apply Rleb_true. rewrite <- E. apply sorted_nth; [exact S|lia].
    + enough (n - h <= length (filter (fun x => Rleb m x) s))%nat by lia. rewrite <- L. apply filter_count_ge; [lia|]. intros i Hi. apply Rleb_true. rewrite <- E. apply sorted_nth; [exact S|lia].
Qed.
Lemma median_bounds l m a b : median l = Ok m -> Forall (fun x => a <= x <= b) l -> a <= m <= b.
Proof.
  intros E F. destruct (median_halves l m E) as [H1 H2]. rewrite Forall_forall in F. assert (l <> []) by (intros ->; discriminate). assert (1 <= length l)%nat by (destruct l; cbn; [congruence|lia]). split.
  - destruct (filter (fun x => Rleb x m) l) as [|x r] eqn:Ef; [cbn in H1; lia|]. assert (Hx : In x (x :: r)) by now left. rewrite <- Ef in Hx. apply filter_In in Hx. destruct Hx as [Hx Hm]. apply Rleb_true in Hm. specialize (F x Hx). lra.
  - destruct (filter (fun x => Rleb m x) l) as [|x r] eqn:Ef; [cbn in H2; lia|]. assert (Hx : In x (x :: r)) by now left. rewrite <- Ef in Hx. apply filter_In in Hx. destruct Hx as [Hx Hm]. apply Rleb_true in Hm. specialize (F x Hx). lra.
Qed.
Lemma mean_Ok l : l <> [] -> mean l = Ok (Rsum l / INR (length l)).
Proof. destruct l; [congruence|reflexivity]. Qed.
Lemma INR_length_pos {A} (l : list A) : l <> [] -> 0 < INR (length l).
Proof. intros H. apply lt_0_INR. destruct l; cbn; [congruence|lia]. Qed.

(** Cauchy-Schwarz against the constant 1. *)
Lemma Rsum_sq_ge l : Rsum l ^ 2 <= INR (length l) * Rsum (map (fun x => x ^ 2) l).
Proof.
  destruct l as [|x0 l0]; [cbn; lra|]. set (l := x0 :: l0). assert (N : l <> []) by discriminate. pose proof (INR_length_pos l N) as P. set (n := INR (length l)) in *. set (m := Rsum l / n).
  assert (K : 0 <= Rsum (map (fun x => (x - m) ^ 2) l)). { apply Rsum_nonneg. apply Forall_forall. intros y Hy. apply in_map_iff in Hy. destruct Hy as (x & <- & _). apply pow2_ge_0. }
  assert (E : Rsum (map (fun x => (x - m) ^ 2) l) = Rsum (map (fun x => x ^ 2) l) - 2 * m * Rsum l + n * m ^ 2).
  { unfold n. clearbody m. clear. induction l as [|x l IH]; [cbn; lra|]. cbn [map length]. rewrite !Rsum_cons, IH, S_INR. ring. }
  rewrite E in K. assert (Q : n * m = Rsum l) by (unfold m; field; lra). apply (Rmult_le_compat_l n) in K; [|lra]. nra.
Qed.
Lemma mean_le_rms l a c : mean l = Ok a -> mean (map (fun d => d ^ 2) l) = Ok c -> a <= sqrt c.
Proof.
  intros Ea Ec. assert (N : l <> []) by (intros ->; discriminate). rewrite mean_Ok in Ea by assumption. rewrite mean_Ok in Ec by (destruct l; discriminate || congruence). apply Ok_inj in Ea, Ec. subst a c. rewrite map_length. pose proof (INR_length_pos l N) as P. pose proof (Rsum_sq_ge l) as Q. set (n := INR (length l)) in *.
  destruct (Rle_dec (Rsum l / n) 0) as [Hn|Hn]; [eapply Rle_trans; [exact Hn|apply sqrt_pos]|]. apply Rnot_le_lt in Hn. rewrite <- (sqrt_pow2 (Rsum l / n)) by lra. apply sqrt_le_1_alt.
  replace ((Rsum l / n) ^ 2) with (Rsum l ^ 2 / n / n) by (field; lra). unfold Rdiv. apply Rmult_le_compat_r; [left; now apply Rinv_0_lt_compat|]. apply (Rmult_le_reg_r n); [exact P|]. rewrite Rmult_assoc, Rinv_l by lra. lra.
Qed.
(** Half of the squares are at least the square of the median. *)
Lemma count_Rsum (f : R -> bool) m l : (forall x, f x = true -> m ^ 2 <= x ^ 2) -> INR (length (filter f l)) * m ^ 2 <= Rsum (map (fun x => x ^ 2) l).
Proof.
  intros H. induction l as [|x l IH]; [cbn; lra|]. cbn [filter map]. rewrite Rsum_cons. destruct (f x) eqn:E; [cbn [length]; rewrite S_INR; specialize (H x E); lra|]. pose proof (pow2_ge_0 x). lra.
Qed.
Lemma median_le_rms l b c : Forall (fun x => 0 <= x) l -> median l = Ok b -> mean (map (fun d => d ^ 2) l) = Ok c -> 0 <= b <= sqrt 2 * sqrt c.
Proof.
  intros F Eb Ec. assert (N : l <> []) by (intros ->; discriminate).
  assert (B : 0 <= b). { destruct (median_halves l b Eb) as [H1 _]. destruct (filter (fun x => Rleb x b) l) as [|x r] eqn:Ef; [cbn in H1; destruct l; cbn in H1; [congruence|lia]|]. assert (Hx : In x (x :: r)) by now left. rewrite <- Ef in Hx. apply filter_In in Hx. destruct Hx as [Hx Hm]. apply Rleb_true in Hm. rewrite Forall_forall in F. specialize (F x Hx). lra. }
  split; [exact B|]. destruct (median_halves l b Eb) as [_ H2]. rewrite mean_Ok in Ec by (destruct l; discriminate || congruence). apply Ok_inj in Ec. subst c. rewrite map_length. pose proof (INR_length_pos l N) as P.
  rewrite <- sqrt_mult_alt by lra. rewrite <- (sqrt_pow2 b) by exact B. apply sqrt_le_1_alt.
  pose proof (count_Rsum (fun x => Rleb b x) b l) as K. assert (K' : INR (length (filter (fun x => Rleb b x) l)) * b ^ 2 <= Rsum (map (fun x => x ^ 2) l)) by (apply K; intros x Hx; apply Rleb_true in Hx; nra).
  apply le_INR in H2. rewrite mult_INR in H2. change (INR 2) with 2 in H2. set (n := INR (length l)) in *. pose proof (pow2_ge_0 b).
  apply (Rmult_le_reg_l n); [exact P|]. replace (n * (2 * (Rsum (map (fun x => x ^ 2) l) / n))) with (2 * Rsum (map (fun x => x ^ 2) l)) by (field; lra). nra.
Qed.
