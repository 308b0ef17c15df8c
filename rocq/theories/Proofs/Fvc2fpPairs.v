(** Pairing of spots and metrology rows in FVC2FP.fit. *)
From Verif.Model Require Import Fvc2fp.
From Verif.Spec Require Import Numpy.
From Verif.Proofs Require Import Prelude Numpy Sorting.
From Coq Require Import Lia Permutation Sorted.

Lemma key_ltb_strict : strict_total key_ltb.
Proof.
  unfold key_ltb. split; [split|].
  - intros [a b]. cbn. lia.
  - intros [a b] [c d] [e f]. cbn. lia.
  - intros [a b] [c d] [e f]. cbn. lia.
  - intros [a b] [c d]. cbn. intros H1 H2. f_equal; lia.
Qed.
Lemma pinloc_inj k k' : (0 <= snd k < 10)%Z -> (0 <= snd k' < 10)%Z -> pinloc k = pinloc k' -> k = k'.
Proof. destruct k as [a b], k' as [c d]. unfold pinloc. cbn. intros. f_equal; lia. Qed.

Lemma forallb_eq_combine (a b : list Z) : length a = length b -> forallb (fun '(x, y) => Z.eqb x y) (combine a b) = true <-> a = b.
Proof.
  revert b; induction a as [|x a IH]; intros [|y b] L; cbn in *; try discriminate; [tauto|]. injection L as L. rewrite Bool.andb_true_iff, (IH b L), Z.eqb_eq. split; [intros [-> ->]; reflexivity|]. intros H; injection H; auto.
Qed.
Lemma all_eq_true a b : length a = length b -> assert_all_eq a b = Ok tt <-> a = b.
Proof.
  intros L. unfold assert_all_eq, all_eq. rewrite L, Nat.eqb_refl. cbn. rewrite <- forallb_eq_combine by assumption. destruct (forallb _ _); split; congruence.
Qed.
Lemma all_eq_refl a : assert_all_eq a a = Ok tt.
Proof. now apply all_eq_true. Qed.
Lemma assert_eq_length a b : length a <> length b -> assert_all_eq a b = Ok tt -> (exists x, a = [x] /\ Forall (eq x) b) \/ (exists y, b = [y] /\ Forall (eq y) a).
Proof.
  intros N. unfold assert_all_eq, all_eq. apply Nat.eqb_neq in N. rewrite N.
  assert (F : forall x l, forallb (Z.eqb x) l = true -> Forall (eq x) l) by (intros x l H; rewrite forallb_forall in H; apply Forall_forall; intros y Hy; now apply Z.eqb_eq, H).
  destruct a as [|x [|x2 a]], b as [|y [|y2 b]]; cbn [rbind]; intros H; try discriminate H.
  all: match goal with
  | |- context [[?x] = [_] /\ Forall _ ?l] => left; exists x; split; [reflexivity|]; apply F; destruct (forallb (Z.eqb x) l); congruence
  | |- context [[?y] = [_] /\ Forall _ ?l] => right; exists y; split; [reflexivity|]; apply F; destruct (forallb (Z.eqb y) l); congruence
  end.
Qed.

Section Pairs.
Variable argsort : forall K, (K -> K -> bool) -> list K -> list nat.
Hypothesis argsort_ok : is_argsort argsort.

Lemma sort_rows_ok {A} (key : A -> Z * Z) rows : exists s, sort_rows argsort key rows = Ok s /\ Permutation s rows /\ ascending key_ltb (map key s).
Proof. unfold sort_rows. apply sorting_take, argsort_ok, key_ltb_strict. Qed.

Definition is_fid (s : spot) : bool := ((0 <=? s_location s) && (0 <? s_pinhole s))%bool%Z.
Definition matched (spots : list spot) (metrology : list metro) : list metro :=
  filter (fun m => existsb (Z.eqb (pinloc (metro_key m))) (map (fun s => pinloc (spot_key s)) (filter is_fid spots))) metrology.

Lemma fit_pairs_sorted spots metrology : exists F M,
  Permutation F (filter is_fid spots) /\ Permutation M (matched spots metrology) /\
  ascending key_ltb (map spot_key F) /\ ascending key_ltb (map metro_key M) /\
  fit_pairs argsort spots metrology = rbind (assert_all_eq (map s_location F) (map m_location M)) (fun _ =>
    rbind (assert_all_eq (map s_pinhole F) (map m_pinhole M)) (fun _ => Ok (F, M))).
Proof.
  destruct (sort_rows_ok spot_key (filter is_fid spots)) as (F & EF & PF & AF).
  destruct (sort_rows_ok metro_key (matched spots metrology)) as (M & EM & PM & AM).
  exists F, M. repeat split; try assumption. unfold fit_pairs. fold is_fid. rewrite EF. cbn [rbind]. fold (matched spots metrology). rewrite EM. reflexivity.
Qed.

Lemma same_keys F M : map s_location F = map m_location M -> map s_pinhole F = map m_pinhole M -> Forall2 (fun s m => spot_key s = metro_key m) F M.
Proof.
  revert M; induction F as [|s F IH]; intros [|m M] H1 H2; cbn in *; try discriminate; constructor; [unfold spot_key, metro_key; congruence|]. injection H1 as _ H1. injection H2 as _ H2. auto.
Qed.

Lemma keys_map F M : Forall2 (fun s m => spot_key s = metro_key m) F M -> map spot_key F = map metro_key M.
Proof. induction 1; cbn; congruence. Qed.

Section Unique.
Variables (spots : list spot) (metrology : list metro).
Hypothesis Uf : NoDup (map spot_key (filter is_fid spots)).
Hypothesis Um : NoDup (map metro_key metrology).
Hypothesis Pf : forall s, In s spots -> is_fid s = true -> (s_pinhole s < 10)%Z.
Hypothesis Pm : forall m, In m metrology -> (0 <= m_pinhole m < 10)%Z.

Lemma matched_In m : In m (matched spots metrology) <-> In m metrology /\ exists s, In s spots /\ is_fid s = true /\ spot_key s = metro_key m.
Proof.
  unfold matched. rewrite filter_In, existsb_exists. split.
  - intros [Hm (z & Hz & E)]. apply Z.eqb_eq in E. apply in_map_iff in Hz. destruct Hz as (s & <- & Hs). apply filter_In in Hs. destruct Hs as [Hs Fs]. split; [exact Hm|]. exists s. repeat split; try assumption. symmetry. apply pinloc_inj; [now apply Pm| |exact E].
    specialize (Pf s Hs Fs). unfold is_fid in Fs. cbn. lia.
  - intros [Hm (s & Hs & Fs & E)]. split; [exact Hm|]. exists (pinloc (spot_key s)). split; [|rewrite E; apply Z.eqb_refl]. apply (in_map (fun s => pinloc (spot_key s))). now apply filter_In.
Qed.
Lemma NoDup_map_filter {A B} (f : A -> B) g l : NoDup (map f l) -> NoDup (map f (filter g l)).
Proof.
  induction l as [|a l IH]; cbn; intros H; [constructor|]. inversion H as [|? ? H1 H2]; subst. destruct (g a); cbn; [|now apply IH]. constructor; [|now apply IH]. rewrite in_map_iff in *. intros (x & E & Hx). apply filter_In in Hx. apply H1. exists x. tauto.
Qed.
Lemma matched_NoDup : NoDup (map metro_key (matched spots metrology)).
Proof. now apply NoDup_map_filter. Qed.

Lemma fit_pairs_complete : (forall s, In s spots -> is_fid s = true -> exists m, In m metrology /\ metro_key m = spot_key s) ->
  exists F M, fit_pairs argsort spots metrology = Ok (F, M) /\ Permutation F (filter is_fid spots) /\ incl M metrology /\ Forall2 (fun s m => spot_key s = metro_key m) F M.
Proof.
  intros C. destruct (fit_pairs_sorted spots metrology) as (F & M & PF & PM & AF & AM & E). exists F, M.
  assert (K : map spot_key F = map metro_key M).
  { apply (ascending_unique key_ltb key_ltb_strict); try assumption. rewrite PF, PM. apply NoDup_Permutation; [assumption|apply matched_NoDup|]. intros k. rewrite !in_map_iff. split.
    - intros (s & <- & Hs). apply filter_In in Hs. destruct (C s) as (m & Hm & Em); try tauto. exists m. split; [exact Em|]. apply matched_In. split; [exact Hm|]. exists s. intuition.
    - intros (m & <- & Hm). apply matched_In in Hm. destruct Hm as (Hm & s & Hs & Fs & Es). exists s. split; [exact Es|]. now apply filter_In. }
  assert (K1 : map s_location F = map m_location M) by (apply (f_equal (map fst)) in K; rewrite !map_map in K; exact K).
  assert (K2 : map s_pinhole F = map m_pinhole M) by (apply (f_equal (map snd)) in K; rewrite !map_map in K; exact K).
  rewrite E, K1, K2, !all_eq_refl. cbn. split; [reflexivity|]. split; [exact PF|]. split; [|now apply same_keys]. intros m Hm. apply (Permutation_in _ PM), matched_In in Hm. tauto.
Qed.

Lemma fit_pairs_missing s : In s spots -> is_fid s = true -> (forall m, In m metrology -> metro_key m <> spot_key s) -> (2 <= length (filter is_fid spots))%nat ->
  exists e, fit_pairs argsort spots metrology = Err e.
Proof.
  intros Hs Fs Miss L. destruct (fit_pairs_sorted spots metrology) as (F & M & PF & PM & AF & AM & E). rewrite E.
  assert (HsF : In s F) by (apply (Permutation_in _ (Permutation_sym PF)), filter_In; tauto). rewrite <- (Permutation_length PF) in L.
  assert (MM : forall m, In m M -> In m metrology) by (intros m Hm; apply (Permutation_in _ PM), matched_In in Hm; tauto).
  assert (NF : NoDup (map spot_key F)) by (apply (Permutation_NoDup (l := map spot_key (filter is_fid spots))); [now apply Permutation_map, Permutation_sym|assumption]).
  destruct (assert_all_eq (map s_location F) (map m_location M)) as [[]|e] eqn:E1; cbn; [|eauto]. destruct (assert_all_eq (map s_pinhole F) (map m_pinhole M)) as [[]|e] eqn:E2; cbn; [|eauto]. exfalso.
  destruct (Nat.eq_dec (length F) (length M)) as [Lq|Lq].
  - apply all_eq_true in E1, E2; try (now rewrite !map_length). pose proof (same_keys _ _ E1 E2) as K. clear - K HsF Miss MM. induction K as [|x m F M Ek K IH]; [destruct HsF|]. destruct HsF as [->|HsF]; [apply (Miss m); [apply MM; now left|now symmetry]|]. apply IH; [exact HsF|]. intros; apply MM; now right.
  - apply assert_eq_length in E1, E2; try (now rewrite !map_length). destruct F as [|s1 [|s2 F]]; cbn in L; try lia.
    destruct E1 as [(x & X & _)|(x & X & A)]; [discriminate X|]. destruct E2 as [(y & Y & _)|(y & Y & B)]; [discriminate Y|]. cbn in A, B. inversion NF as [|? ? N1 _]; subst. apply N1. left. unfold spot_key. inversion A as [|? ? <- A']; inversion A' as [|? ? <- _]; inversion B as [|? ? <- B']; inversion B' as [|? ? <- _]; congruence.
Qed.
End Unique.

Lemma put_masked_spec {A B} (f : A -> bool) (P : A -> B -> Prop) l vs : Forall2 P (filter f l) vs ->
  Forall2 (fun a o => if f a then exists v, o = Some v /\ P a v /\ In v vs else o = None) l (put_masked (map f l) vs).
Proof.
  revert vs. induction l as [|a l IH]; intros vs H; cbn in *; [constructor|]. destruct (f a) eqn:E.
  - inversion H as [|? v ? vs' Pv Hv]; subst. constructor; [rewrite E; exists v; cbn; auto|]. eapply Forall2_impl; [|apply (IH _ Hv)]. intros b o Hb. cbn in Hb |- *. destruct (f b); [|exact Hb]. destruct Hb as (w & ? & ? & ?). exists w. auto.
  - constructor; [now rewrite E|]. now apply IH.
Qed.

(** Rank of an argsort composed with the argsort of the other table. *)
Lemma rank_match a b ii jj p : NoDup a -> sorting_permutation Z.ltb a p -> sorting_permutation Nat.ltb p ii -> sorting_permutation Z.ltb b jj -> Permutation a b ->
  exists kk, take jj ii = Ok kk /\ take b kk = Ok a /\ Permutation kk (seq 0 (length b)).
Proof.
  intros N S1 S2 S3 P. assert (Lp : length p = length a) by exact (sorting_perm_length _ _ _ S1). assert (Lj : length jj = length b) by exact (sorting_perm_length _ _ _ S3). assert (Li : length ii = length p) by exact (sorting_perm_length _ _ _ S2). pose proof (Permutation_length P) as Lab.
  assert (Pp : Permutation p (seq 0 (length p))) by (rewrite Lp; apply S1).
  pose proof (argsort_inverse _ _ Pp S2) as Inv.
  assert (Q1 : sorting_permutation Z.ltb (map (fun x => x) a) p) by now rewrite map_id.
  assert (Q3 : sorting_permutation Z.ltb (map (fun x => x) b) jj) by now rewrite map_id.
  destruct (sorting_take Z.ltb (fun x => x) a p Q1) as (s & Es & Ps & As). destruct (sorting_take Z.ltb (fun x => x) b jj Q3) as (s' & Es' & Ps' & As'). rewrite map_id in As, As'.
  assert (s = s') by (apply (ascending_unique Z.ltb Zltb_strict); try assumption; now rewrite Ps, Ps'). subst s'.
  destruct (take_total jj ii) as [kk Ek]; [apply Forall_forall; intros i Hi; pose proof (sorting_perm_lt _ _ _ _ S2 Hi); lia|].
  exists kk. split; [exact Ek|].
  assert (Pk : Permutation kk (seq 0 (length b))) by (rewrite <- (proj1 S3); apply (take_perm jj ii); [rewrite Lj, <- Lab, <- Lp; apply S2|exact Ek]).
  split; [|exact Pk]. destruct (take_total b kk) as [r Er]; [apply Forall_forall; intros i Hi; apply (Permutation_in _ Pk), in_seq in Hi; lia|]. rewrite Er. f_equal.
  apply take_Ok in Er, Ek, Es, Es', Inv.
  apply nth_error_ext. intros k. pose proof (Forall2_length _ _ _ Ek) as L1. pose proof (Forall2_length _ _ _ Er) as L2.
  destruct (Nat.ltb_spec k (length a)) as [Hk|Hk]; [|rewrite !(proj2 (nth_error_None _ _)) by lia; reflexivity].
  destruct (nth_error ii k) as [i|] eqn:Ei; [|apply nth_error_None in Ei; lia].
  destruct (nth_error kk k) as [j|] eqn:Ej; [|apply nth_error_None in Ej; lia].
  destruct (nth_error r k) as [v|] eqn:Ev; [|apply nth_error_None in Ev; lia].
  pose proof (Forall2_nth _ _ _ Ek _ _ _ Ei Ej) as X1. pose proof (Forall2_nth _ _ _ Er _ _ _ Ej Ev) as X2.
  assert (X3 : nth_error p i = Some k). { apply (Forall2_nth _ _ _ Inv k); [exact Ei|]. rewrite (nth_error_nth' _ 0%nat) by (rewrite seq_length; lia). rewrite seq_nth by lia. reflexivity. }
  assert (Hi : (i < length s)%nat) by (pose proof (nth_error_Some jj i) as Hx; rewrite X1 in Hx; pose proof (Permutation_length Ps'); assert (i < length jj)%nat by (apply Hx; discriminate); lia).
  destruct (nth_error s i) as [w|] eqn:Ew; [|apply nth_error_None in Ew; lia].
  rewrite (Forall2_nth _ _ _ Es _ _ _ X3 Ew). rewrite <- X2. apply (Forall2_nth _ _ _ Es' _ _ _ X1 Ew).
Qed.

Section Columns.
Variables (spots : list spot) (F : list spot) (M : list metro).
Hypothesis U : NoDup (map spot_key (filter is_fid spots)).
Hypothesis PF : Permutation F (filter is_fid spots).
Hypothesis K : Forall2 (fun s m => spot_key s = metro_key m) F M.
Hypothesis Pin : forall s, In s spots -> is_fid s = true -> (s_pinhole s < 10)%Z /\ s_location s <> 0%Z.

Lemma columns_ok : exists cols, metro_columns argsort spots M = Ok cols /\
  Forall2 (fun s o => if is_fid s then exists m, o = Some m /\ spot_key s = metro_key m /\ In m M else o = None) spots cols.
Proof.
  unfold metro_columns. set (isf := fun s : spot => ((0 <? s_location s) && (0 <? s_pinhole s))%bool%Z). cbv zeta.
  assert (Ef : forall s, In s spots -> isf s = is_fid s). { intros s Hs. unfold isf, is_fid. destruct (0 <? s_pinhole s)%Z eqn:E; rewrite ?Bool.andb_false_r; [|reflexivity]. rewrite !Bool.andb_true_r. destruct (Z.leb_spec 0 (s_location s)); [|lia]. destruct (Pin s Hs) as [_ ?]; [unfold is_fid; lia|]. lia. }
  assert (EF : filter isf spots = filter is_fid spots) by now apply filter_ext_in.
  rewrite EF. set (fid := filter is_fid spots) in *. set (a := map (fun s => pinloc (spot_key s)) fid). set (b := map (fun m => pinloc (metro_key m)) M).
  assert (KM : map spot_key F = map metro_key M) by (apply keys_map, K).
  assert (Pab : Permutation a b). { unfold a, b. rewrite <- (map_map spot_key pinloc), <- (map_map metro_key pinloc), <- KM. now apply Permutation_map, Permutation_map, Permutation_sym. }
  assert (Rg : forall s, In s fid -> (0 <= snd (spot_key s) < 10)%Z). { intros s Hs. apply filter_In in Hs. destruct Hs as [Hs Fs]. pose proof (Pin s Hs Fs). unfold is_fid in Fs. cbn. lia. }
  assert (Na : NoDup a).
  { unfold a. clear - U Rg. induction fid as [|s l IH]; cbn in *; [constructor|]. inversion U as [|? ? N1 N2]; subst. constructor; [|apply IH; auto]. rewrite in_map_iff. intros (s' & E & Hs'). apply N1. apply in_map_iff. exists s'. split; [|exact Hs']. apply pinloc_inj; [apply Rg; now right|apply Rg; now left|exact E]. }
  destruct (rank_match a b _ _ _ Na (argsort_ok _ _ a (st_weak _ Zltb_strict)) (argsort_ok _ _ _ (st_weak _ Natltb_strict)) (argsort_ok _ _ b (st_weak _ Zltb_strict)) Pab) as (kk & Ek & Eb & Pk).
  rewrite Ek. cbn [rbind]. destruct (take_total M kk) as [rows Er].
  { apply Forall_forall. intros i Hi. apply (Permutation_in _ Pk), in_seq in Hi. unfold b in Hi. rewrite map_length in Hi. lia. }
  rewrite Er. cbn [rbind]. pose proof (take_map (fun m => pinloc (metro_key m)) _ _ _ Er) as Eb'. fold b in Eb'. rewrite Eb in Eb'. injection Eb' as Ea.
  assert (Pr : Permutation rows M). { apply (take_perm M kk); [|exact Er]. unfold b in Pk. now rewrite map_length in Pk. }
  assert (RgM : forall m, In m rows -> (0 <= snd (metro_key m) < 10)%Z).
  { intros m Hm. apply (Permutation_in _ Pr) in Hm. apply (in_map metro_key) in Hm. rewrite <- KM in Hm. apply in_map_iff in Hm. destruct Hm as (s & <- & Hs). apply Rg. now apply (Permutation_in _ PF). }
  assert (KR : Forall2 (fun s m => spot_key s = metro_key m) fid rows).
  { unfold a in Ea. clear - Ea Rg RgM. revert rows Ea RgM. induction fid as [|s l IH]; intros [|m rows] Ea RgM; cbn in *; try discriminate; constructor.
    - apply pinloc_inj; [apply Rg; now left|apply RgM; now left|congruence].
    - apply IH; [auto|congruence|auto]. }
  assert (K1 : map s_location fid = map m_location rows) by (clear - KR; induction KR as [|s m l r E H IH]; cbn; [reflexivity|]; unfold spot_key, metro_key in E; congruence).
  assert (K2 : map s_pinhole fid = map m_pinhole rows) by (clear - KR; induction KR as [|s m l r E H IH]; cbn; [reflexivity|]; unfold spot_key, metro_key in E; congruence).
  rewrite K1, K2, !all_eq_refl. cbn [rbind]. eexists. split; [reflexivity|].
  assert (Em : map isf spots = map is_fid spots) by (now apply map_ext_in). rewrite Em. eapply Forall2_impl; [|apply (put_masked_spec is_fid _ spots rows KR)].
  intros s o H. cbn in H |- *. destruct (is_fid s); [|exact H]. destruct H as (m & ? & ? & Hm). exists m. repeat split; try assumption. now apply (Permutation_in _ Pr).
Qed.
End Columns.
End Pairs.
