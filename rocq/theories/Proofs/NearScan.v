From Verif.Model Require Import NearScan.
From Verif.Spec Require Import Numpy Match FindFiducials.
From Verif.Proofs Require Import Prelude Numpy RealNum.
From Verif.Proofs Require Match.
From Coq Require Import Lra Lia Sorted.
Local Open Scope R_scope.
Local Open Scope list_scope.

Definition pick (d : list R) (bound : R) (j : nat) : list (option R * nat) :=
  match nth_error d j with Some x => if Rltb x bound then [(Some x, j)] else [] | None => [] end.
Lemma pick_In d bound j e : In e (pick d bound j) <-> exists x, nth_error d j = Some x /\ x < bound /\ e = (Some x, j).
Proof.
  unfold pick. destruct (nth_error d j) as [x|]; [|split; [intros []|intros (x & ? & _); discriminate]]. destruct (Rltb x bound) eqn:E.
  - apply Rltb_true in E. split; [intros [<-|[]]; eauto|intros (y & [= <-] & _ & ->); now left].
  - apply Rltb_false in E. split; [intros []|intros (y & [= <-] & ? & _); lra].
Qed.
Lemma pick_all d bound order e : In e (flat_map (pick d bound) order) <-> exists j x, In j order /\ nth_error d j = Some x /\ x < bound /\ e = (Some x, j).
Proof. rewrite in_flat_map. split; [intros (j & Hj & H); apply pick_In in H as (x & ? & ? & ?); eauto 6|intros (j & x & Hj & H); exists j; split; [exact Hj|apply pick_In; eauto]]. Qed.
Lemma found_app a b : found (a ++ b) = found a ++ found b.
Proof. unfold found. now rewrite filter_app, map_app. Qed.
Lemma found_none n m : found (repeat (None, n) m) = [].
Proof. unfold found. induction m; [reflexivity|exact IHm]. Qed.
Lemma found_picks l : (forall e, In e l -> exists x j, e = (Some x, j)) -> found l = map snd l.
Proof. unfold found. induction l as [|e l IH]; intros H; [reflexivity|]. destruct (H e (or_introl eq_refl)) as (x & j & ->). cbn. f_equal. apply IH. intros; apply H; now right. Qed.
Lemma picks_NoDup d bound order : NoDup order -> NoDup (map snd (flat_map (pick d bound) order)).
Proof.
  induction 1 as [|j l Hj N IH]; cbn; [constructor|]. rewrite map_app. unfold pick at 1. destruct (nth_error d j) as [x|]; [|exact IH]. destruct (Rltb x bound); [|exact IH]. cbn. constructor; [|exact IH].
  intros H. apply in_map_iff in H as ([y i] & E & H). cbn in E. subst i. apply pick_all in H as (j' & x' & Hj' & _ & _ & [= _ ->]). contradiction.
Qed.
Lemma NoDup_firstn {A} n (l : list A) : NoDup l -> NoDup (firstn n l).
Proof. intros H. rewrite <- (firstn_skipn n l) in H. revert H. generalize (skipn n l) as m. induction (firstn n l) as [|a r IH]; intros m H; constructor; cbn in H; apply NoDup_cons_iff in H as [H1 H2]; [intros Hin; apply H1, in_or_app; now left|eauto]. Qed.
Lemma sorted_firstn {A} (P : A -> A -> Prop) n : forall l, StronglySorted P l -> forall a b, In a (firstn n l) -> In b (skipn n l) -> P a b.
Proof.
  induction n as [|n IH]; intros [|x l] S a b Ha Hb; cbn in *; try contradiction. inversion S as [|? ? S' F]; subst. destruct Ha as [<-|Ha]; [|eauto].
  rewrite Forall_forall in F. apply F. rewrite <- (firstn_skipn n l). apply in_or_app. now right.
Qed.
Lemma firstn_incl {A} n (l : list A) a : In a (firstn n l) -> In a l.
Proof. intros H. rewrite <- (firstn_skipn n l). apply in_or_app. now left. Qed.
Lemma picks_sorted d bound order : StronglySorted (fun i j => forall x y, nth_error d i = Some x -> nth_error d j = Some y -> Rltb y x = false) order ->
  StronglySorted (fun e e' : option R * nat => forall x y, fst e = Some x -> fst e' = Some y -> x <= y) (flat_map (pick d bound) order).
Proof.
  induction 1 as [|j l S IH F]; cbn; [constructor|]. unfold pick at 1. destruct (nth_error d j) as [x|] eqn:Ej; [|exact IH]. destruct (Rltb x bound); [|exact IH]. cbn. constructor; [exact IH|].
  apply Forall_forall. intros e He. apply pick_all in He as (j' & x' & Hj' & Hx & _ & ->). cbn. intros ? ? [= <-] [= <-]. rewrite Forall_forall in F. specialize (F _ Hj' _ _ eq_refl Hx). now apply Rltb_false in F.
Qed.

Lemma near_scan_ok : near_query (near_scan distance).
Proof.
  intros cat bound p. cbv zeta. unfold near_scan. cbv zeta. set (d := map (distance p) cat). fold (pick d bound).
  destruct (isort_is_argsort R Rltb d (st_weak _ Rltb_strict_total)) as [P S]. set (order := isort_argsort R Rltb d) in *.
  set (l := flat_map (pick d bound) order).
  assert (LI : forall e, In e l -> exists x j, e = (Some x, j)) by (intros e He; apply pick_all in He as (j & x & _ & _ & _ & ->); eauto).
  assert (NO : NoDup order) by (apply (Permutation.Permutation_NoDup (Permutation.Permutation_sym P)), seq_NoDup).
  assert (NL : NoDup (map snd l)) by now apply picks_NoDup.
  pose proof (picks_sorted d bound order S) as SL. fold l in SL.
  assert (FF : found (firstn 4 l ++ repeat (None, length cat) (4 - length (firstn 4 l))) = map snd (firstn 4 l)).
  { rewrite found_app, found_none, app_nil_r. apply found_picks. intros e He. apply LI. now apply firstn_incl in He. }
  change (flat_map (fun j => match nth_error d j with Some x => if Rltb x bound then [(Some x, j)] else [] | None => [] end) order) with l.
  rewrite FF. clear FF.
  assert (L4 : (length (firstn 4 l) <= 4)%nat) by apply firstn_le_length.
  split; [rewrite app_length, repeat_length; lia|]. split; [rewrite <- firstn_map; now apply NoDup_firstn|]. split.
  - intros x j H. apply in_app_or in H as [H|H]; [|apply repeat_spec in H; discriminate]. apply firstn_incl in H. apply pick_all in H as (j' & x' & _ & Hn & Hb & [= -> ->]).
    unfold d in Hn. rewrite nth_error_map in Hn. destruct (nth_error cat j') as [q|]; [|discriminate]. injection Hn as <-. eauto.
  - intros j q Hq Hb Hn. assert (Hl : In (Some (distance p q), j) l).
    { apply pick_all. exists j, (distance p q). assert (E : nth_error d j = Some (distance p q)) by (unfold d; now rewrite nth_error_map, Hq). split; [|auto]. apply (Permutation.Permutation_in _ (Permutation.Permutation_sym P)), in_seq. split; [lia|]. apply nth_error_Some. congruence. }
    assert (Hs : In (Some (distance p q), j) (skipn 4 l)).
    { rewrite <- (firstn_skipn 4 l) in Hl. apply in_app_or in Hl as [Hl|Hl]; [|exact Hl]. exfalso. apply Hn. apply in_map_iff. eexists. split; [|exact Hl]. reflexivity. }
    split.
    + rewrite map_length, firstn_length. assert (skipn 4 l <> []) by (intros E; now rewrite E in Hs). destruct (le_lt_dec 4 (length l)) as [H4|H4]; [lia|]. exfalso. apply H. apply skipn_all2. lia.
    + intros x i Hi. apply in_app_or in Hi as [Hi|Hi]; [|apply repeat_spec in Hi; discriminate]. exact (sorted_firstn _ 4 l SL _ _ Hi Hs _ _ eq_refl eq_refl).
Qed.
