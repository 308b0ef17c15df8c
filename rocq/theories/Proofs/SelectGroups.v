From Verif.Model Require Import SelectGroups NearScan.
From Verif.Spec Require Import Numpy Match FindFiducials SelectGroups.
From Verif.Proofs Require Import Prelude Numpy RealNum NearScan.
From Verif.Proofs Require Import PosMoveSelection.
From Coq Require Import Lra Lia Sorted.
Local Open Scope R_scope.
Local Open Scope list_scope.

Lemma mem_nat_In i l : mem_nat i l = true <-> In i l.
Proof. unfold mem_nat. rewrite existsb_exists. split; [intros (x & H & E); apply Nat.eqb_eq in E; now subst|intros H; exists i; split; [exact H|apply Nat.eqb_refl]]. Qed.
Lemma mem_nat_out i l : mem_nat i l = false <-> ~ In i l.
Proof. rewrite <- mem_nat_In. destruct (mem_nat i l); split; congruence. Qed.

Lemma one_group_spec nb earlier : forall k a near, let g := one_group nb earlier near (seq a k) in
  StronglySorted lt g /\ forall i, In i g <-> (a <= i < a + k)%nat /\ ~ In i near /\ ~ In i earlier /\ forall j, (j < i)%nat -> In j g -> ~ In i (nb j).
Proof.
  induction k as [|k IH]; intros a near; cbn [seq one_group].
  - split; [constructor|]. intros i. split; [intros []|intros [? _]; lia].
  - assert (Skip : (In a near \/ In a earlier) -> let g := one_group nb earlier near (seq (S a) k) in
      StronglySorted lt g /\ forall i, In i g <-> (a <= i < a + S k)%nat /\ ~ In i near /\ ~ In i earlier /\ forall j, (j < i)%nat -> In j g -> ~ In i (nb j)).
    { intros Hd. destruct (IH (S a) near) as [Ss M]. split; [exact Ss|]. intros i. rewrite M. split; intros (A & B & C & D); (split; [|auto]); [lia|]. destruct (Nat.eq_dec i a); [subst; tauto|lia]. }
    destruct (mem_nat a near) eqn:E1; [apply mem_nat_In in E1; apply Skip; auto|]. destruct (mem_nat a earlier) eqn:E2; [apply mem_nat_In in E2; apply Skip; auto|]. clear Skip.
    apply mem_nat_out in E1, E2. destruct (IH (S a) (near ++ nb a)) as [Ss M]. set (g := one_group nb earlier (near ++ nb a) (seq (S a) k)) in *.
    assert (Ge : forall j, In j g -> (a < j)%nat) by (intros j H; apply M in H as [H _]; lia).
    split; [constructor; [exact Ss|]; apply Forall_forall; exact Ge|]. intros i. cbn [In]. split.
    + intros [<-|H]; [split; [lia|]; split; [exact E1|]; split; [exact E2|]; intros j J [<-|Hj]; [lia|apply Ge in Hj; lia]|]. pose proof H as H'. apply M in H as (A & B & C & D). rewrite in_app_iff in B.
      split; [lia|]. split; [tauto|]. split; [exact C|]. intros j J [<-|Hj]; [tauto|now apply D].
    + intros (A & B & C & D). destruct (Nat.eq_dec a i) as [E|N]; [now left|]. right. apply M. split; [lia|]. rewrite in_app_iff. split; [intros [H|H]; [tauto|]; apply (D a); [lia|now left|exact H]|]. split; [exact C|]. intros j J Hj. apply D; auto.
Qed.
Lemma add_ids_from ids : forall line, add_ids false line ids = (line ++ match ids with [] => "" | _ => "," ++ String.concat "," (map (fun s => "'" ++ s ++ "'") ids) end)%string.
Proof.
  induction ids as [|a r IH]; intros line; cbn [add_ids]; [now rewrite append_nil_r|]. rewrite IH. destruct r as [|b r]; cbn [map String.concat]; rewrite ?append_nil_r, ?append_assoc; reflexivity.
Qed.
Lemma add_ids_line ids : (add_ids true "[" ids ++ "]" ++ String "010" EmptyString)%string = list_line ids.
Proof.
  unfold list_line. destruct ids as [|a r]; [reflexivity|]. cbn [add_ids]. rewrite add_ids_from. destruct r as [|b r]; cbn [map String.concat]; rewrite ?append_nil_r, ?append_assoc; reflexivity.
Qed.
(** A search for the seven nearest neighbours that keeps the promise. *)
Definition scan7 (cat : list (R * R)) (p : R * R) : list (option R * nat) :=
  let d := map (distance p) cat in
  let l := firstn 7 (flat_map (pick d (fold_right Rmax 0 d + 1)) (isort_argsort R Rltb d)) in
  l ++ repeat (None, length cat) (7 - length l).
Lemma below_all d : forall x : R, In x d -> x < fold_right Rmax 0 d + 1.
Proof. induction d as [|a d IH]; intros x H; [destruct H|]. cbn [fold_right]. destruct H as [->|H]; [pose proof (Rmax_l x (fold_right Rmax 0 d)); lra|]. pose proof (Rmax_r a (fold_right Rmax 0 d)). specialize (IH x H). lra. Qed.
Lemma scan7_ok : seven_nearest scan7.
Proof.
  intros cat p. cbv zeta. unfold scan7. cbv zeta. set (d := map (distance p) cat). set (bound := fold_right Rmax 0 d + 1).
  destruct (isort_is_argsort R Rltb d (st_weak _ Rltb_strict_total)) as [P S]. set (order := isort_argsort R Rltb d) in *. set (l := flat_map (pick d bound) order).
  assert (LI : forall e, In e l -> exists x j, e = (Some x, j)) by (intros e He; apply pick_all in He as (j & x & _ & _ & _ & ->); eauto).
  assert (NO : NoDup order) by (apply (Permutation.Permutation_NoDup (Permutation.Permutation_sym P)), seq_NoDup).
  assert (NL : NoDup (map snd l)) by now apply picks_NoDup.
  pose proof (picks_sorted d bound order S) as SL. fold l in SL.
  assert (FF : found (firstn 7 l ++ repeat (None, length cat) (7 - length (firstn 7 l))) = map snd (firstn 7 l)).
  { rewrite found_app, found_none, app_nil_r. apply found_picks. intros e He. apply LI. now apply firstn_incl in He. }
  rewrite FF. clear FF. assert (L7 : (length (firstn 7 l) <= 7)%nat) by apply firstn_le_length.
  split; [rewrite app_length, repeat_length; lia|]. split; [rewrite <- firstn_map; now apply NoDup_firstn|]. split.
  - intros x j H. apply in_app_or in H as [H|H]; [|apply repeat_spec in H; discriminate]. apply firstn_incl in H. apply pick_all in H as (j' & x' & _ & Hn & Hb & [= -> ->]).
    unfold d in Hn. rewrite nth_error_map in Hn. destruct (nth_error cat j') as [q|]; [|discriminate]. injection Hn as <-. eauto.
  - intros j q Hq Hn. assert (Hl : In (Some (distance p q), j) l).
    { apply pick_all. exists j, (distance p q). assert (E : nth_error d j = Some (distance p q)) by (unfold d; now rewrite nth_error_map, Hq). split; [apply (Permutation.Permutation_in _ (Permutation.Permutation_sym P)), in_seq; split; [lia|]; apply nth_error_Some; congruence|]. split; [exact E|]. split; [|reflexivity]. apply below_all. now apply nth_error_In in E. }
    assert (Hs : In (Some (distance p q), j) (skipn 7 l)).
    { rewrite <- (firstn_skipn 7 l) in Hl. apply in_app_or in Hl as [Hl|Hl]; [|exact Hl]. exfalso. apply Hn. apply in_map_iff. eexists. split; [|exact Hl]. reflexivity. }
    split.
    + rewrite map_length, firstn_length. assert (skipn 7 l <> []) by (intros E; now rewrite E in Hs). destruct (le_lt_dec 7 (length l)) as [H4|H4]; [lia|]. exfalso. apply H. apply skipn_all2. lia.
    + intros x i Hi. apply in_app_or in Hi as [Hi|Hi]; [|apply repeat_spec in Hi; discriminate]. exact (sorted_firstn _ 7 l SL _ _ Hi Hs _ _ eq_refl eq_refl).
Qed.

Lemma found_In (r : list (option R * nat)) j : In j (found r) <-> exists d, In (Some d, j) r.
Proof.
  unfold found. rewrite in_map_iff. split.
  - intros ([d k] & <- & H). apply filter_In in H as [H E]. destruct d as [d|]; [|discriminate]. cbn. eauto.
  - intros (d & H). exists (Some d, j). split; [reflexivity|]. apply filter_In. auto.
Qed.
Section Close.
Variable query7 : list (R * R) -> R * R -> list (option R * nat).
Hypothesis Q : seven_nearest query7.
Lemma close_beside xy i j : In j (close_ones query7 xy i) -> beside xy i j.
Proof.
  unfold close_ones. destruct (nth_error xy i) as [p|] eqn:E; [|intros []]. intros H. apply in_flat_map in H as ([[d|] k] & H & I); [|destruct I]. destruct (Rltb 0 d && Rltb d 12)%bool eqn:B; [|destruct I]. destruct I as [<-|[]].
  apply andb_prop in B as [B1 B2]. apply Rltb_true in B1, B2. destruct (Q xy p) as (_ & _ & D & _). destruct (D _ _ H) as (q & Eq & ->). exists p, q. auto.
Qed.
Lemma beside_close xy i j : uncrowded xy i -> i <> j -> beside xy i j -> In j (close_ones query7 xy i).
Proof.
  intros U N (p & q & Ep & Eq & Hd). unfold close_ones. rewrite Ep. destruct (Q xy p) as (_ & ND & D & Far). destruct (in_dec Nat.eq_dec j (found (query7 xy p))) as [I|O].
  - apply found_In in I as (d & I). destruct (D _ _ I) as (q' & Eq' & ->). rewrite Eq in Eq'. injection Eq' as <-. apply in_flat_map. eexists. split; [exact I|]. cbn.
    assert (Rltb 0 (distance p q) = true) as -> by (apply Rltb_true; lra). assert (Rltb (distance p q) 12 = true) as -> by (apply Rltb_true; lra). now left.
  - exfalso. destruct (Far _ _ Eq O) as [L F]. set (f := found (query7 xy p)) in *. set (ks := j :: filter (fun k => negb (Nat.eqb k i)) f).
    assert (NK : NoDup ks) by (constructor; [intros H; now apply filter_In in H as [H _]|now apply NoDup_filter]).
    assert (LK : (7 <= length ks)%nat).
    { unfold ks. cbn [length]. assert (length f <= S (length (filter (fun k => negb (k =? i)%nat) f)))%nat; [|lia]. clear - ND. induction ND as [|a l Ha ND IH]; [cbn; lia|]. cbn [filter length]. destruct (Nat.eqb a i) eqn:E; cbn [negb].
      - apply Nat.eqb_eq in E. subst a. assert (filter (fun k => negb (k =? i)%nat) l = l) as ->; [|lia]. clear - Ha. induction l as [|b l IH]; [reflexivity|]. cbn [filter]. assert ((b =? i)%nat = false) as -> by (apply Nat.eqb_neq; intros ->; apply Ha; now left). cbn [negb]. f_equal. apply IH. intros H. apply Ha. now right.
      - cbn [length]. lia. }
    assert (length ks <= 6)%nat; [|lia]. apply (U p ks Ep NK). intros k [<-|H]; [split; [congruence|]; exists q; split; [exact Eq|lra]|]. apply filter_In in H as [H E]. apply Bool.negb_true_iff, Nat.eqb_neq in E. split; [exact E|].
    apply found_In in H as (d & H). pose proof (F _ _ H). destruct (D _ _ H) as (q' & Eq' & ->). exists q'. split; [exact Eq'|lra].
Qed.
End Close.
