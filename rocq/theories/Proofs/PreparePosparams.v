From Verif.Model Require Import PreparePosparams.
From Verif.Proofs Require Import Prelude RealNum Stats Numpy Fitter.
From Verif.Spec Require Import PreparePosparams.
From Coq Require Import String Reals Lra DecimalString DecimalN DecimalPos.
Local Open Scope R_scope.
Local Open Scope string_scope.
Local Open Scope list_scope.

(** * Rows *)
Lemma same_data_fresh r : same_data r (fresh_row r).
Proof. repeat split. Qed.
Lemma same_data_mark w b r r' : same_data r r' -> same_data r (mark_row w b r').
Proof. intros H. exact H. Qed.

(** the table [t] comes from [input], [P] being what the rows were asked so far *)
Definition Inv (en : bool) (input : list prow) (P : prow -> Prop) (t : ptable) : Prop :=
  if en then Forall2 (fun r r' => same_data r r' /\ (r_disabled r' = false <-> P r)) input t
  else exists kept, filtered P input kept /\ t = map fresh_row kept.

Lemma Inv_start en input : Inv en input (fun _ => True) (map fresh_row input).
Proof.
  destruct en; cbn.
  - induction input; cbn; constructor; auto. split; [apply same_data_fresh|]. cbn. tauto.
  - exists input. split; [|reflexivity]. induction input; constructor; auto.
Qed.

Lemma combine_fst_snd {A B} (l : list A) : forall m : list B, List.length l = List.length m -> Forall2 (fun a (p : A * B) => fst p = a) l (combine l m).
Proof. induction l; intros [|b m] H; cbn in *; try discriminate; constructor; auto. Qed.

Lemma Inv_step en input P Q t t' bs w : Inv en input P t -> eliminate_rows en t bs w = Ok t' -> Forall2 (fun r b => b = false <-> Q r) t bs ->
  (forall r r', same_data r r' -> (Q r' <-> Q r)) -> Inv en input (fun r => P r /\ Q r) t'.
Proof.
  intros H E F D. unfold eliminate_rows in E. destruct (negb _); [discriminate|]. destruct en; apply Ok_inj in E; subst t'; cbn in *.
  - revert bs F. induction H as [|r r' input t [S PD] H IH]; intros bs F; inversion F; subst; cbn; constructor; auto.
    split; [exact S|]. cbn. rewrite Bool.orb_false_iff, PD. specialize (D r r' S). tauto.
  - destruct H as (kept & K & ->). revert bs F. induction K as [|a l m HP K IH|a l m HP K IH]; intros bs F; cbn in F.
    + inversion F; subst. cbn. exists []. split; [constructor|reflexivity].
    + inversion F as [|? b ? bs' HQ F']; subst. destruct (IH bs' F') as (k & Kk & E). pose proof (D a (fresh_row a) (same_data_fresh a)) as DQ. cbn. destruct b; cbn.
      * exists k. split; [|exact E]. constructor; [|exact Kk]. intros [_ A]. apply DQ, HQ in A. discriminate.
      * exists (a :: k). split; [|now cbn; rewrite E]. constructor; [|exact Kk]. split; [exact HP|]. now apply DQ, HQ.
    + destruct (IH bs F) as (k & Kk & E). exists k. split; [|exact E]. constructor; [|exact Kk]. tauto.
Qed.

Lemma Inv_ext en input P Q t : (forall r, P r <-> Q r) -> Inv en input P t -> Inv en input Q t.
Proof.
  intros H I. destruct en; cbn in *.
  - eapply Forall2_impl; [|exact I]. intros a b [S D]. split; [exact S|]. rewrite <- H. exact D.
  - destruct I as (k & K & ->). exists k. split; [|reflexivity]. clear -H K. induction K; constructor; auto; rewrite <- H; auto.
Qed.

Lemma Forall2_map_r {A B} (f : A -> B) (R : A -> B -> Prop) l : (forall a, R a (f a)) -> Forall2 R l (map f l).
Proof. intros H. induction l; cbn; constructor; auto. Qed.

(** * Tests of one row *)
Lemma above_false x y : above x y = false <-> (forall v, x = Some v -> v <= y).
Proof.
  unfold above. destruct x as [a|]; [|split; [discriminate|reflexivity]]. split.
  - intros H v [= <-]. apply Rltb_false in H. lra.
  - intros H. apply Rltb_false. specialize (H a eq_refl). lra.
Qed.
Lemma below_false x y : below x y = false <-> (forall v, x = Some v -> y <= v).
Proof.
  unfold below. destruct x as [a|]; [|split; [discriminate|reflexivity]]. split.
  - intros H v [= <-]. apply Rltb_false in H. lra.
  - intros H. apply Rltb_false. specialize (H a eq_refl). lra.
Qed.
Lemma outside_false x e tol : outside x e tol = false <-> near x e tol.
Proof.
  unfold outside, near. destruct x as [a|]; [|split; [discriminate|reflexivity]]. split.
  - intros H v [= <-]. apply Rltb_false in H. lra.
  - intros H. apply Rltb_false. specialize (H a eq_refl). lra.
Qed.

Ltac sd := intros r r' (E1 & E2 & E3 & E4 & E5 & E6 & E7 & E8).
Lemma par_sd : forall r r', same_data r r' -> r_par r' = r_par r.
Proof. sd. exact E8. Qed.
Lemma good_outliers_sd tol : forall r r', same_data r r' -> (good_outliers tol r' <-> good_outliers tol r).
Proof. sd. unfold good_outliers. now rewrite E5, E6. Qed.
Lemma good_error_sd tol : forall r r', same_data r r' -> (good_error tol r' <-> good_error tol r).
Proof. sd. unfold good_error. now rewrite E7. Qed.
Lemma within_sd lo hi tf k : forall r r', same_data r r' -> (within lo hi tf (r_par r' k) <-> within lo hi tf (r_par r k)).
Proof. sd. now rewrite E8. Qed.
Lemma good_xy_sd n tol : forall r r', same_data r r' -> (good_xy n tol r' <-> good_xy n tol r).
Proof. sd. unfold good_xy. now rewrite E4, E8. Qed.
Lemma good_arms_sd tol : forall r r', same_data r r' -> (good_arms tol r' <-> good_arms tol r).
Proof. sd. unfold good_arms. now rewrite E8. Qed.

(** * Checks *)
Section Checks.
Variables (en : bool) (input : list prow).
Let I := Inv en input.

Lemma outliers_Inv P tol t t' : I P t -> check_num_outliers en tol "STATIC" t = Ok t' -> I (fun r => P r /\ good_outliers tol r) t'.
Proof.
  intros H E. unfold check_num_outliers in E. destruct (negb (mem_str "STATIC" ["STATIC"; "DYNAMIC"])); [discriminate|]. destruct (negb (Rleb 0 tol)); [discriminate|].
  eapply Inv_step; [exact H|exact E| |apply good_outliers_sd]. apply Forall2_map_r. intros r. rewrite above_false. unfold num_outliers, good_outliers. split.
  - intros A n m En Em. apply A. now rewrite En, Em.
  - intros A v. destruct (r_npts r) as [n|]; [|discriminate]. destruct (r_nfit r "STATIC") as [m|]; [|discriminate]. intros [= <-]. now apply A.
Qed.

Lemma error_Inv P tol t t' : I P t -> check_fit_error en tol "STATIC" t = Ok t' -> I (fun r => P r /\ good_error tol r) t'.
Proof.
  intros H E. unfold check_fit_error in E. change ("STATIC" =? "STATIC")%string with true in E. cbv iota in E.
  eapply Inv_step; [exact H|exact E| |apply good_error_sd]. apply Forall2_map_r. intros r. apply above_false.
Qed.

Definition clear_bit (i : Z) (r : prow) := forall v, r_flags r = Some v -> Z.testbit v i = false.
Lemma clear_bit_sd i : forall r r', same_data r r' -> (clear_bit i r' <-> clear_bit i r).
Proof. sd. unfold clear_bit. now rewrite E3. Qed.
Lemma land_pow2 i v : (0 <= i)%Z -> Z.land (2 ^ i) v = 0%Z <-> Z.testbit v i = false.
Proof.
  intros H. split.
  - intros E. destruct (Z.testbit v i) eqn:T; [|reflexivity]. assert (B : Z.testbit (Z.land (2 ^ i) v) i = true) by (rewrite Z.land_spec, Z.pow2_bits_true, T by lia; reflexivity).
    rewrite E, Z.bits_0 in B. discriminate.
  - intros T. apply Z.bits_inj'. intros j Hj. rewrite Z.land_spec, Z.bits_0, Z.pow2_bits_eqb by lia. destruct (Z.eqb_spec i j); [subst; now rewrite T|reflexivity].
Qed.
Lemma flag_step f i P t t' rest : bit f = Ok (2 ^ i)%Z -> (0 <= i)%Z -> I P t ->
  flags_loop en (f :: rest) t = Ok t' -> exists t1, I (fun r => P r /\ clear_bit i r) t1 /\ flags_loop en rest t1 = Ok t'.
Proof.
  intros B Hi H E. cbn [flags_loop] in E. rewrite B in E. cbn [rbind] in E. destruct (eliminate_rows _ _ _ _) as [t1|] eqn:E1; [|discriminate]. exists t1. split; [|exact E].
  eapply Inv_step; [exact H|exact E1| |apply clear_bit_sd]. apply Forall2_map_r. intros r. unfold clear_bit. destruct (r_flags r) as [v|]; [|split; [discriminate|reflexivity]].
  rewrite Bool.negb_false_iff, Z.eqb_eq, land_pow2 by exact Hi. split; [intros T w [= <-]; exact T|intros T; now apply T].
Qed.
Lemma movemask_names : all_names movemask = Ok ["THETA_STUCK"; "PHI_STUCK"; "FAILED_FIT"; "INVALID_TABLE"; "INVALID_AFTER_FILTER"].
Proof. vm_compute. reflexivity. Qed.
Lemma flags_Inv P t t' : I P t -> check_flags en t = Ok t' -> I (fun r => P r /\ good_flags r) t'.
Proof.
  intros H E. unfold check_flags in E. rewrite movemask_names in E. cbn [rbind] in E.
  destruct (flag_step "THETA_STUCK" 0 _ _ _ _ eq_refl ltac:(lia) H E) as (t1 & H1 & E1). destruct (flag_step "PHI_STUCK" 1 _ _ _ _ eq_refl ltac:(lia) H1 E1) as (t2 & H2 & E2).
  destruct (flag_step "FAILED_FIT" 2 _ _ _ _ eq_refl ltac:(lia) H2 E2) as (t3 & H3 & E3). destruct (flag_step "INVALID_TABLE" 3 _ _ _ _ eq_refl ltac:(lia) H3 E3) as (t4 & H4 & E4).
  destruct (flag_step "INVALID_AFTER_FILTER" 4 _ _ _ _ eq_refl ltac:(lia) H4 E4) as (t5 & H5 & E5). cbn in E5. apply Ok_inj in E5. subst t5. revert H5. apply Inv_ext. intros r. unfold clear_bit, good_flags. split.
  - intros (((((A & B0) & B1) & B2) & B3) & B4). split; [exact A|]. intros v i V Hi. assert (C : i = 0%Z \/ i = 1%Z \/ i = 2%Z \/ i = 3%Z \/ i = 4%Z) by lia.
    destruct C as [-> | [-> | [-> | [-> | ->]]]]; auto.
  - intros [A B]. repeat split; auto; intros v V; apply (B v _ V); lia.
Qed.

Lemma bounds_step tf k lo hi P t t' rest : dict_getE String.eqb default_bounds k = Ok (lo, hi) -> lo <= hi -> I P t ->
  bounds_loop en tf (k :: rest) t = Ok t' -> exists t1, I (fun r => P r /\ within lo hi tf (r_par r k)) t1 /\ bounds_loop en tf rest t1 = Ok t'.
Proof.
  intros B Hl H E. cbn [bounds_loop] in E. rewrite B in E. cbn [rbind fst snd] in E. rewrite (Rmin_left lo hi Hl), (Rmax_right lo hi Hl) in E.
  destruct (eliminate_rows _ _ _ _) as [t1|] eqn:E1; [|discriminate]. cbn [rbind] in E. destruct (eliminate_rows en t1 _ _) as [t2|] eqn:E2; [|discriminate]. cbn [rbind] in E. exists t2. split; [|exact E].
  assert (A1 : I (fun r => P r /\ (forall v, r_par r k = Some v -> lo + (hi - lo) * tf <= v)) t1).
  { eapply Inv_step; [exact H|exact E1| |]; [|intros r r' SD; now rewrite (par_sd r r' SD)]. apply Forall2_map_r. intros r. apply below_false. }
  assert (A2 : I (fun r => (P r /\ (forall v, r_par r k = Some v -> lo + (hi - lo) * tf <= v)) /\ (forall v, r_par r k = Some v -> v <= hi - (hi - lo) * tf)) t2).
  { eapply Inv_step; [exact A1|exact E2| |]; [|intros r r' SD; now rewrite (par_sd r r' SD)]. apply Forall2_map_r. intros r. apply above_false. }
  revert A2. apply Inv_ext. intros r. unfold within. split.
  - intros [[X Y] W]. split; [exact X|]. intros v V. split; auto.
  - intros [X Y]. split; [split; [exact X|]|]; intros v V; apply (Y v V).
Qed.
Lemma bounds_Inv P tf t t' : I P t -> check_static_fit_bounds en tf t = Ok t' -> I (fun r => P r /\ good_bounds tf r) t'.
Proof.
  intros H E. unfold check_static_fit_bounds, static_keys in E.
  destruct (bounds_step tf "LENGTH_R1" 2.5 3.5 _ _ _ _ eq_refl ltac:(lra) H E) as (t1 & H1 & E1). destruct (bounds_step tf "LENGTH_R2" 2.5 3.5 _ _ _ _ eq_refl ltac:(lra) H1 E1) as (t2 & H2 & E2).
  destruct (bounds_step tf "OFFSET_T" (-200) 200 _ _ _ _ eq_refl ltac:(lra) H2 E2) as (t3 & H3 & E3). destruct (bounds_step tf "OFFSET_P" (-30) 30 _ _ _ _ eq_refl ltac:(lra) H3 E3) as (t4 & H4 & E4).
  destruct (bounds_step tf "OFFSET_X" (-500) 500 _ _ _ _ eq_refl ltac:(lra) H4 E4) as (t5 & H5 & E5). destruct (bounds_step tf "OFFSET_Y" (-500) 500 _ _ _ _ eq_refl ltac:(lra) H5 E5) as (t6 & H6 & E6).
  cbn in E6. apply Ok_inj in E6. subst t6. revert H6. apply Inv_ext. intros r. unfold good_bounds. tauto.
Qed.

Lemma xy_fails_false n tol r b : xy_fails n tol r = Ok b -> (b = false <-> good_xy n tol r).
Proof.
  unfold xy_fails, good_xy. destruct (filter _ n) as [|[z [ex ey]] [|? ?]] eqn:F; try discriminate. intros E. apply Ok_inj in E. subst b. rewrite Bool.orb_false_iff, !outside_false. split.
  - intros A ex' ey' In'. assert (J : In (r_loc r, (ex', ey')) [(z, (ex, ey))]) by (rewrite <- F; apply filter_In; split; [exact In'|apply Z.eqb_refl]).
    destruct J as [J|[]]. injection J as _ -> ->. exact A.
  - intros A. assert (J : In (z, (ex, ey)) (filter (fun m => (fst m =? r_loc r)%Z) n)) by (rewrite F; left; reflexivity). apply filter_In in J. destruct J as [J Z]. apply Z.eqb_eq in Z. cbn in Z. subst z. now apply A.
Qed.
Lemma xy_Inv P n tol t t' : I P t -> check_xy_offsets (Ok n) en tol t = Ok t' -> I (fun r => P r /\ good_xy n tol r) t'.
Proof.
  intros H E. unfold check_xy_offsets in E. cbn [rbind] in E. destruct (rmapM _ t) as [del|] eqn:M; [|discriminate]. cbn [rbind] in E.
  eapply Inv_step; [exact H|exact E| |apply good_xy_sd]. apply rmapM_Ok_Forall2 in M. eapply Forall2_impl; [|exact M]. intros r b. apply xy_fails_false.
Qed.
Lemma arms_Inv P tol t t' : I P t -> check_arm_lengths en tol t = Ok t' -> I (fun r => P r /\ good_arms tol r) t'.
Proof.
  intros H E. unfold check_arm_lengths in E. change (dict_getE String.eqb default_values "LENGTH_R1") with (Ok 3) in E. change (dict_getE String.eqb default_values "LENGTH_R2") with (Ok 3) in E. cbn [rbind] in E.
  eapply Inv_step; [exact H|exact E| |apply good_arms_sd]. apply Forall2_map_r. intros r. rewrite Bool.orb_false_iff, !outside_false. reflexivity.
Qed.
Lemma missing_Inv P t t' w : I P t -> eliminate_rows en t (map r_missing t) w = Ok t' -> I (fun r => P r /\ r_missing r = false) t'.
Proof.
  intros H E. eapply Inv_step; [exact H|exact E| |intros r r' SD; destruct SD as (_ & SD & _); now rewrite SD]. apply Forall2_map_r. intros r. reflexivity.
Qed.
End Checks.

(** * One row for each positioner *)
Lemma where_from_filter {A} (f : A -> bool) l : forall k, List.length (where_from f k l) = List.length (filter f l).
Proof. induction l as [|a l IH]; intros k; cbn; [reflexivity|]. destruct (f a); cbn; now rewrite IH. Qed.
Lemma row_idxs_length t id : List.length (get_row_idxs t id) = List.length (rows_of id t).
Proof. apply where_from_filter. Qed.
Lemma where_from_In {A} (f : A -> bool) l : forall k i, In i (where_from f k l) <-> (k <= i)%nat /\ exists a, nth_error l (i - k) = Some a /\ f a = true.
Proof.
  induction l as [|a l IH]; intros k i; cbn.
  - split; [intros []|intros [_ (a & E & _)]; destruct (i - k)%nat; discriminate].
  - assert (R : In i (where_from f (S k) l) <-> (S k <= i)%nat /\ exists b, nth_error (a :: l) (i - k) = Some b /\ f b = true).
    { rewrite IH. split; intros [L (b & E & F)]; (split; [exact L|]); exists b; (split; [|exact F]).
      - replace (i - k)%nat with (S (i - S k)) by lia. exact E.
      - replace (i - k)%nat with (S (i - S k)) in E by lia. exact E. }
    destruct (f a) eqn:Fa; cbn; rewrite R.
    + split.
      * intros [->|[L B]]; [|split; [lia|exact B]]. split; [lia|]. rewrite Nat.sub_diag. exists a. auto.
      * intros [L (b & E & F)]. destruct (Nat.eq_dec k i) as [|N]; [auto|]. right. split; [lia|]. eauto.
    + split; [intros [L B]; split; [lia|exact B]|]. intros [L (b & E & F)]. split; [|eauto]. destruct (Nat.eq_dec k i) as [->|N]; [|lia]. rewrite Nat.sub_diag in E. cbn in E. congruence.
Qed.
Lemma row_idxs_In t id i : In i (get_row_idxs t id) <-> exists r, nth_error t i = Some r /\ r_id r = id.
Proof.
  unfold get_row_idxs, where_. rewrite where_from_In, Nat.sub_0_r. split; [intros [_ (r & E & F)]|intros (r & E & F)].
  - apply String.eqb_eq in F. eauto.
  - split; [lia|]. exists r. split; [exact E|]. now apply String.eqb_eq.
Qed.

(** rows kept by [remove_rows], as a recursion *)
Fixpoint kept_from (k : nat) (g : nat -> bool) (t : ptable) : ptable :=
  match t with [] => [] | r :: t' => if g k then r :: kept_from (S k) g t' else kept_from (S k) g t' end.
Lemma remove_rows_kept t idxs : remove_rows t idxs = kept_from 0 (fun i => negb (existsb (Nat.eqb i) idxs)) t.
Proof.
  unfold remove_rows, enum. generalize 0%nat. induction t as [|r t IH]; intros k; cbn; [reflexivity|]. rewrite <- IH. destruct (negb _); reflexivity.
Qed.
Lemma kept_sublist g t : forall k, sublist (kept_from k g t) t.
Proof. induction t as [|r t IH]; intros k; cbn; [constructor|]. destruct (g k); constructor; apply IH. Qed.
Lemma kept_rows_of g id t : forall k, (forall i r, nth_error t i = Some r -> r_id r = id -> g (k + i)%nat = true) -> rows_of id (kept_from k g t) = rows_of id t.
Proof.
  unfold rows_of. induction t as [|r t IH]; intros k H; cbn; [reflexivity|].
  assert (H' : forall i r', nth_error t i = Some r' -> r_id r' = id -> g (S k + i)%nat = true). { intros i r' E F. replace (S k + i)%nat with (k + S i)%nat by lia. now apply (H (S i) r'). }
  destruct (g k) eqn:G; cbn; rewrite (IH (S k) H'); [reflexivity|]. destruct (String.eqb_spec (r_id r) id) as [E|E]; [|reflexivity]. specialize (H 0%nat r eq_refl E). rewrite Nat.add_0_r in H. congruence.
Qed.
Lemma kept_filter g P t : forall k, (forall i r, nth_error t i = Some r -> g (k + i)%nat = P r) -> kept_from k g t = filter P t.
Proof.
  induction t as [|r t IH]; intros k H; cbn; [reflexivity|]. rewrite <- (IH (S k)).
  - specialize (H 0%nat r eq_refl). rewrite Nat.add_0_r in H. now rewrite H.
  - intros i r' E. replace (S k + i)%nat with (k + S i)%nat by lia. now apply H.
Qed.
Lemma existsb_nat_In i l : existsb (Nat.eqb i) l = true <-> In i l.
Proof.
  rewrite existsb_exists. split; [intros (x & H & E); apply Nat.eqb_eq in E; now subst|intros H; exists i; split; [exact H|apply Nat.eqb_refl]].
Qed.
Definition others (id : string) (t : ptable) : ptable := filter (fun r => negb (String.eqb (r_id r) id)) t.
Lemma remove_all t id : remove_rows t (get_row_idxs t id) = others id t.
Proof.
  rewrite remove_rows_kept. apply kept_filter. intros i r E. cbn. f_equal. apply Bool.eq_true_iff_eq. rewrite existsb_nat_In, row_idxs_In, String.eqb_eq. rewrite E. split; [intros (r' & [= <-] & F); exact F|eauto].
Qed.
Lemma remove_but t id k : remove_rows t (filter (fun i => negb (Nat.eqb i k)) (get_row_idxs t id)) =
  match nth_error t k with Some r => others id (firstn k t) ++ r :: others id (skipn (S k) t) | None => others id t end.
Proof.
  rewrite remove_rows_kept.
  assert (G : forall i r, nth_error t i = Some r -> negb (existsb (Nat.eqb i) (filter (fun i => negb (Nat.eqb i k)) (get_row_idxs t id))) = (Nat.eqb i k || negb (String.eqb (r_id r) id))%bool).
  { intros i r E. rewrite <- (Bool.negb_involutive (Nat.eqb i k)), <- Bool.negb_andb. f_equal. apply Bool.eq_true_iff_eq. rewrite existsb_nat_In, filter_In, row_idxs_In, Bool.andb_true_iff, String.eqb_eq, E.
    split; [intros [(r' & [= <-] & F) N]; auto|intros [N F]; eauto]. }
  set (g := fun i => negb (existsb _ _)). change (forall i r, nth_error t i = Some r -> g i = (Nat.eqb i k || negb (String.eqb (r_id r) id))%bool) in G. clearbody g.
  assert (Gen : forall j, (j <= k)%nat -> (forall i r, nth_error t i = Some r -> g (j + i)%nat = (Nat.eqb (j + i) k || negb (String.eqb (r_id r) id))%bool) ->
    kept_from j g t = match nth_error t (k - j) with Some r => others id (firstn (k - j) t) ++ r :: others id (skipn (S (k - j)) t) | None => others id t end).
  { clear G. induction t as [|a t IH]; intros j L G; [cbn; destruct (k - j)%nat; reflexivity|]. destruct (Nat.eq_dec j k) as [->|N].
    - rewrite Nat.sub_diag. cbn. pose proof (G 0%nat a eq_refl) as G0. rewrite Nat.add_0_r, Nat.eqb_refl in G0. cbn in G0. rewrite G0. f_equal. apply kept_filter. intros i r E.
      replace (S k + i)%nat with (k + S i)%nat by lia. rewrite (G (S i) r E). replace (Nat.eqb (k + S i) k) with false; [reflexivity|]. symmetry. apply Nat.eqb_neq. lia.
    - replace (k - j)%nat with (S (k - S j)) by lia. cbn [kept_from nth_error firstn skipn]. pose proof (G 0%nat a eq_refl) as G0. rewrite Nat.add_0_r in G0. replace (Nat.eqb j k) with false in G0 by (symmetry; now apply Nat.eqb_neq). cbn in G0.
      rewrite G0, (IH (S j)); [|lia|intros i r E; replace (S j + i)%nat with (j + S i)%nat by lia; now apply G]. unfold others. cbn [filter]. destruct (nth_error t (k - S j)); destruct (negb _); reflexivity. }
  rewrite (Gen 0%nat); [now rewrite Nat.sub_0_r|lia|exact G].
Qed.

Lemma rows_of_app id l m : rows_of id (l ++ m) = rows_of id l ++ rows_of id m.
Proof. apply filter_app. Qed.
Lemma rows_of_others id t : rows_of id (others id t) = [].
Proof. unfold rows_of, others. induction t as [|r t IH]; cbn; [reflexivity|]. destruct (String.eqb (r_id r) id) eqn:E; cbn; [exact IH|now rewrite E]. Qed.

Lemma str_of_nat_inj i j : str_of_nat i = str_of_nat j -> i = j.
Proof.
  unfold str_of_nat, str_of_N. intros H. apply (f_equal NilZero.uint_of_string) in H.
  assert (N : forall n, N.to_uint n <> Decimal.Nil). { intros [|p]; [discriminate|]. cbn. apply DecimalPos.Unsigned.to_uint_nonnil. }
  rewrite !NilZero.usu in H by apply N. injection H as H. apply DecimalN.Unsigned.to_uint_inj in H. lia.
Qed.
Lemma find_seq (f : nat -> bool) n k : find f (seq 0 n) = Some k -> (k < n)%nat /\ f k = true.
Proof. intros H. apply find_some in H as [H F]. apply in_seq in H. split; [lia|exact F]. Qed.
Lemma find_option n k : (k < n)%nat -> find (fun i => String.eqb (str_of_nat k) (str_of_nat i)) (seq 0 n) = Some k.
Proof.
  intros L. destruct (find _ _) as [j|] eqn:F.
  - apply find_seq in F as [_ E]. apply String.eqb_eq, str_of_nat_inj in E. now subst.
  - assert (J : In k (seq 0 n)) by (apply in_seq; lia). pose proof (find_none _ _ F k J) as E. cbv beta in E. rewrite String.eqb_refl in E. discriminate.
Qed.

Lemma resolve_spec t id : forall inp t' rest, resolve t id inp = Ok (t', rest) ->
  sublist t' t /\ (forall id', id' <> id -> rows_of id' t' = rows_of id' t) /\ incl rest inp /\ (List.length rest < List.length inp)%nat.
Proof.
  induction inp as [|s inp IH]; intros t' rest H; [discriminate|]. cbn [resolve] in H.
  assert (Rm : forall idxs, incl idxs (get_row_idxs t id) -> sublist (remove_rows t idxs) t /\ (forall id', id' <> id -> rows_of id' (remove_rows t idxs) = rows_of id' t)).
  { intros idxs Inc. rewrite remove_rows_kept. split; [apply kept_sublist|]. intros id' N. apply kept_rows_of. intros i r E F. apply Bool.negb_true_iff. apply Bool.not_true_iff_false. cbn. rewrite existsb_nat_In. intros A. apply Inc, row_idxs_In in A as (r' & E' & F'). congruence. }
  destruct (mem_str _ _).
  - apply Ok_inj in H. injection H as <- <-. destruct (Rm _ (incl_refl _)) as [A B]. split; [exact A|]. split; [exact B|]. split; [apply incl_tl, incl_refl|cbn; lia].
  - destruct (find _ _) as [k|].
    + destruct (Nat.eqb _ _); [|discriminate]. apply Ok_inj in H. injection H as <- <-. destruct (Rm (filter (fun i => negb (Nat.eqb i k)) (get_row_idxs t id)) ltac:(intros i A; apply filter_In in A; tauto)) as [A B].
      split; [exact A|]. split; [exact B|]. split; [apply incl_tl, incl_refl|cbn; lia].
    + apply IH in H as (A & B & C & D). split; [exact A|]. split; [exact B|]. split; [apply incl_tl, C|cbn; lia].
Qed.

Lemma uniqueness_loop_spec ids : forall t inp t' rest, uniqueness_loop ids t inp = Ok (t', rest) ->
  sublist t' t /\ (forall id, List.length (rows_of id t) = 1%nat -> rows_of id t' = rows_of id t) /\ incl rest inp /\ (List.length rest <= List.length inp)%nat.
Proof.
  induction ids as [|id ids IH]; intros t inp t' rest H; cbn [uniqueness_loop] in H.
  - apply Ok_inj in H. injection H as <- <-. split; [apply sublist_refl|]. split; [reflexivity|]. split; [apply incl_refl|lia].
  - destruct (Nat.eqb _ _) eqn:L; [now apply IH|]. destruct (resolve t id inp) as [[t1 i1]|] eqn:R; [|discriminate]. cbn [rbind fst snd] in H. apply resolve_spec in R as (A & B & C & D). apply IH in H as (A' & B' & C' & D').
    split; [exact (sublist_trans _ _ _ A' A)|]. split; [|split; [exact (incl_tran C' C)|lia]]. intros id' L'. assert (N : id' <> id). { intros ->. rewrite row_idxs_length, L' in L. discriminate. }
    rewrite <- (B id' N). apply B'. now rewrite (B id' N).
Qed.

Lemma dup_free_NoDup l : dup_free l = true -> NoDup l.
Proof.
  unfold dup_free. intros H. apply Nat.eqb_eq in H. rewrite <- (map_id l) in H at 2. rewrite map_id in H.
  assert (NoDup_len : forall m : list string, List.length (nodup string_dec m) = List.length m -> nodup string_dec m = m).
  { induction m as [|a m IH]; [reflexivity|]. cbn. destruct (in_dec string_dec a m) as [J|J]; cbn; intros E.
    - exfalso. assert (Le : (List.length (nodup string_dec m) <= List.length m)%nat). { clear. induction m as [|b m IH]; cbn; [lia|]. destruct (in_dec string_dec b m); cbn; lia. } lia.
    - f_equal. apply IH. lia. }
  rewrite <- (NoDup_len _ H). apply NoDup_nodup.
Qed.
Lemma uniqueness_spec so t inp t' rest : check_uniqueness so t inp = Ok (t', rest) -> one_each t t' /\ incl rest inp /\ (List.length rest <= List.length inp)%nat.
Proof.
  unfold check_uniqueness. destruct (uniqueness_loop _ _ _) as [[t1 i1]|] eqn:U; [|discriminate]. cbn [rbind fst]. destruct (dup_free _) eqn:D; [|discriminate]. intros H. apply Ok_inj in H. injection H as <- <-.
  apply uniqueness_loop_spec in U as (A & B & C & E). split; [|split; [exact C|exact E]]. split; [exact A|]. split; [now apply dup_free_NoDup|exact B].
Qed.

(** * Prompts *)
Lemma entered_lower s : mem_str (lower (entered s)) ["h"; "help"; "doc"; "man"] = mem_str (lower s) ["h"; "help"; "doc"; "man"] /\ mem_str (lower (entered s)) ["n"; "no"; "false"] = mem_str (lower s) ["n"; "no"; "false"] /\
  mem_str (lower (entered s)) ["y"; "yes"; "true"] = mem_str (lower s) ["y"; "yes"; "true"] /\ mem_str (lower (entered s)) ["exit"] = mem_str (lower s) ["exit"].
Proof. unfold entered. destruct (String.eqb_spec s "") as [->|N]; [|auto]. vm_compute. auto. Qed.

Lemma mem_str_In k l : mem_str k l = true <-> In k l.
Proof. unfold mem_str. rewrite existsb_exists. split; [intros (x & H & E); apply String.eqb_eq in E; now subst|intros H; exists k; split; [exact H|apply String.eqb_refl]]. Qed.

Lemma yesnohelp_line y n h e s rest : (y || n || h || e)%bool = true -> 
  yesnohelp y n h e (s :: rest) = match means s with
    | Some a => if (String.eqb a "help" && h)%bool then Ok ("help", rest) else if (String.eqb a "no" && n)%bool then Ok ("no", rest) else if (String.eqb a "yes" && y)%bool then Ok ("yes", rest)
                else if (String.eqb a "exit" && e)%bool then Err (SysExit 0) else yesnohelp true true true true rest
    | None => yesnohelp true true true true rest end.
Proof.
  intros O. destruct (entered_lower s) as (E1 & E2 & E3 & E4). cbn [yesnohelp]. rewrite O. cbn [negb]. rewrite E1, E2, E3, E4. unfold means.
  destruct (mem_str (lower s) ["h"; "help"; "doc"; "man"]) eqn:M1.
  - assert (M2 : mem_str (lower s) ["n"; "no"; "false"] = false /\ mem_str (lower s) ["y"; "yes"; "true"] = false /\ mem_str (lower s) ["exit"] = false).
    { apply mem_str_In in M1. destruct M1 as [M1|[M1|[M1|[M1|[]]]]]; rewrite <- M1; vm_compute; auto. }
    destruct M2 as (-> & -> & ->). rewrite !Bool.andb_false_r, Bool.andb_true_r. reflexivity.
  - rewrite Bool.andb_false_r. destruct (mem_str (lower s) ["n"; "no"; "false"]) eqn:M2.
    + assert (M3 : mem_str (lower s) ["y"; "yes"; "true"] = false /\ mem_str (lower s) ["exit"] = false).
      { apply mem_str_In in M2. destruct M2 as [M2|[M2|[M2|[]]]]; rewrite <- M2; vm_compute; auto. }
      destruct M3 as (-> & ->). rewrite !Bool.andb_false_r, Bool.andb_true_r. reflexivity.
    + rewrite Bool.andb_false_r. destruct (mem_str (lower s) ["y"; "yes"; "true"]) eqn:M3.
      * assert (M4 : mem_str (lower s) ["exit"] = false). { apply mem_str_In in M3. destruct M3 as [M3|[M3|[M3|[]]]]; rewrite <- M3; vm_compute; auto. }
        rewrite M4, Bool.andb_false_r, Bool.andb_true_r. reflexivity.
      * rewrite Bool.andb_false_r. destruct (mem_str (lower s) ["exit"]); [rewrite Bool.andb_true_r|rewrite Bool.andb_false_r]; reflexivity.
Qed.

Lemma means_values s a : means s = Some a -> a = "help" \/ a = "no" \/ a = "yes" \/ a = "exit".
Proof. unfold means. repeat (destruct (mem_str _ _); [intros [= <-]; auto|]). discriminate. Qed.

Lemma yesnohelp_all inp : yesnohelp true true true true inp =
  match first_answer inp with Some (a, rest) => if String.eqb a "exit" then Err (SysExit 0) else Ok (a, rest) | None => Err EOFError end.
Proof.
  induction inp as [|s inp IH]; [reflexivity|]. rewrite yesnohelp_line by reflexivity. cbn [first_answer]. destruct (means s) as [a|] eqn:M; [|exact IH].
  destruct (means_values s a M) as [-> | [-> | [-> | ->]]]; reflexivity.
Qed.
Lemma first_answer_rest inp a rest : first_answer inp = Some (a, rest) -> incl rest inp /\ (List.length rest < List.length inp)%nat.
Proof.
  revert a rest. induction inp as [|s inp IH]; intros a rest H; [discriminate|]. cbn in H. destruct (means s).
  - injection H as _ <-. split; [apply incl_tl, incl_refl|cbn; lia].
  - apply IH in H as [A B]. split; [now apply incl_tl|cbn; lia].
Qed.
Lemma yesnohelp_rest y n h e inp a rest : yesnohelp y n h e inp = Ok (a, rest) -> incl rest inp /\ (List.length rest < List.length inp)%nat.
Proof.
  intros H. destruct inp as [|s inp]; [cbn in H; destruct (negb _) in H; discriminate|]. destruct (y || n || h || e)%bool eqn:O; [|cbn in H; rewrite O in H; discriminate].
  rewrite yesnohelp_line in H by exact O.
  assert (T : yesnohelp true true true true inp = Ok (a, rest) -> incl rest (s :: inp) /\ (List.length rest < List.length (s :: inp))%nat).
  { rewrite yesnohelp_all. destruct (first_answer inp) as [[b r]|] eqn:F; [|discriminate]. destruct (String.eqb b "exit"); [discriminate|]. intros E. apply Ok_inj in E. injection E as -> ->. apply first_answer_rest in F as [A B]. split; [now apply incl_tl|cbn; lia]. }
  assert (D : forall b, Ok (b, inp) = Ok (a, rest) -> incl rest (s :: inp) /\ (List.length rest < List.length (s :: inp))%nat).
  { intros b E. apply Ok_inj in E. injection E as _ <-. split; [apply incl_tl, incl_refl|cbn; lia]. }
  destruct (means s) as [c|]; [|exact (T H)]. destruct (_ && h)%bool; [exact (D _ H)|]. destruct (_ && n)%bool; [exact (D _ H)|]. destruct (_ && y)%bool; [exact (D _ H)|]. destruct (_ && e)%bool; [discriminate|exact (T H)].
Qed.
Lemma yesnohelp_fuel y n h e inp : yesnohelp y n h e inp <> Err OutOfFuel.
Proof.
  destruct inp as [|s inp]; [cbn; destruct (negb _); discriminate|]. destruct (y || n || h || e)%bool eqn:O; [|cbn; rewrite O; discriminate]. rewrite yesnohelp_line by exact O.
  assert (T : yesnohelp true true true true inp <> Err OutOfFuel). { rewrite yesnohelp_all. destruct (first_answer inp) as [[b r]|]; [|discriminate]. destruct (String.eqb b "exit"); discriminate. }
  destruct (means s); [|exact T]. repeat (destruct (_ && _)%bool; [discriminate|]). exact T.
Qed.

Section Script.
Variables (so : list string -> list string) (s2f : string -> option R).

Lemma ask_number_spec inp o rest : ask_number s2f inp = Ok (o, rest) -> incl rest inp /\ (List.length rest < List.length inp)%nat /\ (forall x, o = Some x -> typed s2f inp x).
Proof.
  revert o rest. induction inp as [|s inp IH]; intros o rest H; [discriminate|]. cbn [ask_number] in H. destruct (mem_str _ _) eqn:M.
  - apply Ok_inj in H. injection H as <- <-. split; [apply incl_tl, incl_refl|]. split; [cbn; lia|discriminate].
  - destruct (String.eqb _ _); [discriminate|]. destruct (s2f (entered s)) as [x|] eqn:X.
    + apply Ok_inj in H. injection H as <- <-. split; [apply incl_tl, incl_refl|]. split; [cbn; lia|]. intros y [= <-]. exists s. split; [left; reflexivity|]. unfold entered in X, M. destruct (String.eqb_spec s "") as [->|N]; [cbn in M; discriminate|exact X].
    + apply IH in H as (A & B & C). split; [now apply incl_tl|]. split; [cbn; lia|]. intros x E. destruct (C x E) as (l & I & L). exists l. split; [right; exact I|exact L].
Qed.
Lemma ask_number_fuel inp : ask_number s2f inp <> Err OutOfFuel.
Proof. induction inp as [|s inp IH]; [discriminate|]. cbn [ask_number]. destruct (mem_str _ _); [discriminate|]. destruct (String.eqb _ _); [discriminate|]. destruct (s2f _); [discriminate|exact IH]. Qed.

(** the arguments, the first of which may have been replaced by a number typed *)
Definition adjusted (inp : list string) (kw kw' : kwargs) : Prop := kw' = kw \/ exists k v rest x, kw = (k, v) :: rest /\ kw' = (k, ANum x) :: rest /\ typed s2f inp x.
Lemma typed_incl i j x : incl i j -> typed s2f i x -> typed s2f j x.
Proof. intros I (s & A & B). exists s. auto. Qed.
Lemma adjusted_trans i j kw kw1 kw2 : incl i j -> adjusted j kw kw1 -> adjusted i kw1 kw2 -> adjusted j kw kw2.
Proof.
  intros I A B. destruct B as [->|(k & v & rest & x & -> & -> & T)]; [exact A|]. right. destruct A as [E|(k' & v' & rest' & x' & -> & E & T')].
  - subst kw. exists k, v, rest, x. repeat split; auto. exact (typed_incl _ _ _ I T).
  - injection E as -> _ ->. exists k', v', rest', x. repeat split; auto. exact (typed_incl _ _ _ I T).
Qed.

Lemma offer_spec fuel : forall kw inp b kw' rest, offer_adjustment s2f fuel kw inp = Ok (b, kw', rest) -> incl rest inp /\ (List.length rest < List.length inp)%nat /\ adjusted inp kw kw'.
Proof.
  induction fuel as [|fuel IH]; intros kw inp b kw' rest H; [discriminate|]. cbn [offer_adjustment] in H. destruct kw as [|[k v] kw].
  - destruct inp as [|s inp]; [discriminate|]. apply Ok_inj in H. injection H as <- <- <-. split; [apply incl_tl, incl_refl|]. split; [cbn; lia|]. left; reflexivity.
  - destruct (yesnohelp _ _ _ _ _) as [[a i1]|] eqn:Y; [|discriminate]. cbn [rbind fst snd] in H. apply yesnohelp_rest in Y as [A B]. destruct (String.eqb a "help").
    + apply IH in H as (A' & B' & C'). split; [exact (incl_tran A' A)|]. split; [lia|]. apply (adjusted_trans i1 _ _ ((k, v) :: kw)); auto. left; reflexivity.
    + destruct (String.eqb a "no"); [apply Ok_inj in H; injection H as <- <- <-; split; [exact A|]; split; [exact B|]; left; reflexivity|].
      destruct (ask_number _ i1) as [[o i2]|] eqn:N; [|discriminate]. cbn [rbind fst snd] in H. apply ask_number_spec in N as (A2 & B2 & C2). destruct o as [x|]; apply Ok_inj in H; injection H as <- <- <-.
      * split; [exact (incl_tran A2 A)|]. split; [lia|]. right. exists k, v, kw, x. split; [reflexivity|]. split; [cbn; now rewrite String.eqb_refl|]. exact (typed_incl _ _ _ A (C2 x eq_refl)).
      * split; [exact (incl_tran A2 A)|]. split; [lia|]. left; reflexivity.
Qed.
Lemma offer_fuel fuel : forall kw inp, (List.length inp < fuel)%nat -> offer_adjustment s2f fuel kw inp <> Err OutOfFuel.
Proof.
  induction fuel as [|fuel IH]; intros kw inp L; [lia|]. cbn [offer_adjustment]. destruct kw as [|[k v] kw]; [destruct inp; discriminate|]. destruct (yesnohelp true true true true inp) as [[a i1]|e] eqn:Y.
  - cbn [rbind fst snd]. apply yesnohelp_rest in Y as [_ B]. destruct (String.eqb a "help"); [apply IH; lia|]. destruct (String.eqb a "no"); [discriminate|]. destruct (ask_number s2f i1) as [[[x|] i2]|e] eqn:N; cbn; try discriminate. intros [= ->]. exact (ask_number_fuel _ N).
  - cbn. intros [= ->]. exact (yesnohelp_fuel _ _ _ _ _ Y).
Qed.

Variables (load : res (list (Z * (R * R)))) (en : bool).

Lemma run_rest f kw t inp t' rest : run so load en f kw t inp = Ok (t', rest) -> incl rest inp /\ (List.length rest <= List.length inp)%nat.
Proof.
  destruct f; cbn [run]; intros H; try (destruct (rbind _ _) as [t1|] in H; [|discriminate]; cbn [rmap] in H; apply Ok_inj in H; injection H as _ <-; split; [apply incl_refl|lia]).
  - destruct (check_flags en t) as [t1|] in H; [|discriminate]; cbn [rmap] in H; apply Ok_inj in H; injection H as _ <-; split; [apply incl_refl|lia].
  - apply uniqueness_spec in H. tauto.
Qed.

Lemma run_and_adjust_spec fuel f : forall kw t inp t' rest, run_and_adjust so s2f load en fuel f kw t inp = Ok (t', rest) ->
  incl rest inp /\ exists kw' i1 i2, adjusted inp kw kw' /\ incl i1 inp /\ run so load en f kw' t i1 = Ok (t', i2).
Proof.
  induction fuel as [|fuel IH]; intros kw t inp t' rest H; [discriminate|]. cbn [run_and_adjust] in H. destruct (run so load en f kw t inp) as [[t1 i1]|] eqn:Rn; [|discriminate]. cbn [rbind fst snd] in H.
  pose proof (run_rest _ _ _ _ _ _ Rn) as [A _]. destruct (offer_adjustment s2f (S (List.length i1)) kw i1) as [[[b kw1] i2]|] eqn:O; [|discriminate]. cbn [rbind fst snd] in H. apply offer_spec in O as (A2 & _ & C). destruct b.
  - apply IH in H as (A3 & kw' & j1 & j2 & Ad & J & Rn'). pose proof (incl_tran A2 A) as A12. split; [exact (incl_tran A3 A12)|]. exists kw', j1, j2. split; [|split; [exact (incl_tran J A12)|exact Rn']].
    apply (adjusted_trans i2 _ _ kw1); [exact A12| |exact Ad]. destruct C as [->|(k & v & r & x & -> & -> & T)]; [left; reflexivity|]. right. exists k, v, r, x. repeat split; auto. exact (typed_incl _ _ _ A T).
  - apply Ok_inj in H. injection H as <- <-. split; [exact (incl_tran A2 A)|]. exists kw, inp, i1. split; [left; reflexivity|]. split; [apply incl_refl|exact Rn].
Qed.

Lemma commit_rest fuel : forall inp b rest, ask_commit fuel inp = Ok (b, rest) -> incl rest inp.
Proof.
  induction fuel as [|fuel IH]; intros inp b rest H; [discriminate|]. cbn [ask_commit] in H. destruct (yesnohelp _ _ _ _ _) as [[a i1]|] eqn:Y; [|discriminate]. cbn [rbind fst snd] in H. apply yesnohelp_rest in Y as [A _].
  destruct (String.eqb a "help"); [exact (incl_tran (IH _ _ _ H) A)|]. destruct (String.eqb a "no"); apply Ok_inj in H; injection H as _ <-; exact A.
Qed.
End Script.

Lemma elim_ok en (f : prow -> bool) t w : exists t', eliminate_rows en t (map f t) w = Ok t'.
Proof. unfold eliminate_rows. rewrite map_length, Nat.eqb_refl. cbn. destruct en; eauto. Qed.

(** * The whole script *)
Section Whole.
Variables (so : list string -> list string) (s2f : string -> option R) (en : bool) (nominal : list (Z * (R * R))).

Lemma checks_spec input P t inp t' rest : Inv en input P t -> run_checks so s2f (Ok nominal) en checks t inp = Ok (t', rest) ->
  exists lim t1, limits_in_force s2f inp lim /\ incl rest inp /\ one_each t1 t' /\
    Inv en input (fun r => P r /\ good_outliers (l_outliers lim) r /\ good_error (l_error lim) r /\ good_flags r /\ good_bounds (l_tighten lim) r /\ good_xy nominal (l_xy lim) r /\ good_arms (l_arms lim) r) t1.
Proof.
  intros HI H. unfold checks in H. cbn [run_checks] in H.
  assert (Step : forall f kw t inp t' i2 (Q : list string -> ptable -> Prop) , run_and_adjust so s2f (Ok nominal) en (S (List.length inp)) f kw t inp = Ok (t', i2) -> incl i2 inp /\ exists kw' i1 i3, adjusted s2f inp kw kw' /\ incl i1 inp /\ run so (Ok nominal) en f kw' t i1 = Ok (t', i3)).
  { intros f kw t0 i t0' i2 Q E. exact (run_and_adjust_spec so s2f (Ok nominal) en _ _ _ _ _ _ _ E). }
  assert (NA : forall k v w rest i kw' (E : adjusted s2f i ((k, ANum v) :: rest) kw'), w = k -> exists x, kw' = (k, ANum x) :: rest /\ (x = v \/ typed s2f i x)).
  { intros k v w r i kw' [->|(k' & v' & r' & x & E & -> & T)] _; [eauto|]. injection E as <- _ <-. eauto. }
  destruct (run_and_adjust so s2f (Ok nominal) en _ F_num_outliers _ _ _) as [[t1 i1]|] eqn:R1; [|discriminate]. cbn [rbind fst snd] in H. apply (fun x => Step _ _ _ _ _ _ (fun _ _ => True) x) in R1 as (A1 & kw1 & j1 & q1 & Ad1 & J1 & R1).
  destruct (run_and_adjust so s2f (Ok nominal) en _ F_fit_error _ _ _) as [[t2 i2]|] eqn:R2; [|discriminate]. cbn [rbind fst snd] in H. apply (fun x => Step _ _ _ _ _ _ (fun _ _ => True) x) in R2 as (A2 & kw2 & j2 & q2 & Ad2 & J2 & R2).
  destruct (run_and_adjust so s2f (Ok nominal) en _ F_flags _ _ _) as [[t3 i3]|] eqn:R3; [|discriminate]. cbn [rbind fst snd] in H. apply (fun x => Step _ _ _ _ _ _ (fun _ _ => True) x) in R3 as (A3 & kw3 & j3 & q3 & Ad3 & J3 & R3).
  destruct (run_and_adjust so s2f (Ok nominal) en _ F_bounds _ _ _) as [[t4 i4]|] eqn:R4; [|discriminate]. cbn [rbind fst snd] in H. apply (fun x => Step _ _ _ _ _ _ (fun _ _ => True) x) in R4 as (A4 & kw4 & j4 & q4 & Ad4 & J4 & R4).
  destruct (run_and_adjust so s2f (Ok nominal) en _ F_xy _ _ _) as [[t5 i5]|] eqn:R5; [|discriminate]. cbn [rbind fst snd] in H. apply (fun x => Step _ _ _ _ _ _ (fun _ _ => True) x) in R5 as (A5 & kw5 & j5 & q5 & Ad5 & J5 & R5).
  destruct (run_and_adjust so s2f (Ok nominal) en _ F_arms _ _ _) as [[t6 i6]|] eqn:R6; [|discriminate]. cbn [rbind fst snd] in H. apply (fun x => Step _ _ _ _ _ _ (fun _ _ => True) x) in R6 as (A6 & kw6 & j6 & q6 & Ad6 & J6 & R6).
  destruct (run_and_adjust so s2f (Ok nominal) en _ F_unique _ _ _) as [[t7 i7]|] eqn:R7; [|discriminate]. cbn [rbind fst snd] in H. apply (fun x => Step _ _ _ _ _ _ (fun _ _ => True) x) in R7 as (A7 & kw7 & j7 & q7 & Ad7 & J7 & R7).
  apply Ok_inj in H. injection H as <- <-. clear Step.
  pose proof (incl_tran A2 A1) as B2. pose proof (incl_tran A3 B2) as B3. pose proof (incl_tran A4 B3) as B4. pose proof (incl_tran A5 B4) as B5. pose proof (incl_tran A6 B5) as B6. pose proof (incl_tran A7 B6) as B7.
  destruct (NA _ _ _ _ _ _ Ad1 eq_refl) as (x1 & -> & D1). destruct (NA _ _ _ _ _ _ Ad2 eq_refl) as (x2 & -> & D2). destruct (NA _ _ _ _ _ _ Ad4 eq_refl) as (x4 & -> & D4).
  destruct (NA _ _ _ _ _ _ Ad5 eq_refl) as (x5 & -> & D5). destruct (NA _ _ _ _ _ _ Ad6 eq_refl) as (x6 & -> & D6). clear NA.
  assert (Pure : forall (r : res ptable) (a b : ptable) (i j : list string), rmap (fun t' => (t', i)) r = Ok (b, j) -> r = Ok b). { intros [a|] ? ? ? ? E; [|discriminate]. cbn in E. apply Ok_inj in E. injection E as -> _. reflexivity. }
  cbn [run] in R1, R2, R3, R4, R5, R6, R7. apply (Pure _ t1) in R1, R2, R3, R4, R5, R6. cbn [rbind num_arg str_arg dict_get String.eqb] in R1, R2, R4, R5, R6.
  change (check_num_outliers en x1 "STATIC" t = Ok t1) in R1. change (check_fit_error en x2 "STATIC" t1 = Ok t2) in R2. change (check_static_fit_bounds en x4 t3 = Ok t4) in R4. change (check_xy_offsets (Ok nominal) en x5 t4 = Ok t5) in R5. change (check_arm_lengths en x6 t5 = Ok t6) in R6.
  apply (outliers_Inv en input _ _ _ _ HI) in R1. apply (error_Inv en input _ _ _ _ R1) in R2. apply (flags_Inv en input _ _ _ R2) in R3. apply (bounds_Inv en input _ _ _ _ R3) in R4. apply (xy_Inv en input _ _ _ _ _ R4) in R5. apply (arms_Inv en input _ _ _ _ R5) in R6.
  apply uniqueness_spec in R7 as (U & _). exists {| l_outliers := x1; l_error := x2; l_tighten := x4; l_xy := x5; l_arms := x6 |}, t6.
  split; [|split; [exact B7|split; [exact U|]]].
  - assert (M : forall x i v, incl i inp -> (x = v \/ typed s2f i x) -> (x = v \/ typed s2f inp x)). { intros x i v I [E|E]; [left; exact E|right; exact (typed_incl _ _ _ _ I E)]. }
    unfold limits_in_force. cbn. split; [exact D1|]. split; [exact (M _ _ _ A1 D2)|]. split; [exact (M _ _ _ B3 D4)|]. split; [exact (M _ _ _ B4 D5)|exact (M _ _ _ B5 D6)].
  - revert R6. apply Inv_ext. intros r. cbn. tauto.
Qed.

Lemma prepare_spec input inp out : prepare so s2f (Ok nominal) en input inp = Ok out ->
  exists lim t1 d i1 i2, limits_in_force s2f inp lim /\ Inv en input (acceptable nominal lim) t1 /\ one_each t1 (map fst out) /\
    commit_loop valid_keys i1 = Ok (d, i2) /\ incl i1 inp /\ (forall r c, In (r, c) out -> c = commits d r).
Proof.
  intros H. unfold prepare in H. destruct (eliminate_rows _ _ _ _) as [t0|] eqn:E0; [|discriminate]. cbn [rbind] in H.
  apply (missing_Inv en input _ _ _ _ (Inv_start en input)) in E0.
  assert (I1 : forall i1, (if en then rmap snd (yesnohelp true false false true inp) else Ok inp) = Ok i1 -> incl i1 inp).
  { intros i1 E. destruct en; [|apply Ok_inj in E; subst; apply incl_refl]. destruct (yesnohelp true false false true inp) as [[a r]|] eqn:Y; [|discriminate]. apply Ok_inj in E. cbn in E. subst r. apply yesnohelp_rest in Y. tauto. }
  destruct (if en then _ else _) as [i1|] in H, I1; [|discriminate]. specialize (I1 i1 eq_refl). cbn [rbind] in H.
  destruct (run_checks _ _ _ _ _ _ _) as [[t2 i2]|] eqn:RC; [|discriminate]. cbn [rbind fst snd] in H. destruct (commit_loop _ _) as [[d i3]|] eqn:CL; [|discriminate]. cbn [rbind fst] in H. apply Ok_inj in H. subst out.
  apply (checks_spec input _ _ _ _ _ E0) in RC as (lim & t1 & L & I2 & U & II). exists lim, t1, d, i2, i3. split; [|split; [|split; [|split; [exact CL|split; [exact (incl_tran I2 I1)|]]]]].
  - destruct L as (L1 & L2 & L3 & L4 & L5). assert (M : forall x v, (x = v \/ typed s2f i1 x) -> (x = v \/ typed s2f inp x)). { intros x v [E|E]; [left; exact E|right; exact (typed_incl _ _ _ _ I1 E)]. }
    unfold limits_in_force. split; [exact (M _ _ L1)|]. split; [exact (M _ _ L2)|]. split; [exact (M _ _ L3)|]. split; [exact (M _ _ L4)|exact (M _ _ L5)].
  - revert II. apply Inv_ext. intros r. unfold acceptable. tauto.
  - rewrite map_map. cbn. rewrite map_id. exact U.
  - intros r c J. apply in_map_iff in J as (r' & E & _). injection E as <- <-. reflexivity.
Qed.

Lemma commit_loop_spec keys : forall inp d rest, commit_loop keys inp = Ok (d, rest) -> map fst d = keys /\ (forall k b, In (k, b) d -> mem_str k skip_keys = true -> b = false).
Proof.
  induction keys as [|k keys IH]; intros inp d rest H; cbn [commit_loop] in H.
  - apply Ok_inj in H. injection H as <- _. split; [reflexivity|intros k b []].
  - destruct (mem_str k skip_keys) eqn:M.
    + cbn [rbind fst snd] in H. destruct (commit_loop keys inp) as [[d1 i1]|] eqn:C; [|discriminate]. cbn [rbind fst snd] in H. apply Ok_inj in H. injection H as <- _. apply IH in C as [A B]. split; [cbn; now rewrite A|]. intros k' b [E|J]; [now injection E|eauto].
    + destruct (ask_commit _ _) as [[b1 i0]|]; [|discriminate]. cbn [rbind fst snd] in H. destruct (commit_loop keys i0) as [[d1 i1]|] eqn:C; [|discriminate]. cbn [rbind fst snd] in H. apply Ok_inj in H. injection H as <- _. apply IH in C as [A B]. split; [cbn; now rewrite A|]. intros k' b [E|J] S; [injection E as <- _; congruence|eauto].
Qed.
End Whole.

(** * Fuel *)
Section Fuel.
Variables (so : list string -> list string) (s2f : string -> option R) (en : bool) (load : res (list (Z * (R * R)))).
Hypothesis LF : load <> Err OutOfFuel.
Lemma elim_fuel t bs w : eliminate_rows en t bs w <> Err OutOfFuel.
Proof. unfold eliminate_rows. destruct (negb _); [discriminate|]. destruct en; discriminate. Qed.
Lemma rbind_fuel {A B} (r : res A) (f : A -> res B) : r <> Err OutOfFuel -> (forall a, r = Ok a -> f a <> Err OutOfFuel) -> rbind r f <> Err OutOfFuel.
Proof. intros H F. destruct r as [a|e]; cbn; [now apply F|congruence]. Qed.
Lemma rmap_fuel {A B} (r : res A) (f : A -> B) : r <> Err OutOfFuel -> rmap f r <> Err OutOfFuel.
Proof. intros H. destruct r; cbn; congruence. Qed.
Lemma rmapM_fuel {A B} (f : A -> res B) l : (forall a, f a <> Err OutOfFuel) -> rmapM f l <> Err OutOfFuel.
Proof. intros H. induction l as [|a l IH]; cbn; [discriminate|]. apply rbind_fuel; [apply H|]. intros b _. apply rbind_fuel; [exact IH|discriminate]. Qed.
Lemma flags_fuel ns : (forall n, In n ns -> bit n <> Err OutOfFuel) -> forall t, flags_loop en ns t <> Err OutOfFuel.
Proof.
  induction ns as [|n ns IH]; intros B t; cbn [flags_loop]; [discriminate|]. apply rbind_fuel; [apply B; left; reflexivity|]. intros m _. apply rbind_fuel; [apply elim_fuel|]. intros t1 _. apply IH. intros k K. apply B. now right.
Qed.
Lemma dict_getE_fuel {V} (d : dict string V) k : dict_getE String.eqb d k <> Err OutOfFuel.
Proof. unfold dict_getE. destruct (dict_get _ _ _); discriminate. Qed.
Lemma bounds_fuel tf ks : forall t, bounds_loop en tf ks t <> Err OutOfFuel.
Proof.
  induction ks as [|k ks IH]; intros t; cbn [bounds_loop]; [discriminate|]. apply rbind_fuel; [apply dict_getE_fuel|]. intros mm _. apply rbind_fuel; [apply elim_fuel|]. intros t1 _. apply rbind_fuel; [apply elim_fuel|]. intros t2 _. apply IH.
Qed.
Lemma resolve_fuel t id inp : resolve t id inp <> Err OutOfFuel.
Proof. induction inp as [|s inp IH]; cbn [resolve]; [discriminate|]. destruct (mem_str _ _); [discriminate|]. destruct (find _ _); [|exact IH]. destruct (Nat.eqb _ _); discriminate. Qed.
Lemma uniqueness_fuel ids : forall t inp, uniqueness_loop ids t inp <> Err OutOfFuel.
Proof. induction ids as [|id ids IH]; intros t inp; cbn [uniqueness_loop]; [discriminate|]. destruct (Nat.eqb _ _); [apply IH|]. apply rbind_fuel; [apply resolve_fuel|]. intros [t1 i1] _. apply IH. Qed.
Lemma num_arg_fuel kw k : num_arg kw k <> Err OutOfFuel.
Proof. unfold num_arg. destruct (dict_get _ _ _) as [[|]|]; discriminate. Qed.
Lemma str_arg_fuel kw k : str_arg kw k <> Err OutOfFuel.
Proof. unfold str_arg. destruct (dict_get _ _ _) as [[|]|]; discriminate. Qed.
Lemma run_fuel f kw t inp : run so load en f kw t inp <> Err OutOfFuel.
Proof.
  destruct f; cbn [run]; try apply rmap_fuel; try (apply rbind_fuel; [apply num_arg_fuel|]; intros x _).
  - apply rbind_fuel; [apply str_arg_fuel|]. intros s _. unfold check_num_outliers. destruct (negb _); [discriminate|]. destruct (negb _); [discriminate|apply elim_fuel].
  - apply rbind_fuel; [apply str_arg_fuel|]. intros s _. apply elim_fuel.
  - unfold check_flags. rewrite movemask_names. cbn [rbind]. apply flags_fuel. intros n J. cbn in J. repeat (destruct J as [<-|J]; [vm_compute; discriminate|]). destruct J.
  - apply bounds_fuel.
  - unfold check_xy_offsets. apply rbind_fuel; [exact LF|]. intros n _. apply rbind_fuel; [|intros d _; apply elim_fuel]. apply rmapM_fuel. intros r. unfold xy_fails. destruct (filter _ n) as [|[z [a b]] [|? ?]]; discriminate.
  - unfold check_arm_lengths. apply rbind_fuel; [apply dict_getE_fuel|]. intros e1 _. apply rbind_fuel; [apply dict_getE_fuel|]. intros e2 _. apply elim_fuel.
  - unfold check_uniqueness. apply rbind_fuel; [apply uniqueness_fuel|]. intros ti _. destruct (dup_free _); discriminate.
Qed.
Lemma run_and_adjust_fuel fuel f : forall kw t inp, (List.length inp < fuel)%nat -> run_and_adjust so s2f load en fuel f kw t inp <> Err OutOfFuel.
Proof.
  induction fuel as [|fuel IH]; intros kw t inp L; [lia|]. cbn [run_and_adjust]. apply rbind_fuel; [apply run_fuel|]. intros [t1 i1] E. apply run_rest in E as [_ E]. cbn [snd fst].
  apply rbind_fuel; [apply offer_fuel; lia|]. intros [[b kw1] i2] O. apply offer_spec in O as (_ & B & _). cbn [fst snd]. destruct b; [|discriminate]. apply IH. lia.
Qed.
Lemma run_checks_fuel cs : forall t inp, run_checks so s2f load en cs t inp <> Err OutOfFuel.
Proof. induction cs as [|[f kw] cs IH]; intros t inp; cbn [run_checks]; [discriminate|]. apply rbind_fuel; [apply run_and_adjust_fuel; lia|]. intros ti _. apply IH. Qed.
Lemma ask_commit_fuel fuel : forall inp, (List.length inp < fuel)%nat -> ask_commit fuel inp <> Err OutOfFuel.
Proof.
  induction fuel as [|fuel IH]; intros inp L; [lia|]. cbn [ask_commit]. apply rbind_fuel; [apply yesnohelp_fuel|]. intros [a i1] Y. apply yesnohelp_rest in Y as [_ Y]. cbn [fst snd]. destruct (String.eqb a "help"); [apply IH; lia|]. destruct (String.eqb a "no"); discriminate.
Qed.
Lemma commit_loop_fuel ks : forall inp, commit_loop ks inp <> Err OutOfFuel.
Proof.
  induction ks as [|k ks IH]; intros inp; cbn [commit_loop]; [discriminate|]. apply rbind_fuel; [destruct (mem_str _ _); [discriminate|apply ask_commit_fuel; lia]|]. intros bi _. apply rbind_fuel; [apply IH|discriminate].
Qed.
Lemma prepare_fuel input inp : prepare so s2f load en input inp <> Err OutOfFuel.
Proof.
  unfold prepare. apply rbind_fuel; [apply elim_fuel|]. intros t1 _. apply rbind_fuel; [destruct en; [apply rmap_fuel, yesnohelp_fuel|discriminate]|]. intros i1 _. apply rbind_fuel; [apply run_checks_fuel|]. intros ti _. apply rbind_fuel; [apply commit_loop_fuel|discriminate].
Qed.
End Fuel.

(** * An operator who changes nothing *)
Definition from (input t : list prow) : Prop := exists m, sublist m input /\ Forall2 same_data m t.
Lemma from_start input : from input (map fresh_row input).
Proof. exists input. split; [apply sublist_refl|]. induction input; cbn; constructor; auto. apply same_data_fresh. Qed.
Lemma from_elim en input t bs w t' : from input t -> eliminate_rows en t bs w = Ok t' -> from input t'.
Proof.
  intros (m & S & F) E. unfold eliminate_rows in E. destruct (negb _) eqn:L; [discriminate|]. apply Bool.negb_false_iff, Nat.eqb_eq in L. destruct en; apply Ok_inj in E; subst t'.
  - exists m. split; [exact S|]. clear S. revert bs L. induction F; intros [|b bs] L; cbn in *; try discriminate; constructor; auto.
  - assert (G : exists m', sublist m' m /\ Forall2 same_data m' (map fst (filter (fun re => negb (snd re)) (combine t bs)))).
    { clear S. revert bs L. induction F as [|a b m t D F IH]; intros [|c bs] L; cbn in *; try discriminate; [exists []; split; constructor|]. destruct (IH bs ltac:(lia)) as (m' & S & F'). destruct c; cbn; [exists m'|exists (a :: m')]; split; try constructor; auto. }
    destruct G as (m' & S' & F'). exists m'. split; [exact (sublist_trans _ _ _ S' S)|exact F'].
Qed.
Definition same_rows input (r : res ptable) := exists t', r = Ok t' /\ from input t'.
Lemma elim_from en input f t w : from input t -> same_rows input (eliminate_rows en t (map f t) w).
Proof. intros H. destruct (elim_ok en f t w) as (t' & E). exists t'. split; [exact E|exact (from_elim _ _ _ _ _ _ H E)]. Qed.
Lemma flags_from en input ns : (forall n, In n ns -> exists m, bit n = Ok m) -> forall t, from input t -> same_rows input (flags_loop en ns t).
Proof.
  induction ns as [|n ns IH]; intros B t H; cbn [flags_loop]; [exists t; auto|]. destruct (B n (or_introl eq_refl)) as (m & ->). cbn [rbind].
  destruct (elim_from en input (fun r => match r_flags r with Some v => negb (Z.land m v =? 0)%Z | None => false end) t ("flag " ++ n)%string H) as (t1 & -> & H1). cbn [rbind]. apply IH; [|exact H1]. intros k K. apply B. now right.
Qed.
Lemma bounds_from en input tf ks : (forall k, In k ks -> exists mm, dict_getE String.eqb default_bounds k = Ok mm) -> forall t, from input t -> same_rows input (bounds_loop en tf ks t).
Proof.
  induction ks as [|k ks IH]; intros B t H; cbn [bounds_loop]; [exists t; auto|]. destruct (B k (or_introl eq_refl)) as (mm & ->). cbn [rbind].
  destruct (elim_from en input (fun r => below (r_par r k) (Rmin (fst mm) (snd mm) + (Rmax (fst mm) (snd mm) - Rmin (fst mm) (snd mm)) * tf)) t (k ++ " below min")%string H) as (t1 & -> & H1). cbn [rbind].
  destruct (elim_from en input (fun r => above (r_par r k) (Rmax (fst mm) (snd mm) - (Rmax (fst mm) (snd mm) - Rmin (fst mm) (snd mm)) * tf)) t1 (k ++ " above max")%string H1) as (t2 & -> & H2). cbn [rbind]. apply IH; [|exact H2]. intros j J. apply B. now right.
Qed.
Definition located (nominal : list (Z * (R * R))) (r : prow) : Prop := exists e, filter (fun n => (fst n =? r_loc r)%Z) nominal = [e].
Lemma xy_from en input nominal tol t : (forall r, In r input -> located nominal r) -> from input t -> same_rows input (check_xy_offsets (Ok nominal) en tol t).
Proof.
  intros Loc H. unfold check_xy_offsets. cbn [rbind]. assert (M : exists del, rmapM (xy_fails nominal tol) t = Ok del /\ List.length t = List.length del).
  { destruct H as (m & S & F). assert (Lm : forall r, In r m -> located nominal r) by (intros r J; apply Loc; exact (sublist_In _ _ _ S J)). clear S. induction F as [|a b m t D F IH]; [exists []; auto|].
    destruct (IH (fun r J => Lm r (or_intror J))) as (del & E & L). destruct (Lm a (or_introl eq_refl)) as ([z [ex ey]] & Fl). destruct D as (_ & _ & _ & D & _). cbn [rmapM]. unfold xy_fails at 1. rewrite D, Fl, E. cbn [rbind]. eexists. split; [reflexivity|cbn; now rewrite L]. }
  destruct M as (del & E & L). rewrite E. cbn [rbind]. unfold same_rows. destruct (eliminate_rows en t del "OFFSET_X or OFFSET_Y") as [t'|e] eqn:El; [exists t'; split; [reflexivity|exact (from_elim _ _ _ _ _ _ H El)]|].
  unfold eliminate_rows in El. rewrite L, Nat.eqb_refl in El. cbn in El. destruct en; discriminate.
Qed.
Lemma sublist_NoDup {A} (l m : list A) : sublist l m -> NoDup m -> NoDup l.
Proof.
  induction 1 as [|a l m S IH|a l m S IH]; intros N; [constructor| |]; inversion N; subst; auto. constructor; auto. intros J. apply H1. exact (sublist_In _ _ _ S J).
Qed.
Lemma from_NoDup input t : NoDup (map r_id input) -> from input t -> NoDup (map r_id t).
Proof.
  intros N (m & S & F). assert (E : map r_id t = map r_id m). { clear S. induction F as [|a b m t D F IH]; [reflexivity|]. cbn. rewrite IH. destruct D as [-> _]. reflexivity. }
  rewrite E. exact (sublist_NoDup _ _ (sublist_map r_id _ _ S) N).
Qed.
Lemma NoDup_one t id : NoDup (map r_id t) -> In id (map r_id t) -> List.length (rows_of id t) = 1%nat.
Proof.
  unfold rows_of. induction t as [|r t IH]; cbn; intros N J; [destruct J|]. inversion N; subst. destruct (String.eqb_spec (r_id r) id) as [E|E].
  - cbn. f_equal. subst id. assert (Z : filter (fun r0 => r_id r0 =? r_id r)%string t = []); [|now rewrite Z]. clear -H1. induction t as [|a t IH]; [reflexivity|]. cbn in *. destruct (String.eqb_spec (r_id a) (r_id r)); [exfalso; auto|apply IH; auto].
  - destruct J as [J|J]; [contradiction|]. now apply IH.
Qed.
Lemma uniqueness_quiet so t inp : enumerates_sets so -> NoDup (map r_id t) -> check_uniqueness so t inp = Ok (t, inp).
Proof.
  intros So N. unfold check_uniqueness. assert (U : forall ids, (forall id, In id ids -> In id (map r_id t)) -> uniqueness_loop ids t inp = Ok (t, inp)).
  { induction ids as [|id ids IH]; intros J; [reflexivity|]. cbn [uniqueness_loop]. rewrite row_idxs_length, (NoDup_one t id N (J id (or_introl eq_refl))). cbn. apply IH. intros i I. apply J. now right. }
  rewrite U; [|intros id J; now apply (proj2 (So (map r_id t)))]. cbn [rbind fst]. unfold dup_free. rewrite nodup_fixed_point by exact N. now rewrite Nat.eqb_refl.
Qed.

Definition quiet_answers : list string := ["no"; "no"; ""; "no"; "no"; "no"; ""].
Lemma adjust_no s2f so load en f k v kw t t' inp : run so load en f ((k, v) :: kw) t ("no" :: inp) = Ok (t', "no" :: inp) -> run_and_adjust so s2f load en (S (List.length ("no" :: inp))) f ((k, v) :: kw) t ("no" :: inp) = Ok (t', inp).
Proof. intros E. cbn [run_and_adjust]. rewrite E. reflexivity. Qed.
Lemma adjust_ack s2f so load en f t t' s inp : run so load en f [] t (s :: inp) = Ok (t', s :: inp) -> run_and_adjust so s2f load en (S (List.length (s :: inp))) f [] t (s :: inp) = Ok (t', inp).
Proof. intros E. cbn [run_and_adjust]. rewrite E. reflexivity. Qed.
Lemma quiet_checks so s2f nominal en input t rest : enumerates_sets so -> NoDup (map r_id input) -> (forall r, In r input -> located nominal r) -> from input t ->
  exists t', run_checks so s2f (Ok nominal) en checks t (quiet_answers ++ rest) = Ok (t', rest).
Proof.
  intros So N Loc H. unfold checks, quiet_answers. cbn [app run_checks].
  destruct (elim_from en input (fun r => above (num_outliers r "STATIC") 2) t "number of outliers" H) as (t1 & E1 & H1).
  rewrite (adjust_no _ _ _ _ _ _ _ _ _ t1). 2: { cbn [run]. change (rmap (fun t' => (t', "no" :: "no" :: "" :: "no" :: "no" :: "no" :: "" :: rest)) (check_num_outliers en 2 "STATIC" t) = Ok (t1, "no" :: "no" :: "" :: "no" :: "no" :: "no" :: "" :: rest)).
    unfold check_num_outliers. change (mem_str "STATIC" ["STATIC"; "DYNAMIC"]) with true. replace (Rleb 0 2) with true by (symmetry; apply Rleb_true; lra). cbn [negb]. now rewrite E1. }
  cbn [rbind fst snd]. destruct (elim_from en input (fun r => above (r_err r "STATIC") 0.03) t1 "FIT_ERROR" H1) as (t2 & E2 & H2).
  rewrite (adjust_no _ _ _ _ _ _ _ _ _ t2). 2: { cbn [run]. change (rmap (fun t' => (t', "no" :: "" :: "no" :: "no" :: "no" :: "" :: rest)) (check_fit_error en 0.03 "STATIC" t1) = Ok (t2, "no" :: "" :: "no" :: "no" :: "no" :: "" :: rest)).
    unfold check_fit_error. change ("STATIC" =? "STATIC")%string with true. cbv iota. now rewrite E2. }
  cbn [rbind fst snd]. destruct (flags_from en input ["THETA_STUCK"; "PHI_STUCK"; "FAILED_FIT"; "INVALID_TABLE"; "INVALID_AFTER_FILTER"]) with (t := t2) as (t3 & E3 & H3); [intros n J; cbn in J; repeat (destruct J as [<-|J]; [eexists; reflexivity|]); destruct J|exact H2|].
  rewrite (adjust_ack _ _ _ _ _ _ t3). 2: { cbn [run]. unfold check_flags. rewrite movemask_names. cbn [rbind]. now rewrite E3. }
  cbn [rbind fst snd]. destruct (bounds_from en input 0.001 static_keys) with (t := t3) as (t4 & E4 & H4); [intros k J; cbn in J; repeat (destruct J as [<-|J]; [eexists; reflexivity|]); destruct J|exact H3|].
  rewrite (adjust_no _ _ _ _ _ _ _ _ _ t4). 2: { cbn [run]. change (rmap (fun t' => (t', "no" :: "no" :: "no" :: "" :: rest)) (check_static_fit_bounds en 0.001 t3) = Ok (t4, "no" :: "no" :: "no" :: "" :: rest)). unfold check_static_fit_bounds. now rewrite E4. }
  cbn [rbind fst snd]. destruct (xy_from en input nominal 0.5 t4 Loc H4) as (t5 & E5 & H5).
  rewrite (adjust_no _ _ _ _ _ _ _ _ _ t5). 2: { cbn [run]. change (rmap (fun t' => (t', "no" :: "no" :: "" :: rest)) (check_xy_offsets (Ok nominal) en 0.5 t4) = Ok (t5, "no" :: "no" :: "" :: rest)). now rewrite E5. }
  cbn [rbind fst snd]. destruct (elim_from en input (fun r => (outside (r_par r "LENGTH_R1") 3 0.5 || outside (r_par r "LENGTH_R2") 3 0.5)%bool) t5 "LENGTH_R1 or LENGTH_R2" H5) as (t6 & E6 & H6).
  rewrite (adjust_no _ _ _ _ _ _ _ _ _ t6). 2: { cbn [run]. change (rmap (fun t' => (t', "no" :: "" :: rest)) (check_arm_lengths en 0.5 t5) = Ok (t6, "no" :: "" :: rest)).
    unfold check_arm_lengths. change (dict_getE String.eqb default_values "LENGTH_R1") with (Ok 3). change (dict_getE String.eqb default_values "LENGTH_R2") with (Ok 3). cbn [rbind]. now rewrite E6. }
  cbn [rbind fst snd]. rewrite (adjust_ack _ _ _ _ _ _ t6). 2: { cbn [run]. apply uniqueness_quiet; [exact So|]. exact (from_NoDup _ _ N H6). }
  cbn [rbind fst snd]. eauto.
Qed.
Lemma prepare_quiet so s2f nominal en input : enumerates_sets so -> NoDup (map r_id input) -> (forall r, In r input -> located nominal r) ->
  exists out, prepare so s2f (Ok nominal) en input ((if en then ["yes"] else []) ++ quiet_answers ++ repeat "yes" 7) = Ok out.
Proof.
  intros So N Loc. unfold prepare. destruct (elim_from en input r_missing (map fresh_row input) "paramfits file missing required value(s)" (from_start input)) as (t1 & -> & H1). cbn [rbind].
  assert (Y : (if en then rmap snd (yesnohelp true false false true ((if en then ["yes"] else []) ++ quiet_answers ++ repeat "yes" 7)) else Ok ((if en then ["yes"] else []) ++ quiet_answers ++ repeat "yes" 7)) = Ok (quiet_answers ++ repeat "yes" 7)) by (destruct en; reflexivity).
  rewrite Y. cbn [rbind]. destruct (quiet_checks so s2f nominal en input t1 (repeat "yes" 7) So N Loc H1) as (t2 & ->). cbn [rbind snd]. eexists. reflexivity.
Qed.

(** * A dialogue in which limits are changed *)
Lemma adjust_to s2f so load en f k d kw t (chk : R -> res ptable) o x t0 t' inp :
  (forall y i, run so load en f ((k, ANum y) :: kw) t i = rmap (fun t' => (t', i)) (chk y)) -> sets s2f d o x -> chk d = Ok t0 -> chk x = Ok t' ->
  run_and_adjust so s2f load en (S (List.length (lines_for o ++ inp))) f ((k, ANum d) :: kw) t (lines_for o ++ inp) = Ok (t', inp).
Proof.
  intros E V C0 C1. destruct o as [s|]; cbn [sets] in V.
  - destruct V as (F & D & B). cbn [lines_for app]. set (inp3 := "yes" :: s :: "no" :: inp) in *. replace (S (List.length inp3)) with (S (S (S (S (List.length inp))))) by reflexivity. cbn [run_and_adjust]. rewrite E, C0. cbn [rmap rbind snd fst]. unfold inp3. clear inp3.
    assert (A : entered s = s). { unfold entered. destruct (String.eqb_spec s ""); [exfalso; apply B; left; congruence|reflexivity]. }
    assert (O : offer_adjustment s2f (S (List.length ("yes" :: s :: "no" :: inp))) ((k, ANum d) :: kw) ("yes" :: s :: "no" :: inp) = Ok (true, (k, ANum x) :: kw, "no" :: inp)).
    { cbn [offer_adjustment]. change (yesnohelp true true true true ("yes" :: s :: "no" :: inp)) with (@Ok (string * list string) ("yes", s :: "no" :: inp)). cbn [rbind fst snd]. change ("yes" =? "help")%string with false. change ("yes" =? "no")%string with false. cbv iota.
      cbn [ask_number]. rewrite A. destruct (mem_str s blank_responses) eqn:M; [exfalso; apply B; apply mem_str_In in M; destruct M as [<-|[<-|[]]]; cbn; auto|]. destruct (String.eqb_spec s "exit") as [X|X]; [exfalso; apply B; subst; cbn; auto|]. rewrite F. cbn [rbind fst snd]. unfold arg_eqb. destruct (Reqb x d) eqn:Q; [apply Reqb_true in Q; contradiction|]. cbn [negb dict_set]. rewrite String.eqb_refl. reflexivity. }
    rewrite O. cbn [rbind fst snd]. rewrite E, C1. reflexivity.
  - subst x. cbn [lines_for app]. apply adjust_no. rewrite E, C1. reflexivity.
Qed.
Definition dialogue (o1 o2 o4 o5 o6 : option string) : list string := lines_for o1 ++ lines_for o2 ++ [""] ++ lines_for o4 ++ lines_for o5 ++ lines_for o6 ++ [""].
Lemma outliers_from en input tol t : 0 <= tol -> from input t -> same_rows input (check_num_outliers en tol "STATIC" t).
Proof.
  intros T H. unfold check_num_outliers. change (mem_str "STATIC" ["STATIC"; "DYNAMIC"]) with true. replace (Rleb 0 tol) with true by (symmetry; apply Rleb_true; lra). cbn [negb]. apply elim_from. exact H.
Qed.
Lemma arms_from en input tol t : from input t -> same_rows input (check_arm_lengths en tol t).
Proof.
  intros H. unfold check_arm_lengths. change (dict_getE String.eqb default_values "LENGTH_R1") with (Ok 3). change (dict_getE String.eqb default_values "LENGTH_R2") with (Ok 3). cbn [rbind]. apply elim_from. exact H.
Qed.
Lemma flags_all_from en input t : from input t -> same_rows input (check_flags en t).
Proof. intros H. unfold check_flags. rewrite movemask_names. cbn [rbind]. apply flags_from; [intros n J; cbn in J; repeat (destruct J as [<-|J]; [eexists; reflexivity|]); destruct J|exact H]. Qed.
Lemma bounds_all_from en input tf t : from input t -> same_rows input (check_static_fit_bounds en tf t).
Proof. intros H. apply bounds_from; [intros k J; cbn in J; repeat (destruct J as [<-|J]; [eexists; reflexivity|]); destruct J|exact H]. Qed.
Lemma dialogue_checks so s2f nominal en input P t rest o1 o2 o4 o5 o6 lim : enumerates_sets so -> NoDup (map r_id input) -> (forall r, In r input -> located nominal r) -> from input t -> Inv en input P t ->
  sets s2f 2 o1 (l_outliers lim) -> 0 <= l_outliers lim -> sets s2f 0.03 o2 (l_error lim) -> sets s2f 0.001 o4 (l_tighten lim) -> sets s2f 0.5 o5 (l_xy lim) -> sets s2f 0.5 o6 (l_arms lim) ->
  exists t', run_checks so s2f (Ok nominal) en checks t (dialogue o1 o2 o4 o5 o6 ++ rest) = Ok (t', rest) /\
    Inv en input (fun r => P r /\ good_outliers (l_outliers lim) r /\ good_error (l_error lim) r /\ good_flags r /\ good_bounds (l_tighten lim) r /\ good_xy nominal (l_xy lim) r /\ good_arms (l_arms lim) r) t'.
Proof.
  intros So N Loc H HI V1 P1 V2 V4 V5 V6. destruct lim as [x1 x2 x4 x5 x6]. cbn [l_outliers l_error l_tighten l_xy l_arms] in *. unfold checks, dialogue. rewrite <- !app_assoc. cbn [run_checks].
  destruct (outliers_from en input 2 t ltac:(lra) H) as (t1' & E1' & _). destruct (outliers_from en input x1 t P1 H) as (t1 & E1 & H1).
  rewrite (adjust_to s2f so (Ok nominal) en F_num_outliers "tol" 2 [("key", AStr "STATIC")] t (fun y => check_num_outliers en y "STATIC" t) o1 x1 t1' t1 _ (fun y i => eq_refl) V1 E1' E1). cbn [rbind fst snd].
  destruct (elim_from en input (fun r => above (r_err r "STATIC") 0.03) t1 "FIT_ERROR" H1) as (t2' & E2' & _). destruct (elim_from en input (fun r => above (r_err r "STATIC") x2) t1 "FIT_ERROR" H1) as (t2 & E2 & H2).
  rewrite (adjust_to s2f so (Ok nominal) en F_fit_error "tol" 0.03 [("key", AStr "STATIC")] t1 (fun y => check_fit_error en y "STATIC" t1) o2 x2 t2' t2 _ (fun y i => eq_refl) V2 E2' E2). cbn [rbind fst snd app].
  destruct (flags_all_from en input t2 H2) as (t3 & E3 & H3). rewrite (adjust_ack _ _ _ _ _ _ t3) by (cbn [run]; now rewrite E3). cbn [rbind fst snd].
  destruct (bounds_all_from en input 0.001 t3 H3) as (t4' & E4' & _). destruct (bounds_all_from en input x4 t3 H3) as (t4 & E4 & H4).
  rewrite (adjust_to s2f so (Ok nominal) en F_bounds "tighten_factor" 0.001 [] t3 (fun y => check_static_fit_bounds en y t3) o4 x4 t4' t4 _ (fun y i => eq_refl) V4 E4' E4). cbn [rbind fst snd].
  destruct (xy_from en input nominal 0.5 t4 Loc H4) as (t5' & E5' & _). destruct (xy_from en input nominal x5 t4 Loc H4) as (t5 & E5 & H5).
  rewrite (adjust_to s2f so (Ok nominal) en F_xy "tol" 0.5 [] t4 (fun y => check_xy_offsets (Ok nominal) en y t4) o5 x5 t5' t5 _ (fun y i => eq_refl) V5 E5' E5). cbn [rbind fst snd].
  destruct (arms_from en input 0.5 t5 H5) as (t6' & E6' & _). destruct (arms_from en input x6 t5 H5) as (t6 & E6 & H6).
  rewrite (adjust_to s2f so (Ok nominal) en F_arms "tol" 0.5 [] t5 (fun y => check_arm_lengths en y t5) o6 x6 t6' t6 _ (fun y i => eq_refl) V6 E6' E6). cbn [rbind fst snd app].
  rewrite (adjust_ack _ _ _ _ _ _ t6). 2: { cbn [run]. apply uniqueness_quiet; [exact So|]. exact (from_NoDup _ _ N H6). }
  cbn [rbind fst snd]. exists t6. split; [reflexivity|].
  apply (outliers_Inv en input _ _ _ _ HI) in E1. apply (error_Inv en input _ _ _ _ E1) in E2. apply (flags_Inv en input _ _ _ E2) in E3. apply (bounds_Inv en input _ _ _ _ E3) in E4. apply (xy_Inv en input _ _ _ _ _ E4) in E5. apply (arms_Inv en input _ _ _ _ E5) in E6.
  revert E6. apply Inv_ext. intros r. cbn. tauto.
Qed.
Lemma commit_yn fuel b rest : ask_commit (S fuel) (yes_or_no b :: rest) = Ok (b, rest).
Proof. destruct b; reflexivity. Qed.
Lemma commit_ask k ks b rest : mem_str k skip_keys = false -> commit_loop (k :: ks) (yes_or_no b :: rest) = rbind (commit_loop ks rest) (fun di => Ok ((k, b) :: fst di, snd di)).
Proof. intros M. cbn [commit_loop]. rewrite M, commit_yn. reflexivity. Qed.
Lemma commit_skip k ks inp : mem_str k skip_keys = true -> commit_loop (k :: ks) inp = rbind (commit_loop ks inp) (fun di => Ok ((k, false) :: fst di, snd di)).
Proof. intros M. cbn [commit_loop]. rewrite M. reflexivity. Qed.
Lemma commit_answers answers : List.length answers = 7%nat -> exists d, commit_loop valid_keys (map yes_or_no answers) = Ok (d, []) /\ map fst d = valid_keys /\ forall k b, In (k, b) d -> b = answer_for answers k.
Proof.
  intros L. destruct answers as [|b1 [|b2 [|b3 [|b4 [|b5 [|b6 [|b7 [|]]]]]]]]; try discriminate L.
  exists [("LENGTH_R1", b1); ("LENGTH_R2", b2); ("OFFSET_T", b3); ("OFFSET_P", b4); ("OFFSET_X", b5); ("OFFSET_Y", b6); ("SCALE_T", false); ("SCALE_P", false); ("PHYSICAL_RANGE_T", false); ("PHYSICAL_RANGE_P", false); (disable_key, b7)]. split; [|split].
  - unfold valid_keys. cbn [map].
    rewrite (commit_ask "LENGTH_R1"), (commit_ask "LENGTH_R2"), (commit_ask "OFFSET_T"), (commit_ask "OFFSET_P"), (commit_ask "OFFSET_X"), (commit_ask "OFFSET_Y"), (commit_skip "SCALE_T"), (commit_skip "SCALE_P"), (commit_skip "PHYSICAL_RANGE_T"), (commit_skip "PHYSICAL_RANGE_P"), (commit_ask disable_key) by reflexivity. reflexivity.
  - reflexivity.
  - intros k b J. cbn in J. repeat (destruct J as [J|J]; [injection J as <- <-; cbn; rewrite ?Bool.orb_false_r; reflexivity|]). destruct J.
Qed.
Lemma prepare_dialogue so s2f nominal en input o1 o2 o4 o5 o6 lim answers : enumerates_sets so -> NoDup (map r_id input) -> (forall r, In r input -> located nominal r) ->
  sets s2f 2 o1 (l_outliers lim) -> 0 <= l_outliers lim -> sets s2f 0.03 o2 (l_error lim) -> sets s2f 0.001 o4 (l_tighten lim) -> sets s2f 0.5 o5 (l_xy lim) -> sets s2f 0.5 o6 (l_arms lim) ->
  List.length answers = 7%nat ->
  exists t d, prepare so s2f (Ok nominal) en input ((if en then ["yes"] else []) ++ dialogue o1 o2 o4 o5 o6 ++ map yes_or_no answers) = Ok (map (fun r => (r, commits d r)) t) /\
    Inv en input (acceptable nominal lim) t /\ map fst d = valid_keys /\ forall k b, In (k, b) d -> b = answer_for answers k.
Proof.
  intros So N Loc V1 P1 V2 V4 V5 V6 L. unfold prepare. destruct (elim_from en input r_missing (map fresh_row input) "paramfits file missing required value(s)" (from_start input)) as (t1 & E0 & H1). rewrite E0. cbn [rbind].
  apply (missing_Inv en input _ _ _ _ (Inv_start en input)) in E0. set (inp := dialogue o1 o2 o4 o5 o6 ++ map yes_or_no answers).
  assert (Y : (if en then rmap snd (yesnohelp true false false true ((if en then ["yes"] else []) ++ inp)) else Ok ((if en then ["yes"] else []) ++ inp)) = Ok inp) by (destruct en; reflexivity).
  rewrite Y. cbn [rbind]. destruct (dialogue_checks so s2f nominal en input _ t1 (map yes_or_no answers) o1 o2 o4 o5 o6 lim So N Loc H1 E0 V1 P1 V2 V4 V5 V6) as (t2 & E2 & I2). unfold inp. rewrite E2. cbn [rbind snd].
  destruct (commit_answers answers L) as (d & -> & K & B). cbn [rbind fst snd]. exists t2, d. split; [reflexivity|]. split; [|auto]. revert I2. apply Inv_ext. intros r. unfold acceptable. tauto.
Qed.
