(** C55: merge_posparams. *)
From Verif.Model Require Import MergePosparams.
From Verif.Proofs Require Import Prelude Stats.
From Coq Require Import String Reals.
Local Open Scope Z_scope.
Local Open Scope string_scope.
Local Open Scope list_scope.

(** What the statements are about: the rows of the input tables, each with its table; the three columns describing the move; the four indices. *)
Definition input_rows (inputs : list mtable) : list (mtable * (string -> value)) := flat_map (fun t => map (pair t) (m_rows t)) inputs.
Definition moves : list string := ["MOVE_CMD"; "MOVE_VAL1"; "MOVE_VAL2"].
Definition indices : list string := ["LOCATION"; "DEVICE_LOC"; "PETAL_LOC"; "PETAL_ID"].
Definition some_input_has (inputs : list mtable) (k : string) : Prop := exists t, In t inputs /\ m_rows t <> [] /\ In k (m_cols t).
(** a column which holds no text and no decimal number in any row of the table *)
Definition no_text (t : mtable) (k : string) : Prop := forall r, In r (m_rows t) -> r k = VMask \/ exists z, r k = VInt z.
(** [q] is the last row of the metrology table for this device *)
Definition last_entry (m : list mrow) (id : string) (q : mrow) : Prop := exists a b, m = a ++ q :: b /\ q_id q = id /\ Forall (fun q' => q_id q' <> id) b.

Lemma has_col_In t k : has_col t k = true <-> In k (m_cols t).
Proof. unfold has_col. rewrite existsb_exists. split; [intros (x & J & E); apply String.eqb_eq in E; now subst|intros J; exists k; split; [exact J|apply String.eqb_refl]]. Qed.
Lemma add_col_In cols k j : In j (add_col cols k) <-> In j cols \/ j = k.
Proof.
  unfold add_col. destruct (existsb (String.eqb k) cols) eqn:E.
  - split; [auto|]. intros [ | -> ]; [assumption|]. apply existsb_exists in E as (x & J & E). apply String.eqb_eq in E. now subst.
  - rewrite in_app_iff. cbn. intuition.
Qed.
Lemma Forall2_map_r {A B C} (P : A -> C -> Prop) (f : B -> C) l m : Forall2 (fun a b => P a (f b)) l m -> Forall2 P l (map f m).
Proof. induction 1; cbn; constructor; auto. Qed.
Lemma Forall2_id {A} (P : A -> A -> Prop) l : (forall a, In a l -> P a a) -> Forall2 P l l.
Proof. induction l; constructor; [apply H; now left|apply IHl; intros; apply H; now right]. Qed.
Lemma Forall2_comp {A B C} (P : A -> B -> Prop) (Q : B -> C -> Prop) l m n : Forall2 P l m -> Forall2 Q m n -> Forall2 (fun a c => exists b, P a b /\ Q b c) l n.
Proof. intros F. revert n. induction F; intros n G; inversion G; subst; constructor; eauto. Qed.
Lemma Forall2_weak {A B} (P Q : A -> B -> Prop) l m : (forall a b, In a l -> P a b -> Q a b) -> Forall2 P l m -> Forall2 Q l m.
Proof. intros H F. induction F; constructor; [apply H; [now left|assumption]|apply IHF; intros; apply H; [now right|assumption]]. Qed.

Definition after_fix (t : mtable) (ks : list string) (r r' : string -> value) : Prop :=
  forall j, r' j = if (existsb (String.eqb j) ks && has_col t j && int_col t j)%bool then VStr "none" else r j.
Lemma fix_move_cols t k : m_cols (fix_move t k) = m_cols t.
Proof. unfold fix_move. destruct (has_col t k) eqn:E; [|reflexivity]. destruct (int_col t k); [|reflexivity]. cbn. unfold add_col. unfold has_col in E. now rewrite E. Qed.
Lemma fix_move_rows t k : Forall2 (after_fix t [k]) (m_rows t) (m_rows (fix_move t k)).
Proof.
  unfold fix_move, after_fix. destruct (has_col t k && int_col t k)%bool eqn:E.
  - cbn. apply Forall2_map_r, Forall2_id. intros r _ j. unfold set_cell. cbn [existsb]. rewrite Bool.orb_false_r. destruct (String.eqb_spec j k) as [->|]; [cbn [andb]; now rewrite E|reflexivity].
  - apply Forall2_id. intros r _ j. cbn [existsb]. rewrite Bool.orb_false_r. destruct (String.eqb_spec j k) as [->|]; [cbn [andb]; now rewrite E|reflexivity].
Qed.
Lemma forallb_rel {A} (P : A -> A -> Prop) (f : A -> bool) l m : (forall a b, P a b -> f a = f b) -> Forall2 P l m -> forallb f l = forallb f m.
Proof. intros H. induction 1; cbn; [reflexivity|]. now rewrite (H _ _ H0), IHForall2. Qed.
Lemma fix_moves_rel ks : NoDup ks -> forall t, m_cols (fold_left fix_move ks t) = m_cols t /\ Forall2 (after_fix t ks) (m_rows t) (m_rows (fold_left fix_move ks t)).
Proof.
  induction ks as [|k ks IH]; intros N t; cbn [fold_left]; [split; [reflexivity|]; apply Forall2_id; intros r _ j; reflexivity|].
  inversion N as [|? ? Nk Nks]; subst. destruct (IH Nks (fix_move t k)) as [C F]. rewrite fix_move_cols in C. split; [exact C|].
  pose proof (fix_move_rows t k) as F1. pose proof (Forall2_comp _ _ _ _ _ F1 F) as G. eapply Forall2_weak; [|exact G]. intros r r2 _ (r1 & A & B) j. rewrite B.
  assert (HC : has_col (fix_move t k) j = has_col t j) by (unfold has_col; now rewrite fix_move_cols). rewrite HC. cbn [existsb].
  destruct (String.eqb_spec j k) as [->|Nj].
  - assert (E0 : existsb (String.eqb k) ks = false). { destruct (existsb (String.eqb k) ks) eqn:E; [|reflexivity]. apply existsb_exists in E as (x & J & E). apply String.eqb_eq in E. now subst. }
    rewrite E0. cbn [andb orb]. rewrite (A k). cbn. now rewrite String.eqb_refl.
  - assert (IC : int_col (fix_move t k) j = int_col t j). { unfold int_col. symmetry. apply (forallb_rel (after_fix t [k])); [|exact F1]. intros a b H. rewrite (H j). cbn. apply String.eqb_neq in Nj. now rewrite Nj. }
    rewrite IC. cbn [orb]. destruct (existsb (String.eqb j) ks && has_col t j && int_col t j)%bool; [reflexivity|]. rewrite (A j). cbn. apply String.eqb_neq in Nj. now rewrite Nj.
Qed.
Lemma fix_moves_ok t : m_cols (fix_moves t) = m_cols t /\ Forall2 (after_fix t moves) (m_rows t) (m_rows (fix_moves t)).
Proof. apply fix_moves_rel. repeat constructor; cbn; intuition discriminate. Qed.

Definition nonempty (t : mtable) : bool := negb (List.length (m_rows t) =? 0)%nat.
Lemma nonempty_spec t : nonempty t = true <-> m_rows t <> [].
Proof. unfold nonempty. destruct (m_rows t); cbn; split; congruence. Qed.
(** the stacked rows *)
Definition stacked (tr : mtable * (string -> value)) (r' : string -> value) : Prop :=
  forall j, (has_col (fst tr) j = true -> r' j = if (existsb (String.eqb j) moves && int_col (fst tr) j)%bool then VStr "none" else snd tr j) /\ (has_col (fst tr) j = false -> r' j = VMask).
Lemma stack_rows inputs : Forall2 stacked (input_rows inputs) (flat_map (fun t => map (fun r k => if has_col t k then r k else VMask) (m_rows t)) (map fix_moves (filter nonempty inputs))).
Proof.
  induction inputs as [|t l IH]; [constructor|]. cbn [input_rows flat_map filter]. fold (input_rows l). destruct (nonempty t) eqn:E.
  - cbn [map flat_map]. apply Forall2_app; [|exact IH]. destruct (fix_moves_ok t) as [C F]. assert (HC : forall j, has_col (fix_moves t) j = has_col t j) by (intros j; unfold has_col; now rewrite C).
    clear IH E. apply Forall2_map_r. revert F. generalize (m_rows t), (m_rows (fix_moves t)). intros rows rows' F. induction F as [|r r' rs rs' A F IH]; cbn [map]; constructor; [|exact IH].
    intros j. cbn [fst snd]. rewrite HC. split; intros H; rewrite H; [|reflexivity]. rewrite (A j), H, Bool.andb_true_r. reflexivity.
  - unfold nonempty in E. destruct (m_rows t); [exact IH|discriminate E].
Qed.
Lemma fold_cols ts : forall cols j, In j (fold_left (fun cols t => fold_left add_col (m_cols t) cols) ts cols) <-> In j cols \/ exists t, In t ts /\ In j (m_cols t).
Proof.
  assert (A : forall l cols j, In j (fold_left add_col l cols) <-> In j cols \/ In j l). { induction l as [|k l IH]; intros cols j; cbn; [tauto|]. rewrite IH, add_col_In. intuition. }
  induction ts as [|t ts IH]; intros cols j; cbn; [split; [auto|intros [|(t & [] & _)]; assumption]|]. rewrite IH, A. split.
  - intros [[H|H]|(s & H & K)]; [auto|right; exists t; auto|right; exists s; auto].
  - intros [H|(s & [->|H] & K)]; [auto|auto|right; exists s; auto].
Qed.
Lemma vstack_ok inputs t0 : vstack (map fix_moves (filter nonempty inputs)) = Ok t0 ->
  Forall2 stacked (input_rows inputs) (m_rows t0) /\ (forall k, In k (m_cols t0) <-> some_input_has inputs k).
Proof.
  intros H. assert (E : t0 = {| m_cols := fold_left (fun cols t => fold_left add_col (m_cols t) cols) (map fix_moves (filter nonempty inputs)) [];
    m_rows := flat_map (fun t => map (fun r k => if has_col t k then r k else VMask) (m_rows t)) (map fix_moves (filter nonempty inputs)) |}). { unfold vstack in H. destruct (map fix_moves (filter nonempty inputs)); [discriminate|]. now apply Ok_inj in H. }
  subst t0. split; [apply stack_rows|]. intros k. cbn [m_cols]. rewrite fold_cols. split.
  - intros [[]|(t & J & K)]. apply in_map_iff in J as (s & <- & J). apply filter_In in J as [J N]. exists s. rewrite (proj1 (fix_moves_ok s)) in K. apply nonempty_spec in N. auto.
  - intros (t & J & N & K). right. exists (fix_moves t). rewrite (proj1 (fix_moves_ok t)). split; [|exact K]. apply in_map, filter_In. split; [exact J|now apply nonempty_spec].
Qed.

(** the added LOCATION *)
Definition located (om : Z) (tr : R -> Z) (r r' : string -> value) : Prop :=
  (forall j, j <> "LOCATION" -> r' j = r j) /\ exists p d, to_int om tr (r "PETAL_LOC") = Ok p /\ to_int om tr (r "DEVICE_LOC") = Ok d /\ r' "LOCATION" = VInt (1000 * p + d).
Lemma add_location_ok om tr t t1 : add_location om tr t = Ok t1 ->
  (t1 = t /\ (In "LOCATION" (m_cols t) \/ ~ In "PETAL_LOC" (m_cols t) \/ ~ In "DEVICE_LOC" (m_cols t))) \/
  (~ In "LOCATION" (m_cols t) /\ In "PETAL_LOC" (m_cols t) /\ In "DEVICE_LOC" (m_cols t) /\ m_cols t1 = m_cols t ++ ["LOCATION"] /\ Forall2 (located om tr) (m_rows t) (m_rows t1)).
Proof.
  unfold add_location. intros H. pose proof (has_col_In t "LOCATION") as HL. pose proof (has_col_In t "PETAL_LOC") as HP. pose proof (has_col_In t "DEVICE_LOC") as HD.
  destruct (has_col t "LOCATION"); [left; apply Ok_inj in H; intuition|]. destruct (has_col t "PETAL_LOC"); cbn [andb] in H; [|left; apply Ok_inj in H; split; [auto|]; right; left; intros J; apply HP in J; discriminate].
  destruct (has_col t "DEVICE_LOC"); [|left; apply Ok_inj in H; split; [auto|]; right; right; intros J; apply HD in J; discriminate].
  destruct (rmapM _ _) as [rows|] eqn:E in H; [|discriminate]. cbn [rbind] in H. apply Ok_inj in H. subst t1. right. split; [intros J; apply HL in J; discriminate|]. split; [now apply HP|]. split; [now apply HD|]. split; [reflexivity|]. cbn [m_rows].
  apply rmapM_Ok_Forall2 in E. eapply Forall2_weak; [|exact E]. intros r r' _ A. cbn beta in A. destruct (to_int om tr (r "PETAL_LOC")) as [p|] eqn:Ep; [|discriminate]. cbn [rbind] in A. destruct (to_int om tr (r "DEVICE_LOC")) as [d|] eqn:Ed; [|discriminate].
  cbn [rmap] in A. apply Ok_inj in A. subst r'. split.
  - intros j N. unfold set_cell. apply String.eqb_neq in N. now rewrite N.
  - exists p, d. auto.
Qed.

Definition from_metrology (m : list mrow) (idk : string) (ks : list string) (r r' : string -> value) : Prop :=
  forall j, r' j = if existsb (String.eqb j) ks then match pid2row m (r idk) with Some q => VInt (q_val q j) | None => VInt (-1) end else r j.
Lemma merge_rel m idk ks : ~ In idk ks -> forall t,
  let t' := fold_left (fun t k => set_col t k (fun r => match pid2row m (r idk) with Some q => VInt (q_val q k) | None => VInt (-1) end)) ks t in
  (forall j, In j (m_cols t') <-> In j (m_cols t) \/ In j ks) /\ Forall2 (from_metrology m idk ks) (m_rows t) (m_rows t').
Proof.
  induction ks as [|k ks IH]; intros N t; cbn [fold_left]; [split; [cbn; tauto|]; apply Forall2_id; intros r _ j; reflexivity|].
  match goal with |- context [fold_left _ ks ?s] => set (t1 := s) end. destruct (IH (fun J => N (or_intror J)) t1) as [C F]. split.
  - intros j. rewrite C. unfold t1. cbn [m_cols set_col]. rewrite add_col_In. cbn. intuition.
  - assert (F1 : Forall2 (from_metrology m idk [k]) (m_rows t) (m_rows t1)).
    { unfold t1. cbn [m_rows set_col]. apply Forall2_map_r, Forall2_id. intros r _ j. unfold set_cell. cbn. rewrite Bool.orb_false_r. destruct (String.eqb_spec j k) as [->|]; reflexivity. }
    pose proof (Forall2_comp _ _ _ _ _ F1 F) as G. eapply Forall2_weak; [|exact G]. intros r r2 _ (r1 & A & B) j. rewrite (B j). cbn [existsb].
    assert (Ei : r1 idk = r idk). { rewrite (A idk). cbn. destruct (String.eqb_spec idk k) as [->|]; [exfalso; apply N; now left|reflexivity]. } rewrite Ei.
    destruct (existsb (String.eqb j) ks) eqn:Ej; [now rewrite Bool.orb_true_r|]. rewrite (A j). cbn. reflexivity.
Qed.
Lemma id_key_ok t k : id_key t = Ok k -> (k = "DEVICE_ID" /\ In "DEVICE_ID" (m_cols t)) \/ (k = "POS_ID" /\ In "POS_ID" (m_cols t) /\ ~ In "DEVICE_ID" (m_cols t)).
Proof.
  unfold id_key. pose proof (has_col_In t "DEVICE_ID") as A. pose proof (has_col_In t "POS_ID") as B. destruct (has_col t "DEVICE_ID"); intros H; [apply Ok_inj in H; subst; left; intuition|].
  destruct (has_col t "POS_ID"); [|discriminate]. apply Ok_inj in H. subst. right. repeat split; [intuition|]. intros J. apply A in J. discriminate.
Qed.
Lemma pid2row_last m id q : pid2row m (VStr id) = Some q <-> last_entry m id q.
Proof.
  unfold pid2row, last_entry. split.
  - intros H. assert (forall l, find (fun q => String.eqb (q_id q) id) l = Some q -> exists a b, l = a ++ q :: b /\ q_id q = id /\ Forall (fun q' => q_id q' <> id) a) as X.
    { clear. induction l as [|x l IH]; [discriminate|]. cbn. destruct (String.eqb_spec (q_id x) id).
      - intros E. injection E as ->. exists [], l. auto.
      - intros E. destruct (IH E) as (a & b & -> & Q & F). exists (x :: a), b. split; [reflexivity|]. split; [exact Q|]. now constructor. }
    destruct (X _ H) as (a & b & E & Q & F). exists (rev b), (rev a). split; [|split; [exact Q|now apply Forall_rev]]. rewrite <- (rev_involutive m), E, rev_app_distr. cbn. now rewrite <- app_assoc.
  - intros (a & b & -> & Q & F). rewrite rev_app_distr. cbn [rev]. rewrite <- app_assoc. apply Forall_rev in F. induction F as [|x l N F IH]; cbn; [now rewrite Q, String.eqb_refl|]. apply String.eqb_neq in N. now rewrite N.
Qed.
Lemma pid2row_none m id : pid2row m (VStr id) = None <-> forall q, In q m -> q_id q <> id.
Proof.
  unfold pid2row. split.
  - intros H q J E. assert (X := find_none _ _ H q (proj1 (in_rev m q) J)). cbn in X. apply String.eqb_neq in X. contradiction.
  - intros H. destruct (find _ _) as [q|] eqn:E; [|reflexivity]. apply find_some in E as [J E]. apply in_rev in J. apply String.eqb_eq in E. exfalso. now apply (H q J).
Qed.

(** The whole program in one lemma. *)
Lemma merge_ok om tr m a inputs out : merge_posparams om tr m a inputs = Ok out ->
  exists t0 t1 idk, (forall k, In k (m_cols t0) <-> some_input_has inputs k) /\ Forall2 stacked (input_rows inputs) (m_rows t0) /\ add_location om tr t0 = Ok t1 /\ id_key t1 = Ok idk /\
    ((In "DEVICE_LOC" (m_cols t1) \/ no_metrology a = true) /\ out = t1 \/
     ~ In "DEVICE_LOC" (m_cols t1) /\ no_metrology a = false /\ t1 = t0 /\ (forall j, In j (m_cols out) <-> In j (m_cols t1) \/ In j indices) /\ Forall2 (from_metrology m idk indices) (m_rows t1) (m_rows out)).
Proof.
  unfold merge_posparams. change (fun t : mtable => negb (List.length (m_rows t) =? 0)%nat) with nonempty. intros H. destruct (vstack _) as [t0|] eqn:V; [|discriminate]. cbn [rbind] in H.
  destruct (add_location om tr t0) as [t1|] eqn:L; [|discriminate]. cbn [rbind] in H. destruct (id_key t1) as [idk|] eqn:I; [|discriminate]. cbn [rbind] in H. apply vstack_ok in V as [F C].
  exists t0, t1, idk. split; [exact C|]. split; [exact F|]. split; [exact L|]. split; [exact I|]. pose proof (has_col_In t1 "DEVICE_LOC") as HD.
  match type of H with rbind ?X _ = _ => destruct X as [[]|]; [|discriminate] end. cbn [rbind] in H. apply Ok_inj in H. subst out.
  destruct (has_col t1 "DEVICE_LOC"); cbn [negb andb]; [left; split; [left; now apply HD|reflexivity]|]. destruct (no_metrology a); cbn [negb]; [left; auto|]. right. assert (ND : ~ In "DEVICE_LOC" (m_cols t1)) by (intros J; apply HD in J; discriminate). split; [exact ND|]. split; [reflexivity|]. split.
  - apply add_location_ok in L as [[-> _]|(_ & _ & J & E & _)]; [reflexivity|]. exfalso. apply ND. rewrite E. apply in_app_iff. now left.
  - apply merge_rel. intros J. apply id_key_ok in I as [[-> _]|[-> _]]; cbn in J; intuition discriminate.
Qed.

(** C55. Every row of every input is written, in order, and every column of an input is written, with its values unchanged,
    - except that a column MOVE_CMD, MOVE_VAL1 or MOVE_VAL2 of an input with neither text nor decimal numbers becomes "none" throughout, and
    - except that, if no input has a column DEVICE_LOC and --no-metrology is not given, the four indices are replaced. *)
Theorem C55_rows : forall of_mask trunc metrology a inputs out, merge_posparams of_mask trunc metrology a inputs = Ok out ->
  Forall2 (fun tr r' => forall k, In k (m_cols (fst tr)) ->
             (~ In k indices \/ some_input_has inputs "DEVICE_LOC" \/ no_metrology a = true) ->
             (In k moves /\ no_text (fst tr) k -> r' k = VStr "none") /\ (~ (In k moves /\ no_text (fst tr) k) -> r' k = snd tr k))
          (input_rows inputs) (m_rows out) /\
  forall k, some_input_has inputs k -> In k (m_cols out).
Proof.
  intros om tr m a inputs out H. apply merge_ok in H as (t0 & t1 & idk & C & F & L & I & D).
  assert (Hno : forall t k, int_col t k = true <-> no_text t k).
  { intros t k. unfold int_col, no_text. rewrite forallb_forall. split; intros H r J; specialize (H r J); destruct (r k); try discriminate; eauto; destruct H as [H|[z H]]; discriminate || reflexivity. }
  assert (Hex : forall k, existsb (String.eqb k) moves = true <-> In k moves). { intros k. rewrite existsb_exists. split; [intros (x & J & E); apply String.eqb_eq in E; now subst|intros J; exists k; split; [exact J|apply String.eqb_refl]]. }
  assert (Hst : forall tr' r', stacked tr' r' -> forall k, In k (m_cols (fst tr')) -> (In k moves /\ no_text (fst tr') k -> r' k = VStr "none") /\ (~ (In k moves /\ no_text (fst tr') k) -> r' k = snd tr' k)).
  { intros tr' r' S k J. apply has_col_In in J. destruct (S k) as [S1 _]. rewrite (S1 J). specialize (Hno (fst tr') k). specialize (Hex k). destruct (existsb _ moves), (int_col (fst tr') k); cbn [andb]; split; intros X; try reflexivity; exfalso; intuition discriminate. }
  assert (Own : forall tr', In tr' (input_rows inputs) -> forall k, In k (m_cols (fst tr')) -> some_input_has inputs k).
  { intros [t r] J k K. apply in_flat_map in J as (s & Js & J). apply in_map_iff in J as (r0 & E & J). injection E as -> ->. exists t. cbn in K. split; [exact Js|]. split; [intros E; rewrite E in J; contradiction|exact K]. }
  (* location step *)
  assert (F1 : Forall2 (fun tr' r' => forall k, In k (m_cols (fst tr')) -> (In k moves /\ no_text (fst tr') k -> r' k = VStr "none") /\ (~ (In k moves /\ no_text (fst tr') k) -> r' k = snd tr' k)) (input_rows inputs) (m_rows t1)
       /\ forall k, In k (m_cols t0) -> In k (m_cols t1)).
  { apply add_location_ok in L as [[-> _]|(NL & _ & _ & EC & G)].
    - split; [|auto]. eapply Forall2_weak; [|exact F]. intros; now apply Hst.
    - split; [|intros k J; rewrite EC; apply in_app_iff; now left]. pose proof (Forall2_comp _ _ _ _ _ F G) as FG. eapply Forall2_weak; [|exact FG]. intros tr' r2 Jt (r1 & A & B) k Jk. rewrite (proj1 B).
      + now apply Hst.
      + intros ->. apply NL, C. now apply (Own tr'). }
  destruct F1 as [F1 C1]. destruct D as [[_ ->]|(ND & NM & -> & CM & G)].
  - split; [|intros k J; apply C1, C, J]. eapply Forall2_weak; [|exact F1]. intros tr' r' _ A k J _. now apply A.
  - split; [|intros k J; apply CM; left; apply C, J]. pose proof (Forall2_comp _ _ _ _ _ F1 G) as FG. eapply Forall2_weak; [|exact FG]. intros tr' r2 Jt (r1 & A & B) k Jk K.
    rewrite (B k). destruct (existsb (String.eqb k) indices) eqn:E; [|now apply A]. exfalso. apply existsb_exists in E as (x & J & E). apply String.eqb_eq in E. subst x. destruct K as [K|[K|K]]; [contradiction| |congruence]. apply ND, C, K.
Qed.
Print Assumptions C55_rows.

(** If no input has DEVICE_LOC, every row gets the indices of the last entry of its device in the metrology table, and -1 if it has none. *)
Theorem C55_indices : forall of_mask trunc metrology a inputs out, merge_posparams of_mask trunc metrology a inputs = Ok out ->
  ~ some_input_has inputs "DEVICE_LOC" -> no_metrology a = false ->
  exists idk, (idk = "DEVICE_ID" \/ idk = "POS_ID") /\ Forall (fun r' => forall k, In k indices -> In k (m_cols out) /\
    ((forall id q, r' idk = VStr id -> last_entry metrology id q -> r' k = VInt (q_val q k)) /\
     (forall id, r' idk = VStr id -> (forall q, In q metrology -> q_id q <> id) -> r' k = VInt (-1)))) (m_rows out).
Proof.
  intros om tr m a inputs out H ND NM. apply merge_ok in H as (t0 & t1 & idk & C & F & L & I & D). destruct D as [[[J|E] _]|(_ & _ & -> & CM & G)]; [|congruence|].
  - exfalso. apply ND, C. apply add_location_ok in L as [[-> _]|(_ & _ & JD & EC & _)]; [exact J|exact JD].
  - exists idk. assert (Ik : idk = "DEVICE_ID" \/ idk = "POS_ID") by (apply id_key_ok in I as [[-> _]|[-> _]]; auto). split; [exact Ik|]. apply Forall_forall. intros r' J k K. split; [apply CM; now right|].
    assert (X : exists r, from_metrology m idk indices r r'). { clear -G J. induction G as [|x y l l' A G IH]; [contradiction|]. destruct J as [<-|J]; [eauto|auto]. } destruct X as (r & X).
    assert (Eid : r' idk = r idk). { rewrite (X idk). destruct Ik as [-> | ->]; reflexivity. }
    assert (Ek : r' k = match pid2row m (r idk) with Some q => VInt (q_val q k) | None => VInt (-1) end). { rewrite (X k). assert (existsb (String.eqb k) indices = true) as ->; [|reflexivity]. apply existsb_exists. exists k. split; [exact K|apply String.eqb_refl]. }
    rewrite Eid, Ek. split.
    + intros id q -> Q. apply pid2row_last in Q. now rewrite Q.
    + intros id -> Q. apply pid2row_none in Q. now rewrite Q.
Qed.
Print Assumptions C55_indices.

(** If no input has LOCATION, but DEVICE_LOC and PETAL_LOC exist, LOCATION is 1000 PETAL_LOC + DEVICE_LOC in every row with integers there. *)
Theorem C55_location : forall of_mask trunc metrology a inputs out, merge_posparams of_mask trunc metrology a inputs = Ok out ->
  ~ some_input_has inputs "LOCATION" -> some_input_has inputs "DEVICE_LOC" -> some_input_has inputs "PETAL_LOC" ->
  Forall (fun r' => forall p d, r' "PETAL_LOC" = VInt p -> r' "DEVICE_LOC" = VInt d -> r' "LOCATION" = VInt (1000 * p + d)) (m_rows out).
Proof.
  intros om tr m a inputs out H NL SD SP. apply merge_ok in H as (t0 & t1 & idk & C & F & L & I & D). apply C in SD, SP. rewrite <- C in NL. apply add_location_ok in L as [[-> X]|(_ & _ & _ & EC & G)]; [tauto|].
  destruct D as [[_ ->]|(ND & _ & -> & _)]; [|contradiction]. apply Forall_forall. intros r' J. assert (X : exists r, located om tr r r'). { clear -G J. induction G as [|x y l l' A G IH]; [contradiction|]. destruct J as [<-|J]; [eauto|auto]. } destruct X as (r & A & p & d & Ep & Ed & ->).
  intros p' d' Hp Hd. rewrite (A "PETAL_LOC") in Hp by discriminate. rewrite (A "DEVICE_LOC") in Hd by discriminate. rewrite Hp in Ep. rewrite Hd in Ed. cbn in Ep, Ed. apply Ok_inj in Ep, Ed. now subst.
Qed.
Print Assumptions C55_location.

(** The comparison with the metrology never changes what is written: with or without it the table is the same,
    and it can only end the program by a KeyError for a missing column. *)
Theorem C55_check : forall of_mask trunc metrology nm inputs,
  let with_check := merge_posparams of_mask trunc metrology {| no_check := false; no_metrology := nm |} inputs in
  let without := merge_posparams of_mask trunc metrology {| no_check := true; no_metrology := nm |} inputs in
  with_check = without \/ (with_check = Err KeyError /\ exists out, without = Ok out /\ exists k, In k indices /\ ~ In k (m_cols out)).
Proof.
  intros om tr m nm inputs. cbv zeta. unfold merge_posparams. destruct (vstack _) as [t0|e]; cbn [rbind]; [|auto]. destruct (add_location om tr t0) as [t1|e]; cbn [rbind]; [|auto]. destruct (id_key t1) as [idk|e]; cbn [rbind]; [|auto].
  cbn [no_check no_metrology negb andb]. destruct nm; cbn [negb andb rbind]; [now left|]. match goal with |- context [check_metrology m idk ?t] => generalize t as t2 end. intros t2.
  unfold check_metrology. assert (K : forall r q keys h, incl keys indices -> (exists b, check_keys t2 r q keys h = Ok b) \/ (check_keys t2 r q keys h = Err KeyError /\ exists k, In k indices /\ ~ In k (m_cols t2))).
  { intros r q. induction keys as [|k keys IH]; intros h Inc; cbn; [eauto|]. pose proof (has_col_In t2 k) as HK. destruct (has_col t2 k); [apply IH; intros x J; apply Inc; now right|]. right. split; [reflexivity|]. exists k. split; [apply Inc; now left|]. intros J. apply HK in J. discriminate. }
  assert (Rw : forall rows h, (exists b, check_rows m idk t2 rows h = Ok b) \/ (check_rows m idk t2 rows h = Err KeyError /\ exists k, In k indices /\ ~ In k (m_cols t2))).
  { induction rows as [|r rows IH]; intros h; cbn [check_rows]; [eauto|]. destruct (pid2row m (r idk)) as [q|]; [|apply IH].
    destruct (K r q ["DEVICE_LOC"; "LOCATION"; "PETAL_LOC"; "PETAL_ID"] h) as [(b & ->)|(-> & X)]; [intros x; cbn; tauto|apply IH|right; auto]. }
  destruct (Rw (m_rows t2) false) as [(b & ->)|(-> & X)]; cbn [rbind]; [now left|]. right. split; [reflexivity|]. exists t2. auto.
Qed.
Print Assumptions C55_check.

(** Without any row there is an error, and without a device identifier the program stops. *)
Theorem C55_empty : forall of_mask trunc metrology a inputs, (forall t, In t inputs -> m_rows t = []) -> merge_posparams of_mask trunc metrology a inputs = Err ValueError.
Proof.
  intros om tr m a inputs H. unfold merge_posparams. change (fun t : mtable => negb (List.length (m_rows t) =? 0)%nat) with nonempty. assert (filter nonempty inputs = []) as ->; [|reflexivity].
  induction inputs as [|t l IH]; [reflexivity|]. cbn. unfold nonempty at 1. rewrite (H t (or_introl eq_refl)). cbn. apply IH. intros; apply H; now right.
Qed.
Print Assumptions C55_empty.
Theorem C55_identifier : forall of_mask trunc metrology a inputs out, merge_posparams of_mask trunc metrology a inputs = Ok out -> some_input_has inputs "DEVICE_ID" \/ some_input_has inputs "POS_ID".
Proof.
  intros om tr m a inputs out H. apply merge_ok in H as (t0 & t1 & idk & C & _ & L & I & _).
  assert (X : forall k, k <> "LOCATION" -> In k (m_cols t1) -> some_input_has inputs k). { intros k N J. apply C. apply add_location_ok in L as [[-> _]|(_ & _ & _ & E & _)]; [exact J|]. rewrite E in J. apply in_app_iff in J as [J|[J|[]]]; [exact J|congruence]. }
  apply id_key_ok in I as [[-> J]|(-> & J & _)]; [left|right]; (apply X; [discriminate|exact J]).
Qed.
Print Assumptions C55_identifier.

(** "It stops with an error when a row disagrees with the metrology" fails: the result of the comparison is stored in another variable than the one tested. *)
Definition tab (cols : list (string * value)) : mtable := {| m_cols := map fst cols; m_rows := [fun k => match find (fun c => String.eqb (fst c) k) cols with Some c => snd c | None => VMask end] |}.
Definition fit1 : mtable := tab [("POS_ID", VStr "M00001"); ("LENGTH_R1", VNum 3); ("PETAL_LOC", VInt 3); ("DEVICE_LOC", VInt 7); ("PETAL_ID", VInt 5); ("MOVE_CMD", VMask)].
Definition fit2 : mtable := tab [("POS_ID", VStr "M00002"); ("LENGTH_R1", VNum 4)].
Definition metro : list mrow := [{| q_id := "M00001"; q_val := fun k => if String.eqb k "LOCATION" then 9999 else 1 |}].
Theorem C55_stops_refuted : ~ (forall of_mask trunc metrology inputs out r id q k, merge_posparams of_mask trunc metrology {| no_check := false; no_metrology := false |} inputs = Ok out ->
  In r (m_rows out) -> r "POS_ID" = VStr id -> last_entry metrology id q -> In k indices -> r k = VInt (q_val q k)).
Proof.
  intros H. assert (X : exists out r, merge_posparams 0 (fun _ => 0) metro {| no_check := false; no_metrology := false |} [fit1] = Ok out /\ m_rows out = [r] /\ r "POS_ID" = VStr "M00001" /\ r "LOCATION" = VInt 3007) by (eexists; eexists; repeat split).
  destruct X as (out & r & E & Er & E1 & E2). assert (L : exists q, last_entry metro "M00001" q /\ q_val q "LOCATION" = 9999). { eexists. split; [exists [], []; repeat split; constructor|reflexivity]. } destruct L as (q & Q & Eq).
  assert (X : r "LOCATION" = VInt (q_val q "LOCATION")). { apply (H _ _ _ _ _ r "M00001" q "LOCATION" E); [rewrite Er; now left|exact E1|exact Q|now left]. } rewrite E2, Eq in X. discriminate X.
Qed.
Print Assumptions C55_stops_refuted.

(** Merging with another file: its row has no PETAL_LOC, and gets a LOCATION made of whatever integer a masked value turns into. *)
Theorem C55_unfitted_refuted : ~ (forall of_mask trunc metrology a inputs out r, merge_posparams of_mask trunc metrology a inputs = Ok out -> In r (m_rows out) -> r "LOCATION" = VMask \/ (exists p, r "PETAL_LOC" = VInt p)).
Proof.
  intros H. assert (X : exists out r r', merge_posparams 0 (fun _ => 0) metro {| no_check := true; no_metrology := true |} [fit2; fit1] = Ok out /\ m_rows out = [r; r'] /\ r "PETAL_LOC" = VMask /\ r "LOCATION" = VInt 0) by (eexists; eexists; eexists; repeat split).
  destruct X as (out & r & r' & E & Er & E1 & E2). destruct (H _ _ _ _ _ _ r E) as [X|[p X]]; [rewrite Er; now left|congruence|congruence].
Qed.
Print Assumptions C55_unfitted_refuted.

Example C55_example : exists out r, merge_posparams 0 (fun _ => 0) metro {| no_check := false; no_metrology := false |} [{| m_cols := ["POS_ID"]; m_rows := [] |}; fit1] = Ok out /\ m_rows out = [r] /\
  r "LENGTH_R1" = VNum 3 /\ r "LOCATION" = VInt 3007 /\ r "MOVE_CMD" = VStr "none" /\ r "PETAL_ID" = VInt 5.
Proof. eexists; eexists; repeat split. Qed.
Example C55_example2 : exists out r, merge_posparams 0 (fun _ => 0) metro {| no_check := false; no_metrology := false |} [tab [("DEVICE_ID", VStr "M00001")]] = Ok out /\
  m_rows out = [r] /\ r "LOCATION" = VInt 9999 /\ r "PETAL_ID" = VInt 1.
Proof. eexists; eexists; repeat split. Qed.
