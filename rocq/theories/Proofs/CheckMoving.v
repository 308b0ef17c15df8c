(** Lemmas about the motion of positioners. *)
From Coq Require Import Lra Lia Permutation Sorted.
From Verif.Model Require Import CheckMoving.
From Verif.Spec Require Import CheckMoving.
From Verif.Proofs Require Import Prelude RealNum Numpy Sorting ReadMoves Fithandler.
Local Open Scope R_scope.
Local Open Scope list_scope.

Definition has_x (v : dbmove) : bool := match v_x v with Some _ => true | None => false end.
Definition place_of (v : dbmove) : R * option R := (match v_x v with Some x => x | None => 0 end, v_y v).
Lemma places_filter l : places l = map place_of (filter has_x l).
Proof. induction l as [|v l IH]; [reflexivity|]. unfold places in *. cbn [flat_map filter]. rewrite IH. unfold has_x at 2. destruct (v_x v) eqn:E; [|reflexivity]. cbn [map app]. unfold place_of at 2. now rewrite E. Qed.
Lemma steps_length l : length (steps l) = pred (length l).
Proof. induction l as [|p l IH]; [reflexivity|]. destruct l as [|q l]; [reflexivity|]. cbn [steps length] in *. now rewrite IH. Qed.
Lemma steps_nth l : forall i p q, nth_error l i = Some p -> nth_error l (S i) = Some q -> nth_error (steps l) i = Some (moved p q).
Proof.
  induction l as [|a l IH]; intros i p q A B; [destruct i; discriminate|]. destruct l as [|b l]; [destruct i as [|[|i]]; discriminate|].
  destruct i as [|i]; [injection A as <-; injection B as <-; reflexivity|]. cbn [steps nth_error]. apply IH; auto.
Qed.
Lemma moved_far v w : has_x v = true -> has_x w = true -> moved (place_of v) (place_of w) = true <-> far v w.
Proof.
  unfold has_x, moved, place_of, far. cbn [fst snd]. destruct (v_x v) as [x|]; [|discriminate]. destruct (v_x w) as [x'|]; [|discriminate]. intros _ _.
  destruct (v_y v) as [y|]; [|split; [discriminate|intros (? & ? & ? & ? & _ & E & _); discriminate]].
  destruct (v_y w) as [y'|]; [|split; [discriminate|intros (? & ? & ? & ? & _ & _ & _ & E & _); discriminate]].
  rewrite Rltb_true. split; [intros H; exists x, y, x', y'; auto|]. intros (? & ? & ? & ? & E1 & E2 & E3 & E4 & H). congruence.
Qed.
(** distinct names in order *)
Lemma insert_name_In s l t : In t (insert_name s l) <-> t = s \/ In t l.
Proof.
  induction l as [|a l IH]; cbn; [intuition congruence|]. destruct (str_ltb s a); [cbn; intuition congruence|]. destruct (String.eqb_spec s a) as [->|N]; [cbn; intuition congruence|].
  cbn. rewrite IH. tauto.
Qed.
Lemma str_lt_total a b : str_ltb a b = false -> a <> b -> str_ltb b a = true.
Proof. unfold str_ltb. rewrite Bool.negb_false_iff, Bool.negb_true_iff. intros L N. destruct (String.leb a b) eqn:E; [|reflexivity]. exfalso. apply N. now apply String.leb_antisym. Qed.
Lemma insert_name_sorted s l : StronglySorted (fun a b => str_ltb a b = true) l -> StronglySorted (fun a b => str_ltb a b = true) (insert_name s l).
Proof.
  destruct str_ltb_weak as [I T _]. induction 1 as [|a l S IH F]; cbn; [repeat constructor|]. destruct (str_ltb s a) eqn:E.
  - constructor; [now constructor|]. constructor; [exact E|]. eapply Forall_impl; [|exact F]. intros b Hb. cbn in *. eapply T; eauto.
  - destruct (String.eqb_spec s a) as [->|N]; [now constructor|]. constructor; [exact IH|]. apply Forall_forall. intros t Ht. apply insert_name_In in Ht. destruct Ht as [->|Ht]; [now apply str_lt_total|].
    rewrite Forall_forall in F. auto.
Qed.
Lemma unique_names_spec l : StronglySorted (fun a b => str_ltb a b = true) (unique_names l) /\ forall t, In t (unique_names l) <-> In t l.
Proof. induction l as [|s l (S & I)]; cbn; [split; [constructor|tauto]|]. split; [now apply insert_name_sorted|]. intros t. rewrite insert_name_In, I. intuition congruence. Qed.
Lemma perm_filter {A} (f : A -> bool) l m : Permutation l m -> Permutation (filter f l) (filter f m).
Proof. induction 1; cbn; [reflexivity|destruct (f x); auto|destruct (f x), (f y); try reflexivity; constructor|etransitivity; eauto]. Qed.
Lemma filter_and {A} (f g : A -> bool) l : filter f (filter g l) = filter (fun x => (g x && f x)%bool) l.
Proof. induction l as [|a l IH]; [reflexivity|]. cbn. destruct (g a); cbn; [destruct (f a); now rewrite IH|exact IH]. Qed.
Lemma first_split (f : dbmove -> bool) rows v : geti (filter f rows) 0 = Ok v -> exists a b, rows = a ++ v :: b /\ f v = true /\ Forall (fun w => f w = false) a.
Proof.
  induction rows as [|r rows IH]; cbn; [discriminate|]. destruct (f r) eqn:E.
  - intros Q. apply geti_Ok in Q. cbn in Q. injection Q as <-. exists [], rows. repeat split; auto.
  - intros Q. destruct (IH Q) as (a & b & -> & F & N). exists (r :: a), b. repeat split; auto.
Qed.
Section Check.
Variable argsort : forall K, (K -> K -> bool) -> list K -> list nat.
Hypothesis AS : is_argsort argsort.
Lemma positioner_spec loc rows p : In p (map v_pos rows) -> exists ls, check_positioner argsort loc rows p = Ok ls /\
  Forall (line_of loc rows) ls /\ map l_pos ls = if (2 <=? length (filter (fun v => String.eqb (v_pos v) p && has_x v)%bool rows))%nat then [p] else [].
Proof.
  intros I. unfold check_positioner. cbv zeta. set (l := filter (fun v => String.eqb (v_pos v) p) rows). assert (exists v, geti l 0 = Ok v) as (v & G).
  { apply in_map_iff in I. destruct I as (v & E & I). assert (J : In v l) by (apply filter_In; split; [exact I|now apply String.eqb_eq]). destruct l as [|u l']; [destruct J|]. now exists u. }
  rewrite G. cbn [rbind]. destruct (sort_rows_spec argsort AS Z.ltb v_index l (st_weak _ Zltb_strict)) as (s & E & P & S0). rewrite E. cbn [rbind].
  assert (O : in_order rows p (filter has_x s)).
  { exists s. split; [exact P|]. split; [|reflexivity]. clear - S0. induction S0 as [|a m S1 IH F]; constructor; auto. eapply Forall_impl; [|exact F]. intros b Hb. cbn in Hb. apply Z.ltb_ge in Hb. exact Hb. }
  assert (L : length (filter has_x s) = length (filter (fun v => String.eqb (v_pos v) p && has_x v)%bool rows)).
  { rewrite (Permutation_length (perm_filter has_x _ _ P)). unfold l. now rewrite filter_and. }
  rewrite <- L, places_filter, map_length. destruct (length (filter has_x s) <? 2)%nat eqn:Q.
  - apply Nat.ltb_lt in Q. exists []. split; [reflexivity|]. split; [constructor|]. destruct (2 <=? length (filter has_x s))%nat eqn:W; [apply Nat.leb_le in W; lia|reflexivity].
  - apply Nat.ltb_ge in Q. eexists. split; [reflexivity|]. assert (W : (2 <=? length (filter has_x s))%nat = true) by now apply Nat.leb_le. rewrite W. split; [|reflexivity]. constructor; [|constructor].
    unfold line_of. cbn [l_petal l_pos l_bus l_moving]. split; [reflexivity|]. split.
    + destruct (first_split _ _ _ G) as (a & b & Er & F & N). exists a, v, b. repeat split; auto; [now apply String.eqb_eq|]. eapply Forall_impl; [|exact N]. intros w Hw. cbn in Hw. now apply String.eqb_neq.
    + exists (filter has_x s). split; [exact O|]. split; [exact Q|]. split; [rewrite steps_length, map_length; lia|]. intros i x y Ex Ey.
      assert (Hx : has_x x = true) by (apply nth_error_In, filter_In in Ex; tauto). assert (Hy : has_x y = true) by (apply nth_error_In, filter_In in Ey; tauto).
      rewrite (steps_nth _ i (place_of x) (place_of y)) by (now apply map_nth_error). rewrite <- (moved_far x y Hx Hy). split; [intros K; now injection K|intros ->; reflexivity].
Qed.
Lemma petal_spec query p loc : get_petal_loc p = Ok loc -> exists ls, check_petal argsort query p = Ok ls /\ lines_of loc (query p) ls.
Proof.
  intros G. unfold check_petal. cbv zeta. rewrite G. cbn [rbind]. set (rows := query p). destruct (unique_names_spec (map v_pos rows)) as (S0 & I0).
  set (two := fun q => (2 <=? length (filter (fun v => String.eqb (v_pos v) q && has_x v)%bool rows))%nat).
  assert (K : forall names, (forall n, In n names -> In n (map v_pos rows)) -> exists lss, rmapM (check_positioner argsort loc rows) names = Ok lss /\ Forall (line_of loc rows) (concat lss) /\
     map l_pos (concat lss) = filter two names).
  { induction names as [|n names IH]; intros H; [exists []; repeat split; constructor|]. destruct (positioner_spec loc rows n (H n (or_introl eq_refl))) as (ls & E & F & M).
    destruct IH as (lss & E' & F' & M'); [intros; apply H; now right|]. exists (ls :: lss). cbn [rmapM]. rewrite E. cbn [rbind]. rewrite E'. cbn [rbind rmap]. split; [reflexivity|]. cbn [concat]. split; [apply Forall_app; auto|].
    rewrite map_app, M, M'. cbn [filter]. unfold two at 2. destruct (2 <=? _)%nat; reflexivity. }
  destruct (K (unique_names (map v_pos rows))) as (lss & E & F & M); [intros n; apply I0|]. rewrite E. cbn [rmap]. exists (concat lss). split; [reflexivity|]. split; [exact F|]. rewrite M. split.
  - clear - S0. clearbody two. induction S0 as [|a m S1 IH F]; cbn [filter]; [constructor|]. destruct (two a); [|exact IH]. constructor; [exact IH|]. apply Forall_forall. intros x Hx. apply filter_In in Hx. rewrite Forall_forall in F. now apply F.
  - intros q. rewrite filter_In, I0. unfold two. rewrite Nat.leb_le. unfold has_x. split; [tauto|]. intros H. split; [|exact H].
    destruct (filter (fun v => String.eqb (v_pos v) q && match v_x v with Some _ => true | None => false end)%bool rows) as [|u us] eqn:Ef; [cbn in H; lia|].
    assert (J : In u (u :: us)) by now left. rewrite <- Ef in J. apply filter_In in J. destruct J as (J & B). apply Bool.andb_true_iff in B. destruct B as (B & _). apply String.eqb_eq in B. apply in_map_iff. eauto.
Qed.
End Check.
