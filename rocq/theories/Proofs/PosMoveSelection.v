From Verif.Model Require Import PosMoveSelection.
From Verif.Spec Require Import PosMoveSelection.
From Verif.Proofs Require Import Prelude.
From Coq Require Import ZifyBool ZifyN.

Lemma is_space_white a : is_space a = true <-> white a.
Proof. unfold is_space, white. lia. Qed.

Lemma found_spec kw s : found kw s = true <-> contains kw s.
Proof.
  unfold contains. induction s as [|a r IH]; cbn [found]; rewrite orb_true_iff.
  - split.
    + intros [H|H]; [|discriminate]. destruct kw; [|discriminate]. exists EmptyString, EmptyString. reflexivity.
    + intros (x & y & H). destruct x; [|discriminate]. destruct kw; [|discriminate]. left; reflexivity.
  - rewrite IH. split.
    + intros [H|(x & y & ->)].
      * assert (P : forall p q, prefix p q = true -> exists y, q = append p y).
        { clear. induction p as [|c p IHp]; intros q H; [exists q; reflexivity|].
          destruct q as [|d q]; [discriminate|]. cbn in H. destruct (ascii_dec c d); [|discriminate]. subst.
          destruct (IHp _ H) as [y ->]. exists y; reflexivity. }
        destruct (P _ _ H) as [y E]. exists EmptyString, y. exact E.
      * exists (String a x), y. reflexivity.
    + intros (x & y & E). destruct x as [|b x].
      * left. cbn in E. rewrite E.
        assert (P : forall p q, prefix p (append p q) = true).
        { clear. induction p as [|c p IHp]; intros q; [destruct q; reflexivity|]. cbn. destruct (ascii_dec c c); [apply IHp|congruence]. }
        apply P.
      * right. injection E as _ ->. eauto.
Qed.

Lemma append_nil_r s : append s EmptyString = s.
Proof. induction s; cbn; congruence. Qed.
Lemma append_assoc a b c : append (append a b) c = append a (append b c).
Proof. induction a; cbn; congruence. Qed.

Lemma lstrip_spec s : exists p, s = append p (lstrip s) /\ all_white p /\ ~ starts_white (lstrip s).
Proof.
  induction s as [|a r (p & E & Hp & Hn)]; cbn.
  - exists EmptyString. repeat split. intros (b & q & H & _). discriminate.
  - destruct (is_space a) eqn:Ea.
    + exists (String a p). cbn. rewrite <- E. repeat split; auto. now apply is_space_white.
    + exists EmptyString. repeat split. intros (b & q & H & Hw). injection H as <- <-. apply is_space_white in Hw. congruence.
Qed.

Lemma rstrip_spec s : exists q, s = append (rstrip s) q /\ all_white q /\ ~ ends_white (rstrip s).
Proof.
  induction s as [|a r (q & E & Hq & Hn)]; cbn.
  - exists EmptyString. repeat split. intros (b & p & H & _). destruct p; discriminate.
  - destruct (rstrip r) as [|c t] eqn:Er.
    + destruct (is_space a) eqn:Ea.
      * exists (String a q). cbn in *. rewrite E. repeat split; auto. now apply is_space_white.
      * exists q. cbn in *. rewrite E. repeat split; auto. intros (b & p & H & Hw).
        destruct p as [|x p]; [injection H as <-; apply is_space_white in Hw; congruence|]. injection H as _ H. destruct p; discriminate.
    + exists q. split; [cbn; f_equal; exact E|]. split; [exact Hq|].
      intros (b & p & H & Hw). destruct p as [|x p]; [discriminate|]. injection H as _ H. apply Hn. exists b, p. auto.
Qed.

Lemma rstrip_starts s : ~ starts_white s -> ~ starts_white (rstrip s).
Proof.
  intros H (a & r & E & Hw). apply H. destruct (rstrip_spec s) as (q & Es & _). rewrite E in Es. cbn in Es.
  exists a, (append r q). auto.
Qed.

Lemma strip_trimmed s : trimmed s (strip s).
Proof.
  unfold strip. destruct (lstrip_spec s) as (p & Ep & Hp & Hs). destruct (rstrip_spec (lstrip s)) as (q & Eq & Hq & He).
  exists p, q. rewrite <- Eq. repeat split; auto. now apply rstrip_starts.
Qed.

Lemma white_app_inj p p' t t' :
  all_white p -> all_white p' -> ~ starts_white t -> ~ starts_white t' ->
  append p t = append p' t' -> p = p' /\ t = t'.
Proof.
  revert p'; induction p as [|a p IH]; intros [|b p'] Hp Hp' Ht Ht' E; cbn in *.
  - auto.
  - exfalso. apply Ht. exists b, (append p' t'). tauto.
  - exfalso. apply Ht'. exists a, (append p t). split; [now symmetry|tauto].
  - injection E as -> E. destruct (IH p') as [-> ->]; tauto.
Qed.

Lemma string_rev_ind (P : string -> Prop) :
  P EmptyString -> (forall s a, P s -> P (append s (String a EmptyString))) -> forall s, P s.
Proof.
  intros H0 HS. assert (G : forall n s, String.length s = n -> P s).
  { induction n as [|n IH]; intros s Hl; [destruct s; [exact H0|discriminate]|].
    assert (D : exists s' a, s = append s' (String a EmptyString) /\ String.length s' = n).
    { clear - Hl. revert n Hl. induction s as [|a r IHr]; intros n Hl; [discriminate|]. cbn in Hl. injection Hl as Hl.
      destruct r as [|b r]; [exists EmptyString, a; cbn in *; auto|].
      destruct n as [|n]; [discriminate|]. destruct (IHr n Hl) as (s' & c & E & L).
      exists (String a s'), c. cbn. rewrite E. cbn. auto. }
    destruct D as (s' & a & -> & L). apply HS. apply IH. exact L. }
  intros s; exact (G _ s eq_refl).
Qed.

Lemma append_last_inj s t a b :
  append s (String a EmptyString) = append t (String b EmptyString) -> s = t /\ a = b.
Proof.
  revert t; induction s as [|x s IH]; intros [|y t] E; cbn in E.
  - injection E as ->; auto.
  - injection E as -> E. destruct t; discriminate.
  - injection E as -> E. destruct s; discriminate.
  - injection E as -> E. destruct (IH _ E) as [-> ->]; auto.
Qed.

Lemma all_white_app a b : all_white (append a b) <-> all_white a /\ all_white b.
Proof. induction a; cbn; tauto. Qed.

Lemma white_app_inj_r q : forall q' t t',
  all_white q -> all_white q' -> ~ ends_white t -> ~ ends_white t' ->
  append t q = append t' q' -> t = t'.
Proof.
  induction q as [|q a IH] using string_rev_ind; intros q' t t' Hq Hq' Ht Ht' E.
  - rewrite append_nil_r in E. destruct q' as [|q' b _] using string_rev_ind.
    + now rewrite append_nil_r in E.
    + exfalso. apply Ht. exists b, (append t' q'). apply all_white_app in Hq' as [_ [Hw _]].
      rewrite append_assoc. auto.
  - destruct q' as [|q' b _] using string_rev_ind.
    + rewrite append_nil_r in E. exfalso. apply Ht'. exists a, (append t q). apply all_white_app in Hq as [_ [Hw _]].
      rewrite append_assoc. auto.
    + rewrite <- !append_assoc in E. apply append_last_inj in E as [E _].
      apply all_white_app in Hq as [Hq _]. apply all_white_app in Hq' as [Hq' _]. eauto.
Qed.

Lemma trimmed_unique s t t' : trimmed s t -> trimmed s t' -> t = t'.
Proof.
  intros (p & q & E & Hp & Hq & Hs & He) (p' & q' & E' & Hp' & Hq' & Hs' & He').
  destruct t as [|a t].
  - destruct t' as [|b t']; [reflexivity|exfalso].
    assert (W : all_white s) by (rewrite E; cbn; apply all_white_app; auto).
    rewrite E' in W. apply all_white_app in W as [_ W]. cbn in W. apply Hs'. exists b, t'. tauto.
  - destruct t' as [|b t'].
    + exfalso. assert (W : all_white s) by (rewrite E'; cbn; apply all_white_app; auto).
      rewrite E in W. apply all_white_app in W as [_ W]. cbn in W. apply Hs. exists a, t. tauto.
    + rewrite E in E'.
      assert (D : p = p' /\ append (String a t) q = append (String b t') q').
      { apply white_app_inj; auto; intros (c & r & Ec & Hw); cbn in Ec; injection Ec as <- _;
          [apply Hs|apply Hs']; eauto. exists a, t; auto. exists b, t'; auto. }
      destruct D as [_ D]. eapply white_app_inj_r with (q := q) (q' := q'); eauto.
Qed.

Lemma free_of_has c s : free_of c s <-> has_char c s = false.
Proof. induction s as [|a r IH]; cbn; [tauto|]. rewrite orb_false_iff, IH, Ascii.eqb_neq. tauto. Qed.
Lemma joined_join c l : joined c l = join_str (String c EmptyString) l.
Proof. induction l as [|w [|w2 ws] IH]; [reflexivity|reflexivity|]. rewrite join_str_cons2, <- IH. reflexivity. Qed.

Lemma mask_and_map {A} (f g : A -> bool) l : mask_and (map f l) (map g l) = map (fun x => f x && g x) l.
Proof. induction l; cbn; congruence. Qed.
Lemma mask_or_map {A} (f g : A -> bool) l : mask_or (map f l) (map g l) = map (fun x => f x || g x) l.
Proof. induction l; cbn; congruence. Qed.
Lemma take_mask_map {A} (f : A -> bool) l : take_mask (map f l) l = filter f l.
Proof. induction l as [|a l IH]; cbn; [reflexivity|]. rewrite IH. reflexivity. Qed.

Section S.
Context {row : Type} (note : row -> string).

Lemma get_matches_map table c :
  get_matches row note table c = map (fun r => forallb (fun kw => found kw (note r)) (keywords c)) table.
Proof.
  unfold get_matches.
  assert (G : forall kws (f : row -> bool),
     fold_left (fun ok kw => mask_and ok (map (fun r => found kw (note r)) table)) kws (map f table)
     = map (fun r => f r && forallb (fun kw => found kw (note r)) kws) table).
  { induction kws as [|kw kws IH]; intros f; cbn [fold_left forallb].
    - apply map_ext. intros; now rewrite andb_true_r.
    - rewrite mask_and_map, IH. apply map_ext. intros r. now rewrite andb_assoc. }
  rewrite (G (keywords c) (fun _ => true)). reflexivity.
Qed.

Definition keep (cs : list string) (r : row) : bool :=
  existsb (fun c => forallb (fun kw => found kw (note r)) (keywords c)) cs.

Lemma selection_filter table s :
  posmove_selection row note table (Some s) = filter (keep (split_char "|" s)) table.
Proof.
  unfold posmove_selection.
  assert (G : forall cs (f : row -> bool),
     fold_left (fun ok c => mask_or ok (get_matches row note table c)) cs (map f table)
     = map (fun r => f r || keep cs r) table).
  { induction cs as [|c cs IH]; intros f; cbn [fold_left].
    - apply map_ext. intros; now rewrite orb_false_r.
    - rewrite get_matches_map, mask_or_map, IH. apply map_ext. intros r. unfold keep; cbn. now rewrite orb_assoc. }
  rewrite (G (split_char "|" s) (fun _ => false)). apply take_mask_map.
Qed.

Lemma clause_keywords ws kw :
  ws <> [] -> Forall (free_of "&") ws ->
  (In kw (keywords (joined "&" ws)) <-> kw <> EmptyString /\ exists w, In w ws /\ trimmed w kw).
Proof.
  intros Hne Hf. unfold keywords. rewrite joined_join, split_join; [|exact Hne|eapply Forall_impl; [|exact Hf]; intros a; apply free_of_has].
  rewrite filter_In, in_map_iff. split.
  - intros [(w & <- & Hw) Hn]. split; [intros E; rewrite E in Hn; discriminate|]. exists w. split; [exact Hw|apply strip_trimmed].
  - intros [Hn (w & Hw & Ht)]. split.
    + exists w. split; [eapply trimmed_unique; [apply strip_trimmed|exact Ht]|exact Hw].
    + destruct (String.eqb kw EmptyString) eqn:E; [apply String.eqb_eq in E; congruence|reflexivity].
Qed.

Lemma selection_spec table (clauses : list (list string)) :
  clauses <> [] ->
  Forall (fun ws => ws <> [] /\ Forall (fun w => free_of "&" w /\ free_of "|" w) ws) clauses ->
  exists kp : row -> bool,
    posmove_selection row note table (Some (joined "|" (map (joined "&") clauses))) = filter kp table /\
    forall r, kp r = true <-> selected clauses (note r).
Proof.
  intros Hne HF. eexists. split; [apply selection_filter|]. intros r.
  rewrite joined_join, split_join.
  - unfold keep, selected. rewrite existsb_exists. split.
    + intros (c & Hc & Hall). apply in_map_iff in Hc as (ws & <- & Hws).
      exists ws. split; [exact Hws|]. intros w t Hw Ht Hnt.
      rewrite Forall_forall in HF. destruct (HF ws Hws) as [Hw0 Hfree].
      rewrite forallb_forall in Hall. apply found_spec, Hall.
      apply clause_keywords; [exact Hw0|eapply Forall_impl; [|exact Hfree]; cbn; intros ? [? ?]; assumption|]. eauto.
    + intros (ws & Hws & Hall). exists (joined "&" ws). split; [now apply in_map|].
      apply forallb_forall. intros kw Hkw. rewrite Forall_forall in HF. destruct (HF ws Hws) as [Hw0 Hfree].
      apply clause_keywords in Hkw as [Hn (w & Hw & Ht)]; [|exact Hw0|eapply Forall_impl; [|exact Hfree]; cbn; intros ? [? ?]; assumption].
      apply found_spec. eauto.
  - destruct clauses; [congruence|discriminate].
  - apply Forall_map. eapply Forall_impl; [|exact HF]. intros ws [_ Hw]. clear - Hw. cbn beta.
    rewrite joined_join. induction ws as [|w [|w2 ws] IH]; [reflexivity| |].
    + inversion Hw as [|? ? [_ H] _]; subst. now apply free_of_has.
    + rewrite join_str_cons2. inversion Hw as [|? ? [_ H] Hw']; subst. specialize (IH Hw').
      assert (A : forall a b, has_char "|" (append a b) = has_char "|" a || has_char "|" b)
        by (clear; intros a b; induction a as [|x a IH]; cbn; [reflexivity|now rewrite IH, orb_assoc]).
      rewrite !A, IH. apply free_of_has in H. rewrite H. reflexivity.
Qed.

(** An empty clause (for instance a trailing '|') selects every row. *)
Lemma empty_clause_all table s : In EmptyString (split_char "|" s) ->
  posmove_selection row note table (Some s) = table.
Proof.
  intros H. rewrite selection_filter. assert (K : forall r, keep (split_char "|" s) r = true).
  { intros r. unfold keep. apply existsb_exists. exists EmptyString. split; [exact H|reflexivity]. }
  induction table as [|a t IH]; [reflexivity|]. cbn. now rewrite K, IH.
Qed.
End S.
