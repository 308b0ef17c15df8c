From Verif.Model Require Import Bitmask.
From Verif.Spec Require Import Bitmask.
From Verif.Proofs Require Import Prelude.
From Coq Require Import Sorted ZifyBool ZifyN.

Lemma key_eqb_spec a b : key_eqb a b = true <-> a = b.
Proof.
  destruct a as [s|m], b as [t|n]; cbn; try (split; [discriminate|congruence]).
  - rewrite String.eqb_eq. split; congruence.
  - rewrite Z.eqb_eq. split; congruence.
Qed.

Definition mb (x : bitdef) : maskbit :=
  let '(nm, num, cm) := x in {| mb_name := nm; mb_num := num; mb_comment := cm |}.

(** Effect of one definition on a lookup. *)
Lemma get_add_def d x k :
  dict_get key_eqb (add_def d x) k =
  match k with
  | KS s => if String.eqb s (fst (fst x)) then Some (mb x) else dict_get key_eqb d k
  | KN n => if Z.eqb n (Z.of_N (snd (fst x))) then Some (mb x) else dict_get key_eqb d k
  end.
Proof.
  destruct x as [[nm num] cm]; unfold add_def; cbn [fst snd mb].
  destruct k as [s|n].
  - rewrite (dict_get_set_other key_eqb key_eqb_spec) by discriminate.
    destruct (String.eqb s nm) eqn:E.
    + apply String.eqb_eq in E; subst. now rewrite (dict_get_set_same key_eqb key_eqb_spec).
    + rewrite (dict_get_set_other key_eqb key_eqb_spec); [reflexivity|].
      intros [= ->]. rewrite String.eqb_refl in E; discriminate.
  - destruct (Z.eqb n (Z.of_N num)) eqn:E.
    + apply Z.eqb_eq in E; subst. now rewrite (dict_get_set_same key_eqb key_eqb_spec).
    + rewrite (dict_get_set_other key_eqb key_eqb_spec) by (intros [= ->]; rewrite Z.eqb_refl in E; discriminate).
      now rewrite (dict_get_set_other key_eqb key_eqb_spec) by discriminate.
Qed.

Lemma mk_bitmask_snoc defs x : mk_bitmask (defs ++ [x]) = add_def (mk_bitmask defs) x.
Proof. unfold mk_bitmask. now rewrite fold_left_app. Qed.

Lemma get_name_Some defs s b :
  dict_get key_eqb (mk_bitmask defs) (KS s) = Some b <->
  mb_name b = s /\ owns_name defs s (mb_num b) (mb_comment b).
Proof.
  revert b. induction defs as [|x defs IH] using rev_ind; intros b.
  - cbn. split; [discriminate|]. intros [_ (pre & post & He & _)]. destruct pre; discriminate.
  - rewrite mk_bitmask_snoc, get_add_def. destruct x as [[nm num] cm]; cbn [fst snd mb].
    destruct (String.eqb s nm) eqn:E.
    + apply String.eqb_eq in E; subst nm. split.
      * intros [= <-]; cbn. split; [reflexivity|]. exists defs, []. split; [reflexivity|intros ? ? []].
      * intros [Hn (pre & post & He & Hno)].
        destruct post as [|y post] using rev_ind.
        -- apply app_inj_tail in He as [_ He]. injection He as -> ->. destruct b; cbn in *; subst; reflexivity.
        -- rewrite app_comm_cons, app_assoc in He. apply app_inj_tail in He as [_ <-].
           exfalso; apply (Hno num cm). apply in_or_app; right; left; reflexivity.
    + rewrite IH. split; intros [Hn (pre & post & He & Hno)]; (split; [exact Hn|]).
      * exists pre, (post ++ [(nm, num, cm)]). split; [now rewrite He, <- app_assoc|].
        intros i' c' Hi. apply in_app_or in Hi as [Hi|[Hi|[]]]; [now apply Hno in Hi|].
        injection Hi as -> _ _. rewrite String.eqb_refl in E; discriminate.
      * destruct post as [|y post _] using rev_ind.
        -- apply app_inj_tail in He as [_ He]. injection He as -> _ _. rewrite String.eqb_refl in E; discriminate.
        -- rewrite app_comm_cons, app_assoc in He. apply app_inj_tail in He as [-> <-].
           exists pre, post. split; [reflexivity|]. intros i' c' Hi. apply (Hno i' c'). apply in_or_app; auto.
Qed.

Lemma get_num_Some defs i b :
  dict_get key_eqb (mk_bitmask defs) (KN (Z.of_N i)) = Some b <->
  mb_num b = i /\ owns_num defs i (mb_name b) (mb_comment b).
Proof.
  revert b. induction defs as [|x defs IH] using rev_ind; intros b.
  - cbn. split; [discriminate|]. intros [_ (pre & post & He & _)]. destruct pre; discriminate.
  - rewrite mk_bitmask_snoc, get_add_def. destruct x as [[nm num] cm]; cbn [fst snd mb].
    destruct (Z.eqb (Z.of_N i) (Z.of_N num)) eqn:E.
    + assert (i = num) by lia; subst num. split.
      * intros [= <-]; cbn. split; [reflexivity|]. exists defs, []. split; [reflexivity|intros ? ? []].
      * intros [Hn (pre & post & He & Hno)].
        destruct post as [|y post _] using rev_ind.
        -- apply app_inj_tail in He as [_ He]. injection He as -> ->. destruct b; cbn in *; subst; reflexivity.
        -- rewrite app_comm_cons, app_assoc in He. apply app_inj_tail in He as [_ <-].
           exfalso; apply (Hno nm cm). apply in_or_app; right; left; reflexivity.
    + rewrite IH. split; intros [Hn (pre & post & He & Hno)]; (split; [exact Hn|]).
      * exists pre, (post ++ [(nm, num, cm)]). split; [now rewrite He, <- app_assoc|].
        intros s' c' Hi. apply in_app_or in Hi as [Hi|[Hi|[]]]; [now apply Hno in Hi|].
        injection Hi as _ -> _. lia.
      * destruct post as [|y post _] using rev_ind.
        -- apply app_inj_tail in He as [_ He]. injection He as _ -> _. lia.
        -- rewrite app_comm_cons, app_assoc in He. apply app_inj_tail in He as [-> <-].
           exists pre, post. split; [reflexivity|]. intros s' c' Hi. apply (Hno s' c'). apply in_or_app; auto.
Qed.

Lemma get_name_None defs s :
  dict_get key_eqb (mk_bitmask defs) (KS s) = None <-> undefined_name defs s.
Proof.
  induction defs as [|x defs IH] using rev_ind.
  - cbn. split; [intros _ ? ? []|reflexivity].
  - rewrite mk_bitmask_snoc, get_add_def. destruct x as [[nm num] cm]; cbn [fst snd mb].
    destruct (String.eqb s nm) eqn:E.
    + apply String.eqb_eq in E; subst nm. split; [discriminate|].
      intros H; exfalso; apply (H num cm), in_or_app; right; left; reflexivity.
    + rewrite IH. split; intros H i c Hi.
      * apply in_app_or in Hi as [Hi|[Hi|[]]]; [now apply H in Hi|].
        injection Hi as -> _ _. rewrite String.eqb_refl in E; discriminate.
      * apply (H i c), in_or_app; auto.
Qed.

Lemma get_num_None defs n :
  dict_get key_eqb (mk_bitmask defs) (KN n) = None <->
  (forall s i c, In (s, i, c) defs -> Z.of_N i <> n).
Proof.
  induction defs as [|x defs IH] using rev_ind.
  - cbn. split; [intros _ ? ? ? []|reflexivity].
  - rewrite mk_bitmask_snoc, get_add_def. destruct x as [[nm num] cm]; cbn [fst snd mb].
    destruct (Z.eqb n (Z.of_N num)) eqn:E.
    + split; [discriminate|].
      intros H; exfalso; apply (H nm num cm); [apply in_or_app; right; left; reflexivity|lia].
    + rewrite IH. split; intros H s i c Hi.
      * apply in_app_or in Hi as [Hi|[Hi|[]]]; [now apply H in Hi|].
        injection Hi as _ -> _. lia.
      * apply (H s i c), in_or_app; auto.
Qed.

Lemma bit_label_spec defs i : label_of defs i (bit_label (mk_bitmask defs) i).
Proof.
  unfold bit_label. destruct (dict_get _ _ _) as [b|] eqn:E.
  - left. apply get_num_Some in E as [<- Ho]. eauto.
  - right. split; [|reflexivity]. intros s c Hi.
    apply get_num_None with (s := s) (i := i) (c := c) in E; [congruence|exact Hi].
Qed.

Lemma land_pow2_testbit n m : Z.land (2 ^ Z.of_N n) m = 0 <-> Z.testbit m (Z.of_N n) = false.
Proof.
  split.
  - intros H. assert (T : Z.testbit (Z.land (2 ^ Z.of_N n) m) (Z.of_N n) = false) by (rewrite H; apply Z.bits_0).
    rewrite Z.land_spec, Z.pow2_bits_true in T by lia. exact T.
  - intros H. apply Z.bits_inj'. intros k Hk. rewrite Z.bits_0, Z.land_spec, Z.pow2_bits_eqb by lia.
    destruct (Z.eqb (Z.of_N n) k) eqn:E; [|reflexivity]. apply Z.eqb_eq in E; subst; now rewrite H.
Qed.

Lemma testbit_ge_pow2 m i : 0 < m -> Z.testbit m (Z.of_N i) = true -> 2 ^ Z.of_N i <= m.
Proof.
  intros Hm H. destruct (Z.le_gt_cases (2 ^ Z.of_N i) m) as [|Hl]; [assumption|].
  assert (Hlog : Z.log2 m < Z.of_N i) by (apply Z.log2_lt_pow2; lia).
  rewrite Z.bits_above_log2 in H by lia. discriminate.
Qed.

Lemma names_loop_spec defs m fuel n :
  0 < m -> Z.log2 m + 2 <= Z.of_N n + Z.of_nat fuel -> (1 <= fuel)%nat ->
  exists l bits, names_loop fuel (mk_bitmask defs) n m = Ok l /\
    StronglySorted N.lt bits /\
    (forall i, In i bits <-> (n <= i)%N /\ Z.testbit m (Z.of_N i) = true) /\
    Forall2 (label_of defs) bits l.
Proof.
  intros Hm. revert n. induction fuel as [|f IH]; intros n Hf H1; [lia|]. cbn [names_loop].
  destruct (2 ^ Z.of_N n <=? m) eqn:E.
  - apply Z.leb_le in E. pose proof (Z.log2_le_pow2 m (Z.of_N n) Hm) as HL.
    destruct f as [|f']; [exfalso; cbn in *; assert (Z.of_N n <= Z.log2 m) by (apply HL; exact E); lia|].
    destruct (IH (N.succ n)) as (l & bits & Hr & Hs & Hb & HF); [lia|lia|].
    rewrite Hr; cbn [rbind].
    destruct (Z.eqb (Z.land (2 ^ Z.of_N n) m) 0) eqn:Eb.
    + apply Z.eqb_eq in Eb. apply land_pow2_testbit in Eb.
      exists l, bits. repeat split; auto.
      * apply Hb in H as [? ?]; lia.
      * apply Hb in H as [? ?]; assumption.
      * intros [Hle Ht]. apply Hb. split; [|exact Ht].
        destruct (N.eq_dec n i) as [->|]; [congruence|lia].
    + assert (Ht : Z.testbit m (Z.of_N n) = true).
      { destruct (Z.testbit m (Z.of_N n)) eqn:Et; [reflexivity|]. apply land_pow2_testbit in Et. lia. }
      exists (bit_label (mk_bitmask defs) n :: l), (n :: bits). repeat split; auto.
      * constructor; [exact Hs|]. apply Forall_forall. intros i Hi. apply Hb in Hi as [? _]; lia.
      * destruct H as [<-|H]; [lia|apply Hb in H as [? _]; lia].
      * destruct H as [<-|H]; [exact Ht|apply Hb in H as [_ ?]; assumption].
      * intros [Hle Hti]. destruct (N.eq_dec n i) as [->|]; [left; reflexivity|right; apply Hb; split; [lia|exact Hti]].
      * constructor; [apply bit_label_spec|exact HF].
  - apply Z.leb_gt in E. exists [], []. repeat split.
    + constructor.
    + destruct H.
    + destruct H.
    + intros [Hle Ht]. apply (testbit_ge_pow2 m i Hm) in Ht.
      assert (2 ^ Z.of_N n <= 2 ^ Z.of_N i) by (apply Z.pow_le_mono_r; lia). lia.
    + constructor.
Qed.

Lemma names_decodes defs m : exists l, names (mk_bitmask defs) m = Ok l /\ decodes defs m l.
Proof.
  destruct (Z.lt_ge_cases 0 m) as [Hm|Hm].
  - destruct (names_loop_spec defs m (S (S (Z.to_nat (Z.log2 m)))) 0%N Hm) as (l & bits & Hr & Hs & Hb & HF).
    + pose proof (Z.log2_nonneg m). lia.
    + lia.
    + exists l. split; [exact Hr|]. exists bits. repeat split; auto.
      * apply Hb in H as [_ ?]; assumption.
      * intros [_ Ht]. apply Hb. split; [lia|exact Ht].
  - exists []. split.
    + unfold names. cbn [names_loop]. replace (2 ^ Z.of_N 0 <=? m) with false; [reflexivity|].
      symmetry; apply Z.leb_gt. cbn. lia.
    + exists []. repeat split; try constructor.
      * destruct H.
      * destruct H.
      * intros [? _]; lia.
Qed.

Lemma or_masks_app d l acc z :
  or_masks d 0 l = Ok z -> or_masks d acc l = Ok (Z.lor acc z).
Proof.
  revert acc z.
  assert (G : forall l acc a0 z, or_masks d a0 l = Ok z -> or_masks d (Z.lor acc a0) l = Ok (Z.lor acc z)).
  { clear l. induction l as [|s l IH]; intros acc a0 z; cbn; [now intros [= <-]|].
    destruct (getitem d (KS s)); cbn; [|discriminate]. intros H. rewrite <- Z.lor_assoc. now apply IH. }
  intros acc z H. apply (G l acc 0 z) in H. now rewrite Z.lor_0_r in H.
Qed.

Lemma distinct_owns_name defs s i c :
  distinct_names defs -> In (s, i, c) defs -> owns_name defs s i c.
Proof.
  intros Hd Hi. apply in_split in Hi as (pre & post & ->). exists pre, post. split; [reflexivity|].
  intros i' c' Hp. unfold distinct_names in Hd. rewrite map_app in Hd; cbn in Hd.
  apply NoDup_remove_2 in Hd. apply Hd, in_or_app; right.
  change s with (fst (fst (s, i', c'))). exact (in_map (fun x : bitdef => fst (fst x)) _ _ Hp).
Qed.

Lemma distinct_owns_num defs s i c :
  distinct_nums defs -> In (s, i, c) defs -> owns_num defs i s c.
Proof.
  intros Hd Hi. apply in_split in Hi as (pre & post & ->). exists pre, post. split; [reflexivity|].
  intros s' c' Hp. unfold distinct_nums in Hd. rewrite map_app in Hd; cbn in Hd.
  apply NoDup_remove_2 in Hd. apply Hd, in_or_app; right.
  change i with (snd (fst (s', i, c'))). exact (in_map (fun x : bitdef => snd (fst x)) _ _ Hp).
Qed.

Lemma or_masks_testbit d l : forall acc z,
  or_masks d acc l = Ok z ->
  forall k, Z.testbit z k = orb (Z.testbit acc k)
     (existsb (fun s => match getitem d (KS s) with Ok b => Z.testbit (mb_mask b) k | Err _ => false end) l).
Proof.
  induction l as [|s l IH]; intros acc z; cbn.
  - intros [= <-] k. now rewrite orb_false_r.
  - destruct (getitem d (KS s)) as [b|]; cbn; [|discriminate]. intros H k.
    rewrite (IH _ _ H k), Z.lor_spec. now rewrite orb_assoc.
Qed.

Lemma or_masks_total d l acc :
  Forall (fun s => exists b, getitem d (KS s) = Ok b) l -> exists z, or_masks d acc l = Ok z.
Proof.
  intros H; revert acc; induction H as [|s l [b Hb] _ IH]; intros acc; cbn; [eauto|].
  rewrite Hb; cbn. apply IH.
Qed.

Lemma or_masks_nonneg d l : forall acc z, 0 <= acc -> or_masks d acc l = Ok z -> 0 <= z.
Proof.
  induction l as [|s l IH]; intros acc z Ha; cbn; [now intros [= <-]|].
  destruct (getitem d (KS s)) as [b|]; cbn; [|discriminate]. apply IH.
  apply Z.lor_nonneg. split; [exact Ha|]. unfold mb_mask. apply Z.pow_nonneg; lia.
Qed.

Lemma decode_encode defs m l :
  distinct_names defs -> distinct_nums defs -> 0 <= m ->
  (forall i, Z.testbit m (Z.of_N i) = true -> exists s c, In (s, i, c) defs) ->
  names (mk_bitmask defs) m = Ok l ->
  or_masks (mk_bitmask defs) 0 l = Ok m.
Proof.
  intros Hdn Hdm Hm Hdef Hnames.
  destruct (names_decodes defs m) as (l' & Hn & bits & Hs & Hb & HF).
  rewrite Hnames in Hn; injection Hn as <-.
  assert (HF2 : Forall2 (fun i s => exists c, In (s, i, c) defs /\
      getitem (mk_bitmask defs) (KS s) = Ok {| mb_name := s; mb_num := i; mb_comment := c |}) bits l).
  { assert (Hall : forall i, In i bits -> Z.testbit m (Z.of_N i) = true) by (intros i Hi; now apply Hb in Hi).
    clear Hs Hb Hnames. induction HF as [|i s bits l Hl HF IH]; constructor.
    - destruct Hl as [[c Ho]|[Hu _]].
      + exists c. destruct Ho as (pre & post & -> & _).
        assert (Hin : In (s, i, c) (pre ++ (s, i, c) :: post)) by (apply in_or_app; right; left; reflexivity).
        split; [exact Hin|]. unfold getitem, dict_getE.
        pose proof (distinct_owns_name _ _ _ _ Hdn Hin) as Ho.
        destruct (get_name_Some (pre ++ (s,i,c) :: post) s {| mb_name := s; mb_num := i; mb_comment := c |}) as [_ G].
        rewrite G; [reflexivity|]. split; [reflexivity|exact Ho].
      + destruct (Hdef i) as (s' & c' & Hi); [apply Hall; left; reflexivity|]. exfalso; exact (Hu _ _ Hi).
    - apply IH. intros j Hj; apply Hall; right; exact Hj. }
  destruct (or_masks_total (mk_bitmask defs) l 0) as [z Hz].
  { clear - HF2. induction HF2 as [|? ? ? ? (c & _ & G) ? IH]; constructor; eauto. }
  rewrite Hz. f_equal.
  assert (Hz0 : 0 <= z) by (eapply or_masks_nonneg; [|exact Hz]; lia).
  apply Z.bits_inj'. intros k Hk. rewrite (or_masks_testbit _ _ _ _ Hz k), Z.bits_0, orb_false_l.
  apply eq_true_iff_eq. rewrite existsb_exists.
  rewrite <- (Z2N.id k Hk). set (kn := Z.to_N k). clearbody kn. clear k Hk. rename kn into k.
  split.
  - intros (s & Hin & Ht).
    apply In_nth with (d := EmptyString) in Hin as (n & Hlt & Hnth).
    assert (exists i, In i bits /\ exists c, getitem (mk_bitmask defs) (KS s) = Ok {| mb_name := s; mb_num := i; mb_comment := c |}) as (i & Hi & c & Hg).
    { clear - HF2 Hlt Hnth. revert n Hlt Hnth. induction HF2 as [|i s' bits l (c & _ & G) ? IH]; intros n Hlt Hnth; cbn in *; [lia|].
      destruct n as [|n]; [subst s'; exists i; split; [left; reflexivity|eauto]|].
      destruct (IH n) as (j & Hj & E); [lia|exact Hnth|]. exists j; split; [right; exact Hj|exact E]. }
    rewrite Hg in Ht. unfold mb_mask in Ht; cbn in Ht. rewrite Z.pow2_bits_eqb in Ht by lia.
    apply Z.eqb_eq in Ht. assert (i = k) by lia; subst i. apply Hb in Hi as [_ Hi]. exact Hi.
  - intros Ht. assert (Hpos : 0 < m) by (destruct (Z.eq_dec m 0) as [->|]; [rewrite Z.bits_0 in Ht; discriminate|lia]).
    assert (Hin : In k bits) by (apply Hb; auto).
    clear - HF2 Hin. induction HF2 as [|i s bits l (c & _ & G) ? IH]; [destruct Hin|].
    destruct Hin as [->|Hin].
    + exists s. split; [left; reflexivity|]. rewrite G. unfold mb_mask; cbn. now rewrite Z.pow2_bits_true by lia.
    + destruct (IH Hin) as (s' & Hs' & Ht'). exists s'; split; [right; exact Hs'|exact Ht'].
Qed.

Lemma mask_of_joined defs m l :
  distinct_names defs -> distinct_nums defs -> 0 < m ->
  (forall s i c, In (s, i, c) defs -> has_char "|" s = false) ->
  (forall i, Z.testbit m (Z.of_N i) = true -> exists s c, In (s, i, c) defs) ->
  names (mk_bitmask defs) m = Ok l ->
  mask (mk_bitmask defs) (KS (join_str "|" l)) = Ok m.
Proof.
  intros Hdn Hdm Hm Hbar Hdef Hn.
  pose proof (decode_encode defs m l Hdn Hdm (Z.lt_le_incl _ _ Hm) Hdef Hn) as Hor.
  unfold mask. rewrite split_join; [exact Hor| |].
  - intros ->. cbn in Hor. injection Hor as E. lia.
  - destruct (names_decodes defs m) as (l' & Hn' & bits & _ & Hb & HF).
    rewrite Hn in Hn'; injection Hn' as <-.
    assert (Hall : forall i, In i bits -> exists s c, In (s, i, c) defs) by (intros i Hi; apply Hdef; now apply Hb in Hi).
    clear - HF Hall Hbar. induction HF as [|i s bits l Hl HF IH]; constructor.
    + destruct Hl as [[c (pre & post & -> & _)]|[Hu _]].
      * apply (Hbar s i c), in_or_app; right; left; reflexivity.
      * destruct (Hall i) as (s' & c' & Hi); [left; reflexivity|]. exfalso; exact (Hu _ _ Hi).
    + apply IH. intros j Hj; apply Hall; right; exact Hj.
Qed.

Lemma getitem_name defs s i c :
  owns_name defs s i c <->
  getitem (mk_bitmask defs) (KS s) = Ok {| mb_name := s; mb_num := i; mb_comment := c |}.
Proof.
  unfold getitem, dict_getE. split.
  - intros Ho. destruct (get_name_Some defs s {| mb_name := s; mb_num := i; mb_comment := c |}) as [_ G].
    rewrite G; [reflexivity|]. split; [reflexivity|exact Ho].
  - destruct (dict_get _ _ _) as [b|] eqn:E; [|discriminate]. intros [= ->].
    now apply get_name_Some in E as [_ E].
Qed.

Lemma getitem_num defs s i c :
  owns_num defs i s c <->
  getitem (mk_bitmask defs) (KN (Z.of_N i)) = Ok {| mb_name := s; mb_num := i; mb_comment := c |}.
Proof.
  unfold getitem, dict_getE. split.
  - intros Ho. destruct (get_num_Some defs i {| mb_name := s; mb_num := i; mb_comment := c |}) as [_ G].
    rewrite G; [reflexivity|]. split; [reflexivity|exact Ho].
  - destruct (dict_get _ _ _) as [b|] eqn:E; [|discriminate]. intros [= ->].
    now apply get_num_Some in E as [_ E].
Qed.

Lemma getitem_missing_name defs s :
  undefined_name defs s <-> getitem (mk_bitmask defs) (KS s) = Err KeyError.
Proof.
  unfold getitem, dict_getE. rewrite <- get_name_None.
  destruct (dict_get _ _ _); split; congruence.
Qed.

Lemma getitem_missing_num defs n :
  (forall s i c, In (s, i, c) defs -> Z.of_N i <> n) <-> getitem (mk_bitmask defs) (KN n) = Err KeyError.
Proof.
  unfold getitem, dict_getE. rewrite <- get_num_None.
  destruct (dict_get _ _ _); split; congruence.
Qed.

Lemma lookups_agree defs s i c :
  distinct_names defs -> distinct_nums defs -> In (s, i, c) defs ->
  let d := mk_bitmask defs in
  bitnum d (KS s) = Ok i /\ bitname d (KN (Z.of_N i)) = Ok s /\
  comment d (KS s) = Ok c /\ comment d (KN (Z.of_N i)) = Ok c /\
  mask d (KN (Z.of_N i)) = Ok (2 ^ Z.of_N i) /\
  (has_char "|" s = false -> mask d (KS s) = Ok (2 ^ Z.of_N i)) /\
  getitem d (KS s) = getitem d (KN (Z.of_N i)).
Proof.
  intros Hn Hm Hi d. subst d.
  pose proof (proj1 (getitem_name _ _ _ _) (distinct_owns_name _ _ _ _ Hn Hi)) as G1.
  pose proof (proj1 (getitem_num _ _ _ _) (distinct_owns_num _ _ _ _ Hm Hi)) as G2.
  unfold bitnum, bitname, comment, mask. rewrite G1, G2. repeat split; try reflexivity.
  intros Hb. rewrite (split_char_nosep _ _ Hb). cbn [or_masks]. rewrite G1. cbn [rbind or_masks].
  now rewrite Z.lor_0_l.
Qed.

Lemma or_masks_fails d l : forall acc,
  (exists s, In s l /\ getitem d (KS s) = Err KeyError) -> or_masks d acc l = Err KeyError.
Proof.
  induction l as [|s l IH]; intros acc (s' & Hi & He); [destruct Hi|]. cbn.
  destruct (getitem d (KS s)) as [b|e] eqn:E; cbn.
  - destruct Hi as [->|Hi]; [congruence|]. apply IH; eauto.
  - unfold getitem, dict_getE in E. destruct (dict_get _ _ _); congruence.
Qed.

(** mask('A|B|..'): the OR of the parts, or KeyError if a part is not defined. *)
Lemma mask_joined defs (parts : list (string * N * string)) :
  parts <> [] ->
  Forall (fun x => has_char "|" (fst (fst x)) = false /\ owns_name defs (fst (fst x)) (snd (fst x)) (snd x)) parts ->
  mask (mk_bitmask defs) (KS (join_str "|" (map (fun x => fst (fst x)) parts)))
  = Ok (fold_left (fun a x => Z.lor a (2 ^ Z.of_N (snd (fst x)))) parts 0).
Proof.
  intros Hne HF. unfold mask. rewrite split_join.
  - generalize 0 as acc. clear Hne. induction HF as [|[[s i] c] parts [_ Ho] HF IH]; intros acc; cbn [map or_masks fold_left fst snd]; [reflexivity|].
    cbn [fst snd] in Ho. apply getitem_name in Ho. rewrite Ho. cbn [rbind]. apply IH.
  - destruct parts; [congruence|discriminate].
  - apply Forall_map. eapply Forall_impl; [|exact HF]. intros ? [? _]; assumption.
Qed.

Lemma mask_undefined_part defs s p :
  In p (split_char "|" s) -> undefined_name defs p -> mask (mk_bitmask defs) (KS s) = Err KeyError.
Proof. intros Hi Hu. apply or_masks_fails. exists p. split; [exact Hi|]. now apply getitem_missing_name. Qed.

(** names() *)
Lemma insert_Z_In x y l : In y (insert_Z x l) <-> y = x \/ In y l.
Proof. induction l as [|z l IH]; cbn; [intuition|]. destruct (x <=? z); cbn; [intuition|]. rewrite IH. intuition. Qed.
Lemma sort_Z_In x l : In x (sort_Z l) <-> In x l.
Proof. induction l as [|y l IH]; cbn; [tauto|]. rewrite insert_Z_In, IH. intuition. Qed.
Lemma insert_Z_sorted x l : ~ In x l -> StronglySorted Z.lt l -> StronglySorted Z.lt (insert_Z x l).
Proof.
  induction l as [|y l IH]; cbn; intros Hn Hs; [repeat constructor|].
  inversion Hs as [|? ? Hs' Hf]; subst. destruct (x <=? y) eqn:E.
  - constructor; [exact Hs|]. constructor; [lia|]. eapply Forall_impl; [|exact Hf]. cbn; lia.
  - constructor; [apply IH; [tauto|exact Hs']|]. apply Forall_forall. intros z Hz.
    apply insert_Z_In in Hz as [->|Hz]; [lia|]. rewrite Forall_forall in Hf; auto.
Qed.
Lemma sort_Z_sorted l : NoDup l -> StronglySorted Z.lt (sort_Z l).
Proof. induction 1 as [|x l Hn Hd IH]; cbn; [constructor|]. apply insert_Z_sorted; [now rewrite sort_Z_In|exact IH]. Qed.

Lemma add_def_NoDup d x : NoDup (map fst d) -> NoDup (map fst (add_def d x)).
Proof. destruct x as [[nm num] cm]; intros H; unfold add_def. now apply (dict_set_NoDup key_eqb key_eqb_spec), (dict_set_NoDup key_eqb key_eqb_spec). Qed.
Lemma mk_bitmask_NoDup defs : NoDup (map fst (mk_bitmask defs)).
Proof.
  induction defs as [|x defs IH] using rev_ind; [constructor|]. rewrite mk_bitmask_snoc. now apply add_def_NoDup.
Qed.
Lemma int_keys_In d n : In n (int_keys d) <-> In (KN n) (map fst d).
Proof.
  unfold int_keys. rewrite in_flat_map, in_map_iff. split.
  - intros ([k b] & Hi & Hn). exists (k, b). cbn in *. destruct k; [destruct Hn|destruct Hn as [->|[]]; auto].
  - intros ([k b] & Hk & Hi). cbn in Hk. subst k. exists (KN n, b). split; [exact Hi|left; reflexivity].
Qed.
Lemma int_keys_NoDup d : NoDup (map fst d) -> NoDup (int_keys d).
Proof.
  induction d as [|[k b] d IH]; [constructor|]. intros H. cbn in H. inversion H as [|? ? Hn Hd]; subst.
  unfold int_keys in *; cbn. destruct k as [s|n]; cbn; [exact (IH Hd)|]. constructor; [|exact (IH Hd)].
  intros Hi. apply Hn. now apply int_keys_In.
Qed.

Lemma all_names_spec defs :
  exists l (nums : list N), all_names (mk_bitmask defs) = Ok l /\
    StronglySorted N.lt nums /\ (forall i, In i nums <-> exists s c, In (s, i, c) defs) /\
    Forall2 (fun i s => exists c, owns_num defs i s c) nums l.
Proof.
  set (ks := sort_Z (int_keys (mk_bitmask defs))).
  assert (Hs : StronglySorted Z.lt ks) by (apply sort_Z_sorted, int_keys_NoDup, mk_bitmask_NoDup).
  assert (Hk : forall n, In n ks <-> exists s i c, In (s, i, c) defs /\ n = Z.of_N i).
  { intros n. unfold ks. rewrite sort_Z_In, int_keys_In. split.
    - intros Hi. destruct (dict_get key_eqb (mk_bitmask defs) (KN n)) as [b|] eqn:E.
      + destruct (Z.lt_ge_cases n 0) as [Hneg|Hpos].
        * exfalso. assert (dict_get key_eqb (mk_bitmask defs) (KN n) = None); [|congruence].
          apply get_num_None. intros; lia.
        * rewrite <- (Z2N.id n Hpos) in E. apply get_num_Some in E as [_ (pre & post & He & _)].
          exists (mb_name b), (Z.to_N n), (mb_comment b). split; [|lia]. rewrite He. apply in_or_app; right; left; reflexivity.
      + apply (dict_get_None key_eqb key_eqb_spec) in E. contradiction.
    - intros (s & i & c & Hi & ->).
      destruct (in_dec (fun a b : key => ltac:(decide equality; [apply string_dec|apply Z.eq_dec])) (KN (Z.of_N i)) (map fst (mk_bitmask defs))) as [|Hn]; [assumption|].
      apply (dict_get_None key_eqb key_eqb_spec) in Hn. exfalso.
      apply get_num_None with (s := s) (i := i) (c := c) in Hn; [congruence|exact Hi]. }
  assert (exists l, Forall2 (fun n s => rmap mb_name (getitem (mk_bitmask defs) (KN n)) = Ok s) ks l) as [l Hl].
  { assert (H : forall n, In n ks -> exists s, rmap mb_name (getitem (mk_bitmask defs) (KN n)) = Ok s).
    { intros n Hn. apply Hk in Hn as (s & i & c & Hi & ->).
      destruct (dict_get key_eqb (mk_bitmask defs) (KN (Z.of_N i))) as [b|] eqn:E.
      - exists (mb_name b). unfold getitem, dict_getE. now rewrite E.
      - apply get_num_None with (s := s) (i := i) (c := c) in E; [congruence|exact Hi]. }
    clear Hs Hk. clearbody ks. induction ks as [|n ks IH]; [exists []; constructor|].
    destruct (H n) as [s Hs]; [left; reflexivity|]. destruct IH as [l Hl]; [intros; apply H; right; assumption|].
    exists (s :: l). constructor; assumption. }
  exists l, (map Z.to_N ks). repeat split.
  - unfold all_names. apply rmapM_Ok_Forall2. exact Hl.
  - assert (Hpos : Forall (fun n => 0 <= n) ks).
    { apply Forall_forall. intros n Hn. apply Hk in Hn as (? & i & ? & _ & ->). lia. }
    clear - Hs Hpos. induction Hs as [|n ks Hs IH Hf]; cbn; constructor.
    + apply IH. now inversion Hpos.
    + inversion Hpos; subst. apply Forall_map. rewrite Forall_forall in *. intros m Hm.
      specialize (Hf m Hm). assert (0 <= m) by auto. lia.
  - intros Hi. apply in_map_iff in Hi as (n & <- & Hn). apply Hk in Hn as (s & i' & c & Hi & ->).
    rewrite N2Z.id. eauto.
  - intros (s & c & Hi). apply in_map_iff. exists (Z.of_N i). split; [apply N2Z.id|]. apply Hk. eauto.
  - assert (Hpos : Forall (fun n => 0 <= n) ks).
    { apply Forall_forall. intros n Hn. apply Hk in Hn as (? & i & ? & _ & ->). lia. }
    clear - Hl Hpos. induction Hl as [|n s ks l Hg Hl IH]; cbn; constructor.
    + inversion Hpos; subst. unfold getitem, dict_getE in Hg. destruct (dict_get _ _ _) as [b|] eqn:E; [|discriminate].
      cbn in Hg. injection Hg as <-. rewrite <- (Z2N.id n) in E by assumption.
      apply get_num_Some in E as [_ E]. eauto.
    + apply IH. now inversion Hpos.
Qed.
