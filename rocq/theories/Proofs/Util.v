From Verif.Model Require Import Util.
From Verif.Spec Require Import Util.
From Verif.Proofs Require Import Prelude.
From Coq Require Import ZifyBool ZifyN ZifyNat.

Lemma is_digit_char a : is_digit a = true <-> exists d, digit_char a d.
Proof.
  unfold is_digit, digit_char. split.
  - intros H. exists (Z.of_N (N_of_ascii a) - 48). split; [lia|].
    replace (Z.to_N (48 + (Z.of_N (N_of_ascii a) - 48))) with (N_of_ascii a) by lia.
    now rewrite ascii_N_embedding.
  - intros (d & Hd & ->). rewrite N_ascii_embedding by lia. lia.
Qed.
Lemma digit_char_val a d : digit_char a d -> Z.of_N (N_of_ascii a) - 48 = d.
Proof. intros (Hd & ->). rewrite N_ascii_embedding by lia. lia. Qed.

Lemma int_acc_spec s acc :
  int_acc acc s = acc * 10 ^ Z.of_nat (String.length s) + int_acc 0 s.
Proof.
  revert acc. induction s as [|a r IH]; intros acc; cbn [int_acc String.length]; [cbn; lia|].
  rewrite IH, (IH (10 * 0 + _)). rewrite Nat2Z.inj_succ, Z.pow_succ_r by lia. lia.
Qed.

Lemma numeral_sound s n : numeral s n -> isdigit s = true /\ int_of s = n.
Proof.
  unfold int_of. induction 1 as [a d Hd|a d s n Hd Hs [IH1 IH2]].
  - cbn. rewrite (proj2 (is_digit_char a)) by eauto. apply digit_char_val in Hd. split; [reflexivity|]. cbn in *. lia.
  - cbn. rewrite (proj2 (is_digit_char a)) by eauto. apply digit_char_val in Hd.
    split; [destruct s; [discriminate|exact IH1]|]. rewrite int_acc_spec, IH2. rewrite Hd. lia.
Qed.

Lemma numeral_complete s : isdigit s = true -> numeral s (int_of s).
Proof.
  unfold int_of. destruct s as [|a r]; [discriminate|]. revert a.
  induction r as [|b r IH]; intros a H; cbn in H; apply andb_true_iff in H as [Ha Hr].
  - apply is_digit_char in Ha as [d Hd]. cbn. rewrite (digit_char_val _ _ Hd).
    replace (10 * 0 + d) with d by lia. now constructor.
  - apply is_digit_char in Ha as [d Hd]. cbn [int_acc]. rewrite (digit_char_val _ _ Hd).
    change (int_acc (10 * (10 * 0 + d) + (Z.of_N (N_of_ascii b) - 48)) r) with (int_acc (10 * 0 + d) (String b r)).
    rewrite int_acc_spec. replace (10 * 0 + d) with d by lia. constructor; [exact Hd|]. apply IH. exact Hr.
Qed.

Lemma remove_spaces_spec s t : blanks_removed s t <-> remove_spaces s = t.
Proof.
  split.
  - induction 1 as [|s t H IH|a s t Ha H IH]; cbn; [reflexivity|exact IH|].
    destruct (Ascii.eqb a " ") eqn:E; [apply Ascii.eqb_eq in E; congruence|]. now rewrite IH.
  - intros <-. induction s as [|a r IH]; cbn; [constructor|].
    destruct (Ascii.eqb a " ") eqn:E.
    + apply Ascii.eqb_eq in E; subst. now constructor.
    + constructor; [|exact IH]. intros ->. now rewrite Ascii.eqb_refl in E.
Qed.

Lemma zrange_spec a b : half_open a b (zrange a b).
Proof.
  unfold zrange, half_open. split.
  - rewrite map_length, seq_length. lia.
  - intros k v H. rewrite nth_error_map in H. destruct (nth_error (seq 0 _) k) as [j|] eqn:E; [|discriminate].
    injection H as <-. assert (Hk : (k < Z.to_nat (b - a))%nat).
    { rewrite <- (seq_length (Z.to_nat (b - a)) 0). apply nth_error_Some. congruence. }
    apply (nth_error_nth _ _ O) in E. rewrite seq_nth in E by exact Hk. lia.
Qed.
Lemma half_open_unique a b l l' : half_open a b l -> half_open a b l' -> l = l'.
Proof.
  intros [H1 H2] [H1' H2']. apply nth_error_ext. intros k.
  assert (Hl : List.length l = List.length l') by lia.
  destruct (nth_error l k) as [v|] eqn:E, (nth_error l' k) as [v'|] eqn:E'; try reflexivity.
  - rewrite (H2 _ _ E), (H2' _ _ E'). reflexivity.
  - apply nth_error_None in E'. assert (k < List.length l)%nat by (apply nth_error_Some; congruence). lia.
  - apply nth_error_None in E. assert (k < List.length l')%nat by (apply nth_error_Some; congruence). lia.
Qed.

(** Digits contain none of the separators. *)
Lemma digits_no_char c s : is_digit c = false -> all_digits s = true -> has_char c s = false.
Proof.
  intros Hc. induction s as [|a r IH]; cbn; [reflexivity|]. intros H; apply andb_true_iff in H as [Ha Hr].
  rewrite (IH Hr), orb_false_r. destruct (Ascii.eqb a c) eqn:E; [apply Ascii.eqb_eq in E; congruence|reflexivity].
Qed.
Lemma isdigit_all s : isdigit s = true -> all_digits s = true.
Proof. destruct s; [discriminate|exact (fun H => H)]. Qed.

Lemma split_dots_nonempty s : split_dots s <> [].
Proof.
  destruct s as [|a [|b r]]; cbn; try discriminate.
  destruct (Ascii.eqb a "." && Ascii.eqb b ".")%char; [discriminate|].
  destruct r as [|c r]; [discriminate|].
  destruct (Ascii.eqb b "." && Ascii.eqb c ".")%char; [discriminate|].
  destruct (split_dots (String c r)) eqn:E; cbn in E; try discriminate; destruct (split_dots r); discriminate.
Qed.

Lemma split_dots_keep a r :
  (Ascii.eqb a "." = true -> match r with String b _ => Ascii.eqb b "." = false | _ => True end)%char ->
  split_dots (String a r) = match split_dots r with [] => [String a EmptyString] | w :: ws => String a w :: ws end.
Proof.
  intros H. cbn. destruct r as [|b r']; [reflexivity|].
  destruct (Ascii.eqb a ".") eqn:E; [|reflexivity]. now rewrite (H eq_refl).
Qed.

Lemma split_dots_digits s : all_digits s = true -> split_dots s = [s].
Proof.
  induction s as [|a r IH]; [reflexivity|]. intros H. cbn in H. apply andb_true_iff in H as [Ha Hr].
  rewrite split_dots_keep; [now rewrite (IH Hr)|].
  intros E. apply Ascii.eqb_eq in E; subst. discriminate.
Qed.

Lemma split_dots_two a b : all_digits a = true -> all_digits b = true ->
  split_dots (append a (append ".." b)) = [a; b].
Proof.
  intros Ha Hb. induction a as [|x r IH].
  - cbn. now rewrite (split_dots_digits b Hb).
  - cbn in Ha. apply andb_true_iff in Ha as [Hx Hr]. change (append (String x r) (append ".." b)) with (String x (append r (append ".." b))).
    rewrite split_dots_keep; [now rewrite (IH Hr)|].
    intros E. apply Ascii.eqb_eq in E; subst. discriminate.
Qed.

Lemma join_split_dots : forall n s, (String.length s <= n)%nat -> join_str ".." (split_dots s) = s.
Proof.
  induction n as [|n IH]; intros s Hl.
  - destruct s; [reflexivity|cbn in Hl; lia].
  - destruct s as [|a r]; [reflexivity|]. cbn [String.length] in Hl.
    destruct r as [|b r'].
    + reflexivity.
    + destruct ((Ascii.eqb a "." && Ascii.eqb b ".")%char) eqn:E.
      * change (split_dots (String a (String b r'))) with
          (if (Ascii.eqb a "." && Ascii.eqb b ".")%char then EmptyString :: split_dots r'
           else match split_dots (String b r') with [] => [String a EmptyString] | w :: ws => String a w :: ws end).
        rewrite E. apply andb_true_iff in E as [E1 E2]. apply Ascii.eqb_eq in E1, E2; subst.
        destruct (split_dots r') as [|w ws] eqn:Es; [now apply split_dots_nonempty in Es|].
        change (join_str ".." (EmptyString :: w :: ws)) with (String "." (String "." (join_str ".." (w :: ws)))).
        rewrite <- Es. rewrite IH; [reflexivity|]. cbn [String.length] in Hl. lia.
      * rewrite split_dots_keep by (intros E1; rewrite E1 in E; exact E).
        destruct (split_dots (String b r')) as [|w ws] eqn:Es; [now apply split_dots_nonempty in Es|].
        assert (J : join_str ".." (w :: ws) = String b r') by (rewrite <- Es; apply IH; lia).
        destruct ws as [|w2 ws]; cbn [join_str append] in *; now rewrite J.
Qed.

Lemma split_char_two c a b : is_digit c = false -> all_digits a = true -> all_digits b = true ->
  split_char c (append a (append (String c EmptyString) b)) = [a; b].
Proof.
  intros Hc Ha Hb. cbn [append]. rewrite split_char_app by now apply digits_no_char.
  now rewrite split_char_nosep by now apply digits_no_char.
Qed.

Lemma two_numbers_sound parts l : two_numbers parts = Some l ->
  exists a b, parts = [a; b] /\ numeral a (int_of a) /\ numeral b (int_of b) /\ l = zrange (int_of a) (int_of b).
Proof.
  destruct parts as [|a [|b [|? ?]]]; try discriminate. cbn.
  destruct (isdigit a) eqn:Ea; [|discriminate]. destruct (isdigit b) eqn:Eb; [|discriminate]. cbn.
  intros [= <-]. exists a, b. repeat split; auto using numeral_complete.
Qed.

Lemma all_digits_no_sep a (c : ascii) b : is_digit c = false -> all_digits (append a (String c b)) = false.
Proof. intros Hc. induction a as [|x r IH]; cbn; [now rewrite Hc|]. now rewrite IH, andb_false_r. Qed.

Lemma has_char_app c a b : has_char c (append a b) = has_char c a || has_char c b.
Proof. induction a as [|x r IH]; cbn; [reflexivity|]. now rewrite IH, orb_assoc. Qed.

Lemma isdigit_range a sym b : range_symbol sym -> isdigit (append a (append sym b)) = false.
Proof.
  intros Hs. assert (H : all_digits (append a (append sym b)) = false).
  { destruct Hs as [->|[->| ->]]; cbn [append]; apply all_digits_no_sep; reflexivity. }
  destruct (append a (append sym b)); [reflexivity|exact H].
Qed.

(** Splitting with the wrong separator leaves one part. *)
Lemma wrong_sep_split c a sym b :
  is_digit c = false -> all_digits a = true -> all_digits b = true -> has_char c sym = false ->
  two_numbers (split_char c (append a (append sym b))) = None.
Proof.
  intros Hc Ha Hb Hs. rewrite split_char_nosep; [reflexivity|].
  rewrite !has_char_app, Hs, (digits_no_char c a), (digits_no_char c b) by assumption. reflexivity.
Qed.

Lemma split_dots_nodot s : has_char "." s = false -> split_dots s = [s].
Proof.
  induction s as [|a r IH]; [reflexivity|]. cbn [has_char]. intros H. apply orb_false_iff in H as [Ha Hr].
  rewrite split_dots_keep; [now rewrite (IH Hr)|]. congruence.
Qed.

Lemma parse_item_spec s l : parse_item s = Some l <-> item s l.
Proof.
  unfold parse_item. set (t := remove_spaces s).
  assert (Ht : blanks_removed s t) by (now apply remove_spaces_spec). split.
  - destruct (isdigit t) eqn:Ed.
    + intros [= <-]. eapply item_number; [exact Ht|]. now apply numeral_complete.
    + destruct (two_numbers (split_char ":" t)) as [l1|] eqn:E1.
      { intros [= <-]. apply two_numbers_sound in E1 as (a & b & Es & Ha & Hb & ->).
        eapply item_range with (sym := ":"%string); [exact Ht|left; reflexivity| |exact Ha|exact Hb|apply zrange_spec].
        rewrite <- (join_split ":" t), Es. reflexivity. }
      destruct (two_numbers (split_dots t)) as [l2|] eqn:E2.
      { intros [= <-]. apply two_numbers_sound in E2 as (a & b & Es & Ha & Hb & ->).
        eapply item_range with (sym := ".."%string); [exact Ht|right; left; reflexivity| |exact Ha|exact Hb|apply zrange_spec].
        rewrite <- (join_split_dots _ t (le_n _)), Es. reflexivity. }
      intros E3. apply two_numbers_sound in E3 as (a & b & Es & Ha & Hb & ->).
      eapply item_range with (sym := "-"%string); [exact Ht|right; right; reflexivity| |exact Ha|exact Hb|apply zrange_spec].
      rewrite <- (join_split "-" t), Es. reflexivity.
  - subst t. clear Ht. intros [s' t n Hb Hn|s' t a b sym na nb l' Hb Hsym Het Ha Hb' Hl];
      apply remove_spaces_spec in Hb; rewrite Hb.
    + apply numeral_sound in Hn as [-> ->]. reflexivity.
    + rewrite Het. rewrite (isdigit_range a sym b Hsym).
      pose proof (numeral_sound _ _ Ha) as [Da Va]. pose proof (numeral_sound _ _ Hb') as [Db Vb].
      pose proof (isdigit_all _ Da) as Aa. pose proof (isdigit_all _ Db) as Ab.
      assert (R : two_numbers [a; b] = Some l').
      { cbn. rewrite Da, Db, Va, Vb. cbn. f_equal. eapply half_open_unique; [apply zrange_spec|exact Hl]. }
      destruct Hsym as [->|[->| ->]].
      * rewrite split_char_two by (assumption || reflexivity). now rewrite R.
      * rewrite wrong_sep_split by (assumption || reflexivity).
        rewrite split_dots_two by assumption. now rewrite R.
      * rewrite wrong_sep_split by (assumption || reflexivity).
        rewrite split_dots_nodot; [|rewrite !has_char_app, (digits_no_char "." a), (digits_no_char "." b) by (assumption || reflexivity); reflexivity].
        cbn [two_numbers]. rewrite split_char_two by (assumption || reflexivity). exact R.
Qed.

Lemma parse_items_Ok l out :
  parse_items l = Ok out <-> exists ls, Forall2 item l ls /\ out = List.concat ls.
Proof.
  revert out; induction l as [|s r IH]; intros out; cbn.
  - split; [intros [= <-]; exists []; split; [constructor|reflexivity]|].
    intros (ls & HF & ->). inversion HF. reflexivity.
  - split.
    + destruct (parse_item s) as [fs|] eqn:E; [|discriminate]. apply parse_item_spec in E.
      destruct (parse_items r) as [rest|]; cbn; [|discriminate]. intros [= <-].
      destruct (proj1 (IH rest) eq_refl) as (ls & HF & ->). exists (fs :: ls). split; [constructor; assumption|reflexivity].
    + intros (ls & HF & ->). inversion HF as [|? fs ? ls' Hi HF']; subst.
      apply parse_item_spec in Hi. rewrite Hi.
      rewrite (proj2 (IH (List.concat ls'))) by eauto. reflexivity.
Qed.
Lemma parse_items_err l e : parse_items l = Err e -> e = SysExit 1.
Proof.
  induction l as [|s r IH]; cbn; [discriminate|]. destruct (parse_item s); [|congruence].
  destruct (parse_items r); cbn; [discriminate|]. intros [= <-]. auto.
Qed.

Lemma all_blank_spec s : all_blank s = true <-> blank s.
Proof.
  unfold blank. induction s as [|a r IH]; cbn.
  - split; [intros _ k a H; destruct k; discriminate|reflexivity].
  - rewrite andb_true_iff, orb_true_iff, !Ascii.eqb_eq, IH. split.
    + intros [Ha Hr] [|k] b Hk; [injection Hk as <-; exact Ha|]. exact (Hr k b Hk).
    + intros H. split; [apply (H O a eq_refl)|]. intros k b Hk. exact (H (S k) b Hk).
Qed.
Lemma no_comma_spec s : no_comma s <-> has_char "," s = false.
Proof.
  induction s as [|a r IH]; cbn; [tauto|]. rewrite orb_false_iff, IH. rewrite Ascii.eqb_neq. tauto.
Qed.
Lemma with_commas_join l : with_commas l = join_str "," l.
Proof. induction l as [|w [|w2 ws] IH]; [reflexivity|reflexivity|]. cbn [with_commas join_str] in *. rewrite IH. reflexivity. Qed.

Lemma parse_accepts parts ls :
  parts <> [] -> Forall no_comma parts -> Forall2 item parts ls ->
  parse_fibers (Some (with_commas parts)) = Ok (List.concat ls).
Proof.
  intros Hne Hc HF. unfold parse_fibers. rewrite with_commas_join.
  assert (Hsp : split_char "," (join_str "," parts) = parts).
  { apply split_join; [exact Hne|]. eapply Forall_impl; [|exact Hc]. intros s; apply no_comma_spec. }
  rewrite Hsp. destruct (all_blank _) eqn:E.
  - exfalso. (* a list of items contains a digit *)
    assert (Hi : exists p, In p parts /\ exists a, has_char a p = true /\ is_digit a = true).
    { destruct HF as [|p l parts ls Hi HF]; [congruence|]. exists p. split; [left; reflexivity|].
      assert (G : forall s t a, blanks_removed s t -> a <> " "%char -> has_char a t = true -> has_char a s = true).
      { induction 1 as [|s t Hb IH|c s t Hc' Hb IH]; cbn; intros Ha Hh; [discriminate| |].
        - rewrite (IH Ha Hh). apply orb_true_r.
        - apply orb_true_iff in Hh as [->|Hh]; [reflexivity|]. rewrite (IH Ha Hh). apply orb_true_r. }
      assert (N : forall t n, numeral t n -> exists a, has_char a t = true /\ is_digit a = true).
      { intros t n Hn. apply numeral_sound in Hn as [Hd _]. destruct t as [|a t]; [discriminate|].
        exists a. cbn in *. apply andb_true_iff in Hd as [Hd _]. rewrite Ascii.eqb_refl. auto. }
      destruct Hi as [s t n Hb Hn|s t a b sym na nb l Hb Hsym Het Ha Hb' Hl].
      - destruct (N _ _ Hn) as (a & H1 & H2). exists a. split; [|exact H2]. eapply G; eauto. intros ->; discriminate.
      - destruct (N _ _ Ha) as (x & H1 & H2). exists x. split; [|exact H2]. eapply G; eauto; [intros ->; discriminate|].
        subst t. rewrite has_char_app, H1. reflexivity. }
    destruct Hi as (p & Hp & a & Ha & Hd).
    assert (B : forall s, all_blank s = true -> has_char a s = true -> False).
    { induction s as [|c s IH]; cbn; [discriminate|]. intros H1 H2. apply andb_true_iff in H1 as [H1 H3].
      apply orb_true_iff in H2 as [H2|H2]; [|auto]. apply Ascii.eqb_eq in H2; subst c.
      apply orb_true_iff in H1 as [H1|H1]; apply Ascii.eqb_eq in H1; subst a; discriminate. }
    apply (B _ E). clear - Hp Ha. induction parts as [|w [|w2 ws] IH]; [destruct Hp| |].
    + destruct Hp as [->|[]]. exact Ha.
    + rewrite join_str_cons2, !has_char_app. destruct Hp as [->|Hp]; [now rewrite Ha|].
      rewrite (IH Hp). now rewrite !orb_true_r.
  - apply parse_items_Ok. eauto.
Qed.

Lemma parse_only s l :
  parse_fibers (Some s) = Ok l ->
  (blank s /\ l = []) \/
  (exists parts ls, parts <> [] /\ s = with_commas parts /\ Forall no_comma parts /\ Forall2 item parts ls /\ l = List.concat ls).
Proof.
  unfold parse_fibers. destruct (all_blank s) eqn:E.
  - intros [= <-]. left. split; [now apply all_blank_spec|reflexivity].
  - intros H. right. apply parse_items_Ok in H as (ls & HF & ->).
    exists (split_char "," s), ls. repeat split; auto.
    + apply split_char_nonempty.
    + rewrite with_commas_join. symmetry. apply join_split.
    + eapply Forall_impl; [|apply split_char_parts]. intros w; apply no_comma_spec.
Qed.

Lemma parse_blank s : blank s -> parse_fibers (Some s) = Ok [].
Proof. intros H. apply all_blank_spec in H. unfold parse_fibers. now rewrite H. Qed.

Lemma parse_total s e : parse_fibers s = Err e -> e = SysExit 1.
Proof. destruct s as [s|]; cbn; [|discriminate]. destruct (all_blank s); [discriminate|]. apply parse_items_err. Qed.
