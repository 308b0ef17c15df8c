(** The names of the columns of the calibration table. *)
From Verif.Model Require Import FitTable.
From Verif.Spec Require Import FileNames FitTable.
From Verif.Proofs Require Import PyString Fitter.
From Coq Require Import DecimalString DecimalPos.
Local Open Scope string_scope.

(** A predicate on all characters *)
Fixpoint all_chars (p : ascii -> bool) (s : string) : bool := match s with EmptyString => true | String c r => (p c && all_chars p r)%bool end.
Definition is_digit (c : ascii) : bool := let n := nat_of_ascii c in ((48 <=? n) && (n <=? 57))%nat.
Definition not_E (c : ascii) : bool := negb (Ascii.eqb c "E").

Lemma prefix_nil s : String.prefix "" s = true.
Proof. destruct s; reflexivity. Qed.
Lemma length_append a b : String.length (a ++ b) = (String.length a + String.length b)%nat.
Proof. induction a as [|c a IH]; [reflexivity|]. cbn. now rewrite IH. Qed.
Lemma all_chars_app p a b : all_chars p (a ++ b) = (all_chars p a && all_chars p b)%bool.
Proof. induction a as [|x a IH]; [reflexivity|]. cbn. rewrite IH. apply andb_assoc. Qed.
Lemma all_chars_imp (p q : ascii -> bool) s : (forall c, p c = true -> q c = true) -> all_chars p s = true -> all_chars q s = true.
Proof. intros H. induction s as [|c s IH]; [reflexivity|]. cbn. intros A. apply andb_prop in A as [A B]. rewrite (H _ A), (IH B). reflexivity. Qed.

Lemma uint_digits u : all_chars is_digit (NilEmpty.string_of_uint u) = true.
Proof. induction u; cbn; auto. Qed.
Lemma number_digits s : (0 <= s)%Z -> all_chars is_digit (str_of_Z s) = true /\ str_of_Z s <> "".
Proof.
  intros H. unfold str_of_Z. destruct s as [|p|p]; [split; [reflexivity|discriminate]| |lia].
  change (Z.to_int (Z.pos p)) with (Decimal.Pos (Pos.to_uint p)). cbn [NilZero.string_of_int]. unfold NilZero.string_of_uint.
  assert (N : Pos.to_uint p <> Decimal.Nil). { intros E. apply (f_equal Pos.of_uint) in E. rewrite DecimalPos.Unsigned.of_to in E. discriminate. }
  pose proof (uint_digits (Pos.to_uint p)) as U. destruct (Pos.to_uint p); [contradiction|..]; (split; [exact U|discriminate]).
Qed.

(** Two parts: what comes before the number, and the number *)
Definition offset_parts (k P d : string) : Prop := (P = "EPSILON_T_" \/ P = "EPSILON_P_") /\ all_chars is_digit d = true /\ d <> "" /\ k = P ++ d.
Lemma offset_split k : offset_name k -> exists P d, offset_parts k P d.
Proof.
  intros (s & H & E). destruct (number_digits s H) as [D N]. destruct E as [->| ->]; [exists "EPSILON_T_"|exists "EPSILON_P_"]; exists (str_of_Z s); unfold offset_parts; auto.
Qed.

(** [ren1]: one pass on one name *)
Definition ren1 (key suf n : string) : string := if (0 <=? find key n)%Z then replace key (key ++ suf) n else n.

Lemma no_E_index key s : all_chars not_E s = true -> String.index 0 (String "E" key) s = None.
Proof.
  induction s as [|c s IH]; [reflexivity|]. intros H. apply andb_prop in H as [A B]. cbn [String.index]. unfold not_E in A. apply negb_true_iff, Ascii.eqb_neq in A.
  assert (P : String.prefix (String "E" key) (String c s) = false). { cbn [String.prefix]. destruct (ascii_dec "E" c); [congruence|reflexivity]. }
  rewrite P, (IH B). reflexivity.
Qed.
Lemma no_E_replace key new s : all_chars not_E s = true -> replace_from (String "E" key) new 0 s = s.
Proof.
  induction s as [|c s IH]; [reflexivity|]. intros H. apply andb_prop in H as [A B]. cbn [replace_from]. unfold not_E in A. apply negb_true_iff, Ascii.eqb_neq in A.
  assert (P : String.prefix (String "E" key) (String c s) = false). { cbn [String.prefix]. destruct (ascii_dec "E" c); [congruence|reflexivity]. }
  rewrite P, (IH B). reflexivity.
Qed.
Lemma find_start key s : all_chars not_E s = true -> (0 <=? find (String "E" key) (String "E" s))%Z = String.prefix (String "E" key) (String "E" s).
Proof.
  intros H. unfold find. cbn [String.index]. destruct (String.prefix (String "E" key) (String "E" s)); [reflexivity|]. rewrite (no_E_index key s H). reflexivity.
Qed.
Lemma replace_skip old new a b : replace_from old new (String.length a) (a ++ b) = replace_from old new 0 b.
Proof. induction a as [|c a IH]; [reflexivity|]. cbn. exact IH. Qed.
Lemma replace_start key new rest : all_chars not_E rest = true -> replace (String "E" key) new (String "E" key ++ rest) = new ++ rest.
Proof.
  intros H. unfold replace. cbn [append replace_from]. assert (P : String.prefix (String "E" key) (String "E" (key ++ rest)) = true) by (apply prefix_app; exists rest; reflexivity). rewrite P.
  cbn [String.length]. rewrite Nat.sub_succ, Nat.sub_0_r, replace_skip, no_E_replace by exact H. reflexivity.
Qed.
(** A key which is no beginning of the name leaves it; a beginning gets the suffix *)
Lemma ren1_not key suf s : all_chars not_E s = true -> String.prefix (String "E" key) (String "E" s) = false -> ren1 (String "E" key) suf (String "E" s) = String "E" s.
Proof. intros H P. unfold ren1. rewrite find_start, P by exact H. reflexivity. Qed.
Lemma ren1_start key suf rest : all_chars not_E key = true -> all_chars not_E rest = true -> ren1 (String "E" key) suf (String "E" key ++ rest) = (String "E" key ++ suf) ++ rest.
Proof.
  intros K H. unfold ren1. change (String "E" key ++ rest) with (String "E" (key ++ rest)). rewrite find_start by (rewrite all_chars_app, K, H; reflexivity).
  assert (P : String.prefix (String "E" key) (String "E" (key ++ rest)) = true) by (apply prefix_app; exists rest; reflexivity). rewrite P. now apply replace_start.
Qed.

Lemma digit_not_E d : all_chars is_digit d = true -> all_chars not_E d = true.
Proof. apply all_chars_imp. intros [[] [] [] [] [] [] [] []] H; (reflexivity || discriminate). Qed.
Definition not_bar (c : ascii) : bool := negb (Ascii.eqb c "_").
Lemma digit_not_bar d : all_chars is_digit d = true -> all_chars not_bar d = true.
Proof. apply all_chars_imp. intros [[] [] [] [] [] [] [] []] H; (reflexivity || discriminate). Qed.
(** A word without bar that begins [d] and a bar is a beginning of [d] *)
Lemma prefix_before_bar d' : forall d r, all_chars not_bar d' = true -> String.prefix d' (d ++ String "_" r) = true -> String.prefix d' d = true.
Proof.
  induction d' as [|c d' IH]; intros d r H P; [apply prefix_nil|]. apply andb_prop in H as [A B]. destruct d as [|x d]; cbn [append String.prefix] in P.
  - destruct (ascii_dec c "_"); [subst c; discriminate A|discriminate P].
  - cbn [String.prefix]. destruct (ascii_dec c x); [|discriminate]. exact (IH d r B P).
Qed.
Lemma prefix_app_r d' d r : String.prefix d' d = true -> String.prefix d' (d ++ r) = true.
Proof. rewrite !prefix_app. intros [x ->]. exists (x ++ r). now rewrite app_assoc_s. Qed.
Lemma prefix_total a b d : String.prefix a d = true -> String.prefix b d = true -> String.prefix a b = true \/ (String.prefix b a = true /\ b <> a).
Proof.
  revert b d. induction a as [|c a IH]; intros b d A B; [left; apply prefix_nil|]. destruct b as [|x b]; [right; split; [reflexivity|discriminate]|].
  destruct d as [|y d]; [discriminate|]. cbn [String.prefix] in A, B |- *. destruct (ascii_dec c y); [|discriminate]. destruct (ascii_dec x y); [|discriminate]. subst. destruct (ascii_dec y y); [|contradiction].
  destruct (IH b d A B) as [L|[L N]]; [left; exact L|right; split; [exact L|congruence]].
Qed.
Lemma prefix_trans a b c : String.prefix a b = true -> String.prefix b c = true -> String.prefix a c = true.
Proof. rewrite !prefix_app. intros [x ->] [y ->]. exists (x ++ y). now rewrite app_assoc_s. Qed.
Lemma prefix_antisym a b : String.prefix a b = true -> String.prefix b a = true -> a = b.
Proof. revert b. induction a as [|c a IH]; intros [|d b] A B; try discriminate; [reflexivity|]. cbn [String.prefix] in A, B. destruct (ascii_dec c d); [|discriminate]. subst d. destruct (ascii_dec c c); [|contradiction]. f_equal. now apply IH. Qed.

(** The suffixes *)
Definition good_suffix (suf : string) : Prop := suf = "_STATIC" \/ suf = "_DYNAMIC".
Lemma suffix_good mode : good_suffix (mode_suffix mode).
Proof. destruct mode; [left|right]; reflexivity. Qed.
Lemma suffix_facts suf : good_suffix suf -> all_chars not_E suf = true /\ exists r, suf = String "_" r.
Proof. intros [->| ->]; (split; [reflexivity|eexists; reflexivity]). Qed.

(** Letters of an offset name *)
Lemma letters_of P : P = "EPSILON_T_" \/ P = "EPSILON_P_" -> exists p, P = String "E" p /\ all_chars not_E p = true.
Proof. intros [->| ->]; eexists; (split; [reflexivity|reflexivity]). Qed.
Lemma letters_differ P P' a b : (P = "EPSILON_T_" \/ P = "EPSILON_P_") -> (P' = "EPSILON_T_" \/ P' = "EPSILON_P_") -> String.prefix (P ++ a) (P' ++ b) = true -> P = P' /\ String.prefix a b = true.
Proof. intros [->| ->] [->| ->] H; cbn in H; try discriminate; auto. Qed.

(** What the passes make of the name [P ++ d]: the name itself, or a beginning of the number, the suffix and a rest *)
Definition form (suf P d n : string) : Prop := n = P ++ d \/ exists d1 r, String.prefix d1 d = true /\ d1 <> "" /\ n = P ++ d1 ++ suf ++ r /\ all_chars not_E r = true.
Lemma form_not_E suf P d n : good_suffix suf -> (P = "EPSILON_T_" \/ P = "EPSILON_P_") -> all_chars is_digit d = true -> form suf P d n -> exists s, n = String "E" s /\ all_chars not_E s = true.
Proof.
  intros GS HP D F. destruct (letters_of P HP) as (p & -> & Hp). destruct (suffix_facts suf GS) as [NS _]. destruct F as [->|(d1 & r & H & _ & -> & Hr)]; cbn; eexists; (split; [reflexivity|]); rewrite !all_chars_app, ?Hp, ?NS, ?Hr; cbn [andb].
  - now apply digit_not_E.
  - apply prefix_app in H as [x ->]. rewrite all_chars_app in D. apply andb_prop in D as [D _]. rewrite (digit_not_E _ D). reflexivity.
Qed.
(** The number before the first suffix *)
Definition head_of (d1 suf P n : string) : Prop := exists r, n = P ++ d1 ++ suf ++ r /\ all_chars not_E r = true.

Lemma pass_step suf P d n key P' d' : good_suffix suf -> (P = "EPSILON_T_" \/ P = "EPSILON_P_") -> all_chars is_digit d = true -> offset_parts key P' d' -> form suf P d n ->
  (ren1 key suf n = n /\ (n = P ++ d -> P = P' -> String.prefix d' d = false) /\ (forall d1, head_of d1 suf P n -> P = P' -> String.prefix d1 d = true -> String.prefix d' d1 = false)) \/
  (P = P' /\ String.prefix d' d = true /\ exists rest, n = key ++ rest /\ all_chars not_E rest = true /\ ren1 key suf n = P ++ d' ++ suf ++ rest /\ (n = P ++ d -> d = d' ++ rest) /\ (forall d1, head_of d1 suf P n -> String.prefix d1 d = true -> String.prefix d' d1 = true)).
Proof.
  intros GS HP D (HP' & D' & N' & Ek) F. destruct (form_not_E suf P d n GS HP D F) as (s & En & Hs). destruct (suffix_facts suf GS) as [NS [sr Es]].
  destruct (letters_of P' HP') as (p' & EP' & Hp'). assert (Ek' : key = String "E" (p' ++ d')) by (rewrite Ek, EP'; reflexivity). assert (Hk : all_chars not_E (p' ++ d') = true) by (rewrite all_chars_app, Hp', digit_not_E by exact D'; reflexivity).
  assert (HD : forall d1, head_of d1 suf P n -> P = P' -> String.prefix d1 d = true -> String.prefix key n = true -> String.prefix d' d1 = true).
  { intros d1 (r & E1 & _) EP H1 HK. rewrite E1, Ek in HK. apply letters_differ in HK as [_ HK]; [|assumption|assumption]. rewrite Es in HK. cbn [append] in HK. apply prefix_before_bar in HK; [exact HK|now apply digit_not_bar]. }
  assert (Dec : String.prefix key n = true \/ String.prefix key n = false) by (destruct (String.prefix key n); auto). destruct Dec as [PK|PK].
  - right. pose proof PK as PK0. apply prefix_app in PK as [rest En2]. assert (Hr : all_chars not_E rest = true). { rewrite En, Ek' in En2. cbn in En2. injection En2 as En2. rewrite En2, all_chars_app in Hs. now apply andb_prop in Hs as [_ Hs]. }
    assert (PP : P = P' /\ String.prefix d' d = true).
    { destruct F as [->|(d1 & r & H1 & H2 & E1 & H3)].
      - rewrite Ek in PK0. apply letters_differ in PK0 as [<- A]; auto.
      - rewrite E1, Ek in PK0. pose proof PK0 as A. apply letters_differ in A as [<- _]; [|assumption|assumption]. split; [reflexivity|]. apply prefix_trans with d1; [|exact H1]. apply HD; [exists r; auto|reflexivity|exact H1|rewrite E1, Ek; exact PK0]. }
    destruct PP as [<- A]. split; [reflexivity|]. split; [exact A|]. exists rest. split; [exact En2|]. split; [exact Hr|]. split.
    + rewrite En2, Ek'. rewrite ren1_start by assumption. change (String "E" (p' ++ d')) with (String "E" p' ++ d'). rewrite <- EP', !app_assoc_s. reflexivity.
    + split; [intros ->; rewrite Ek, app_assoc_s in En2; now apply append_inj in En2|]. intros d1 Hd H1. now apply HD.
  - left. split; [rewrite En, Ek'; apply ren1_not; [exact Hs|rewrite <- Ek', <- En; exact PK]|]. split.
    + intros -> <-. destruct (String.prefix d' d) eqn:A; [|reflexivity]. apply prefix_app in A as [x ->]. assert (B : String.prefix key (P ++ d' ++ x) = true) by (apply prefix_app; exists x; rewrite Ek, app_assoc_s; reflexivity). congruence.
    + intros d1 (r & E1 & _) <- H1. destruct (String.prefix d' d1) eqn:A; [|reflexivity]. apply prefix_app in A as [x ->]. assert (B : String.prefix key n = true) by (apply prefix_app; exists (x ++ suf ++ r); rewrite E1, Ek, !app_assoc_s; reflexivity). congruence.
Qed.

(** All passes *)
Definition rens (suf : string) (keys : list string) (n : string) : string := fold_left (fun n k => ren1 k suf n) keys n.
Lemma rens_form suf P d keys : good_suffix suf -> (P = "EPSILON_T_" \/ P = "EPSILON_P_") -> all_chars is_digit d = true -> Forall offset_name keys -> forall n, form suf P d n -> form suf P d (rens suf keys n).
Proof.
  intros GS HP D. induction keys as [|k keys IH]; intros FK n F; [exact F|]. pose proof (Forall_inv FK) as Hk. pose proof (Forall_inv_tail FK) as FK'. cbn. apply IH; [exact FK'|]. destruct (offset_split k Hk) as (P' & d' & HO). destruct (pass_step suf P d n k P' d' GS HP D HO F) as [(-> & _)|(<- & H & rest & _ & Hr & -> & _)]; [exact F|].
  right. exists d', rest. destruct HO as (_ & _ & N & _). auto.
Qed.
(** No other key is a beginning of the name *)
Lemma rens_clear suf P d : good_suffix suf -> (P = "EPSILON_T_" \/ P = "EPSILON_P_") -> all_chars is_digit d = true -> d <> "" -> forall keys, Forall offset_name keys -> NoDup keys -> In (P ++ d) keys -> (forall k r, In k keys -> k <> P ++ d -> P ++ d <> k ++ r) ->
  rens suf keys (P ++ d) = (P ++ d) ++ suf.
Proof.
  intros GS HP D ND keys FK NK I C. destruct (suffix_facts suf GS) as [NS [sr Es]].
  assert (After : forall l, Forall offset_name l -> (forall k r, In k l -> P ++ d <> k ++ r) -> rens suf l ((P ++ d) ++ suf) = (P ++ d) ++ suf).
  { induction l as [|k l IH]; intros FL CL; [reflexivity|]. pose proof (Forall_inv FL) as Hk. pose proof (Forall_inv_tail FL) as FL'. cbn. destruct (offset_split k Hk) as (P' & d' & HO). assert (F : form suf P d ((P ++ d) ++ suf)). { right. exists d, "". split; [apply prefix_refl|]. split; [exact ND|]. split; [rewrite app_assoc_s, app_nil_s; reflexivity|reflexivity]. }
    destruct (pass_step suf P d _ k P' d' GS HP D HO F) as [(-> & _)|(<- & H & rest & _)]; [apply IH; [exact FL'|intros k' r' I'; apply CL; right; exact I']|]. exfalso. apply prefix_app in H as [x ->]. destruct HO as (_ & _ & _ & ->). apply (CL (P ++ d') x); [left; reflexivity|now rewrite app_assoc_s]. }
  assert (Before : forall l, Forall offset_name l -> NoDup l -> In (P ++ d) l -> (forall k r, In k l -> k <> P ++ d -> P ++ d <> k ++ r) -> rens suf l (P ++ d) = (P ++ d) ++ suf).
  { induction l as [|k l IH]; intros FL NL IL CL; [destruct IL|]. pose proof (Forall_inv FL) as Hk. pose proof (Forall_inv_tail FL) as FL'. apply NoDup_cons_iff in NL as [Nk NL']. destruct (offset_split k Hk) as (P' & d' & HO). assert (F : form suf P d (P ++ d)) by (left; reflexivity). cbn.
    destruct (pass_step suf P d _ k P' d' GS HP D HO F) as [(E & Hn & _)|(<- & H & rest & En & _ & E & Hd & _)].
    - rewrite E. destruct IL as [->|IL]; [exfalso|apply IH; [exact FL'|exact NL'|exact IL|intros k' r' I' N'; apply CL; [right; exact I'|exact N']]]. destruct HO as (HP' & D' & _ & Ek). assert (Q : P = P' /\ d' = d). { assert (B : String.prefix (P ++ d) (P' ++ d') = true) by (rewrite <- Ek; apply prefix_refl). apply letters_differ in B as [<- B]; auto. split; [reflexivity|]. apply append_inj in Ek. now symmetry. } destruct Q as [<- ->]. specialize (Hn eq_refl eq_refl). rewrite prefix_refl in Hn. discriminate.
    - specialize (Hd eq_refl). assert (Q : k = P ++ d). { destruct (string_dec k (P ++ d)) as [Q|Q]; [exact Q|]. exfalso. apply (CL k rest); [left; reflexivity|exact Q|exact En]. } assert (rest = ""). { rewrite Q in En. destruct rest; [reflexivity|]. exfalso. apply (f_equal String.length) in En. rewrite !length_append in En. cbn [String.length] in En. lia. } subst rest.
      rewrite app_nil_s in Hd. subst d'. rewrite E, app_nil_s, <- app_assoc_s. apply After; [exact FL'|]. intros k' r' I' E'. apply (CL k' r'); [right; exact I'| |exact E']. intros ->. apply Nk. rewrite Q. exact I'. }
  now apply Before.
Qed.
(** Some other key is a beginning of the name *)
Lemma rens_clash suf P d : good_suffix suf -> (P = "EPSILON_T_" \/ P = "EPSILON_P_") -> all_chars is_digit d = true -> forall keys, Forall offset_name keys -> (exists k r, In k keys /\ k <> P ++ d /\ P ++ d = k ++ r) ->
  rens suf keys (P ++ d) <> (P ++ d) ++ suf.
Proof.
  intros GS HP D keys FK Ex. destruct (suffix_facts suf GS) as [NS [sr Es]].
  set (short := fun n => exists d1 r, String.prefix d1 d = true /\ d1 <> d /\ d1 <> "" /\ n = P ++ d1 ++ suf ++ r /\ all_chars not_E r = true).
  assert (Keep : forall k n, offset_name k -> short n -> short (ren1 k suf n)).
  { intros k n Hk (d1 & r & H1 & H2 & H3 & E & Hr). destruct (offset_split k Hk) as (P' & d' & HO). assert (F : form suf P d n) by (right; exists d1, r; auto). destruct (pass_step suf P d n k P' d' GS HP D HO F) as [(-> & _)|(<- & H & rest & _ & Hr' & -> & _ & Hh)]; [exists d1, r; auto|].
    exists d', rest. assert (Q : String.prefix d' d1 = true) by (apply Hh; [exists r; auto|exact H1]). split; [exact H|]. split; [intros ->; apply H2; exact (prefix_antisym _ _ H1 Q)|]. destruct HO as (_ & _ & N & _). auto. }
  assert (Keeps : forall l n, Forall offset_name l -> short n -> short (rens suf l n)). { induction l as [|k l IH]; intros n FL Hn; [exact Hn|]. cbn. apply IH; [exact (Forall_inv_tail FL)|apply Keep; [exact (Forall_inv FL)|exact Hn]]. }
  assert (G : forall l n, Forall offset_name l -> form suf P d n -> (exists k r, In k l /\ k <> P ++ d /\ P ++ d = k ++ r) -> short (rens suf l n)).
  { induction l as [|k l IH]; intros n FL F (k0 & r0 & I & N & E); [destruct I|]. pose proof (Forall_inv FL) as Hk. pose proof (Forall_inv_tail FL) as FL'. cbn. destruct I as [->|I].
    - apply Keeps; [exact FL'|]. destruct (offset_split k0 Hk) as (P' & d' & HO). pose proof HO as (HP' & D' & N' & Ek). assert (A : P = P' /\ String.prefix d' d = true). { assert (B : String.prefix (P' ++ d') (P ++ d) = true) by (apply prefix_app; exists r0; congruence). apply letters_differ in B as [<- B]; auto. } destruct A as [<- A]. assert (Nd : d' <> d) by (intros ->; contradiction).
      destruct (pass_step suf P d n k0 P d' GS HP D HO F) as [(-> & Hn & Hh)|(_ & H & rest & _ & Hr' & -> & _)].
      + destruct F as [->|(d1 & r & H1 & H2 & E1 & Hr)]; [specialize (Hn eq_refl eq_refl); congruence|]. exists d1, r. split; [exact H1|]. split; [|auto]. intros ->. assert (Q : String.prefix d' d = false) by (apply Hh; [exists r; auto|reflexivity|exact H1]). congruence.
      + exists d', rest. auto.
    - apply IH; [exact FL'| |exists k0, r0; auto]. change (ren1 k suf n) with (rens suf [k] n). apply rens_form; auto. }
  destruct (G keys (P ++ d) FK (or_introl eq_refl) Ex) as (d1 & r & H1 & H2 & H3 & E & _). rewrite E. intros Q. rewrite app_assoc_s in Q. apply append_inj in Q. apply prefix_app in H1 as [x ->]. rewrite app_assoc_s in Q. apply append_inj in Q.
  destruct x as [|c x]; [rewrite app_nil_s in H2; contradiction|]. rewrite Es in Q. cbn in Q. injection Q as Q _. rewrite all_chars_app in D. apply andb_prop in D as [_ D]. subst c. discriminate D.
Qed.

(** ** the number in a name, which the passes keep *)
Fixpoint digits_of (s : string) : string := match s with EmptyString => "" | String c r => if is_digit c then String c (digits_of r) else digits_of r end.
Lemma digits_app a b : digits_of (a ++ b) = digits_of a ++ digits_of b.
Proof. induction a as [|c a IH]; [reflexivity|]. cbn. rewrite IH. destruct (is_digit c); reflexivity. Qed.
Lemma digits_all d : all_chars is_digit d = true -> digits_of d = d.
Proof. induction d as [|c d IH]; [reflexivity|]. cbn. intros H. apply andb_prop in H as [-> B]. now rewrite (IH B). Qed.
Definition tagged (P d n : string) : Prop := exists w, n = P ++ w /\ digits_of w = d.
Lemma tagged_self P d : all_chars is_digit d = true -> tagged P d (P ++ d).
Proof. intros D. exists d. split; [reflexivity|now apply digits_all]. Qed.
Lemma tagged_unique P d P' d' n : (P = "EPSILON_T_" \/ P = "EPSILON_P_") -> (P' = "EPSILON_T_" \/ P' = "EPSILON_P_") -> tagged P d n -> tagged P' d' n -> P = P' /\ d = d'.
Proof.
  intros HP HP' (w & -> & <-) (w' & E & <-). assert (B : String.prefix (P ++ w) (P' ++ w') = true) by (rewrite E; apply prefix_refl). apply letters_differ in B as [<- _]; [|assumption|assumption]. apply append_inj in E as ->. auto.
Qed.
Lemma tagged_suffix P d n suf : good_suffix suf -> tagged P d n -> tagged P d (n ++ suf).
Proof. intros GS (w & -> & <-). exists (w ++ suf). split; [apply app_assoc_s|]. rewrite digits_app. destruct GS as [->| ->]; apply app_nil_s. Qed.
Lemma pass_tagged suf P d n key : good_suffix suf -> (P = "EPSILON_T_" \/ P = "EPSILON_P_") -> all_chars is_digit d = true -> offset_name key -> form suf P d n -> tagged P d n -> form suf P d (ren1 key suf n) /\ tagged P d (ren1 key suf n).
Proof.
  intros GS HP D HK F T. split; [change (ren1 key suf n) with (rens suf [key] n); apply rens_form; auto|]. destruct (offset_split key HK) as (P' & d' & HO). destruct (pass_step suf P d n key P' d' GS HP D HO F) as [(-> & _)|(<- & H & rest & En & Hr & -> & _)]; [exact T|].
  exists (d' ++ suf ++ rest). split; [reflexivity|]. destruct T as (w & En' & <-). destruct HO as (_ & D' & _ & ->). rewrite En', app_assoc_s in En. apply append_inj in En as ->. rewrite !digits_app. destruct GS as [->| ->]; reflexivity.
Qed.

(** ** names which do not contain a key *)
Lemma occurs_find sub s : (0 <=? find sub s)%Z = true -> occurs sub s.
Proof.
  unfold find. induction s as [|c s IH].
  - cbn [String.index]. destruct sub; [intros _; exists "", ""; reflexivity|discriminate].
  - cbn [String.index]. destruct (String.prefix sub (String c s)) eqn:E. { intros _. apply prefix_app in E as (r & E). exists "", r. exact E. }
    destruct (String.index 0 sub s) as [k|]; [|discriminate]. intros _. destruct (IH (proj2 (Z.leb_le 0 (Z.of_nat k)) (Zle_0_nat k))) as (a & b & ->). exists (String c a), b. reflexivity.
Qed.
Lemma find_occurs_true sub s : occurs sub s -> (0 <=? find sub s)%Z = true.
Proof.
  intros (a & b & ->). unfold find. enough (exists k, String.index 0 sub (a ++ sub ++ b) = Some k) as [k ->] by (apply Z.leb_le; lia). induction a as [|c a [k IH]].
  - cbn [append]. destruct (sub ++ b) as [|c s] eqn:E; [destruct sub; [exists 0%nat; reflexivity|discriminate]|]. exists 0%nat. cbn [String.index]. assert (P : String.prefix sub (String c s) = true) by (apply prefix_app; exists b; now symmetry). now rewrite P.
  - cbn [append String.index]. destruct (String.prefix sub (String c (a ++ sub ++ b))); [exists 0%nat; reflexivity|]. rewrite IH. eexists. reflexivity.
Qed.
Lemma ren1_id key suf n : ~ occurs key n -> ren1 key suf n = n.
Proof. intros H. unfold ren1. destruct (0 <=? find key n)%Z eqn:E; [apply occurs_find in E; contradiction|reflexivity]. Qed.
(** letters of offset names *)
Definition letter (c : ascii) : bool := (is_digit c || existsb (Ascii.eqb c) ["E"; "P"; "S"; "I"; "L"; "O"; "N"; "_"; "T"]%char)%bool.
Lemma offset_letters k : offset_name k -> all_chars letter k = true.
Proof.
  intros H. destruct (offset_split k H) as (P & d & HP & D & _ & ->). rewrite all_chars_app. apply (all_chars_imp is_digit letter) in D; [rewrite D|intros c Hc; unfold letter; rewrite Hc; reflexivity]. destruct HP as [->| ->]; reflexivity.
Qed.
Lemma foreign_key key suf k : all_chars letter key = false -> offset_name k -> ren1 key suf k = k.
Proof. intros F H. apply ren1_id. intros (a & b & ->). apply offset_letters in H. rewrite !all_chars_app, F, andb_false_r in H. discriminate. Qed.
Lemma foreign_name key suf n : (0 <=? find "EPSILON" n)%Z = false -> offset_name key -> ren1 key suf n = n.
Proof.
  intros F H. apply ren1_id. intros (a & b & ->). enough ((0 <=? find "EPSILON" (a ++ key ++ b))%Z = true) by congruence. apply find_occurs_true. destruct (offset_split key H) as (P & d & HP & _ & _ & ->).
  destruct HP as [->| ->]; [exists a, ("_T_" ++ d ++ b)|exists a, ("_P_" ++ d ++ b)]; reflexivity.
Qed.
Lemma offset_epsilon k : offset_name k -> (0 <=? find "EPSILON" k)%Z = true.
Proof. intros H. apply find_occurs_true. destruct (offset_split k H) as (P & d & HP & _ & _ & ->). destruct HP as [->| ->]; [exists "", ("_T_" ++ d)|exists "", ("_P_" ++ d)]; reflexivity. Qed.
Lemma has_epsilon_find k : has_epsilon k = (0 <=? find "EPSILON" k)%Z.
Proof. unfold has_epsilon, find. destruct (String.index 0 "EPSILON" k); [symmetry; apply Z.leb_le; lia|reflexivity]. Qed.

(** Digits with copies of the suffix between them *)
Inductive mixed (suf : string) : string -> string -> Prop :=
| mx_nil : mixed suf "" ""
| mx_digit c w d : is_digit c = true -> mixed suf w d -> mixed suf (String c w) (String c d)
| mx_suffix w d : mixed suf w d -> mixed suf (suf ++ w) d.
Lemma mixed_self suf d : all_chars is_digit d = true -> mixed suf d d.
Proof. induction d as [|c d IH]; [constructor|]. intros H. apply andb_prop in H as [A B]. constructor; auto. Qed.
Lemma mixed_insert suf d' : good_suffix suf -> all_chars is_digit d' = true -> forall rest d, mixed suf (d' ++ rest) d -> mixed suf (d' ++ suf ++ rest) d.
Proof.
  intros GS. induction d' as [|c d' IH]; intros H rest d M; [now apply (mx_suffix suf)|]. apply andb_prop in H as [A B]. cbn [append] in *. remember (String c (d' ++ rest)) as w eqn:Ew. destruct M as [|x w d A' M|w d M]; [discriminate| |].
  - injection Ew as -> ->. constructor; [exact A|]. now apply IH.
  - exfalso. destruct GS as [->| ->]; injection Ew as <- _; discriminate A.
Qed.
Lemma pass_mixed suf P d n key : good_suffix suf -> (P = "EPSILON_T_" \/ P = "EPSILON_P_") -> all_chars is_digit d = true -> offset_name key -> form suf P d n -> (exists w, n = P ++ w /\ mixed suf w d) -> exists w, ren1 key suf n = P ++ w /\ mixed suf w d.
Proof.
  intros GS HP D HK F (w & En' & M). destruct (offset_split key HK) as (P' & d' & HO). destruct (pass_step suf P d n key P' d' GS HP D HO F) as [(-> & _)|(<- & H & rest & En & Hr & -> & _)]; [eauto|].
  exists (d' ++ suf ++ rest). split; [reflexivity|]. destruct HO as (_ & D' & _ & ->). rewrite En', app_assoc_s in En. apply append_inj in En as ->. now apply mixed_insert.
Qed.
Lemma rens_mixed suf P d keys : good_suffix suf -> (P = "EPSILON_T_" \/ P = "EPSILON_P_") -> all_chars is_digit d = true -> Forall offset_name keys -> forall n, form suf P d n -> (exists w, n = P ++ w /\ mixed suf w d) -> exists w, rens suf keys n = P ++ w /\ mixed suf w d.
Proof.
  intros GS HP D. induction keys as [|k keys IH]; intros FK n F M; [exact M|]. cbn. pose proof (Forall_inv FK) as Hk. apply IH; [exact (Forall_inv_tail FK)| |now apply pass_mixed].
  change (ren1 k suf n) with (rens suf [k] n). apply rens_form; auto.
Qed.
Lemma mixed_prefix suf r w d : mixed suf w d -> good_suffix suf -> String.prefix (String "S" r) w = false /\ String.prefix (String "D" r) w = false.
Proof.
  intros M GS. destruct M as [|c w d A M|w d M]; [split; reflexivity| |].
  - cbn [String.prefix]. split; destruct (ascii_dec _ c) as [<-|]; try reflexivity; discriminate A.
  - destruct GS as [->| ->]; split; reflexivity.
Qed.
Lemma replace_mixed suf w d : good_suffix suf -> mixed suf w d -> replace_from suf "" 0 w = d.
Proof.
  intros GS M. induction M as [|c w d A M IH|w d M IH]; [reflexivity| |].
  - cbn [replace_from]. assert (P : String.prefix suf (String c w) = false). { destruct GS as [->| ->]; cbn [String.prefix]; destruct (ascii_dec "_" c) as [<-|]; try reflexivity; discriminate A. } rewrite P, IH. reflexivity.
  - destruct GS as [->| ->]; (destruct w as [|c w]; [exact IH|]); cbn [append replace_from].
    + assert (P : String.prefix "_STATIC" (String "_" (String "S" (String "T" (String "A" (String "T" (String "I" (String "C" (String c w)))))))) = true) by reflexivity. rewrite P. exact IH.
    + assert (P : String.prefix "_DYNAMIC" (String "_" (String "D" (String "Y" (String "N" (String "A" (String "M" (String "I" (String "C" (String c w))))))))) = true) by reflexivity. rewrite P. exact IH.
Qed.
Lemma replace_char old new c s : String.prefix old (String c s) = false -> replace_from old new 0 (String c s) = String c (replace_from old new 0 s).
Proof. intros H. cbn [replace_from]. rewrite H. reflexivity. Qed.
Lemma replace_offset suf P w d : good_suffix suf -> (P = "EPSILON_T_" \/ P = "EPSILON_P_") -> mixed suf w d -> replace suf "" (P ++ w) = P ++ d.
Proof.
  intros GS HP M. unfold replace. assert (Q : String.prefix suf (String "_" w) = false).
  { destruct GS as [->| ->]; cbn [String.prefix]; destruct (ascii_dec "_" "_"); try reflexivity; [exact (proj1 (mixed_prefix _ "TATIC" _ _ M (or_introl eq_refl)))|exact (proj2 (mixed_prefix _ "YNAMIC" _ _ M (or_intror eq_refl)))]. }
  destruct HP as [->| ->]; cbn [append]; (repeat (rewrite replace_char; [|first [exact Q|destruct GS as [->| ->]; reflexivity]])); rewrite (replace_mixed suf w d GS M); reflexivity.
Qed.
(** Taking the suffix out gives the name of the offset back. *)
Lemma rens_stripped suf keys e : good_suffix suf -> Forall offset_name keys -> offset_name e -> replace suf "" (rens suf keys e) = e.
Proof.
  intros GS F H. destruct (offset_split e H) as (P & d & HP & Hd & Hn & ->). destruct (rens_mixed suf P d keys GS HP Hd F (P ++ d)) as (w & -> & M); [now left|exists d; split; [reflexivity|now apply mixed_self]|]. now apply replace_offset.
Qed.
