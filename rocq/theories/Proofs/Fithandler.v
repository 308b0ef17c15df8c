From Verif.Model Require Import Fithandler.
From Verif.Proofs Require Import Prelude RealNum Numpy Stats Trig Sorting.
From Coq Require Import Lra Lia Permutation Sorted.
From Verif.Spec Require Import Fithandler.
Local Open Scope R_scope.

Lemma asc_nth l : ascending l -> forall i j, (i <= j < length l)%nat -> nth i l 0 <= nth j l 0.
Proof.
  induction 1 as [|a l S IH F]; intros i j H; [cbn in H; lia|]. destruct i as [|i], j as [|j]; cbn in *; try lia; [lra| |apply IH; lia].
  rewrite Forall_forall in F. apply F, nth_In. lia.
Qed.
Lemma last_nth l : l <> [] -> last l 0 = nth (length l - 1) l 0.
Proof. induction l as [|a [|b l] IH]; intros H; [congruence|reflexivity|]. change (last (b :: l) 0 = nth (length (b :: l)) (a :: b :: l) 0). rewrite IH by discriminate. cbn [length]. replace (S (length l) - 1)%nat with (length l) by lia. reflexivity. Qed.
Lemma row_idx_spec times t : ascending times -> times <> [] -> exists k, row_idx_for_time times t = Ok k /\ row_of times t k.
Proof.
  intros A N. assert (L : (0 < length times)%nat) by (destruct times; [congruence|cbn; lia]). unfold row_idx_for_time. destruct times as [|t0 r] eqn:E; [congruence|]. rewrite <- E in *.
  assert (H0 : t0 = nth 0 times 0) by now rewrite E. rewrite last_nth by exact N. destruct (Rltb t t0) eqn:B; [apply Rltb_true in B|apply Rltb_false in B].
  - exists 0%nat. split; [reflexivity|]. split; [exact L|]. split; [lia|left; lra].
  - destruct (Rltb _ t) eqn:C; [apply Rltb_true in C|apply Rltb_false in C].
    + eexists. split; [reflexivity|]. split; [lia|]. split; [|now right]. intros i Hi. eapply Rle_lt_trans; [apply (asc_nth times A i (length times - 1)); lia|exact C].
    + destruct (where_ _ times) as [|k w] eqn:W.
      * exfalso. assert (I : In (length times - 1)%nat (where_ (fun x => Rleb t x) times)); [|rewrite W in I; destruct I]. apply where_spec. exists (nth (length times - 1) times 0). split; [apply nth_error_nth'; lia|apply Rleb_true; lra].
      * exists k. split; [reflexivity|]. assert (I : In k (where_ (fun x => Rleb t x) times)) by (rewrite W; now left). apply where_spec in I. destruct I as (x & Ex & Cx). apply Rleb_true in Cx. assert (Hk : (k < length times)%nat) by (apply nth_error_Some; congruence). split; [exact Hk|]. split; [|left; rewrite (nth_error_nth _ _ 0 Ex); exact Cx].
        intros i Hi. apply Rnot_le_lt. intros Ct. assert (I : In i (where_ (fun x => Rleb t x) times)) by (apply where_spec; exists (nth i times 0); split; [apply nth_error_nth'; lia|now apply Rleb_true]).
        pose proof (where_sorted (fun x => Rleb t x) times) as S. rewrite W in I, S. destruct I as [<-|I]; [lia|]. inversion S as [|? ? ? F]; subst. rewrite Forall_forall in F. specialize (F i I). lia.
Qed.
Lemma row_of_unique times t k k' : row_of times t k -> row_of times t k' -> k = k'.
Proof.
  intros (L & B & E) (L' & B' & E'). destruct (lt_eq_lt_dec k k') as [[H|H]|H]; [|exact H|].
  - specialize (B' k H). destruct E; [lra|lia].
  - specialize (B k' H). destruct E'; [lra|lia].
Qed.
Lemma row_of_mono times t u k k' : t <= u -> row_of times t k -> row_of times u k' -> (k <= k')%nat.
Proof. intros T (L & B & E) (L' & B' & E'). destruct (le_lt_dec k k') as [H|H]; [exact H|]. specialize (B k' H). destruct E'; [lra|lia]. Qed.

Lemma rmapM_row times dates : ascending times -> times <> [] -> exists rows, rmapM (row_idx_for_time times) dates = Ok rows /\ length rows = length dates /\ forall j, (j < length dates)%nat -> row_of times (nth j dates 0) (nth j rows 0%nat).
Proof.
  intros A N. induction dates as [|d dates IH]; [exists []; cbn; repeat split; lia|]. destruct (row_idx_spec times d A N) as (k & E & Hk). destruct IH as (rows & E' & L & H). exists (k :: rows). cbn [rmapM]. rewrite E. cbn [rbind]. rewrite E'. split; [reflexivity|]. split; [cbn; lia|].
  intros [|j] Hj; [exact Hk|]. cbn in Hj |- *. apply H. lia.
Qed.
Lemma skipn_head {A} (f : A) d todo fs : forall J, f :: todo = skipn J fs -> nth J fs d = f /\ todo = skipn (S J) fs.
Proof. induction fs as [|a fs IH]; intros [|J] E; cbn in E; try discriminate; [injection E as <- <-; auto|]. apply IH in E. exact E. Qed.
Section Loop.
Variables (rows : list nat) (dw : nat).
(** starts, finals and widths when the rows of all dates are [rows] *)
Let starts := removelast rows.
Let finals := tl rows.
Let widths := map (fun '(f, s) => (Z.of_nat f - Z.of_nat s)%Z) (combine finals starts).
Let row j := nth j rows 0%nat.
Hypothesis len : (2 <= length rows)%nat.
Lemma removelast_nth {A} (l : list A) d : forall i, (i < length l - 1)%nat -> nth i (removelast l) d = nth i l d.
Proof. induction l as [|a [|b l] IH]; intros [|i] H; cbn in H; try lia; [reflexivity|]. change (nth i (removelast (b :: l)) d = nth i (b :: l) d). apply IH. cbn. lia. Qed.
Lemma removelast_length {A} (l : list A) : length (removelast l) = (length l - 1)%nat.
Proof. induction l as [|a [|b l] IH]; [reflexivity|reflexivity|]. change (S (length (removelast (b :: l))) = (length (a :: b :: l) - 1)%nat). rewrite IH. cbn. lia. Qed.
Lemma widths_length : length widths = (length rows - 1)%nat.
Proof. unfold widths. rewrite map_length, combine_length. unfold finals, starts. rewrite removelast_length. destruct rows; cbn in *; lia. Qed.
Lemma finals_nth j : (j < length rows - 1)%nat -> nth j finals 0%nat = row (S j).
Proof. intros H. unfold finals, row. destruct rows; [cbn in H; lia|reflexivity]. Qed.
Lemma starts_nth j : (j < length rows - 1)%nat -> nth j starts 0%nat = row j.
Proof. intros H. unfold starts, row. now apply removelast_nth. Qed.
Lemma widths_nth j : (j < length rows - 1)%nat -> nth j widths 0%Z = (Z.of_nat (row (S j)) - Z.of_nat (row j))%Z.
Proof.
  intros H. unfold widths. assert (L : length finals = length starts) by (unfold finals, starts; rewrite removelast_length; destruct rows; cbn in *; lia).
  change 0%Z with ((fun '(f, s) => (Z.of_nat f - Z.of_nat s)%Z) (0%nat, 0%nat)). rewrite map_nth, combine_nth by exact L. rewrite finals_nth, starts_nth by exact H. reflexivity.
Qed.
Lemma backwards_telescope J : (J < length rows - 1)%nat -> forall I, (I <= J + 1)%nat -> backwards_sum widths I J = (Z.of_nat (row (S J)) - Z.of_nat (row I))%Z.
Proof.
  intros HJ. unfold backwards_sum. assert (G : forall m I, (I + m = J + 1)%nat -> fold_right Z.add 0%Z (skipn I (firstn (J + 1) widths)) = (Z.of_nat (row (S J)) - Z.of_nat (row I))%Z).
  { induction m as [|m IH]; intros I H.
    - rewrite skipn_all2 by (rewrite firstn_length; lia). replace I with (S J) by lia. cbn. lia.
    - assert (S1 : skipn I (firstn (J + 1) widths) = nth I widths 0%Z :: skipn (S I) (firstn (J + 1) widths)).
      { assert (I1 : (I < length (firstn (J + 1) widths))%nat) by (rewrite firstn_length, widths_length; lia). replace (nth I widths 0%Z) with (nth I (firstn (J + 1) widths) 0%Z).
        - revert I1. generalize (firstn (J + 1) widths). clear. intros l. revert I. induction l as [|a l IH]; intros [|I] H; cbn in *; try lia; [reflexivity|]. apply (IH I). lia.
        - assert (H' : (I < J + 1)%nat) by lia. clear - H'. revert I H'. generalize (J + 1)%nat as n, widths. induction n as [|n IH]; intros [|w l] [|I] H; cbn; try lia; auto. apply IH. lia. }
      rewrite S1. cbn [fold_right]. rewrite IH by lia. rewrite widths_nth by lia. lia. }
  intros I HI. apply (G (J + 1 - I)%nat). lia.
Qed.
Lemma min_width I J : (J < length rows - 1)%nat -> (I <= J)%nat -> satisfies_min_width widths dw I J = true <-> (Z.of_nat (row I) + Z.of_nat dw < Z.of_nat (row (S J)))%Z.
Proof. intros HJ HI. unfold satisfies_min_width. rewrite backwards_telescope by lia. rewrite Z.ltb_lt. lia. Qed.
Lemma expand_spec J : (J < length rows - 1)%nat -> forall I, (I <= J)%nat -> let I' := expand_backwards widths dw J I in (I' <= I)%nat /\
  (satisfies_min_width widths dw I' J = true \/ I' = 0%nat) /\ (forall i, (I' < i <= I)%nat -> satisfies_min_width widths dw i J = false).
Proof.
  intros HJ. induction I as [|I IH]; intros HI; cbn [expand_backwards]; [split; [lia|]; split; [now right|lia]|].
  destruct (satisfies_min_width widths dw (S I) J) eqn:E; cbv zeta; [split; [lia|]; split; [now left|lia]|]. destruct (IH ltac:(lia)) as (L & O & F). split; [lia|]. split; [exact O|]. intros i Hi. destruct (Nat.eq_dec i (S I)) as [->|]; [exact E|]. apply F. lia.
Qed.
(** The windows of turns J, J+1, ... *)
Definition window_of (J : nat) (c : nat * nat) : Prop :=
  exists i, (i <= J)%nat /\ c = (row i, row (S J)) /\ ((row i + dw < row (S J))%nat \/ (i = 0%nat /\ J = (length rows - 2)%nat)) /\ forall i', (i < i' <= J)%nat -> (row (S J) <= row i' + dw)%nat.
Lemma case_eqb_spec a b : case_eqb a b = true <-> a = b.
Proof. destruct a, b. unfold case_eqb. cbn. rewrite andb_true_iff, !Nat.eqb_eq. split; [intros []; congruence|intros H; inversion H; auto]. Qed.
Lemma loop_spec : forall todo J cases, (J + length todo = length rows - 1)%nat -> todo = skipn J finals -> NoDup cases ->
  exists out, case_loop starts finals widths dw J todo cases = Ok out /\ NoDup out /\ incl cases out /\
    (forall c, In c out -> In c cases \/ exists J', (J <= J' < length rows - 1)%nat /\ window_of J' c) /\
    (forall J', (J <= J' < length rows - 1)%nat -> (row 0 + dw < row (S J'))%nat \/ J' = (length rows - 2)%nat -> exists s, In (s, row (S J')) out).
Proof.
  induction todo as [|f todo IH]; intros J cases HL ET ND; cbn [case_loop].
  - exists cases. cbn in HL. split; [reflexivity|]. split; [exact ND|]. split; [apply incl_refl|]. split; [now left|lia].
  - cbn in HL. assert (HJ : (J < length rows - 1)%nat) by lia.
    destruct (skipn_head f 0%nat todo finals J ET) as [Ef ET']. rewrite finals_nth in Ef by exact HJ. symmetry in Ef.
    destruct (expand_spec J HJ J (le_n J)) as (LI & O & F). set (I := expand_backwards widths dw J J) in *. cbv zeta in LI, O, F |- *. rewrite widths_length.
    destruct (negb (satisfies_min_width widths dw I J) && (J + 1 <? length rows - 1)%nat) eqn:SK.
    + apply andb_true_iff in SK. destruct SK as [SK1 SK2]. apply negb_true_iff in SK1. apply Nat.ltb_lt in SK2.
      destruct (IH (S J) cases ltac:(lia) ET' ND) as (out & E & ND' & I0 & W & C). exists out. split; [exact E|]. split; [exact ND'|]. split; [exact I0|]. split.
      * intros c Hc. destruct (W c Hc) as [|(J' & HJ' & WJ)]; [now left|]. right. exists J'. split; [lia|exact WJ].
      * intros J' HJ' Cond. destruct (Nat.eq_dec J' J) as [->|]; [|apply C; [lia|exact Cond]]. exfalso. assert (I = 0%nat) as I00 by (destruct O; congruence). destruct Cond as [Cond|Cond]; [|lia].
        rewrite I00 in SK1. apply Bool.not_true_iff_false in SK1. apply SK1. apply min_width; lia.
    + rewrite andb_false_iff, negb_false_iff in SK. assert (G : geti starts I = Ok (row I)). { apply geti_Ok. rewrite <- (starts_nth I) by lia. apply nth_error_nth'. unfold starts. rewrite removelast_length. lia. }
      rewrite G. cbn [rbind]. set (cases' := if existsb (case_eqb (row I, f)) cases then cases else cases ++ [(row I, f)]).
      assert (Inew : In (row I, f) cases'). { unfold cases'. destruct (existsb _ cases) eqn:Ex; [|apply in_or_app; right; now left]. apply existsb_exists in Ex. destruct Ex as (c & Hc & Ec). apply case_eqb_spec in Ec. now subst. }
      assert (Iold : incl cases cases') by (unfold cases'; destruct (existsb _ cases); [apply incl_refl|now apply incl_appl, incl_refl]).
      assert (NDn : NoDup cases'). { unfold cases'. destruct (existsb _ cases) eqn:Ex; [exact ND|]. apply Permutation_NoDup with ((row I, f) :: cases); [apply Permutation_cons_append|]. constructor; [|exact ND]. intros Hc. apply Bool.not_true_iff_false in Ex. apply Ex, existsb_exists. exists (row I, f). split; [exact Hc|now apply case_eqb_spec]. }
      assert (Cc : forall c, In c cases' -> In c cases \/ c = (row I, f)). { unfold cases'. destruct (existsb _ cases); [now left|]. intros c Hc. apply in_app_or in Hc. destruct Hc as [|[<-|[]]]; [now left|now right]. }
      destruct (IH (S J) cases' ltac:(lia) ET' NDn) as (out & E & ND' & I0 & W & C). exists out. split; [exact E|]. split; [exact ND'|]. split; [intros c Hc; apply I0, Iold, Hc|]. split.
      * intros c Hc. destruct (W c Hc) as [Hc'|(J' & HJ' & WJ)]; [|right; exists J'; split; [lia|exact WJ]]. destruct (Cc c Hc') as [| ->]; [now left|]. right. exists J. split; [lia|]. exists I. split; [exact LI|]. split; [now rewrite Ef|]. split.
        -- destruct SK as [SK|SK]; [apply min_width in SK; lia|]. apply Nat.ltb_ge in SK. destruct O as [O| ->]; [apply min_width in O; lia|right; lia].
        -- intros i' Hi'. specialize (F i' Hi'). apply Bool.not_true_iff_false in F. rewrite min_width in F by lia. lia.
      * intros J' HJ' Cond. destruct (Nat.eq_dec J' J) as [->|]; [|apply C; [lia|exact Cond]]. exists (row I). rewrite <- Ef. apply I0, Inew.
Qed.
End Loop.
Lemma rmapM_removelast {A B} (f : A -> res B) l : forall r, rmapM f l = Ok r -> rmapM f (removelast l) = Ok (removelast r).
Proof.
  induction l as [|a [|b l] IH]; intros r H.
  - cbn in H. injection H as <-. reflexivity.
  - cbn in H. destruct (f a); [|discriminate]. cbn in H. injection H as <-. reflexivity.
  - change (removelast (a :: b :: l)) with (a :: removelast (b :: l)). cbn [rmapM] in H |- *. destruct (f a) as [x|]; [|discriminate]. cbn [rbind] in H |- *. destruct (rmapM f (b :: l)) as [s|] eqn:E; cbn [rbind rmapM] in E, H; rewrite E in H; [|discriminate]. cbn [rbind] in H.
    injection H as <-. rewrite (IH s eq_refl). cbn [rbind]. destruct s; [|reflexivity]. exfalso. cbn in E. destruct (f b); [|discriminate]. cbn in E. destruct (rmapM f l); discriminate.
Qed.
Lemma rmapM_tl {A B} (f : A -> res B) l r : rmapM f l = Ok r -> rmapM f (tl l) = Ok (tl r).
Proof. destruct l as [|a l]; cbn; intros H; [injection H as <-; reflexivity|]. destruct (f a); [|discriminate]. cbn in H. destruct (rmapM f l); [|discriminate]. cbn in H. injection H as <-. reflexivity. Qed.
(** *** Filters *)
Lemma remove_map {A} (f : A -> bool) l : remove_rows l (map f l) = filter (fun a => negb (f a)) l.
Proof. unfold remove_rows. induction l as [|a l IH]; [reflexivity|]. cbn. destruct (f a); cbn; now rewrite IH. Qed.
Lemma first_moves l : forall p, StronglySorted (fun x y => (y <? x)%Z = false) (map m_sequence l) -> (forall r, In r l -> (p <= m_sequence r)%Z) ->
  let k := remove_rows l (map (Z.eqb 0) (diff_with_prepend p (map m_sequence l))) in
  StronglySorted Z.lt (map m_sequence k) /\ (forall r, In r k -> In r l /\ (p < m_sequence r)%Z) /\ (forall r, In r l -> m_sequence r = p \/ exists r', In r' k /\ m_sequence r' = m_sequence r).
Proof.
  induction l as [|a l IH]; intros p S P; [cbn; split; [constructor|split; intros r []]|]. inversion S as [|? ? S' F]; subst. rewrite Forall_forall in F.
  assert (P' : forall r, In r l -> (m_sequence a <= m_sequence r)%Z) by (intros r Hr; specialize (F (m_sequence r) (in_map _ _ _ Hr)); lia).
  destruct (IH (m_sequence a) S' P') as (Sk & Ik & Ck). unfold remove_rows in *. cbn [map diff_with_prepend combine filter snd]. specialize (P a (or_introl eq_refl)).
  destruct (Z.eqb_spec 0 (m_sequence a - p)) as [E|E]; cbn [negb map].
  - cbv zeta. split; [exact Sk|]. split; [intros r Hr; destruct (Ik r Hr); split; [now right|lia]|]. intros r [<-|Hr]; [left; lia|]. destruct (Ck r Hr) as [C|C]; [left; lia|now right].
  - cbv zeta. cbn [fst]. split; [|split].
    + constructor; [exact Sk|]. apply Forall_forall. intros x Hx. apply in_map_iff in Hx. destruct Hx as (r & <- & Hr). now apply Ik.
    + intros r [<-|Hr]; [split; [now left|lia]|]. destruct (Ik r Hr). split; [now right|lia].
    + intros r [<-|Hr]; [right; exists a; split; [now left|reflexivity]|]. destruct (Ck r Hr) as [C|(r' & Hr' & C)]; right; [exists a; split; [now left|lia]|exists r'; split; [now right|exact C]].
Qed.
Lemma filters_spec argsort t : is_argsort argsort -> exists out, apply_filters argsort t = Ok out /\ StronglySorted Z.lt (map m_sequence out) /\
  (forall r, In r out -> In r t /\ m_enabled r = true) /\ (forall r, In r t -> m_enabled r = true -> exists r', In r' out /\ m_sequence r' = m_sequence r).
Proof.
  intros AS. unfold apply_filters. rewrite remove_map. cbv zeta.
  assert (FE : filter (fun a => negb (negb (m_enabled a))) t = filter m_enabled t) by (apply filter_ext; intros a; apply negb_involutive). rewrite FE. destruct (Nat.eqb_spec (length (filter m_enabled t)) 0) as [Ze|Ze].
  - exists (filter m_enabled t). destruct (filter m_enabled t) as [|x f] eqn:E; [|discriminate]. split; [reflexivity|]. split; [constructor|]. split; [intros r []|]. intros r Hr En. assert (I : In r (filter m_enabled t)) by (now apply filter_In). rewrite E in I. destruct I.
  - unfold no_move_performed, sort_by. destruct (sorting_take Z.ltb m_sequence (filter m_enabled t) _ (AS Z Z.ltb (map m_sequence (filter m_enabled t)) (st_weak _ Zltb_strict))) as (s & E & P & A). rewrite E. cbn [rbind].
    destruct s as [|r0 s]; [apply Permutation_nil in P; rewrite P in Ze; cbn in Ze; lia|]. cbn [rbind fst snd].
    assert (P0 : forall r, In r (r0 :: s) -> (m_sequence r0 - 1 <= m_sequence r)%Z). { intros r [<-|Hr]; [lia|]. inversion A as [|? ? _ F]; subst. rewrite Forall_forall in F. specialize (F (m_sequence r) (in_map _ _ _ Hr)). lia. }
    assert (P1 : forall r, In r (r0 :: s) -> (m_sequence r0 <= m_sequence r)%Z). { intros r [<-|Hr]; [lia|]. inversion A as [|? ? _ F]; subst. rewrite Forall_forall in F. specialize (F (m_sequence r) (in_map _ _ _ Hr)). lia. }
    destruct (first_moves (r0 :: s) (m_sequence r0 - 1)%Z A P0) as (Sk & Ik & Ck). eexists. split; [reflexivity|]. split; [exact Sk|]. split.
    + intros r Hr. destruct (Ik r Hr) as [Hr' _]. apply (Permutation_in _ P), filter_In in Hr'. exact Hr'.
    + intros r Hr En. assert (I : In r (r0 :: s)) by (apply (Permutation_in _ (Permutation_sym P)), filter_In; auto). destruct (Ck r I) as [C|C]; [|exact C]. specialize (P1 r I). lia.
Qed.
(** *** Quantiles *)
Lemma median_total l : l <> [] -> exists m, median l = Ok m.
Proof. intros N. unfold median. destruct l; [congruence|eauto]. Qed.
Lemma percentile_spec a q : 0 <= q <= 1 -> a <> [] -> exists v k, percentile a q = Ok v /\ INR k <= q * INR (length a - 1) < INR k + 1 /\ (k < length a)%nat /\
  nth k (sort_R a) 0 <= v /\ (forall i, (k < i < length a)%nat -> v <= nth i (sort_R a) 0 /\ (nth k (sort_R a) 0 < nth (k + 1) (sort_R a) 0 -> v < nth i (sort_R a) 0)).
Proof.
  intros Q N. unfold percentile. assert (Rleb 0 q = true) as -> by (apply Rleb_true; lra). assert (Rleb q 1 = true) as -> by (apply Rleb_true; lra). cbn [andb negb].
  pose proof (sort_R_perm a) as P. pose proof (sort_R_sorted a) as S. assert (L : length (sort_R a) = length a) by (now apply Permutation_length). assert (La : (0 < length a)%nat) by (destruct a; [congruence|cbn; lia]).
  destruct (sort_R a) as [|x s] eqn:E; [cbn in L; lia|]. rewrite <- E in *. clear E. cbv zeta. rewrite L. set (w := q * INR (length a - 1)). assert (W0 : 0 <= w) by (unfold w; apply Rmult_le_pos; [lra|apply pos_INR]). assert (W1 : w <= INR (length a - 1)). { unfold w. pose proof (pos_INR (length a - 1)). nra. }
  pose proof (Rfloor_spec w) as FS. set (z := Rfloor w) in *. assert (Z0 : (0 <= z)%Z). { apply Z.lt_succ_r, lt_IZR. rewrite succ_IZR. lra. } set (k := Z.to_nat z). assert (Kz : INR k = IZR z) by (unfold k; rewrite INR_IZR_INZ, Z2Nat.id; auto).
  assert (Kl : (k < length a)%nat). { apply INR_lt. rewrite Kz. replace (length a) with (Datatypes.S (length a - 1)) by lia. rewrite S_INR. lra. }
  eexists. exists k. split; [reflexivity|]. split; [lra|]. split; [exact Kl|]. set (lo := nth k (sort_R a) 0). set (hi := nth (Nat.min (k + 1) (length a - 1)) (sort_R a) 0).
  assert (LH : lo <= hi) by (apply sorted_nth; [exact S|lia]). split; [assert (0 <= (hi - lo) * (w - INR k)) by (apply Rmult_le_pos; lra); lra|].
  intros i Hi. assert (Eh : hi = nth (k + 1) (sort_R a) 0) by (unfold hi; f_equal; lia). assert (HI : hi <= nth i (sort_R a) 0) by (rewrite Eh; apply sorted_nth; [exact S|lia]). assert (B : (hi - lo) * (w - INR k) <= hi - lo) by nra. split; [lra|]. fold lo. rewrite <- Eh. intros Lt. assert ((hi - lo) * (w - INR k) < hi - lo) by nra. lra.
Qed.
Lemma filter_split l v : (length (filter (fun x => Rleb x v) l) + length (filter (fun x => negb (Rleb x v)) l) = length l)%nat.
Proof. induction l as [|a l IH]; [reflexivity|]. cbn. destruct (Rleb a v); cbn; lia. Qed.
Lemma filter_length_le' l v : (length (filter (fun x => Rleb x v) l) <= length l)%nat.
Proof. pose proof (filter_split l v). lia. Qed.
Lemma map_NoDup_in {A B} (f : A -> B) l : (forall x y, In x l -> In y l -> f x = f y -> x = y) -> NoDup l -> NoDup (map f l).
Proof. intros I N. induction N as [|a l Ha N IH]; cbn; constructor; [|apply IH; intros; apply I; cbn; auto]. intros H. apply in_map_iff in H. destruct H as (y & E & Hy). apply I in E; cbn; auto. now subst. Qed.
