(** bin/select_groups_of_positioners: groups of positioners that are not next to each other (C112). *)
From Verif.Model Require Import SelectGroups.
From Verif.Spec Require Import Match FindFiducials SelectGroups.
From Verif.Proofs Require Import Prelude Numpy RealNum SelectGroups.
From Coq Require Import Lra Lia Sorted.
Local Open Scope R_scope.
Local Open Scope list_scope.

Definition places (metrology : list device) : list (R * R) := map (fun s => (d_x s, d_y s)) (filter (fun s => String.eqb (d_type s) "POS") metrology).
Lemma four query7 metrology : exists g0 g1 g2 g3, select_groups query7 metrology = [g0; g1; g2; g3] /\
  let ok := greedy (fun j i => In i (close_ones query7 (places metrology) j)) (length (places metrology)) in ok [] g0 /\ ok g0 g1 /\ ok (g0 ++ g1) g2 /\ ok (g0 ++ g1 ++ g2) g3.
Proof.
  unfold select_groups. cbv zeta. fold (places metrology). cbn [make_groups app concat]. do 4 eexists. split; [reflexivity|]. cbv zeta. rewrite !app_nil_r. assert (L : length (places metrology) = length (positioners metrology)) by (unfold places; now rewrite map_length). rewrite L.
  assert (G : forall e, greedy (fun j i => In i (close_ones query7 (places metrology) j)) (length (positioners metrology)) e (one_group (close_ones query7 (places metrology)) e [] (seq 0 (length (positioners metrology))))).
  { intros e. destruct (one_group_spec (close_ones query7 (places metrology)) e (length (positioners metrology)) 0 []) as [A B]. split; [exact A|]. intros i. rewrite B. cbn [In]. split; intros (H1 & H); (split; [lia|]); tauto. }
  auto 6.
Qed.
(** Each group takes, in the order of the table, every positioner that no earlier group has and that is not beside one already in it. *)
Theorem C112_groups query7 metrology : seven_nearest query7 -> (forall i, uncrowded (places metrology) i) ->
  exists g0 g1 g2 g3, select_groups query7 metrology = [g0; g1; g2; g3] /\
  let ok := greedy (beside (places metrology)) (length (places metrology)) in ok [] g0 /\ ok g0 g1 /\ ok (g0 ++ g1) g2 /\ ok (g0 ++ g1 ++ g2) g3.
Proof.
  intros Q U. destruct (four query7 metrology) as (g0 & g1 & g2 & g3 & E & G0 & G1 & G2 & G3). exists g0, g1, g2, g3. split; [exact E|].
  assert (C : forall e g, greedy (fun j i => In i (close_ones query7 (places metrology) j)) (length (places metrology)) e g -> greedy (beside (places metrology)) (length (places metrology)) e g).
  { intros e g [A B]. split; [exact A|]. intros i. rewrite B. split; intros (H1 & H2 & H3); (split; [exact H1|]; split; [exact H2|]); intros j J I L; apply (H3 j J I); [apply (beside_close query7 Q); [apply U|lia|exact L]|now apply (close_beside query7 Q)]. }
  cbv zeta. auto.
Qed.
Print Assumptions C112_groups.
Theorem C112_apart query7 metrology g i j p q : seven_nearest query7 -> (forall i, uncrowded (places metrology) i) ->
  In g (select_groups query7 metrology) -> In i g -> In j g -> i <> j -> nth_error (places metrology) i = Some p -> nth_error (places metrology) j = Some q -> p <> q -> 12 <= distance p q.
Proof.
  intros Q U Ig Ii Ij N Ep Eq Npq. destruct (C112_groups query7 metrology Q U) as (g0 & g1 & g2 & g3 & E & G). cbv zeta in G. rewrite E in Ig.
  assert (exists e, greedy (beside (places metrology)) (length (places metrology)) e g) as (e & _ & M) by (destruct G as (A & B & C & D); destruct Ig as [<-|[<-|[<-|[<-|[]]]]]; eauto).
  destruct (Rle_dec 12 (distance p q)) as [|H]; [assumption|]. exfalso. apply Rnot_le_lt in H.
  assert (Pos : 0 < distance p q).
  { unfold distance. apply sqrt_lt_R0. destruct p as [a b], q as [c d]. cbn [fst snd]. destruct (Req_dec a c) as [->|]; [destruct (Req_dec b d) as [->|]; [contradiction|]|]; [assert (0 < (b - d) ^ 2) by (pose proof (pow_nonzero (b - d) 2 ltac:(lra)); pose proof (pow2_ge_0 (b - d)); lra); pose proof (pow2_ge_0 (c - c)); lra|assert (0 < (a - c) ^ 2) by (pose proof (pow_nonzero (a - c) 2 ltac:(lra)); pose proof (pow2_ge_0 (a - c)); lra); pose proof (pow2_ge_0 (b - d)); lra]. }
  assert (Sym : distance q p = distance p q) by (unfold distance; f_equal; ring).
  destruct (Nat.lt_total i j) as [L|[L|L]]; [|contradiction|].
  - apply M in Ij as (_ & _ & F). apply (F i L Ii). exists p, q. auto.
  - apply M in Ii as (_ & _ & F). apply (F j L Ij). exists q, p. rewrite Sym. auto.
Qed.
Print Assumptions C112_apart.
(** Without assuming anything on the places: no positioner is twice in the groups, and one in none of them has an earlier one beside it in each. *)
Theorem C112_left_out query7 metrology : seven_nearest query7 -> let gs := select_groups query7 metrology in
  length gs = 4%nat /\ NoDup (concat gs) /\ (forall i, In i (concat gs) -> (i < length (places metrology))%nat) /\
  forall i, (i < length (places metrology))%nat -> ~ In i (concat gs) -> forall g, In g gs -> exists j, In j g /\ (j < i)%nat /\ beside (places metrology) j i.
Proof.
  intros Q gs. destruct (four query7 metrology) as (g0 & g1 & g2 & g3 & E & G). unfold gs. rewrite E. clear gs E. cbv zeta in G. cbn [concat]. rewrite app_nil_r. split; [reflexivity|].
  assert (St : forall g, StronglySorted lt g -> NoDup g) by (intros g; induction 1 as [|a l S IH F]; constructor; [|exact IH]; intros H; rewrite Forall_forall in F; apply F in H; lia).
  assert (App : forall a b : list nat, NoDup a -> NoDup b -> (forall x, In x b -> ~ In x a) -> NoDup (a ++ b)).
  { intros a b Na Nb D. induction Na as [|x l Hx Na IH]; [exact Nb|]. cbn. constructor; [rewrite in_app_iff; intros [H|H]; [contradiction|apply (D x H); now left]|]. apply IH. intros y Hy Hl. apply (D y Hy). now right. }
  destruct G as ((S0 & M0) & (S1 & M1) & (S2 & M2) & (S3 & M3)). split; [|split].
  - rewrite !app_assoc. apply App; [apply App; [apply App; auto|auto|]|auto|].
    + intros x H. apply M1 in H. tauto.
    + intros x H. apply M2 in H. tauto.
    + intros x H. apply M3 in H. rewrite <- app_assoc. tauto.
  - intros i. rewrite !in_app_iff. intros [H|[H|[H|H]]]; [apply M0 in H|apply M1 in H|apply M2 in H|apply M3 in H]; tauto.
  - intros i Hi O g Ig. rewrite !in_app_iff in O. apply Decidable.not_or in O as [O0 O]. apply Decidable.not_or in O as [O1 O]. apply Decidable.not_or in O as [O2 O3].
    assert (X : forall e l, (forall i, In i l <-> (i < length (places metrology))%nat /\ ~ In i e /\ forall j, (j < i)%nat -> In j l -> ~ In i (close_ones query7 (places metrology) j)) -> ~ In i e -> ~ In i l -> exists j, In j l /\ (j < i)%nat /\ beside (places metrology) j i).
    { intros e l M Oe Ol. destruct (Exists_dec (fun j => (j < i)%nat /\ In i (close_ones query7 (places metrology) j)) l) as [Ex|Nx].
      - intros j. destruct (lt_dec j i); [destruct (in_dec Nat.eq_dec i (close_ones query7 (places metrology) j)); [left|right]; tauto|right; tauto].
      - apply Exists_exists in Ex as (j & Ij & L & C). exists j. split; [exact Ij|]. split; [exact L|]. now apply (close_beside query7 Q).
      - exfalso. apply Ol, M. split; [exact Hi|]. split; [exact Oe|]. intros j L Ij C. apply Nx, Exists_exists. eauto. }
    destruct Ig as [<-|[<-|[<-|[<-|[]]]]]; [apply (X [])|apply (X g0)|apply (X (g0 ++ g1))|apply (X (g0 ++ g1 ++ g2))]; auto; rewrite ?in_app_iff; tauto.
Qed.
Print Assumptions C112_left_out.
Theorem C112_files query7 metrology : let gs := select_groups query7 metrology in
  length (group_files query7 metrology) = 4%nat /\
  Forall2 (fun g '(ids, line) => Forall2 (fun i id => exists s, nth_error (filter (fun s => String.eqb (d_type s) "POS") metrology) i = Some s /\ id = d_id s) g ids /\ line = list_line ids) gs (group_files query7 metrology).
Proof.
  intros gs. destruct (four query7 metrology) as (g0 & g1 & g2 & g3 & E & G). cbv zeta in G. unfold group_files, gs. rewrite E. split; [reflexivity|].
  assert (X : forall g, (forall i, In i g -> (i < length (places metrology))%nat) -> Forall2 (fun i id => exists s, nth_error (filter (fun s => String.eqb (d_type s) "POS") metrology) i = Some s /\ id = d_id s) g (flat_map (fun i => match nth_error (positioners metrology) i with Some s => [d_id s] | None => [] end) g)).
  { induction g as [|i g IH]; intros H; [constructor|]. cbn [flat_map]. assert (Hi : (i < length (positioners metrology))%nat) by (specialize (H i (or_introl eq_refl)); unfold places in H; now rewrite map_length in H). apply nth_error_Some in Hi. destruct (nth_error (positioners metrology) i) as [s|] eqn:Es; [|contradiction]. cbn [app]. constructor; [exists s; auto|]. apply IH. intros; apply H; now right. }
  destruct G as ((_ & M0) & (_ & M1) & (_ & M2) & (_ & M3)). cbn [map]. repeat constructor; cbv zeta; try (apply X; intros i H; (apply M0 in H || apply M1 in H || apply M2 in H || apply M3 in H); tauto); apply add_ids_line.
Qed.
Print Assumptions C112_files.
(** [n] positioners in a row, with a fiducial at their end. *)
Definition row_of (step : R) (n : nat) : list device :=
  map (fun k => {| d_type := "POS"; d_id := String (ascii_of_nat (65 + k)) EmptyString; d_x := INR k * step; d_y := 0 |}) (seq 0 n) ++ [{| d_type := "FIF"; d_id := "P"; d_x := 5; d_y := 5 |}].
Lemma row_places step n : places (row_of step n) = map (fun k => (INR k * step, 0)) (seq 0 n).
Proof.
  unfold places, row_of. rewrite filter_app, map_app. cbn [filter d_type]. change (String.eqb "FIF" "POS") with false. cbn [map]. rewrite app_nil_r. induction (seq 0 n) as [|k l IH]; [reflexivity|]. cbn [map filter d_type]. change (String.eqb "POS" "POS") with true. cbn [map d_x d_y]. now rewrite IH.
Qed.
Lemma row_nth step n i p : nth_error (places (row_of step n)) i = Some p <-> (i < n)%nat /\ p = (INR i * step, 0).
Proof.
  rewrite row_places, nth_error_map. destruct (lt_dec i n) as [L|L].
  - rewrite (nth_error_nth' _ 0%nat) by now rewrite seq_length. rewrite seq_nth by exact L. cbn. split; [intros [= <-]; auto|intros [_ ->]; reflexivity].
  - assert (nth_error (seq 0 n) i = None) as -> by (apply nth_error_None; rewrite seq_length; lia). split; [discriminate|tauto].
Qed.
Lemma row_beside step n i j : 0 < step -> (i < j)%nat -> beside (places (row_of step n)) i j <-> (j < n)%nat /\ INR (j - i) * step < 12.
Proof.
  intros S0 L. assert (D : distance (INR i * step, 0) (INR j * step, 0) = INR (j - i) * step).
  { unfold distance. cbn [fst snd]. rewrite minus_INR by lia. assert (INR i < INR j) by now apply lt_INR. replace ((INR i * step - INR j * step) ^ 2 + (0 - 0) ^ 2) with (((INR j - INR i) * step) ^ 2) by ring. apply sqrt_pow2. nra. }
  unfold beside. split.
  - intros (p & q & Ep & Eq & H). apply row_nth in Ep as [_ ->]. apply row_nth in Eq as [Hj ->]. rewrite D in H. split; [exact Hj|lra].
  - intros [Hj H]. exists (INR i * step, 0), (INR j * step, 0). split; [apply row_nth; split; [lia|reflexivity]|]. split; [apply row_nth; auto|]. rewrite D. split; [|exact H]. apply Rmult_lt_0_compat; [apply lt_0_INR; lia|exact S0].
Qed.
Lemma row_uncrowded step n i : (n <= 7)%nat -> uncrowded (places (row_of step n)) i.
Proof.
  intros Hn p ks Ep N H. apply row_nth in Ep as [Hi _]. assert (length (i :: ks) <= length (seq 0 n))%nat; [|cbn in *; rewrite seq_length in *; lia]. apply NoDup_incl_length; [constructor; [intros K; now apply H in K as [K _]|exact N]|]. intros k [<-|K]; apply in_seq; [lia|]. apply H in K as (_ & q & Eq & _). apply row_nth in Eq as [Hk _]. lia.
Qed.
Lemma sorted_same l l' : StronglySorted lt l -> StronglySorted lt l' -> (forall i, In i l <-> In i l') -> l = l'.
Proof.
  intros S. revert l'. induction S as [|a l S IH F]; intros l' S' H.
  - destruct l' as [|b l']; [reflexivity|]. exfalso. apply (proj2 (H b)). now left.
  - destruct S' as [|b l' S' F']; [exfalso; apply (proj1 (H a)); now left|]. rewrite Forall_forall in F, F'.
    assert (a = b). { destruct (proj1 (H a) (or_introl eq_refl)) as [E|I]; [congruence|]. destruct (proj2 (H b) (or_introl eq_refl)) as [E|J]; [congruence|]. apply F' in I. apply F in J. lia. }
    subst b. f_equal. apply IH; [exact S'|]. intros i. split; intros I.
    + destruct (proj1 (H i) (or_intror I)) as [<-|J]; [apply F in I; lia|exact J].
    + destruct (proj2 (H i) (or_intror I)) as [<-|J]; [apply F' in I; lia|exact J].
Qed.
Example C112_example : select_groups scan7 (row_of 10 4) = [[0; 2]; [1; 3]; []; []]%nat /\
  group_files scan7 (row_of 10 4) = [(["A"; "C"], "['A','C']" ++ String "010" ""); (["B"; "D"], "['B','D']" ++ String "010" ""); ([], "[]" ++ String "010" ""); ([], "[]" ++ String "010" "")]%string.
Proof.
  assert (E : select_groups scan7 (row_of 10 4) = [[0; 2]; [1; 3]; []; []]%nat).
  { destruct (C112_groups scan7 (row_of 10 4) scan7_ok) as (g0 & g1 & g2 & g3 & E & G); [intros i; apply row_uncrowded; lia|]. rewrite E. cbv zeta in G. assert (L : length (places (row_of 10 4)) = 4%nat) by (now rewrite row_places, map_length, seq_length). rewrite L in G. clear E L.
    assert (B : forall i j, (i < j)%nat -> beside (places (row_of 10 4)) i j <-> (j < 4)%nat /\ j = S i).
    { intros i j Hij. rewrite row_beside by (lra || lia). split; intros [A C]; (split; [exact A|]).
      - destruct (Nat.eq_dec j (S i)); [assumption|]. exfalso. assert (2 <= INR (j - i)) by (change 2 with (INR 2); apply le_INR; lia). lra.
      - subst j. replace (S i - i)%nat with 1%nat by lia. cbn. lra. }
    destruct G as ((S0 & M0) & (S1 & M1) & (S2 & M2) & (S3 & M3)).
    assert (I00 : In 0%nat g0) by (apply M0; split; [lia|]; split; [intros []|]; intros; lia).
    assert (O01 : ~ In 1%nat g0) by (intros H; apply M0 in H as (_ & _ & H); apply (H 0%nat); [lia|exact I00|apply B; lia]).
    assert (I02 : In 2%nat g0) by (apply M0; split; [lia|]; split; [intros []|]; intros j J I X; apply B in X as [_ X]; [|lia]; assert (j = 1)%nat by lia; now subst).
    assert (O03 : ~ In 3%nat g0) by (intros H; apply M0 in H as (_ & _ & H); apply (H 2%nat); [lia|exact I02|apply B; lia]).
    assert (O10 : ~ In 0%nat g1) by (intros H; now apply M1 in H as (_ & H & _)). assert (O12 : ~ In 2%nat g1) by (intros H; now apply M1 in H as (_ & H & _)).
    assert (I11 : In 1%nat g1) by (apply M1; split; [lia|]; split; [exact O01|]; intros j J I X; assert (j = 0)%nat by lia; now subst).
    assert (I13 : In 3%nat g1) by (apply M1; split; [lia|]; split; [exact O03|]; intros j J I X; apply B in X as [_ X]; [|lia]; assert (j = 2)%nat by lia; now subst).
    assert (Z : forall i, (i < 4)%nat -> In i (g0 ++ g1)) by (intros i Hi; rewrite in_app_iff; destruct i as [|[|[|[|i]]]]; auto; lia).
    f_equal; [|f_equal; [|f_equal; [|f_equal]]].
    - apply sorted_same; [exact S0|repeat constructor; lia|]. intros i. cbn [In]. split; [intros H; destruct i as [|[|[|[|i]]]]; first [solve [auto]|contradiction|apply M0 in H as (H & _); lia]|intros [<-|[<-|[]]]; assumption].
    - apply sorted_same; [exact S1|repeat constructor; lia|]. intros i. cbn [In]. split; [intros H; destruct i as [|[|[|[|i]]]]; first [solve [auto]|contradiction|apply M1 in H as (H & _); lia]|intros [<-|[<-|[]]]; assumption].
    - destruct g2 as [|x g2]; [reflexivity|]. exfalso. destruct (proj1 (M2 x) (or_introl eq_refl)) as (H & O & _). now apply O, Z.
    - destruct g3 as [|x g3]; [reflexivity|]. exfalso. destruct (proj1 (M3 x) (or_introl eq_refl)) as (H & O & _). apply O. rewrite app_assoc. apply in_or_app. left. now apply Z. }
  split; [exact E|]. unfold group_files. rewrite E. reflexivity.
Qed.
(** Five positioners within 12 mm of each other: one is in no group. *)
Theorem C112_all_refuted : exists metrology, (forall i, uncrowded (places metrology) i) /\ forall query7, seven_nearest query7 ->
  exists i, (i < length (places metrology))%nat /\ forall g, In g (select_groups query7 metrology) -> ~ In i g.
Proof.
  exists (row_of 1 5). split; [intros i; apply row_uncrowded; lia|]. intros query7 Q. exists 4%nat. assert (L : length (places (row_of 1 5)) = 5%nat) by (now rewrite row_places, map_length, seq_length). split; [lia|].
  destruct (C112_groups query7 (row_of 1 5) Q) as (g0 & g1 & g2 & g3 & E & G); [intros i; apply row_uncrowded; lia|]. rewrite E. cbv zeta in G. rewrite L in G. clear E L.
  assert (B : forall i j, (i < j)%nat -> (j < 5)%nat -> beside (places (row_of 1 5)) i j) by (intros i j Hij H5; apply row_beside; [lra|exact Hij|]; split; [exact H5|]; assert (INR (j - i) <= INR 4) by (apply le_INR; lia); cbn in *; lra).
  destruct G as ((_ & M0) & (_ & M1) & (_ & M2) & (_ & M3)).
  assert (I0 : In 0%nat g0) by (apply M0; split; [lia|]; split; [intros []|]; intros; lia).
  assert (N0 : forall j, (0 < j)%nat -> ~ In j g0) by (intros j J H; apply M0 in H as (H5 & _ & H); apply (H 0%nat); [lia|exact I0|apply B; lia]).
  assert (I1 : In 1%nat g1) by (apply M1; split; [lia|]; split; [apply N0; lia|]; intros j J H; assert (j = 0)%nat by lia; subst; apply M1 in H; tauto).
  assert (N1 : forall j, (1 < j)%nat -> ~ In j g1) by (intros j J H; apply M1 in H as (H5 & _ & H); apply (H 1%nat); [lia|exact I1|apply B; lia]).
  assert (I2 : In 2%nat g2).
  { apply M2. split; [lia|]. rewrite in_app_iff. split; [intros [H|H]; [apply (N0 2%nat); [lia|exact H]|apply (N1 2%nat); [lia|exact H]]|]. intros j J H. apply M2 in H as (_ & H & _). rewrite in_app_iff in H. assert (j = 0 \/ j = 1)%nat as [->| ->] by lia; tauto. }
  assert (N2 : forall j, (2 < j)%nat -> ~ In j g2) by (intros j J H; apply M2 in H as (H5 & _ & H); apply (H 2%nat); [lia|exact I2|apply B; lia]).
  assert (I3 : In 3%nat g3).
  { apply M3. split; [lia|]. rewrite !in_app_iff. split; [intros [H|[H|H]]; [apply (N0 3%nat); [lia|exact H]|apply (N1 3%nat); [lia|exact H]|apply (N2 3%nat); [lia|exact H]]|]. intros j J H. apply M3 in H as (_ & H & _). rewrite !in_app_iff in H. assert (j = 0 \/ j = 1 \/ j = 2)%nat as [->|[->| ->]] by lia; tauto. }
  intros g [<-|[<-|[<-|[<-|[]]]]]; [apply N0; lia|apply N1; lia|apply N2; lia|]. intros H. apply M3 in H as (_ & _ & H). apply (H 3%nat); [lia|exact I3|apply B; lia].
Qed.
Print Assumptions C112_all_refuted.
(** Two positioners at the same place are in the same group. *)
Theorem C112_apart_refuted : exists metrology, forall query7, seven_nearest query7 -> exists g, In g (select_groups query7 metrology) /\ In 0%nat g /\ In 1%nat g /\
  exists p q, nth_error (places metrology) 0 = Some p /\ nth_error (places metrology) 1 = Some q /\ distance p q < 12.
Proof.
  set (d := fun s => {| d_type := "POS"; d_id := s; d_x := 3; d_y := 4 |}). exists [d "A"; d "B"]%string. intros query7 Q. change (places [d "A"; d "B"]%string) with [(3, 4); (3, 4)].
  assert (Z : distance (3, 4) (3, 4) = 0) by (unfold distance; cbn [fst snd]; replace ((3 - 3) ^ 2 + (4 - 4) ^ 2) with 0 by ring; apply sqrt_0).
  destruct (C112_groups query7 [d "A"; d "B"]%string Q) as (g0 & g1 & g2 & g3 & E & (_ & M0) & _); change (places [d "A"; d "B"]%string) with [(3, 4); (3, 4)] in *.
  { intros i p ks Ep N H. assert (length ks <= length (seq 0 2))%nat; [|cbn in *; lia]. apply NoDup_incl_length; [exact N|]. intros k K. apply H in K as (_ & q & Eq & _). apply in_seq. assert (k < 2)%nat; [|lia]. change 2%nat with (length [(3, 4); (3, 4)]). apply nth_error_Some. congruence. }
  exists g0. rewrite E. split; [now left|]. assert (I : forall i, (i < 2)%nat -> In i g0).
  { intros i Hi. apply M0. split; [exact Hi|]. split; [intros []|]. intros j _ _ (p & q & Ep & Eq & H). assert (P : forall k r, nth_error [(3, 4); (3, 4)] k = Some r -> r = (3, 4)) by (intros [|[|[|k]]] r X; cbn in X; congruence). apply P in Ep, Eq. subst. lra. }
  split; [apply I; lia|]. split; [apply I; lia|]. exists (3, 4), (3, 4). split; [reflexivity|]. split; [reflexivity|]. rewrite Z. lra.
Qed.
Print Assumptions C112_apart_refuted.
