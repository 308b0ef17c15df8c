(** C108: the run over all windows of a positioner. *)
From Coq Require Import Lra Lia Permutation Sorted.
From Verif.Model Require Import FitTable.
From Verif.Spec Require Import Numpy Fithandler Fitter FitTable FitRun.
From Verif.Proofs Require Import Prelude RealNum Numpy Stats PyString Fitter Fithandler FitNames FitTable FitRun.
From Verif.Props Require Import Fithandler Fitter FitTable.
Local Open Scope R_scope.
Local Open Scope string_scope.
Local Open Scope list_scope.

Lemma dates_ascending times p : 0 < p -> ascending (datum_dates times p).
Proof.
  intros P. unfold datum_dates, arange, ascending. set (q := p * 24 * 60 * 60). assert (Q : 0 < q) by (unfold q; lra). apply sorted_map. generalize (Z.to_nat (- Rfloor (- ((last times 0 - hd 0 times) / q)))). intros n. generalize 0%nat. induction n as [|n IH]; intros s; [constructor|].
  cbn [seq]. constructor; [apply IH|]. apply Forall_forall. intros x I. apply in_seq in I. assert (INR s <= INR x) by (apply le_INR; lia). nra.
Qed.
(** The windows can be told apart by the times and the number of their rows. *)
Lemma windows_apart rows p dw : let times := map w_sec rows in ascending times -> rows <> [] -> 0 < p -> (0 < dw)%nat -> hd 0 times < last times 0 ->
  exists cases, define_cases times (datum_dates times p) dw = Ok cases /\ cases <> [] /\ NoDup cases /\ Forall (inside rows) cases /\ apart rows cases.
Proof.
  intros times A N P D L. assert (NT : times <> []) by (unfold times; destruct rows; [contradiction|discriminate]). pose proof (C49_dates times p A NT P) as CD. assert (H0 : nth 0 times 0 = hd 0 times) by (destruct times; reflexivity).
  assert (D0 : In (hd 0 times) (datum_dates times p)) by (apply CD; exists 0%nat; cbn [INR]; rewrite H0; split; [lra|exact L]).
  assert (LT : List.length times = List.length rows) by (unfold times; apply map_length). assert (NS : forall i, (i < List.length rows)%nat -> nth i times 0 = w_sec (nth i rows no_row)) by (intros i Hi; unfold times; rewrite (nth_indep _ 0 (w_sec no_row)) by (now rewrite map_length); apply map_nth).
  destruct (Nat.eq_dec (List.length (datum_dates times p)) 1) as [O|O].
  - destruct (datum_dates times p) as [|d [|d' ds]] eqn:Ed; [discriminate| |discriminate]. destruct (C49_single times d dw NT D) as (cases & Ec & ND & W & I & _). exists cases. split; [exact Ec|]. split; [intros ->; exact I|]. split; [exact ND|]. split.
    + apply Forall_forall. intros [s f] Ic. destruct (W s f Ic) as (-> & Hf & _). unfold inside. cbn [fst snd]. split; lia.
    + intros [s f] [s' f'] Ic Ic' _ _ E. destruct (W s f Ic) as (-> & Hf & _). destruct (W s' f' Ic') as (-> & Hf' & _). apply (f_equal Z.of_nat) in E. rewrite !stretch_length in E by (unfold inside; cbn [fst snd]; split; lia). cbn [fst snd] in E. f_equal. lia.
  - assert (L2 : (2 <= List.length (datum_dates times p))%nat) by (destruct (datum_dates times p) as [|d [|d' ds]]; [destruct D0|cbn in O; lia|cbn; lia]). destruct (C49_windows times (datum_dates times p) dw A NT (dates_ascending times p P) L2) as (cases & Ec & ND & W & C). exists cases. split; [exact Ec|].
    assert (RO : forall d r, In d (datum_dates times p) -> row_of times d r -> d <= nth r times 0). { intros d r Id (R1 & R2 & [R3|R3]); [exact R3|]. apply CD in Id as (k & _ & Hk). rewrite last_nth in Hk by exact NT. subst r. lra. }
    assert (UQ : forall d d' r r', In d (datum_dates times p) -> In d' (datum_dates times p) -> row_of times d r -> row_of times d' r' -> nth r times 0 = nth r' times 0 -> r = r').
    { intros d d' r r' Id Id' Rr Rr' E. pose proof (RO d r Id Rr) as B. pose proof (RO d' r' Id' Rr') as B'. destruct Rr as (R1 & R2 & _), Rr' as (R1' & R2' & _). destruct (lt_eq_lt_dec r r') as [[H|H]|H]; [|exact H|]; exfalso; [specialize (R2' r H); lra|specialize (R2 r' H); lra]. }
    split; [|split; [exact ND|split]].
    + destruct (rmapM_row times (datum_dates times p) A NT) as (rws & _ & Lr & Rr). destruct (C (List.length (datum_dates times p) - 1)%nat (nth 0 rws 0%nat) (nth (List.length (datum_dates times p) - 1) rws 0%nat)) as (s & Is); [lia|apply Rr; lia|apply Rr; lia|now right|]. intros ->. exact Is.
    + apply Forall_forall. intros [s f] Ic. destruct (W s f Ic) as (Hs & _). unfold inside. cbn [fst snd]. lia.
    + intros [s f] [s' f'] Ic Ic' E1 E2 _. destruct (W s f Ic) as (Hs & i & j & Hij & Ri & Rj & _). destruct (W s' f' Ic') as (Hs' & i' & j' & Hij' & Ri' & Rj' & _). cbn [fst snd] in E1, E2. rewrite <- !NS in E1, E2 by lia.
      f_equal; [refine (UQ _ _ _ _ _ _ Ri Ri' E1)|refine (UQ _ _ _ _ _ _ Rj Rj' E2)]; apply nth_In; lia.
Qed.

(** The static fits start with the values of [start_values]. *)
Lemma start_params_spec fit clock posid rows dates dw q reject g E start b1 E0 : known_offsets g E -> 0 <= q <= 1 -> start_values fit rows dates dw q reject (v_bounds g) start b1 E0 ->
  exists g1 N, start_params fit clock posid rows dates dw q reject g = Ok (inl start, g1) /\ v_bounds g1 = b1 /\ known_offsets g1 (E ++ N) /\ forall e, In e (E ++ N) <-> In e E \/ In e E0.
Proof.
  intros K Q S. destruct S as [All|rehomed cases first os n b1 p w Iw Hw Er L10 Ec FI Hf [RO RI] NF B].
  - exists g, []. assert (X : forallb (fun w => mv_rehome (w_move w)) rows = true) by (now apply forallb_forall). unfold start_params. rewrite X, app_nil_r. split; [reflexivity|]. split; [reflexivity|]. split; [exact K|]. cbn [In]. tauto.
  - assert (X : forallb (fun w => mv_rehome (w_move w)) rows = false). { destruct (forallb (fun w => mv_rehome (w_move w)) rows) eqn:Y; [|reflexivity]. rewrite forallb_forall in Y. rewrite (Y w Iw) in Hw. discriminate. }
    destruct (C107_table fit clock posid rehomed cases Static default_values reject g E first os n b1 K FI Hf RO RI) as (t & g' & N & Et & Eb & K' & HN & FT). exists g', N.
    unfold start_params. rewrite X. cbv zeta. rewrite <- Er. destruct (Nat.ltb_spec (List.length rehomed) 10) as [?|_]; [lia|]. rewrite Ec. cbn [rbind]. rewrite Et. cbn [rbind fst snd].
    rewrite (proj1 (failed_flags_spec t _ (ft_flags _ _ _ _ _ _ _ _ FT)) NF). cbn [rbind].
    destruct (best_params_spec t q all_keys (first :: os)) as (p' & Ep & B'); [exact Q|discriminate|destruct B as (v0 & _ & Bn & _); exact Bn|apply (ft_rms _ _ _ _ _ _ _ _ FT)|intros k Ik; apply (ft_value _ _ _ _ _ _ _ _ FT k Ik)|].
    change (map fst default_values) with all_keys. rewrite Ep. cbn [rbind]. rewrite (best_unique _ _ _ _ _ B B'). auto.
Qed.

Ltac decide_min := match goal with |- context [(?a <? ?b)%nat] => destruct (Nat.ltb_spec a b) as [?|_]; [lia|] end.
(** Too few rows, or too few rehomed ones among them: no fit is made. *)
Theorem C108_too_few fit clock argsort posid rows period data_window q min_window reject g : (List.length rows < min_window)%nat ->
  run_best_fits fit clock argsort posid rows period data_window q min_window reject g = Ok (OnlyFlags 16, g).
Proof. intros H. unfold run_best_fits. apply Nat.ltb_lt in H. rewrite H. reflexivity. Qed.
Print Assumptions C108_too_few.
Theorem C108_too_few_rehomed fit clock argsort posid rows period data_window q min_window reject g w :
  ascending (map w_sec rows) -> 0 < period -> (0 < data_window)%nat -> hd 0 (map w_sec rows) < last (map w_sec rows) 0 -> (min_window <= List.length rows)%nat ->
  In w rows -> mv_rehome (w_move w) = false -> (List.length (filter (fun w => mv_rehome (w_move w)) rows) < 10)%nat ->
  run_best_fits fit clock argsort posid rows period data_window q min_window reject g = Ok (OnlyFlags 16, g).
Proof.
  intros A P D L M Iw Hw F. destruct (windows_apart rows period data_window A) as (cases & Ec & _); auto; [intros ->; destruct Iw|]. unfold run_best_fits. decide_min. cbv zeta. rewrite Ec. cbn [rbind].
  unfold start_params. assert (X : forallb (fun w => mv_rehome (w_move w)) rows = false). { destruct (forallb (fun w => mv_rehome (w_move w)) rows) eqn:Y; [|reflexivity]. rewrite forallb_forall in Y. rewrite (Y w Iw) in Hw. discriminate. }
  rewrite X. cbv zeta. apply Nat.ltb_lt in F. rewrite F. reflexivity.
Qed.
Print Assumptions C108_too_few_rehomed.

(** If one of the static fits fails, only the flags of all windows together are written. *)
Theorem C108_failed fit clock argsort posid rows period data_window q min_window reject g E cases start b1 E0 first os n2 b2 :
  known_offsets g E -> ascending (map w_sec rows) -> rows <> [] -> 0 < period -> (0 < data_window)%nat -> hd 0 (map w_sec rows) < last (map w_sec rows) 0 -> 0 <= q <= 1 -> (min_window <= List.length rows)%nat ->
  define_cases (map w_sec rows) (datum_dates (map w_sec rows) period) data_window = Ok cases -> start_values fit rows (datum_dates (map w_sec rows) period) data_window q reject (v_bounds g) start b1 E0 ->
  fits fit rows Static reject start b1 cases (first :: os) n2 b2 -> regular first os -> (exists o, In o (first :: os) /\ fit_failed o) ->
  exists flags g', run_best_fits fit clock argsort posid rows period data_window q min_window reject g = Ok (OnlyFlags flags, g') /\ v_bounds g' = b2 /\ forall i, Z.testbit flags i = existsb (fun o => Z.testbit (o_flags o) i) (first :: os).
Proof.
  intros K A N P D L Q M Ec S Hf [RO RI] Fl. destruct (windows_apart rows period data_window A N P D L) as (cases' & Ec' & NE & ND & FI & AP). assert (cases' = cases) as -> by congruence.
  destruct (start_params_spec fit clock posid rows _ data_window q reject g E start b1 E0 K Q S) as (g1 & N1 & E1 & B1 & K1 & H1). rewrite <- B1 in Hf.
  destruct (C107_table fit clock posid rows cases Static start reject g1 _ first os n2 b2 K1 FI Hf RO RI) as (t & g2 & N2 & Et & Eb & K2 & H2 & FT).
  destruct (proj2 (failed_flags_spec t _ (ft_flags _ _ _ _ _ _ _ _ FT)) Fl) as (f & Ef & Hb). exists f, g2. split; [|auto].
  unfold run_best_fits. decide_min. cbv zeta. rewrite Ec. cbn [rbind]. rewrite E1. cbn [rbind fst snd]. rewrite Et. cbn [rbind fst snd]. rewrite Ef. reflexivity.
Qed.
Print Assumptions C108_failed.

(** The same if one of the fits of the rehomed rows alone fails. *)
Theorem C108_failed_rehomed fit clock argsort posid rows period data_window q min_window reject g E rehomed w cases first os n b1 :
  known_offsets g E -> ascending (map w_sec rows) -> 0 < period -> (0 < data_window)%nat -> hd 0 (map w_sec rows) < last (map w_sec rows) 0 -> (min_window <= List.length rows)%nat ->
  In w rows -> mv_rehome (w_move w) = false -> rehomed = filter (fun w => mv_rehome (w_move w)) rows -> (10 <= List.length rehomed)%nat ->
  define_cases (map w_sec rehomed) (datum_dates (map w_sec rows) period) data_window = Ok cases -> Forall (inside rehomed) cases -> fits fit rehomed Static reject default_values (v_bounds g) cases (first :: os) n b1 -> regular first os ->
  (exists o, In o (first :: os) /\ fit_failed o) ->
  exists flags g', run_best_fits fit clock argsort posid rows period data_window q min_window reject g = Ok (OnlyFlags flags, g') /\ v_bounds g' = b1 /\ forall i, Z.testbit flags i = existsb (fun o => Z.testbit (o_flags o) i) (first :: os).
Proof.
  intros K A P D L M Iw Hw Er L10 Ec FI Hf [RO RI] Fl. assert (N : rows <> []) by (intros ->; destruct Iw). destruct (windows_apart rows period data_window A N P D L) as (cases' & Ec' & _).
  destruct (C107_table fit clock posid rehomed cases Static default_values reject g E first os n b1 K FI Hf RO RI) as (t & g' & N' & Et & Eb & K' & HN & FT). destruct (proj2 (failed_flags_spec t _ (ft_flags _ _ _ _ _ _ _ _ FT)) Fl) as (f & Ef & Hb). exists f, g'. split; [|auto].
  assert (X : forallb (fun w => mv_rehome (w_move w)) rows = false). { destruct (forallb (fun w => mv_rehome (w_move w)) rows) eqn:Y; [|reflexivity]. rewrite forallb_forall in Y. rewrite (Y w Iw) in Hw. discriminate. }
  unfold run_best_fits. decide_min. cbv zeta. rewrite Ec'. cbn [rbind]. unfold start_params. rewrite X. cbv zeta. rewrite <- Er. destruct (Nat.ltb_spec (List.length rehomed) 10) as [?|_]; [lia|]. rewrite Ec. cbn [rbind]. rewrite Et. cbn [rbind fst snd]. rewrite Ef. reflexivity.
Qed.
Print Assumptions C108_failed_rehomed.

(** If an offset of the first window has a name that begins with the name of another one met (EPSILON_T_1 and EPSILON_T_10), the
    run ends with a KeyError: nothing is written for the positioner. *)
Theorem C108_clash fit clock argsort posid rows period data_window q min_window reject g E cases start b1 E0 first os n2 b2 e :
  known_offsets g E -> ascending (map w_sec rows) -> rows <> [] -> 0 < period -> (0 < data_window)%nat -> hd 0 (map w_sec rows) < last (map w_sec rows) 0 -> 0 <= q <= 1 -> (min_window <= List.length rows)%nat ->
  define_cases (map w_sec rows) (datum_dates (map w_sec rows) period) data_window = Ok cases -> start_values fit rows (datum_dates (map w_sec rows) period) data_window q reject (v_bounds g) start b1 E0 ->
  fits fit rows Static reject start b1 cases (first :: os) n2 b2 -> regular first os -> Forall (fun o => ~ fit_failed o) (first :: os) ->
  In e (offsets first) -> clashes (E ++ E0 ++ offsets first) e ->
  run_best_fits fit clock argsort posid rows period data_window q min_window reject g = Err KeyError.
Proof.
  intros K A N P D L Q M Ec S Hf [RO RI] NF Ie Cl. destruct (windows_apart rows period data_window A N P D L) as (cases' & Ec' & NE & ND & FI & AP). assert (cases' = cases) as -> by congruence.
  destruct (start_params_spec fit clock posid rows _ data_window q reject g E start b1 E0 K Q S) as (g1 & N1 & E1 & B1 & K1 & H1). rewrite <- B1 in Hf.
  destruct (C107_table fit clock posid rows cases Static start reject g1 _ first os n2 b2 K1 FI Hf RO RI) as (t & g2 & N2 & Et & Eb & K2 & H2 & FT).
  assert (FO : forall e, In e (offsets first) -> offset_name e) by (apply Forall_forall; exact (Forall_inv RO)).
  assert (Cl' : clashes ((E ++ N1) ++ N2) e). { apply (clashes_incl (E ++ E0 ++ offsets first)); [|exact Cl]. intros x Ix. apply H2. rewrite H1. apply in_app_or in Ix as [Ix|Ix]; [auto|]. apply in_app_or in Ix as [Ix|Ix]; auto. }
  destruct (static_names_spec _ _ _ _ _ _ _ _ FT) as [NN HN].
  unfold run_best_fits. decide_min. cbv zeta. rewrite Ec. cbn [rbind]. rewrite E1. cbn [rbind fst snd]. rewrite Et. cbn [rbind fst snd]. rewrite (proj1 (failed_flags_spec t _ (ft_flags _ _ _ _ _ _ _ _ FT)) NF). cbn [rbind].
  rewrite (best_params_missing t q (static_names t) (first :: os)); [reflexivity|exact Q|discriminate|apply (ft_rms _ _ _ _ _ _ _ _ FT)| |].
  - intros k Ik. apply HN in Ik as [Ik|Ik]; [right; apply (ft_value _ _ _ _ _ _ _ _ FT k Ik)|]. destruct (Classical_Prop.classic (clashes ((E ++ N1) ++ N2) k)) as [C|C]; [left; apply (ft_lost _ _ _ _ _ _ _ _ FT k (FO k Ik) C)|right; apply (ft_offset _ _ _ _ _ _ _ _ FT first os k eq_refl Ik C)].
  - exists e. split; [apply HN; now right|]. apply (ft_lost _ _ _ _ _ _ _ _ FT e (FO e Ie) Cl').
Qed.
Print Assumptions C108_clash.

(** All moves at the same time: no windows, and no table to look for flags in. *)
Theorem C108_one_time fit clock argsort posid rows period data_window q min_window reject g E a :
  known_offsets g E -> rows <> [] -> (forall w, In w rows -> w_sec w = a) -> 0 < period -> (min_window <= List.length rows)%nat -> (10 <= List.length (filter (fun w => mv_rehome (w_move w)) rows))%nat ->
  run_best_fits fit clock argsort posid rows period data_window q min_window reject g = Err KeyError.
Proof.
  intros K N Eq P M L10. assert (DC : forall l dw, (forall w, In w l -> w_sec w = a) -> define_cases (map w_sec l) [] dw = Ok []) by reflexivity.
  assert (Ed : datum_dates (map w_sec rows) period = []). { apply (C49_same_time_refuted (map w_sec rows) period data_window); [destruct rows; [contradiction|discriminate]|exact P|]. assert (H1 : hd 0 (map w_sec rows) = a) by (destruct rows as [|w r]; [contradiction|apply Eq; now left]). rewrite H1, Forall_map. now apply Forall_forall. }
  destruct (C107_no_windows fit clock posid rows Static default_values reject g E K) as (t & Et & ->).
  unfold run_best_fits. decide_min. cbv zeta. rewrite Ed, (DC rows data_window Eq). cbn [rbind]. unfold start_params. destruct (forallb (fun w => mv_rehome (w_move w)) rows); [cbn [rbind fst snd]; rewrite Et; reflexivity|]. cbv zeta. decide_min.
  rewrite DC by (intros w Iw; apply filter_In in Iw as [Iw _]; now apply Eq). cbn [rbind]. destruct (C107_no_windows fit clock posid (filter (fun w => mv_rehome (w_move w)) rows) Static default_values reject g E K) as (t & Et' & ->). rewrite Et'. reflexivity.
Qed.
Print Assumptions C108_one_time.

(** Otherwise the table written has one row for each window, sorted by the end of the window, with the results of the static fit and
    of the dynamic one, which starts with the best static parameters. A window whose two fits have different flags is missing. *)
Theorem C108_written fit clock argsort posid rows period data_window q min_window reject g E cases start b1 E0 first os n2 b2 :
  sorts argsort -> known_offsets g E -> ascending (map w_sec rows) -> rows <> [] -> 0 < period -> (0 < data_window)%nat -> hd 0 (map w_sec rows) < last (map w_sec rows) 0 -> 0 <= q <= 1 -> (min_window <= List.length rows)%nat ->
  (forall w w', In w rows -> In w' rows -> w_petal_id w = w_petal_id w' /\ w_petal_loc w = w_petal_loc w' /\ w_device_loc w = w_device_loc w') ->
  define_cases (map w_sec rows) (datum_dates (map w_sec rows) period) data_window = Ok cases -> start_values fit rows (datum_dates (map w_sec rows) period) data_window q reject (v_bounds g) start b1 E0 ->
  fits fit rows Static reject start b1 cases (first :: os) n2 b2 -> regular first os -> Forall (fun o => ~ fit_failed o) (first :: os) ->
  (forall e, In e (offsets first) -> ~ clashes (E ++ E0 ++ offsets first) e) ->
  (forall names best, (forall k, In k names <-> In k all_keys \/ In k (offsets first)) -> best_of q names (first :: os) best ->
     exists first' os' n3 b3, fits fit rows Dynamic reject best b2 cases (first' :: os') n3 b3 /\ regular first' os' /\ incl (offsets first') (offsets first)) ->
  exists t g' order names best first' os' n3 b3 known ts td,
    run_best_fits fit clock argsort posid rows period data_window q min_window reject g = Ok (Written t, g') /\
    (forall k, In k names <-> In k all_keys \/ In k (offsets first)) /\ best_of q names (first :: os) best /\ fits fit rows Dynamic reject best b2 cases (first' :: os') n3 b3 /\
    (forall e, In e known <-> In e (E ++ E0 ++ offsets first)) /\ known_offsets g' known /\ v_bounds g' = b3 /\
    fit_table clock posid rows Static cases (first :: os) known ts /\ fit_table clock posid rows Dynamic cases (first' :: os') known td /\
    Permutation order (filter (fun i => Z.eqb (o_flags (nth i (first :: os) (failed 0 0))) (o_flags (nth i (first' :: os') (failed 0 0)))) (seq 0 (List.length cases))) /\
    StronglySorted (fun a b => end_of rows cases a <= end_of rows cases b) order /\ joined rows ts td order t.
Proof.
  intros SO K A N P D L Q M PE Ec S Hf [RO RI] NF NC HD. destruct (windows_apart rows period data_window A N P D L) as (cases' & Ec' & NE & ND & FI & AP). assert (cases' = cases) as -> by congruence.
  destruct (start_params_spec fit clock posid rows _ data_window q reject g E start b1 E0 K Q S) as (g1 & N1 & E1 & B1 & K1 & H1). rewrite <- B1 in Hf.
  destruct (C107_table fit clock posid rows cases Static start reject g1 _ first os n2 b2 K1 FI Hf RO RI) as (ts & g2 & N2 & Et & Eb & K2 & H2 & FT).
  assert (HK : forall e, In e ((E ++ N1) ++ N2) <-> In e (E ++ E0 ++ offsets first)) by (intros e; rewrite H2, H1, !in_app_iff; tauto).
  destruct (static_names_spec _ _ _ _ _ _ _ _ FT) as [NN HN].
  assert (NC1 : forall e, In e (offsets first) -> ~ clashes ((E ++ N1) ++ N2) e). { intros e Ie C. apply (NC e Ie). apply (clashes_incl ((E ++ N1) ++ N2)); [|exact C]. intros x Ix. now apply HK. }
  destruct (best_params_spec ts q (static_names ts) (first :: os)) as (best & Ebest & HB); [exact Q|discriminate|exact NN|apply (ft_rms _ _ _ _ _ _ _ _ FT)| |].
  { intros k Ik. apply HN in Ik as [Ik|Ik]; [apply (ft_value _ _ _ _ _ _ _ _ FT k Ik)|apply (ft_offset _ _ _ _ _ _ _ _ FT first os k eq_refl Ik (NC1 k Ik))]. }
  destruct (HD (static_names ts) best HN HB) as (first' & os' & n3 & b3 & Hf' & [RO' RI'] & Inc). rewrite <- Eb in Hf'.
  destruct (C107_table fit clock posid rows cases Dynamic best reject g2 _ first' os' n3 b3 K2 FI Hf' RO' RI') as (td & g3 & N3 & Et' & Eb' & K3 & H3 & FD).
  assert (N3 = []) as ->. { destruct K3 as (_ & ND3 & _). destruct N3 as [|x N3]; [reflexivity|]. exfalso. apply NoDup_remove_2 in ND3. apply ND3. apply in_or_app. left. assert (Ix : In x (((E ++ N1) ++ N2) ++ x :: N3)) by (apply in_or_app; right; now left). apply H3 in Ix as [Ix|Ix]; [exact Ix|]. apply H2. right. now apply Inc. }
  rewrite app_nil_r in *. set (known := (E ++ N1) ++ N2) in *.
  assert (C1 : no_clash known (first :: os)) by (intros o rest e Qo Ie; injection Qo as <- <-; now apply NC1). assert (C2 : no_clash known (first' :: os')) by (intros o rest e Qo Ie; injection Qo as <- <-; apply NC1; now apply Inc).
  pose proof (fits_length _ _ _ _ _ _ _ _ _ _ Hf) as L1. pose proof (fits_length _ _ _ _ _ _ _ _ _ _ Hf') as L2.
  destruct (join_spec clock posid rows cases _ _ known known ts td FT FD C1 C2 L1 L2 ND AP) as (j & Ej & JL & JR & JN & JH). set (kept := filter _ _) in *.
  destruct (finish_spec argsort clock posid rows cases _ _ known known ts td j kept FT FD C1 C2 SO N PE JL JR JN JH) as (t & order & Efin & Po & So & Jo). { intros i Ii. apply filter_In in Ii as [Ii _]. apply in_seq in Ii. lia. }
  exists t, g3, order, (static_names ts), best, first', os', n3, b3, known, ts, td. split.
  - unfold run_best_fits. decide_min. cbv zeta. rewrite Ec. cbn [rbind]. rewrite E1. cbn [rbind fst snd]. rewrite Et. cbn [rbind fst snd]. rewrite (proj1 (failed_flags_spec ts _ (ft_flags _ _ _ _ _ _ _ _ FT)) NF). cbn [rbind]. rewrite Ebest. cbn [rbind]. rewrite Et'. cbn [rbind fst snd].
    rewrite (unsuffixed g3 known K3), Ej. cbn [rbind]. destruct (pass_through rows j) as [j2|]; [|discriminate]. cbn [rbind] in *. rewrite Efin. reflexivity.
  - rewrite Eb in Hf'. split; [exact HN|]. split; [exact HB|]. split; [exact Hf'|]. split; [exact HK|]. split; [exact K3|]. split; [exact Eb'|]. split; [exact FT|]. split; [exact FD|]. split; [exact Po|]. split; [exact So|exact Jo].
Qed.
Print Assumptions C108_written.

(** *** The fits of the package *)
Lemma package_fit ls mz moves mode n b reject o n1 b1 : same_shape mz -> posparams_fit ls mz moves mode n b reject = (Ok o, (n1, b1)) ->
  (o_flags o = 0%Z /\ ~ theta_stuck moves /\ existsb mv_rehome moves = true /\ (forall k, In k (map fst (o_params o)) <-> In k (map fst n1)) /\ (forall k, In k (map fst n1) <-> In k (map fst n) \/ (mode = Static /\ unrehomed moves k))) \/
  (fit_failed o /\ (theta_stuck moves \/ existsb mv_rehome moves = false) /\ offsets o = [] /\ n1 = n).
Proof.
  intros SS H. unfold posparams_fit in H. destruct (fit_params_cases ls mz moves mode n b [] None None reject) as [[_ E]|(V & [[T E]|[(_ & Rh & E)|(T & Rh & C)]])].
  - rewrite E in H. discriminate.
  - rewrite E in H. injection H as <- <- _. right. split; [reflexivity|]. split; [now left|]. split; reflexivity.
  - rewrite E in H. injection H as <- <- _. right. split; [reflexivity|]. split; [now right|]. split; reflexivity.
  - left. destruct mode.
    + cbv zeta in C. set (seqs := sequences_without_rehome moves) in *. destruct C as [(e & _ & E)|(nom2 & E0 & E)]; [rewrite E in H; discriminate|]. assert (Fl : o_flags o = 0%Z). { rewrite E in H. injection H as H _ _. destruct (fit_rest_Ok _ _ _ _ _ _ _ _ _ _ _ _ _ SS H) as (x0 & b' & x & h & pts' & r & ot & _ & _ & _ & _ & _ & _ & _ & _ & _ & _ & Fl & _). exact Fl. }
      split; [exact Fl|]. split; [exact T|]. split; [exact Rh|]. destruct (C80_static _ _ _ _ _ _ _ _ _ _ _ SS H Fl) as (_ & _ & K).
      assert (KX : forall k, In k all_keys -> In k (map fst (add_epsilons 0 seqs n))) by (intros; apply add_epsilons_keys; left; now apply V).
      assert (Q : nom2 = n1) by (rewrite E in H; now injection H as _ <- _). subst nom2.
      assert (K1 : forall k, In k (map fst n1) <-> In k (map fst n) \/ (Static = Static /\ unrehomed moves k)).
      { intros k. rewrite (init_offsets_keys _ _ _ _ _ k E0) by (apply KX; cbn; tauto). rewrite add_epsilons_keys. unfold is_eps, unrehomed, seqs, sequences_without_rehome. split; (intros [?|I]; [now left|right]).
        - destruct I as (s & Is & Hk). split; [reflexivity|]. apply (proj1 (unique_In _ _)) in Is. apply in_map_iff in Is as (m & <- & Hm). apply filter_In in Hm as [Im Hm]. exists m. split; [exact Im|]. split; [now apply negb_true_iff|exact Hk].
        - destruct I as (_ & m & Im & Hm & Hk). exists (mv_seq m). split; [|exact Hk]. apply (proj2 (unique_In _ _)). apply in_map. apply filter_In. split; [exact Im|now rewrite Hm]. }
      split; [|exact K1]. intros k. rewrite K, K1. unfold unrehomed. tauto.
    + cbv zeta in C. assert (Fl : o_flags o = 0%Z). { rewrite C in H. injection H as H _ _. destruct (dynamic_points _ _ _) as [pts|]; [|discriminate]. cbn [rbind] in H. destruct (fit_rest_Ok _ _ _ _ _ _ _ _ _ _ _ _ _ SS H) as (x0 & b' & x & h & pts' & r & ot & _ & _ & _ & _ & _ & _ & _ & _ & _ & _ & Fl & _). exact Fl. }
      split; [exact Fl|]. split; [exact T|]. split; [exact Rh|]. destruct (C80_dynamic _ _ _ _ _ _ _ _ _ _ _ SS H Fl) as (_ & _ & K & St). injection St as -> _. split; [exact K|]. intros k. split; [now left|]. intros [?|[? _]]; [assumption|discriminate].
Qed.
Lemma offsets_In o e : In e (offsets o) <-> In e (map fst (o_params o)) /\ has_epsilon e = true.
Proof. unfold offsets. rewrite filter_In. reflexivity. Qed.
Lemma offset_keys_In n e : In e (offset_keys n) <-> In e (map fst n) /\ has_epsilon e = true.
Proof. unfold offset_keys. rewrite filter_In. reflexivity. Qed.
Lemma unrehomed_offset moves e : (forall m, In m moves -> (0 <= mv_seq m)%Z) -> unrehomed moves e -> offset_name e.
Proof. intros H (m & Im & _ & E). exists (mv_seq m). split; [now apply H|exact E]. Qed.
Lemma stretch_In rows c w : In w (stretch rows c) -> In w rows.
Proof.
  unfold stretch. generalize (snd c + 1 - fst c)%nat. intros n I. rewrite <- (firstn_skipn (fst c) rows). apply in_or_app. right. rewrite <- (firstn_skipn n (skipn (fst c) rows)). apply in_or_app. now left.
Qed.

Lemma package_static ls mz rows reject n b cases os n2 b2 : same_shape mz -> (forall w, In w rows -> (0 <= mv_seq (w_move w))%Z) -> Forall offset_name (offset_keys n) -> fits (posparams_fit ls mz) rows Static reject n b cases os n2 b2 ->
  Forall (fun o => Forall offset_name (offsets o)) os /\ (forall o e, In o os -> In e (offsets o) -> In e (offset_keys n) \/ exists c, In c cases /\ unrehomed (moves_of rows c) e) /\
  (forall c o e, In (c, o) (combine cases os) -> ~ fit_failed o -> In e (offset_keys n) \/ unrehomed (moves_of rows c) e -> In e (offsets o)) /\
  (forall c cs o rest e, cases = c :: cs -> os = o :: rest -> In e (offsets o) -> ~ fit_failed o /\ (In e (offset_keys n) \/ unrehomed (moves_of rows c) e)).
Proof.
  intros SS HS HN H. induction H as [n b|n b c cs o os n1 b1 n2 b2 Hc Hf IH]; [split; [constructor|]; split; [intros o e []|]; split; [intros c o e []|discriminate]|].
  assert (U : forall e, unrehomed (moves_of rows c) e -> offset_name e) by (intros e; apply unrehomed_offset; intros m Im; apply in_map_iff in Im as (w & <- & Iw); apply HS; now apply (stretch_In rows c)).
  destruct (package_fit ls mz _ _ _ _ _ _ _ _ SS Hc) as [(Fl & _ & _ & K & K1)|(Ff & _ & Off & ->)].
  - assert (NF : ~ fit_failed o) by (unfold fit_failed; rewrite Fl; discriminate).
    assert (K2 : forall e, In e (offset_keys n1) <-> In e (offset_keys n) \/ unrehomed (moves_of rows c) e).
    { intros e. rewrite !offset_keys_In, K1. split; [intros [[I|[_ I]] He]; tauto|]. intros [[I He]|I]; [tauto|]. split; [right; auto|]. apply offset_has. now apply U. }
    assert (KO : forall e, In e (offsets o) <-> In e (offset_keys n1)) by (intros e; rewrite offsets_In, offset_keys_In, K; reflexivity).
    assert (HN1 : Forall offset_name (offset_keys n1)). { apply Forall_forall. intros e Ie. apply K2 in Ie as [Ie|Ie]; [rewrite Forall_forall in HN; now apply HN|now apply U]. }
    destruct (IH HN1) as (A & B & C & D). split; [|split; [|split]].
    + constructor; [|exact A]. apply Forall_forall. intros e Ie. apply KO in Ie. rewrite Forall_forall in HN1. now apply HN1.
    + intros o' e [<-|I] Ie; [apply KO, K2 in Ie as [Ie|Ie]; [now left|right; exists c; split; [now left|exact Ie]]|]. destruct (B o' e I Ie) as [Q|(c' & Ic & Q)]; [apply K2 in Q as [Q|Q]; [now left|right; exists c; split; [now left|exact Q]]|right; exists c'; split; [now right|exact Q]].
    + intros c' o' e I NF' Q. cbn [combine] in I. destruct I as [I|I]; [injection I as <- <-; apply KO, K2; exact Q|]. apply (C c' o' e I NF'). destruct Q as [Q|Q]; [left; apply K2; now left|now right].
    + intros c' cs' o' rest e E1 E2 Ie. injection E1 as <- <-. injection E2 as <- <-. split; [exact NF|]. now apply K2, KO.
  - destruct (IH HN) as (A & B & C & D). split; [|split; [|split]].
    + constructor; [rewrite Off; constructor|exact A].
    + intros o' e [<-|I] Ie; [rewrite Off in Ie; destruct Ie|]. destruct (B o' e I Ie) as [Q|(c' & Ic & Q)]; [now left|right; exists c'; split; [now right|exact Q]].
    + intros c' o' e I NF' Q. cbn [combine] in I. destruct I as [I|I]; [injection I as <- <-; contradiction|]. now apply (C c' o' e I NF').
    + intros c' cs' o' rest e E1 E2 Ie. injection E1 as <- <-. injection E2 as <- <-. rewrite Off in Ie. destruct Ie.
Qed.
Lemma package_dynamic ls mz rows reject n b cases os n2 b2 : same_shape mz -> fits (posparams_fit ls mz) rows Dynamic reject n b cases os n2 b2 ->
  forall c o, In (c, o) (combine cases os) -> ~ theta_stuck (moves_of rows c) -> existsb mv_rehome (moves_of rows c) = true -> o_flags o = 0%Z /\ forall e, In e (offsets o) <-> In e (offset_keys n).
Proof.
  intros SS H. induction H as [n b|n b c cs o os n1 b1 n2 b2 Hc Hf IH]; [intros c o []|]. intros c' o' I NT RH. cbn [combine] in I.
  destruct (package_fit ls mz _ _ _ _ _ _ _ _ SS Hc) as [(Fl & _ & _ & K & K1)|(Ff & St & Off & ->)].
  - assert (K2 : forall e, In e (offset_keys n1) <-> In e (offset_keys n)) by (intros e; rewrite !offset_keys_In, K1; intuition discriminate). destruct I as [I|I]; [injection I as <- <-; split; [exact Fl|]; intros e; rewrite <- K2, offsets_In, offset_keys_In, K; reflexivity|].
    destruct (IH c' o' I NT RH) as [A B]. split; [exact A|]. intros e. rewrite B. apply K2.
  - destruct I as [I|I]; [injection I as <- <-|exact (IH c' o' I NT RH)]. exfalso. destruct St as [St|St]; [exact (NT St)|]. unfold moves_of in RH. rewrite RH in St. discriminate.
Qed.
Lemma package_flags ls mz rows mode reject n b cases os n2 b2 : same_shape mz -> fits (posparams_fit ls mz) rows mode reject n b cases os n2 b2 ->
  forall c o, In (c, o) (combine cases os) -> ~ fit_failed o -> o_flags o = 0%Z /\ ~ theta_stuck (moves_of rows c) /\ existsb mv_rehome (moves_of rows c) = true.
Proof.
  intros SS H. induction H as [n b|n b c cs o os n1 b1 n2 b2 Hc Hf IH]; [intros c o []|]. intros c' o' [I|I] NF; [|exact (IH c' o' I NF)]. injection I as <- <-. destruct (package_fit ls mz _ _ _ _ _ _ _ _ SS Hc) as [(Fl & T & Rh & _)|(Ff & _)]; [auto|contradiction].
Qed.

(** With the fit of the package the table of the static fits is complete if the first fit succeeds and all exposures without
    rehoming in later windows are also in the first window. *)
Theorem C107_package ls mz clock posid rows c cs nominals reject g E first os n2 b2 : same_shape mz -> (forall w, In w rows -> (0 <= mv_seq (w_move w))%Z) -> known_offsets g E -> Forall offset_name (offset_keys nominals) ->
  Forall (inside rows) (c :: cs) -> fits (posparams_fit ls mz) rows Static reject nominals (v_bounds g) (c :: cs) (first :: os) n2 b2 -> ~ fit_failed first ->
  (forall c' e, In c' cs -> unrehomed (moves_of rows c') e -> unrehomed (moves_of rows c) e \/ In e (offset_keys nominals)) ->
  exists t g' N, process_cases (posparams_fit ls mz) clock posid rows (c :: cs) Static nominals reject g = Ok (t, g') /\ v_bounds g' = b2 /\ known_offsets g' (E ++ N) /\
    (forall e, In e (E ++ N) <-> In e E \/ In e (offset_keys nominals) \/ unrehomed (moves_of rows c) e) /\ fit_table clock posid rows Static (c :: cs) (first :: os) (E ++ N) t.
Proof.
  intros SS HS K HN FI Hf NF HU. destruct (package_static ls mz rows reject _ _ _ _ _ _ SS HS HN Hf) as (A & B & C & D).
  assert (F1 : forall e, In e (offsets first) <-> In e (offset_keys nominals) \/ unrehomed (moves_of rows c) e) by (intros e; split; [intros Ie; exact (proj2 (D c cs first os e eq_refl eq_refl Ie))|intros Ie; apply (C c first e); [now left|exact NF|exact Ie]]).
  destruct (C107_table (posparams_fit ls mz) clock posid rows (c :: cs) Static nominals reject g E first os n2 b2 K FI Hf A) as (t & g' & N & Et & Eb & K' & HE & FT).
  - intros o e Io Ie. apply F1. destruct (B o e (or_intror Io) Ie) as [Q|(c' & [<-|Ic] & Q)]; [now left|now right|]. destruct (HU c' e Ic Q); tauto.
  - exists t, g', N. split; [exact Et|]. split; [exact Eb|]. split; [exact K'|]. split; [|exact FT]. intros e. rewrite HE, F1. reflexivity.
Qed.
Print Assumptions C107_package.
(** A later window with an exposure without rehoming that the first window has not, or after a first window that failed, ends the
    program. *)
Theorem C107_new_exposure ls mz clock posid rows c cs nominals reject g E first os n2 b2 c' o e : same_shape mz -> (forall w, In w rows -> (0 <= mv_seq (w_move w))%Z) -> known_offsets g E -> Forall offset_name (offset_keys nominals) ->
  Forall (inside rows) (c :: cs) -> fits (posparams_fit ls mz) rows Static reject nominals (v_bounds g) (c :: cs) (first :: os) n2 b2 ->
  In (c', o) (combine cs os) -> ~ fit_failed o -> unrehomed (moves_of rows c') e -> fit_failed first \/ (~ unrehomed (moves_of rows c) e /\ ~ In e (offset_keys nominals)) ->
  process_cases (posparams_fit ls mz) clock posid rows (c :: cs) Static nominals reject g = Err (SysExit 12).
Proof.
  intros SS HS K HN FI Hf Io NF U HU. destruct (package_static ls mz rows reject _ _ _ _ _ _ SS HS HN Hf) as (A & B & C & D).
  apply (C107_exit (posparams_fit ls mz) clock posid rows (c :: cs) Static nominals reject g E first os n2 b2 o e K FI Hf A).
  - exact (in_combine_r _ _ _ _ Io).
  - apply (C c' o e); [now right|exact NF|now right].
  - intros Ie. destruct (D c cs first os e eq_refl eq_refl Ie) as [NF1 [Q|Q]]; destruct HU as [HU|[H1 H2]]; contradiction.
Qed.
Print Assumptions C107_new_exposure.

Lemma start_no_offsets ls mz rows dates dw q reject b start b1 E0 : same_shape mz -> (forall w, In w rows -> (0 <= mv_seq (w_move w))%Z) -> start_values (posparams_fit ls mz) rows dates dw q reject b start b1 E0 -> E0 = [] /\ offset_keys start = [].
Proof.
  intros SS HS S. destruct S as [All|rehomed cases first os n b1 p w Iw Hw Er L10 Ec FI Hf [RO RI] NF B]; [split; reflexivity|]. split; [|destruct B as (v & _ & _ & Kp & _); unfold offset_keys; rewrite Kp; reflexivity].
  destruct (package_static ls mz rehomed reject default_values b cases (first :: os) n b1 SS) as (A & B' & _); [intros w' Iw'; apply HS; subst rehomed; now apply filter_In in Iw' as [? _]|constructor|exact Hf|].
  destruct (offsets first) as [|e l] eqn:Eo; [reflexivity|]. exfalso. destruct (B' first e (or_introl eq_refl)) as [[]|(c & Ic & m & Im & Hm & _)]; [rewrite Eo; now left|]. apply in_map_iff in Im as (w' & <- & Iw'). apply stretch_In in Iw'. subst rehomed. apply filter_In in Iw' as [_ Hw']. congruence.
Qed.
(** With the fit of the package, if the static fits of all windows succeed, the exposures without rehoming of all windows are also in
    the first one and no number of them continues another one, the table has a row for every window. *)
Theorem C108_package ls mz clock argsort posid rows period data_window q min_window reject g E c cs start b1 E0 os n2 b2 :
  same_shape mz -> sorts argsort -> known_offsets g E -> (forall w, In w rows -> (0 <= mv_seq (w_move w))%Z) -> ascending (map w_sec rows) -> 0 < period -> (0 < data_window)%nat -> hd 0 (map w_sec rows) < last (map w_sec rows) 0 -> 0 <= q <= 1 -> (min_window <= List.length rows)%nat ->
  (forall w w', In w rows -> In w' rows -> w_petal_id w = w_petal_id w' /\ w_petal_loc w = w_petal_loc w' /\ w_device_loc w = w_device_loc w') ->
  define_cases (map w_sec rows) (datum_dates (map w_sec rows) period) data_window = Ok (c :: cs) -> start_values (posparams_fit ls mz) rows (datum_dates (map w_sec rows) period) data_window q reject (v_bounds g) start b1 E0 ->
  fits (posparams_fit ls mz) rows Static reject start b1 (c :: cs) os n2 b2 -> Forall (fun o => ~ fit_failed o) os ->
  (forall c' e, In c' cs -> unrehomed (moves_of rows c') e -> unrehomed (moves_of rows c) e) ->
  (forall e e' rest, unrehomed (moves_of rows c) e -> In e' E \/ unrehomed (moves_of rows c) e' -> e = (e' ++ rest)%string -> e' = e) ->
  (forall names best, (forall k, In k names <-> In k all_keys \/ unrehomed (moves_of rows c) k) -> best_of q names os best -> exists os' n3 b3, fits (posparams_fit ls mz) rows Dynamic reject best b2 (c :: cs) os' n3 b3) ->
  exists t g' order names best os' n3 b3 known ts td,
    run_best_fits (posparams_fit ls mz) clock argsort posid rows period data_window q min_window reject g = Ok (Written t, g') /\
    (forall k, In k names <-> In k all_keys \/ unrehomed (moves_of rows c) k) /\ best_of q names os best /\ fits (posparams_fit ls mz) rows Dynamic reject best b2 (c :: cs) os' n3 b3 /\
    (forall e, In e known <-> In e E \/ unrehomed (moves_of rows c) e) /\ known_offsets g' known /\
    fit_table clock posid rows Static (c :: cs) os known ts /\ fit_table clock posid rows Dynamic (c :: cs) os' known td /\
    Permutation order (seq 0 (List.length (c :: cs))) /\ StronglySorted (fun a b => end_of rows (c :: cs) a <= end_of rows (c :: cs) b) order /\ joined rows ts td order t.
Proof.
  intros SS SO K HS A P D L Q M PE Ec S Hf NF HU NC HD. destruct (start_no_offsets ls mz rows _ _ _ _ _ _ _ _ SS HS S) as [-> OS]. destruct os as [|first os]; [inversion Hf|]. assert (NR : rows <> []) by (intros ->; cbn in L; lra).
  destruct (package_static ls mz rows reject _ _ _ _ _ _ SS HS ltac:(rewrite OS; constructor) Hf) as (PA & PB & PC & PD). rewrite OS in PB, PC, PD. cbn [In] in PB, PC, PD.
  assert (F1 : forall e, In e (offsets first) <-> unrehomed (moves_of rows c) e) by (intros e; split; [intros Ie; destruct (proj2 (PD c cs first os e eq_refl eq_refl Ie)) as [[]|H]; exact H|intros Ie; apply (PC c first e); [now left|exact (Forall_inv NF)|now right]]).
  assert (RG : regular first os). { split; [exact PA|]. intros o e Io Ie. apply F1. destruct (PB o e (or_intror Io) Ie) as [[]|(c' & [<-|Ic] & U)]; [exact U|exact (HU c' e Ic U)]. }
  assert (LEN : forall mode n b os0 n' b', fits (posparams_fit ls mz) rows mode reject n b (c :: cs) os0 n' b' -> List.length os0 = List.length (c :: cs)) by (intros; eapply fits_length; eassumption).
  assert (DYN : forall names best os' n3 b3, (forall k, In k names <-> In k all_keys \/ unrehomed (moves_of rows c) k) -> best_of q names (first :: os) best -> fits (posparams_fit ls mz) rows Dynamic reject best b2 (c :: cs) os' n3 b3 ->
    forall c' o', In (c', o') (combine (c :: cs) os') -> o_flags o' = 0%Z /\ forall e, In e (offsets o') <-> unrehomed (moves_of rows c) e).
  { intros names best os' n3 b3 HN HB Hd c' o' I. assert (L' := LEN _ _ _ _ _ _ Hd). pose proof (LEN _ _ _ _ _ _ Hf) as L1. destruct (In_nth _ _ (c', o') I) as (i & Hi & Ei). rewrite combine_length, L', Nat.min_id in Hi. rewrite combine_nth in Ei by (now symmetry). assert (E1 : nth i (c :: cs) c' = c') by (exact (f_equal fst Ei)).
    assert (J : In (nth i (c :: cs) c', nth i (first :: os) o') (combine (c :: cs) (first :: os))) by (rewrite <- (combine_nth (c :: cs) (first :: os) i c' o') by (now symmetry); apply nth_In; rewrite combine_length, L1, Nat.min_id; exact Hi). rewrite E1 in J.
    destruct (package_flags ls mz rows _ _ _ _ _ _ _ _ SS Hf c' _ J) as (_ & NT & RH); [rewrite Forall_forall in NF; apply NF; exact (in_combine_r _ _ _ _ J)|]. destruct (package_dynamic ls mz rows reject _ _ _ _ _ _ SS Hd c' o' I NT RH) as [Fl Of]. split; [exact Fl|].
    intros e. rewrite Of, offset_keys_In. destruct HB as (v & _ & _ & Kb & _). rewrite Kb, HN. split; [intros [[Ik|U] He]; [|exact U]|].
    - exfalso. assert (X : forallb (fun k => negb (has_epsilon k)) all_keys = true) by (vm_compute; reflexivity). rewrite forallb_forall in X. specialize (X e Ik). rewrite He in X. discriminate.
    - intros U. split; [now right|]. apply offset_has. apply (unrehomed_offset (moves_of rows c)); [|exact U]. intros m Im. apply in_map_iff in Im as (w & <- & Iw). apply HS. now apply (stretch_In rows c). }
  destruct (C108_written (posparams_fit ls mz) clock argsort posid rows period data_window q min_window reject g E (c :: cs) start b1 [] first os n2 b2) as (t & g' & order & names & best & first' & os' & n3 & b3 & known & ts & td & Er & HN & HB & Hd & HK & KG & _ & FS & FD & Po & So & Jo); auto.
  - intros e Ie (e' & Ie' & Ne & r & Er). apply Ne. apply (NC e e' r); [now apply F1| |exact Er]. cbn [app] in Ie'. apply in_app_or in Ie' as [?|I']; [now left|right; now apply F1].
  - intros names best HN HB. destruct (HD names best) as (os' & n3 & b3 & Hd); [intros k; rewrite HN, F1; reflexivity|exact HB|]. destruct os' as [|first' os']; [inversion Hd|]. exists first', os', n3, b3. split; [exact Hd|].
    assert (HN' : forall k, In k names <-> In k all_keys \/ unrehomed (moves_of rows c) k) by (intros k; rewrite HN, F1; reflexivity). pose proof (DYN names best (first' :: os') n3 b3 HN' HB Hd) as DD.
    assert (OF : forall o', In o' (first' :: os') -> forall e, In e (offsets o') <-> unrehomed (moves_of rows c) e). { intros o' Io. pose proof (LEN _ _ _ _ _ _ Hd) as L'. destruct (In_nth _ _ o' Io) as (i & Hi & Ei). apply (DD (nth i (c :: cs) c) o'). pattern o' at 1. rewrite <- Ei. rewrite <- (combine_nth (c :: cs) (first' :: os') i c o') by (now symmetry). apply nth_In. rewrite combine_length, L', Nat.min_id. lia. }
    split; [split|].
    + apply Forall_forall. intros o' Io. apply Forall_forall. intros e Ie. apply (unrehomed_offset (moves_of rows c)); [|now apply (OF o' Io)]. intros m Im. apply in_map_iff in Im as (w & <- & Iw). apply HS. now apply (stretch_In rows c).
    + intros o' e Io Ie. apply (OF first' (or_introl eq_refl)). now apply (OF o' (or_intror Io)).
    + intros e Ie. apply F1. now apply (OF first' (or_introl eq_refl)).
  - assert (HN' : forall k, In k names <-> In k all_keys \/ unrehomed (moves_of rows c) k) by (intros k; rewrite HN, F1; reflexivity). pose proof (DYN names best (first' :: os') n3 b3 HN' HB Hd) as DD. pose proof (LEN _ _ _ _ _ _ Hd) as L2. pose proof (LEN _ _ _ _ _ _ Hf) as L1.
    exists t, g', order, names, best, (first' :: os'), n3, b3, known, ts, td. split; [exact Er|]. split; [exact HN'|]. split; [exact HB|]. split; [exact Hd|]. split; [intros e; rewrite HK, !in_app_iff, F1; cbn [In]; tauto|]. split; [exact KG|]. split; [exact FS|]. split; [exact FD|]. split; [|split; [exact So|exact Jo]].
    rewrite Po. clear Po. assert (X : forall l, (forall i, In i l -> (i < List.length (c :: cs))%nat) -> filter (fun i => Z.eqb (o_flags (nth i (first :: os) (failed 0 0))) (o_flags (nth i (first' :: os') (failed 0 0)))) l = l).
    { induction l as [|i l IH]; intros H; [reflexivity|]. cbn [filter]. rewrite IH by (intros; apply H; now right). assert (Hi := H i (or_introl eq_refl)).
      assert (J : In (nth i (c :: cs) c, nth i (first :: os) (failed 0 0)) (combine (c :: cs) (first :: os))) by (rewrite <- combine_nth by (now symmetry); apply nth_In; rewrite combine_length, L1, Nat.min_id; exact Hi).
      assert (J' : In (nth i (c :: cs) c, nth i (first' :: os') (failed 0 0)) (combine (c :: cs) (first' :: os'))) by (rewrite <- combine_nth by (now symmetry); apply nth_In; rewrite combine_length, L2, Nat.min_id; exact Hi).
      destruct (package_flags ls mz rows _ _ _ _ _ _ _ _ SS Hf _ _ J) as (-> & _); [rewrite Forall_forall in NF; apply NF; exact (in_combine_r _ _ _ _ J)|]. rewrite (proj1 (DD _ _ J')). reflexivity. }
    rewrite X; [reflexivity|]. intros i Ii. apply in_seq in Ii. lia.
Qed.
Print Assumptions C108_package.

(** With the fit of the package: two exposures without rehoming in the first window, the number of one of which continues that of the
    other (1 and 10), end the run with a KeyError although all static fits succeed. *)
Theorem C108_package_clash ls mz clock argsort posid rows period data_window q min_window reject g E c cs start b1 E0 os n2 b2 e e' rest :
  same_shape mz -> known_offsets g E -> (forall w, In w rows -> (0 <= mv_seq (w_move w))%Z) -> ascending (map w_sec rows) -> 0 < period -> (0 < data_window)%nat -> hd 0 (map w_sec rows) < last (map w_sec rows) 0 -> 0 <= q <= 1 -> (min_window <= List.length rows)%nat ->
  define_cases (map w_sec rows) (datum_dates (map w_sec rows) period) data_window = Ok (c :: cs) -> start_values (posparams_fit ls mz) rows (datum_dates (map w_sec rows) period) data_window q reject (v_bounds g) start b1 E0 ->
  fits (posparams_fit ls mz) rows Static reject start b1 (c :: cs) os n2 b2 -> Forall (fun o => ~ fit_failed o) os ->
  (forall c' e, In c' cs -> unrehomed (moves_of rows c') e -> unrehomed (moves_of rows c) e) ->
  unrehomed (moves_of rows c) e -> unrehomed (moves_of rows c) e' -> e = (e' ++ rest)%string -> e' <> e ->
  run_best_fits (posparams_fit ls mz) clock argsort posid rows period data_window q min_window reject g = Err KeyError.
Proof.
  intros SS K HQ A P D L Q MW Ec St Hf NF Hsub Ue Ue' -> Hne. assert (N : rows <> []) by (intros ->; cbn in L; lra). destruct (start_no_offsets _ _ _ _ _ _ _ _ _ _ _ SS HQ St) as [-> OK0].
  pose proof (fits_length _ _ _ _ _ _ _ _ _ _ Hf) as Lo. destruct os as [|first os]; [discriminate|]. destruct (package_static ls mz rows reject start b1 _ _ _ _ SS HQ (eq_ind_r (Forall offset_name) (Forall_nil _) OK0) Hf) as (PO & PA & PB & PC).
  assert (B : forall e0, unrehomed (moves_of rows c) e0 -> In e0 (offsets first)) by (intros e0 U; apply (PB c first e0); [left; reflexivity|exact (Forall_inv NF)|right; exact U]).
  apply (C108_clash (posparams_fit ls mz) clock argsort posid rows period data_window q min_window reject g E (c :: cs) start b1 [] first os n2 b2 (e' ++ rest)%string); auto.
  - split; [exact PO|]. intros o e0 Io Ie. apply B. destruct (PA o e0 (or_intror Io) Ie) as [H|(c' & Ic' & U)]; [rewrite OK0 in H; destruct H|]. destruct Ic' as [<-|Ic']; [exact U|now apply (Hsub c')].
  - exists e'. split; [apply in_app_iff; right; cbn [app]; apply B; exact Ue'|]. split; [exact Hne|]. now exists rest.
Qed.
Print Assumptions C108_package_clash.

(** *** Examples *)
(** A fit that returns the values it starts with and some offsets *)
Definition toy_fit (es : list string) (moves : list move) (mode : fit_mode) (n : dict string R) (b : dict string (R * R)) (reject : bool) : res fit_out * (dict string R * dict string (R * R)) :=
  (Ok {| o_params := map (fun k => (k, 0.5)) es ++ [("LENGTH_R1", 3.1)]; o_flags := 0; o_cov := [("COV.LENGTH_R1.LENGTH_R1", 0.04)]; o_rms := INR (List.length moves); o_npts := List.length moves |}, (n, b)).
Definition day_rows (l : list move) : list row := map (fun im => {| w_date := "2020-01-01"; w_sec := INR (fst im) * 86400; w_move := snd im; w_petal_id := 2; w_petal_loc := 3; w_device_loc := 17 |}) (combine (seq 0 (List.length l)) l).
Definition isort_R : list R -> list nat := isort_argsort R Rltb.
Lemma isort_sorts : sorts isort_R.
Proof.
  intros l. assert (W : strict_weak Rltb) by (split; [intros x; apply Rltb_false; lra|intros x y z H H'; apply Rltb_true in H, H'; apply Rltb_true; lra|intros x y z H; apply Rltb_true in H; destruct (Rlt_dec x y); [left|right]; apply Rltb_true; lra]).
  destruct (isort_is_argsort R Rltb l W) as [HP HS]. split; [exact HP|]. unfold isort_R. set (p := isort_argsort R Rltb l) in *. assert (IB : forall i, In i p -> (i < List.length l)%nat) by (intros i I; apply (Permutation_in _ HP) in I; apply in_seq in I; lia). clearbody p. clear HP.
  induction HS as [|i p HS IH HF]; [constructor|]. constructor; [apply IH; intros j J; apply IB; now right|]. rewrite Forall_forall in HF |- *. intros j J. specialize (HF j J (nth i l 0) (nth j l 0)). apply Rltb_false. apply HF; apply nth_error_nth'; apply IB; cbn; auto.
Qed.
Lemma two_days m m' : datum_dates (map w_sec (day_rows [m; m'])) 1 = [0].
Proof.
  unfold datum_dates, arange. cbn [map day_rows w_sec hd last combine seq List.length fst snd INR]. replace (Rfloor _) with (-1)%Z by (symmetry; apply Trig.Rfloor_unique; split; lra). change (Z.to_nat (- -1)) with 1%nat. cbn [seq map INR]. f_equal. ring.
Qed.
Lemma fresh_vars : known_offsets start_vars [].
Proof. split; [cbn [map]; symmetry; apply app_nil_r|]. split; constructor. Qed.

(** Two windows, one offset: the table has two rows. *)
Definition two_moves : list move := [at_ 0 90 100 true 1; at_ 90 90 100 true 1].
Example C107_example : exists t g, process_cases (toy_fit [eps_t 1]) (fun _ _ => "now") "M01" (day_rows two_moves) [(0, 0); (0, 1)]%nat Static default_values false start_vars = Ok (t, g) /\
  column t "LENGTH_R1_STATIC" = Some [CNum 3.1; CNum 3.1] /\ column t "NUM_POINTS" = Some [CInt 1; CInt 2] /\ column t "EPSILON_T_1_STATIC" = Some [CNum 0.5; CNum 0.5] /\ column t "LENGTH_R2_STATIC" = Some [CNum 0; CNum 0] /\
  column t "ERR.LENGTH_R1_STATIC" = Some [CNum (sqrt 0.04); CNum (sqrt 0.04)].
Proof.
  edestruct (C107_table (toy_fit [eps_t 1]) (fun _ _ => "now") "M01" (day_rows two_moves) [(0, 0); (0, 1)]%nat Static default_values false start_vars []) as (t & g & N & Et & _ & K & HN & FT).
  - exact fresh_vars.
  - repeat constructor; cbn; lia.
  - eapply fits_next; [reflexivity|]. eapply fits_next; [reflexivity|]. apply fits_none.
  - repeat constructor; cbn; exists 1%Z; split; [lia|left; reflexivity| lia|left; reflexivity].
  - intros o e [<-|[]] H; exact H.
  - exists t, g. split; [exact Et|]. cbn [app] in *. split; [exact (ft_value _ _ _ _ _ _ _ _ FT "LENGTH_R1" ltac:(cbn; tauto))|]. split; [exact (ft_points _ _ _ _ _ _ _ _ FT)|].
    split; [refine (ft_offset _ _ _ _ _ _ _ _ FT _ _ (eps_t 1) eq_refl _ _); [left; reflexivity|]|].
    + intros (e' & I & Ne & rest & Er). apply HN in I as [[]|[<-|[]]]. now apply Ne.
    + split; [exact (ft_value _ _ _ _ _ _ _ _ FT "LENGTH_R2" ltac:(cbn; tauto))|]. etransitivity; [exact (ft_error _ _ _ _ _ _ _ _ FT "LENGTH_R1" ltac:(cbn; tauto))|]. cbn [map]. unfold error_of, covariance_of, dict_get. cbn. rewrite (proj2 (Rltb_false _ _)) by lra. reflexivity.
Qed.

(** The fit of the package, run with an optimiser that finds the arms of [half] *)
Definition guess (f : list R -> res R) (x0 : list R) (b : list (R * R)) : list R * list (list R) :=
  (if (List.length x0 =? 6)%nat then [3; 3; 0; 0; r2s 100 - 3; -3] else x0, map (fun _ => map (fun _ => 0) x0) x0).
Lemma guess_shape : same_shape guess /\ square_hessian guess.
Proof.
  split; [intros f x0 b; unfold guess; cbn [fst]; destruct (Nat.eqb_spec (List.length x0) 6); [now symmetry|reflexivity]|]. intros f x0 b. cbn. rewrite map_length. split; [reflexivity|]. rewrite Forall_map. apply Forall_forall. intros. apply map_length.
Qed.
Lemma half_starts n b : (forall k, In k all_keys -> In k (map fst n)) -> (forall k, In k all_keys -> In k (map fst b)) -> starts (map fst half_moves) n b [] None None.
Proof.
  intros Hn Hb. split; [|split; [|reflexivity]]. { split; [intros k Hk; split; auto|]. split; [intros k []|]. intros l [H|H]; discriminate. } intros [(v & L & _) _]. revert L. unfold half_moves. cbn [map fst]. arcs.
Qed.
Lemma half_errors : good_errors (combine (map fst half_moves) (errors_of None None (map fst half_moves))).
Proof. unfold good_errors, half_moves. cbn [combine errors_of map fst]. repeat (constructor; [apply errors_axis; cbn; lra|]). constructor. Qed.
Lemma half_static : exists o, posparams_fit any_leastsq guess (map fst half_moves) Static default_values default_bounds false = (Ok o, (default_values, default_bounds)) /\ o_flags o = 0%Z /\ (forall k, In k static_keys -> lookup (o_params o) k = Ok (half k)).
Proof.
  destruct guess_shape as (SS & SH). unfold posparams_fit.
  destruct (static_succeeds any_leastsq guess (map fst half_moves) default_values default_bounds [] None None) as (o & b & E & F); auto; [apply half_starts; cbn; tauto|intros v; unfold half_moves; cbn [map fst]; arcs|apply half_errors|].
  destruct (fit_params_cases any_leastsq guess (map fst half_moves) Static default_values default_bounds [] None None false) as [[_ E']|(_ & [[_ E']|[(_ & _ & E')|(_ & _ & C)]])]; try (rewrite E in E'; inversion E'; subst; discriminate).
  cbv zeta in C. change (sequences_without_rehome (map fst half_moves)) with (@nil Z) in *. cbn [add_epsilons fold_left] in *. destruct C as [(e & _ & E')|(n2 & _ & E')]; rewrite E in E'; [discriminate|]. injection E' as Eo En Eb. subst n2 b. exists o. split; [exact E|]. split; [exact F|].
  symmetry in Eo. destruct (fit_rest_Ok _ _ _ _ _ _ _ _ _ _ _ _ _ SS Eo) as (x0 & b & x & h & pts' & r & ot & E0 & _ & _ & _ & _ & Ex & _ & _ & _ & _ & _ & _ & LP & _ & OP & OO & _). destruct (Ex eq_refl) as (_ & Exh). change (params_to_fit _ _) with ["LENGTH_R1"; "LENGTH_R2"; "OFFSET_P"; "OFFSET_T"; "OFFSET_X"; "OFFSET_Y"] in *.
  change (rmapM (lookup default_values) _) with (@Ok (list R) [3; 3; 0; 0; 0; 0]) in E0. injection E0 as <-. unfold guess in Exh. cbn [List.length Nat.eqb] in Exh. injection Exh as -> ->.
  intros k Hk. cbn in Hk. destruct (string_dec k "OFFSET_T") as [->|NO].
  - rewrite OO. cbn in OP. specialize (OP ltac:(tauto)). injection OP as <-. unfold half. cbn. f_equal. unfold wrap_at_180. rewrite Trig.pymod_id by lra. cbv zeta. rewrite (proj2 (Rltb_false _ _)) by lra. reflexivity.
  - rewrite LP; [|cbn; tauto|exact NO]. repeat (destruct Hk as [<-|Hk]; [try contradiction; reflexivity|]). destruct Hk.
Qed.
Definition half_rows : list row := day_rows (map fst half_moves).
Example C108_example : exists t g, run_best_fits (posparams_fit any_leastsq guess) (fun _ _ => "now") isort_R "M01" half_rows 1 2 0.5 2 false start_vars = Ok (Written t, g) /\
  column t "LENGTH_R1_STATIC" = Some [CNum 3] /\ column t "OFFSET_X_STATIC" = Some [CNum (r2s 100 - 3)] /\ column t "PETAL_LOC" = Some [CInt 3] /\ column t "FLAGS" = Some [CInt 0].
Proof.
  destruct guess_shape as (SS & SH). destruct half_static as (o & Eo & Fo & Vo). assert (EM : moves_of half_rows (0, 1)%nat = map fst half_moves) by reflexivity.
  assert (ED : datum_dates (map w_sec half_rows) 1 = [0]) by apply two_days. assert (NU : forall e, ~ unrehomed (moves_of half_rows (0, 1)%nat) e). { rewrite EM. intros e (m & Im & Rm & _). cbn in Im. destruct Im as [<-|[<-|[]]]; discriminate. }
  edestruct (C108_package any_leastsq guess (fun _ _ => "now") isort_R "M01" half_rows 1 2 0.5 2 false start_vars [] (0, 1)%nat [] default_values default_bounds [] [o] default_values default_bounds) as (t & g & order & names & best & os' & n3 & b3 & known & ts & td & Er & HN & HB & HD & _ & _ & FS & FD & HP & _ & J).
  - exact SS.
  - exact isort_sorts.
  - exact fresh_vars.
  - intros w [<-|[<-|[]]]; cbn; lia.
  - cbn. repeat constructor; lra.
  - lra.
  - lia.
  - cbn. lra.
  - lra.
  - cbn. lia.
  - intros w w' [<-|[<-|[]]] [<-|[<-|[]]]; cbn; auto.
  - rewrite ED. reflexivity.
  - apply start_default. intros w [<-|[<-|[]]]; reflexivity.
  - eapply fits_next; [exact Eo|apply fits_none].
  - repeat constructor. unfold fit_failed. rewrite Fo. discriminate.
  - intros c' e [].
  - intros e e' rest U. now apply NU in U.
  - intros names best HN (v & _ & _ & MF & HB). assert (LK : forall k, In k static_keys -> lookup best k = Ok (half k)).
    { intros k Hk. assert (Ik : In k names) by (apply HN; left; unfold all_keys; apply in_app_iff; auto). destruct (HB k Ik) as (m & Em & Gm). cbn [filter] in Em. destruct (Rleb (o_rms o) v); [|discriminate]. cbn [map] in Em. unfold lookup, dict_getE. rewrite Gm. f_equal.
      assert (Vk : value_of k o = half k) by (specialize (Vo k Hk); unfold lookup, dict_getE in Vo; unfold value_of; destruct (dict_get String.eqb (o_params o) k); [now injection Vo|discriminate]). rewrite Vk in Em. unfold median in Em. cbn in Em. injection Em as <-. reflexivity. }
    assert (LK' : forall k, In k static_keys \/ is_eps k [] -> lookup best k = Ok (half k)) by (intros k [Hk|(s & [] & _)]; auto). assert (R1 : 0 < half "LENGTH_R1") by (unfold half; cbn; lra). assert (R2 : 0 < half "LENGTH_R2") by (unfold half; cbn; lra).
    destruct (dynamic_points_total best [] half LK' R1 R2 half_moves (flat_points (map fst half_moves) None None)) as (pts & EP); [reflexivity|apply Forall_forall; intros; now apply half_exact|apply Forall_forall; intros; now apply half_exact|repeat constructor; cbn; lra|].
    destruct (dynamic_succeeds any_leastsq guess (map fst half_moves) best default_bounds [] None None pts) as (o' & E & F); auto; try (cbn; tauto).
    + apply half_starts; [intros k Hk; rewrite MF; apply HN; now left|cbn; tauto].
    + intros k Hk. rewrite MF in Hk. apply HN in Hk as [Hk|Hk]; [cbn in *; tauto|now apply NU in Hk].
    + intros k (s & [] & _).
    + apply half_errors.
    + exists [o'], best, default_bounds. eapply fits_next; [exact E|apply fits_none].
  - exists t, g. split; [exact Er|]. assert (order = [0%nat]) as -> by (apply Permutation_length_1_inv; symmetry; exact HP).
    assert (VS : forall k, In k static_keys -> column t (k ++ "_STATIC")%string = Some [CNum (half k)]).
    { intros k Hk. assert (Ik : In k all_keys) by (unfold all_keys; apply in_app_iff; auto). etransitivity; [exact (jn_left _ _ _ _ _ J _ _ (ft_value _ _ _ _ _ _ _ _ FS k Ik))|]. cbn. assert (value_of k o = half k) as ->; [|reflexivity]. specialize (Vo k Hk); unfold lookup, dict_getE in Vo; unfold value_of; destruct (dict_get String.eqb (o_params o) k); [now injection Vo|discriminate]. }
    split; [exact (VS "LENGTH_R1" ltac:(cbn; tauto))|]. split; [exact (VS "OFFSET_X" ltac:(cbn; tauto))|]. split; [exact (proj1 (proj2 (jn_petal _ _ _ _ _ J _ (or_introl eq_refl))))|].
    etransitivity; [exact (jn_left _ _ _ _ _ J _ _ (ft_flags _ _ _ _ _ _ _ _ FS))|]. cbn. now rewrite Fo.
Qed.

(** Exposures one and ten *)
Example C108_clash_example : run_best_fits (toy_fit [eps_t 1; eps_t 10]) (fun _ _ => "now") isort_R "M01" half_rows 1 1 0.5 2 false start_vars = Err KeyError.
Proof.
  assert (ED : datum_dates (map w_sec half_rows) 1 = [0]) by apply two_days.
  eapply (C108_clash (toy_fit [eps_t 1; eps_t 10]) (fun _ _ => "now") isort_R "M01" half_rows 1 1 0.5 2 false start_vars [] [(0, 0); (0, 1)]%nat default_values default_bounds [] _ _ _ _ (eps_t 10)); try lra; try lia.
  - exact fresh_vars.
  - cbn. repeat constructor; lra.
  - discriminate.
  - cbn. lra.
  - cbn. lia.
  - rewrite ED. reflexivity.
  - apply start_default. intros w [<-|[<-|[]]]; reflexivity.
  - eapply fits_next; [reflexivity|]. eapply fits_next; [reflexivity|apply fits_none].
  - split; [|intros o e [<-|[]] H; exact H]. assert (F : Forall offset_name [eps_t 1; eps_t 10]) by (repeat constructor; [exists 1%Z|exists 10%Z]; (split; [lia|left; reflexivity])). constructor; [exact F|constructor; [exact F|constructor]].
  - repeat constructor; discriminate.
  - right. left. reflexivity.
  - exists (eps_t 1). split; [left; reflexivity|]. split; [discriminate|]. exists "0". reflexivity.
Qed.
