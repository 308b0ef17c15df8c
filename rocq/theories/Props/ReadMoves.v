(** C119: the table of moves read from a file. C120: the rows of the file that are fitted. *)
From Coq Require Import Lra Lia Permutation Sorted.
From Verif.Model Require Import ReadMoves.
From Verif.Spec Require Import Numpy ReadMoves.
From Verif.Proofs Require Import Prelude RealNum Numpy Fitter ReadMoves.
Local Open Scope string_scope.
Local Open Scope list_scope.

(** With all columns, one POS_ID, the one asked for, and a row after a rehoming: the table has the selected rows (C04), in the order
    of their dates as text, with the columns filled in. *)
Theorem C119_read argsort posid t sel force rows : is_argsort argsort -> rows = posmove_selection raw r_note (t_rows t) sel ->
  readable t sel force -> has_column t "DATE" -> complete t -> some_rehomed rows force -> Forall (fun r => r_posid r = posid) rows ->
  exists l rows', read argsort posid t sel force = Ok (Some l) /\ l <> [] /\ Permutation rows' rows /\ Forall2 (becomes t force rows) rows' l /\
    StronglySorted text_le (map r_date rows').
Proof.
  intros AS Er Rd D C (r0 & I0 & H0) P. destruct (read_cases argsort AS posid t sel force) as (_ & _ & _ & Q). rewrite <- Er in Q. destruct (Q Rd (ex_intro _ r0 (conj I0 H0)) D) as (s & Ps & Ss & E). clear Q.
  assert (M : Permutation (map m_raw s) rows). { rewrite (Permutation_map m_raw Ps), map_map. cbn. now rewrite map_id. }
  assert (N : map m_raw s <> []) by (apply (Permutation_nonempty _ _ M); intros X; rewrite X in I0; destruct I0).
  assert (K : forallb (fun k => mem_str k (t_columns t)) required_keys = true).
  { apply forallb_forall. intros k Ik. apply mem_str_In. unfold complete in C. rewrite Forall_forall in C. destruct Ik as [<-|Ik]; [exact D|]. apply C. exact Ik. }
  assert (Y : is_posid posid (map m_raw s) = true). { apply is_posid_spec. split; [exact N|]. apply Forall_forall. intros r Ir. rewrite Forall_forall in P. apply P, (Permutation_in _ M), Ir. }
  rewrite K, Y in E. cbn [andb] in E. exists s, (map m_raw s). split; [exact E|]. split; [intros ->; now apply N|]. split; [exact M|]. split.
  - assert (G : Forall (fun m => becomes t force rows (m_raw m) m) s). { apply Forall_forall. intros m Im. apply (Permutation_in _ Ps), in_map_iff in Im as (r & <- & Ir). exact (filled_becomes t force rows r Ir). }
    clear - G. induction G; constructor; assumption.
  - now rewrite map_map.
Qed.
Print Assumptions C119_read.
(** The table is invalid exactly if another column is missing, or a selected row has another POS_ID. *)
Theorem C119_invalid argsort posid t sel force rows : is_argsort argsort -> rows = posmove_selection raw r_note (t_rows t) sel ->
  (read argsort posid t sel force = Ok None <->
   readable t sel force /\ has_column t "DATE" /\ some_rehomed rows force /\ (~ complete t \/ exists r, In r rows /\ r_posid r <> posid)).
Proof.
  intros AS Er. destruct (read_cases argsort AS posid t sel force) as (Q1 & Q2 & Q3 & Q4). rewrite <- Er in Q2, Q3, Q4.
  assert (DR : readable t sel force \/ ~ readable t sel force) by apply Classical_Prop.classic. assert (DS : some_rehomed rows force \/ ~ some_rehomed rows force) by apply Classical_Prop.classic.
  assert (DD : has_column t "DATE" \/ ~ has_column t "DATE") by apply Classical_Prop.classic.
  destruct DR as [Rd|Rd]; [|rewrite (Q1 Rd); split; [discriminate|tauto]]. destruct DS as [Sr|Sr]; [|rewrite (Q2 Rd Sr); split; [discriminate|tauto]]. destruct DD as [D|D]; [|rewrite (Q3 Rd Sr D); split; [discriminate|tauto]].
  destruct (Q4 Rd Sr D) as (s & Ps & _ & E). rewrite E. clear Q1 Q2 Q3 Q4 E.
  assert (M : Permutation (map m_raw s) rows). { rewrite (Permutation_map m_raw Ps), map_map. cbn. now rewrite map_id. }
  destruct Sr as (r0 & I0 & H0). assert (N : map m_raw s <> []) by (apply (Permutation_nonempty _ _ M); intros X; rewrite X in I0; destruct I0).
  assert (K : forallb (fun k => mem_str k (t_columns t)) required_keys = true <-> complete t).
  { rewrite forallb_forall. unfold complete. rewrite Forall_forall. split; [intros H k Ik; apply mem_str_In, H; right; exact Ik|]. intros H k [<-|Ik]; apply mem_str_In; [exact D|exact (H k Ik)]. }
  assert (Y : is_posid posid (map m_raw s) = true <-> Forall (fun r => r_posid r = posid) rows).
  { rewrite is_posid_spec, !Forall_forall. split; [intros [_ H] r Ir; apply H, (Permutation_in _ (Permutation_sym M)), Ir|intros H; split; [exact N|]; intros r Ir; apply H, (Permutation_in _ M), Ir]. }
  assert (F : ~ Forall (fun r => r_posid r = posid) rows <-> exists r, In r rows /\ r_posid r <> posid).
  { split; [|intros (r & Ir & Nr) H; rewrite Forall_forall in H; exact (Nr (H r Ir))]. intros H. apply Classical_Prop.NNPP. intros H'. apply H, Forall_forall. intros r Ir. destruct (string_dec (r_posid r) posid) as [|Nr]; [assumption|]. exfalso. apply H'. now exists r. }
  rewrite <- F, <- Y, <- K. split.
  - intros E. split; [exact Rd|]. split; [exact D|]. split; [now exists r0|]. destruct (forallb (fun k => mem_str k (t_columns t)) required_keys); [|left; discriminate]. cbn [andb] in E. right. intros Q. rewrite Q in E. discriminate.
  - intros (_ & _ & _ & [H|H]); apply Bool.not_true_is_false in H; rewrite H; [|rewrite andb_false_r]; reflexivity.
Qed.
Print Assumptions C119_invalid.
(** No columns to begin with: a KeyError. No row after a rehoming, as for no row at all: a RuntimeError. *)
Theorem C119_stops argsort posid t sel force rows : is_argsort argsort -> rows = posmove_selection raw r_note (t_rows t) sel ->
  (~ readable t sel force -> read argsort posid t sel force = Err KeyError) /\
  (readable t sel force -> ~ some_rehomed rows force -> read argsort posid t sel force = Err RuntimeError) /\
  (readable t sel force -> some_rehomed rows force -> ~ has_column t "DATE" -> read argsort posid t sel force = Err KeyError) /\
  (readable t sel force -> rows = [] -> read argsort posid t sel force = Err RuntimeError).
Proof.
  intros AS Er. destruct (read_cases argsort AS posid t sel force) as (Q1 & Q2 & Q3 & _). rewrite <- Er in Q2, Q3. split; [exact Q1|]. split; [exact Q2|]. split; [exact Q3|]. intros Rd N. apply Q2; [exact Rd|]. intros (r & I & _). rewrite N in I. destruct I.
Qed.
Print Assumptions C119_stops.
(** The sequence numbers: two rows share one exactly if they are of one exposure; later exposures have larger ones; they are 0, 1, ...
    without a gap. *)
Theorem C119_sequences argsort posid t sel force rows l : is_argsort argsort -> rows = posmove_selection raw r_note (t_rows t) sel -> read argsort posid t sel force = Ok (Some l) ->
  (forall m m', In m l -> In m' l -> (m_seq m = m_seq m' <-> r_exposure (m_raw m) = r_exposure (m_raw m')) /\ ((m_seq m < m_seq m')%Z <-> (r_exposure (m_raw m) < r_exposure (m_raw m'))%Z)) /\
  (forall m n, In m l -> (0 <= n <= m_seq m)%Z -> exists m', In m' l /\ m_seq m' = n) /\ (forall m, In m l -> (0 <= m_seq m)%Z).
Proof.
  intros AS Er E. destruct (read_cases argsort AS posid t sel force) as (Q1 & Q2 & Q3 & Q4). rewrite <- Er in Q2, Q3, Q4.
  assert (DR : readable t sel force \/ ~ readable t sel force) by apply Classical_Prop.classic. assert (DS : some_rehomed rows force \/ ~ some_rehomed rows force) by apply Classical_Prop.classic.
  assert (DD : has_column t "DATE" \/ ~ has_column t "DATE") by apply Classical_Prop.classic.
  destruct DR as [Rd|Rd]; [|rewrite (Q1 Rd) in E; discriminate]. destruct DS as [Sr|Sr]; [|rewrite (Q2 Rd Sr) in E; discriminate]. destruct DD as [D|D]; [|rewrite (Q3 Rd Sr D) in E; discriminate].
  destruct (Q4 Rd Sr D) as (s & Ps & _ & E'). rewrite E' in E. destruct (_ && _)%bool in E; [|discriminate]. injection E as ->. clear Q1 Q2 Q3 Q4 E' Er.
  assert (F : forall m, In m l -> exists r, In r rows /\ m = filled t force rows r) by (intros m Im; apply (Permutation_in _ Ps), in_map_iff in Im as (r & <- & Ir); now exists r).
  assert (G : forall r, In r rows -> In (filled t force rows r) l) by (intros r Ir; apply (Permutation_in _ (Permutation_sym Ps)), in_map, Ir).
  set (u := unique (map r_exposure rows)). assert (US : StronglySorted Z.lt u) by apply unique_sorted. assert (UI : forall r, In r rows -> In (r_exposure r) u) by (intros r Ir; apply unique_In, in_map, Ir).
  assert (UR : forall z, In z u -> exists r, In r rows /\ r_exposure r = z) by (intros z Iz; apply unique_In, in_map_iff in Iz as (r & <- & Ir); now exists r).
  assert (MONO : forall a b, In a u -> In b u -> (a < b)%Z -> (index_of a u < index_of b u)%Z).
  { clear - US. induction US as [|y v S IH Fv]; intros a b Ia Ib L; [destruct Ia|]. rewrite Forall_forall in Fv. cbn [index_of].
    assert (NN : forall z w, (0 <= index_of z w)%Z) by (intros z w; induction w as [|x w IHw]; cbn [index_of]; [lia|destruct (z =? x)%Z; lia]).
    destruct (Z.eqb_spec a y) as [->|Na]; destruct (Z.eqb_spec b y) as [->|Nb].
    - lia.
    - pose proof (NN b v). lia.
    - destruct Ia as [->|Ia]; [congruence|]. specialize (Fv a Ia). lia.
    - destruct Ia as [->|Ia]; [congruence|]. destruct Ib as [->|Ib]; [congruence|]. specialize (IH a b Ia Ib L). lia. }
  assert (GAP : forall z n, In z u -> (0 <= n <= index_of z u)%Z -> exists y, In y u /\ index_of y u = n).
  { clear - US. induction US as [|y v S IH Fv]; intros z n Iz L; [destruct Iz|]. rewrite Forall_forall in Fv. destruct (Z.eq_dec n 0) as [->|N0]; [exists y; split; [now left|]; cbn [index_of]; now rewrite Z.eqb_refl|].
    cbn [index_of] in L. destruct (Z.eqb_spec z y) as [|Nz]; [lia|]. destruct Iz as [->|Iz]; [congruence|]. destruct (IH z (n - 1)%Z Iz ltac:(lia)) as (x & Ix & Ex). exists x. split; [now right|]. cbn [index_of].
    destruct (Z.eqb_spec x y) as [->|]; [specialize (Fv y Ix); lia|]. lia. }
  split; [|split].
  - intros m m' Im Im'. destruct (F m Im) as (r & Ir & ->). destruct (F m' Im') as (r' & Ir' & ->). cbn [filled m_seq m_raw]. fold u. pose proof (UI r Ir) as Ia. pose proof (UI r' Ir') as Ib.
    destruct (Z.lt_trichotomy (r_exposure r) (r_exposure r')) as [L|[Eq|L]]; [specialize (MONO _ _ Ia Ib L); lia|rewrite Eq; lia|specialize (MONO _ _ Ib Ia L); lia].
  - intros m n Im L. destruct (F m Im) as (r & Ir & ->). cbn [filled m_seq] in L. fold u in L. destruct (GAP _ n (UI r Ir) L) as (y & Iy & Ey). destruct (UR y Iy) as (r' & Ir' & <-). exists (filled t force rows r'). split; [now apply G|exact Ey].
  - intros m Im. destruct (F m Im) as (r & Ir & ->). cbn [filled m_seq]. fold u. clear. induction u as [|x w IHw]; cbn [index_of]; [lia|destruct (_ =? x)%Z; lia].
Qed.
Print Assumptions C119_sequences.

Definition sample (e : Z) (note : string) : raw :=
  {| r_date := "2020-01-01T00:00:00"; r_pos_t := 0; r_pos_p := 0; r_x := 0; r_y := 0; r_ctrl := EText "True"; r_total := 1; r_posid := "M00001"; r_petal_id := 2; r_petal_loc := 3; r_device_loc := 4;
     r_exposure := e; r_rehome := true; r_note := note; r_gear_t := 1; r_gear_p := 1 |}.
Definition sample_table (rows : list raw) : mtable := {| t_columns := ["DATE"; "POS_P"; "POS_T"; "X_FP"; "Y_FP"; "CTRL_ENABLED"; "TOTAL_MOVE_SEQUENCES"; "POS_ID"; "PETAL_LOC"; "EXPOSURE_ID"; "RECENT_REHOME"; "LOG_NOTE"]; t_rows := rows |}.
(** The number of an exposure depends on the selection of moves: with and without it, the parameters EPSILON_T_1 of two fits of one file
    may belong to different exposures. *)
Theorem C119_numbers_refuted : exists t sel e, forall argsort, is_argsort argsort ->
  exists l l' m m', read argsort "M00001" t None false = Ok (Some l) /\ read argsort "M00001" t (Some sel) false = Ok (Some l') /\
    In m l /\ In m' l' /\ r_exposure (m_raw m) = e /\ r_exposure (m_raw m') = e /\ m_seq m = 1%Z /\ m_seq m' = 0%Z.
Proof.
  set (t := sample_table [sample 7 "a"; sample 9 "b"]). exists t, "b", 9%Z. intros argsort AS.
  assert (H : forall sel rows, rows = posmove_selection raw r_note (t_rows t) sel -> In (sample 9 "b") rows -> incl rows (t_rows t) ->
    exists l m, read argsort "M00001" t sel false = Ok (Some l) /\ In m l /\ m_raw m = sample 9 "b" /\ rank (map r_exposure rows) 9 (m_seq m)).
  { intros sel rows Er I Inc. destruct (C119_read argsort "M00001" t sel false rows AS Er) as (l & rows' & E & _ & P & F & _).
    - unfold readable, has_column, t, sample_table, t_columns. repeat split; intros; cbn; tauto.
    - cbn. tauto.
    - unfold complete. apply Forall_forall. intros k Ik. unfold has_column, t, sample_table, t_columns. cbn [In] in *. tauto.
    - exists (sample 9 "b"). split; [exact I|now right].
    - apply Forall_forall. intros r Ir. apply Inc in Ir. destruct Ir as [<-|[<-|[]]]; reflexivity.
    - exists l. apply (Permutation_in _ (Permutation_sym P)) in I. destruct (In_nth_error _ _ I) as (k & Ek). clear - F Ek E. revert k Ek. 
      assert (G : forall rows' l', Forall2 (becomes t false rows) rows' l' -> forall k, nth_error rows' k = Some (sample 9 "b") -> exists m, In m l' /\ becomes t false rows (sample 9 "b") m).
      { induction 1 as [|a b ra rb Hab _ IH]; intros [|k] Ek; try discriminate; [injection Ek as ->; exists b; split; [now left|exact Hab]|]. destruct (IH k Ek) as (m & Im & Bm). exists m. split; [now right|exact Bm]. }
      intros k Ek. destruct (G _ _ F k Ek) as (m & Im & B). exists m. split; [exact E|]. split; [exact Im|]. destruct B as (Bm & _ & _ & _ & _ & Bs & _). split; [exact Bm|exact Bs]. }
  destruct (H None (t_rows t) eq_refl) as (l & m & E & Im & Em & (s & ND & Q & Es)); [right; now left|apply incl_refl|].
  destruct (H (Some "b") [sample 9 "b"] eq_refl) as (l' & m' & E' & Im' & Em' & (s' & ND' & Q' & Es')); [now left|intros x [<-|[]]; right; now left|].
  exists l, l', m, m'. split; [exact E|]. split; [exact E'|]. split; [exact Im|]. split; [exact Im'|]. rewrite Em, Em'. split; [reflexivity|]. split; [reflexivity|].
  assert (L1 : forall e, In e s <-> e = 7%Z) by (intros e; rewrite Q; cbn; lia). assert (L2 : forall e, ~ In e s') by (intros e I; apply Q' in I; cbn in I; lia). split.
  - rewrite Es. destruct s as [|a s]; [destruct (proj2 (L1 7%Z) eq_refl)|]. destruct s as [|b s]; [reflexivity|]. exfalso. inversion ND as [|? ? Na _]; subst. apply Na. left. rewrite (proj1 (L1 a) (or_introl eq_refl)). apply L1. right; now left.
  - rewrite Es'. destruct s' as [|a s']; [reflexivity|]. exfalso. apply (L2 a). now left.
Qed.
Print Assumptions C119_numbers_refuted.
Example C119_example :
  let t := sample_table [sample 9 "b"; sample 7 "a"] in
  posmove_selection raw r_note (t_rows t) (Some "a") = [sample 7 "a"] /\ readable t (Some "a") false /\ has_column t "DATE" /\ complete t /\ some_rehomed [sample 7 "a"] false /\
  Forall (fun r => r_posid r = "M00001") [sample 7 "a"] /\ is_argsort isort_argsort /\
  exists l, read isort_argsort "M00001" t None false = Ok (Some l) /\ map (fun m => (r_exposure (m_raw m), m_seq m, m_on m)) l = [(9, 1, true); (7, 0, true)]%Z.
Proof.
  intros t. split; [reflexivity|]. split; [unfold readable, has_column; repeat split; intros; cbn; tauto|]. split; [cbn; tauto|]. split; [unfold complete; apply Forall_forall; intros k Ik; unfold has_column, t, sample_table, t_columns; cbn [In] in *; tauto|].
  split; [exists (sample 7 "a"); split; [now left|now right]|]. split; [repeat constructor|]. split; [apply isort_is_argsort|]. eexists. split; reflexivity.
Qed.

(** An invalid table: a file with only the flag INVALID_TABLE. An exception of the reading ends the run. *)
Theorem C120_invalid argsort fp2ptl parse fit clock posid t sel force days dw q mw reject g :
  (read argsort posid t sel force = Ok None -> run_file argsort fp2ptl parse fit clock posid t sel force days dw q mw reject g = Ok (OnlyFlags 8, g)) /\
  (forall x, read argsort posid t sel force = Err x -> run_file argsort fp2ptl parse fit clock posid t sel force days dw q mw reject g = Err x).
Proof. unfold run_file. split; [intros ->; reflexivity|intros x ->; reflexivity]. Qed.
Print Assumptions C120_invalid.
(** Enabled rows, one for each move sequence number, are fitted, with the coordinates in the petal of the first row and in the order of
    their times; if there are none, or fewer than min_window, only the flag INVALID_AFTER_FILTER is written. *)
Theorem C120_rows argsort fp2ptl parse fit clock posid t sel force days dw q mw reject g m0 rest : is_argsort argsort -> read argsort posid t sel force = Ok (Some (m0 :: rest)) ->
  (forall m, In m (m0 :: rest) -> exists p, fp2ptl (r_petal_loc (m_raw m0)) (r_x (m_raw m), r_y (m_raw m)) = Ok p) ->
  exists kept, one_of_each (m0 :: rest) kept /\
    ((List.length kept < Nat.max 1 mw)%nat -> run_file argsort fp2ptl parse fit clock posid t sel force days dw q mw reject g = Ok (OnlyFlags 16, g)) /\
    ((Nat.max 1 mw <= List.length kept)%nat -> (forall m, In m kept -> exists s, parse (r_date (m_raw m)) = Ok s) ->
     exists kept' rows, Permutation kept' kept /\ Forall2 (fit_row_of fp2ptl parse (r_petal_loc (m_raw m0))) kept' rows /\ StronglySorted Rle (map w_sec rows) /\ Forall (fun w => (0 <= mv_seq (w_move w))%Z) rows /\
       run_file argsort fp2ptl parse fit clock posid t sel force days dw q mw reject g = run_best_fits fit clock (argsort R Rltb) posid rows days dw q mw reject g).
Proof.
  intros AS E H. destruct (prepare_spec argsort AS fp2ptl (m0 :: rest) m0 rest eq_refl H) as (lp & out & E1 & E2 & O & F). exists (map fst out). split; [exact O|].
  assert (RF : run_file argsort fp2ptl parse fit clock posid t sel force days dw q mw reject g =
    if ((List.length out =? 0) || (List.length out <? mw))%nat%bool then rbind (bit "INVALID_AFTER_FILTER") (fun b => Ok (OnlyFlags b, g))
    else rbind (with_seconds argsort parse out) (fun rows => run_best_fits fit clock (argsort R Rltb) posid rows days dw q mw reject g)).
  { unfold run_file. rewrite E. cbn [rbind]. rewrite E1. cbn [rbind]. rewrite E2. reflexivity. }
  rewrite map_length. split.
  - intros L. rewrite RF. assert (Q : ((List.length out =? 0) || (List.length out <? mw))%nat%bool = true) by (apply orb_true_iff; rewrite Nat.eqb_eq, Nat.ltb_lt; lia). rewrite Q. reflexivity.
  - intros L D. assert (Q : ((List.length out =? 0) || (List.length out <? mw))%nat%bool = false) by (apply orb_false_iff; rewrite Nat.eqb_neq, Nat.ltb_ge; lia). rewrite Q in RF.
    destruct (seconds_spec argsort AS fp2ptl parse (r_petal_loc (m_raw m0)) out F) as (rows & perm & E3 & P & F2 & S); [intros mp I; apply D, in_map, I|].
    exists perm, rows. split; [exact P|]. split; [exact F2|]. split; [exact S|]. split.
    + apply Forall_forall. intros w Iw. assert (X : exists m, In m perm /\ fit_row_of fp2ptl parse (r_petal_loc (m_raw m0)) m w).
      { clear - F2 Iw. induction F2 as [|a b la lb Hab _ IH]; [destruct Iw|]. destruct Iw as [->|Iw]; [exists a; split; [now left|exact Hab]|]. destruct (IH Iw) as (m & Im & Hm). exists m. split; [now right|exact Hm]. }
      destruct X as (m & Im & Fm). apply (Permutation_in _ P) in Im. destruct O as (_ & O & _). destruct (O m Im) as [Il _].
      destruct (C119_sequences argsort posid t sel force _ _ AS eq_refl E) as (_ & _ & NN). destruct Fm as (_ & _ & _ & _ & _ & _ & _ & _ & Es & _). rewrite Es. now apply NN.
    + rewrite RF, E3. reflexivity.
Qed.
Print Assumptions C120_rows.
(** A table is written only if the rows fitted are of one petal and one device. *)
Theorem C120_one_device fit clock argsort posid rows days dw q mw reject g t g' : run_best_fits fit clock argsort posid rows days dw q mw reject g = Ok (Written t, g') ->
  forall w w', In w rows -> In w' rows -> w_petal_loc w = w_petal_loc w' /\ w_petal_id w = w_petal_id w' /\ w_device_loc w = w_device_loc w'.
Proof.
  assert (AE : forall l z, all_equal l = Ok z -> forall a b, In a l -> In b l -> a = b).
  { intros [|x l] z; [discriminate|]. cbn [all_equal]. destruct (forallb (Z.eqb x) l) eqn:F; [|discriminate]. intros _. rewrite forallb_forall in F. assert (K : forall a, In a (x :: l) -> a = x) by (intros a [<-|I]; [reflexivity|symmetry; apply Z.eqb_eq, F, I]). intros a b Ia Ib. now rewrite (K a Ia), (K b Ib). }
  unfold run_best_fits. destruct (List.length rows <? mw)%nat; [unfold rbind; destruct (bit _); discriminate|]. cbv zeta.
  destruct (define_cases _ _ dw) as [cases|]; [cbn [rbind]|discriminate]. destruct (start_params _ _ _ _ _ _ _ _ _) as [[[start|fl] g1]|]; [cbn [rbind fst snd]|cbn; discriminate|discriminate].
  destruct (process_cases _ _ _ _ _ Static _ _ _) as [[st g2]|]; [cbn [rbind fst snd]|discriminate]. destruct (failed_flags st) as [[fl|]|]; [cbn; discriminate|cbn [rbind]|discriminate].
  destruct (best_params _ _ _) as [best|]; [cbn [rbind]|discriminate]. destruct (process_cases _ _ _ _ _ Dynamic _ _ _) as [[dy g3]|]; [cbn [rbind fst snd]|discriminate].
  destruct (inner_join _ _ _) as [mg|]; [cbn [rbind]|discriminate]. unfold pass_through.
  destruct (all_equal (map w_petal_id rows)) as [a|] eqn:A; [cbn [rbind]|discriminate]. destruct (all_equal (map w_petal_loc rows)) as [b|] eqn:B; [cbn [rbind]|discriminate]. destruct (all_equal (map w_device_loc rows)) as [c|] eqn:C; [cbn [rbind]|discriminate].
  intros _ w w' I I'. split; [|split]; [eapply (AE _ _ B)|eapply (AE _ _ A)|eapply (AE _ _ C)]; now apply in_map.
Qed.
Print Assumptions C120_one_device.
(** With the alignments of the package: a KeyError for a petal that has none. *)
Theorem C120_unknown_petal argsort d parse fit clock posid t sel force days dw q mw reject g m0 rest : read argsort posid t sel force = Ok (Some (m0 :: rest)) ->
  ~ In (r_petal_loc (m_raw m0)) (map fst d) -> run_file argsort (package_fp2ptl d) parse fit clock posid t sel force days dw q mw reject g = Err KeyError.
Proof.
  intros E N. unfold run_file. rewrite E. cbn [rbind make_petal_xy rmapM]. unfold package_fp2ptl at 1. unfold Ptl2fp.fp2ptl.
  assert (D : dict_getE Z.eqb d (r_petal_loc (m_raw m0)) = Err KeyError).
  { unfold dict_getE. destruct (dict_get Z.eqb d (r_petal_loc (m_raw m0))) eqn:G; [|reflexivity]. exfalso. apply N. apply (dict_get_In Z.eqb Z.eqb_eq) in G. exact (in_map fst _ _ G). }
  rewrite D. reflexivity.
Qed.
Print Assumptions C120_unknown_petal.
(** The petal of the rows after the first one is not used: their coordinates may be those of another petal. *)
Theorem C120_petals_refuted : exists l : list mrow, forall fp2ptl, (forall k p, fp2ptl k p = Ok (IZR k, 0%R)) ->
  exists lp, make_petal_xy fp2ptl l = Ok lp /\ map (fun mp => (r_petal_loc (m_raw (fst mp)), fst (snd mp))) lp = [(3%Z, IZR 3); (4%Z, IZR 3)].
Proof.
  set (m k := {| m_raw := {| r_date := ""; r_pos_t := 0; r_pos_p := 0; r_x := 0; r_y := 0; r_ctrl := EBool true; r_total := 1; r_posid := ""; r_petal_id := 2; r_petal_loc := k; r_device_loc := 4;
     r_exposure := 1; r_rehome := true; r_note := ""; r_gear_t := 1; r_gear_p := 1 |}; m_gear_t := 1; m_gear_p := 1; m_seq := 0; m_rehome := true; m_on := true |}).
  exists [m 3%Z; m 4%Z]. intros f H. eexists. split; [cbn [make_petal_xy rmapM]; rewrite !H; reflexivity|reflexivity].
Qed.
Print Assumptions C120_petals_refuted.
Example C120_example :
  let t := sample_table [sample 9 "b"; sample 7 "a"] in
  exists m0 rest, read isort_argsort "M00001" t None false = Ok (Some (m0 :: rest)) /\
    (forall m, In m (m0 :: rest) -> exists p, (fun (_ : Z) (p : R * R) => Ok p) (r_petal_loc (m_raw m0)) (r_x (m_raw m), r_y (m_raw m)) = Ok p) /\
    forall fit clock parse days dw q g, run_file isort_argsort (fun _ p => Ok p) parse fit clock "M00001" t None false days dw q 2 false g = Ok (OnlyFlags 16, g).
Proof. intros t. eexists _, _. split; [reflexivity|]. split; [intros m _; eexists; reflexivity|]. intros. reflexivity. Qed.
