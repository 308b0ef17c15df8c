(** C52-C54: prepare_posparams_for_instr. *)
From Verif.Model Require Import PreparePosparams.
From Verif.Proofs Require Import Prelude RealNum Stats Numpy Fitter PreparePosparams.
From Verif.Spec Require Import PreparePosparams.
From Coq Require Import String Reals Lra.
Local Open Scope R_scope.
Local Open Scope string_scope.
Local Open Scope list_scope.

(** C52. Without --set-enabling: the rows written are the acceptable rows of the input, in the same order and with the limits which the operator
    accepted; only rows of positioners which have several acceptable rows may be missing. *)
Theorem C52_written : forall set_order str2float nominal input inp out,
  prepare set_order str2float (Ok nominal) false input inp = Ok out ->
  exists lim kept, limits_in_force str2float inp lim /\ filtered (acceptable nominal lim) input kept /\ one_each (map fresh_row kept) (map fst out).
Proof.
  intros so s2f nominal input inp out H. apply prepare_spec in H as (lim & t1 & d & i1 & i2 & L & (kept & K & ->) & O & _). eauto.
Qed.
Print Assumptions C52_written.

(** With --set-enabling: every row of the input is written, with the same exception, and marked as nonfunctional exactly when it is not acceptable. *)
Theorem C52_marked : forall set_order str2float nominal input inp out,
  prepare set_order str2float (Ok nominal) true input inp = Ok out ->
  exists lim marked, limits_in_force str2float inp lim /\
    Forall2 (fun r r' => same_data r r' /\ (r_disabled r' = false <-> acceptable nominal lim r)) input marked /\ one_each marked (map fst out).
Proof.
  intros so s2f nominal input inp out H. apply prepare_spec in H as (lim & t1 & d & i1 & i2 & L & I & O & _). exists lim, t1. auto.
Qed.
Print Assumptions C52_marked.

(** Nothing is committed for a row marked as nonfunctional, apart from the mark itself; the scales and the physical ranges are never committed;
    every other answer of the operator holds for all rows. *)
Theorem C52_commits : forall set_order str2float nominal en input inp out,
  prepare set_order str2float (Ok nominal) en input inp = Ok out ->
  exists answer : string -> bool,
    (forall k, In k ["SCALE_T"; "SCALE_P"; "PHYSICAL_RANGE_T"; "PHYSICAL_RANGE_P"] -> answer k = false) /\
    forall r c, In (r, c) out -> forall k, In k valid_keys ->
      dict_get String.eqb c k = Some (if String.eqb k "DEVICE_CLASSIFIED_NONFUNCTIONAL" then answer k else if r_disabled r then false else answer k).
Proof.
  intros so s2f nominal en input inp out H. apply prepare_spec in H as (lim & t1 & d & i1 & i2 & _ & _ & _ & C & _ & E). apply commit_loop_spec in C as [M S].
  exists (fun k => match dict_get String.eqb d k with Some b => b | None => false end).
  assert (G : forall (e : dict string bool) k b, dict_get String.eqb e k = Some b -> In (k, b) e).
  { induction e as [|[j c] e IH]; intros k b; cbn; [discriminate|]. destruct (String.eqb_spec k j) as [->|N]; [intros [= ->]; auto|auto]. }
  split.
  - intros k K. destruct (dict_get String.eqb d k) as [b|] eqn:D; [|reflexivity]. apply (S k b (G _ _ _ D)). cbn in K. repeat (destruct K as [<-|K]; [reflexivity|]). destruct K.
  - intros r c J k K. rewrite (E r c J). rewrite <- M in K. clear -K. unfold commits. fold disable_key. induction d as [|[j b] d IH]; [destruct K|]. cbn [map dict_get fst snd].
    destruct (String.eqb_spec k j) as [->|N].
    + f_equal. destruct (String.eqb j disable_key); [reflexivity|]. destruct b, (r_disabled r); reflexivity.
    + cbn in K. destruct K as [->|K]; [contradiction|]. apply IH. exact K.
Qed.
Print Assumptions C52_commits.

(** If every row has its nominal location and no positioner has two rows, an operator who accepts every limit and commits everything reaches the end. *)
Theorem C52_completes : forall set_order str2float nominal en input,
  enumerates_sets set_order -> NoDup (map r_id input) -> (forall r, In r input -> exists e, filter (fun n => (fst n =? r_loc r)%Z) nominal = [e]) ->
  exists out, prepare set_order str2float (Ok nominal) en input ((if en then ["yes"] else []) ++ ["no"; "no"; ""; "no"; "no"; "no"; ""] ++ repeat "yes" 7) = Ok out.
Proof. exact prepare_quiet. Qed.
Print Assumptions C52_completes.

(** A whole dialogue: the operator answers each question about a limit with no, or with yes and a new number, acknowledges the two checks without limits, and then says
    for each of the seven columns whether it is to be committed. The program then ends, keeps or marks the rows by exactly these limits and commits exactly these columns. *)
Theorem C52_dialogue : forall set_order str2float nominal en input o1 o2 o3 o4 o5 lim answers,
  enumerates_sets set_order -> NoDup (map r_id input) -> (forall r, In r input -> exists e, filter (fun n => (fst n =? r_loc r)%Z) nominal = [e]) ->
  sets str2float 2 o1 (l_outliers lim) -> 0 <= l_outliers lim -> sets str2float 0.03 o2 (l_error lim) -> sets str2float 0.001 o3 (l_tighten lim) ->
  sets str2float 0.5 o4 (l_xy lim) -> sets str2float 0.5 o5 (l_arms lim) -> List.length answers = 7%nat ->
  exists out, prepare set_order str2float (Ok nominal) en input ((if en then ["yes"] else []) ++ (lines_for o1 ++ lines_for o2 ++ [""] ++ lines_for o3 ++ lines_for o4 ++ lines_for o5 ++ [""]) ++
    map yes_or_no answers) = Ok out /\
  (if en then Forall2 (fun r r' => same_data r r' /\ (r_disabled r' = false <-> acceptable nominal lim r)) input (map fst out)
   else exists kept, filtered (acceptable nominal lim) input kept /\ map fst out = map fresh_row kept) /\
  forall r c, In (r, c) out -> forall k, In k valid_keys ->
    dict_get String.eqb c k = Some (if String.eqb k "DEVICE_CLASSIFIED_NONFUNCTIONAL" then answer_for answers k else if r_disabled r then false else answer_for answers k).
Proof.
  intros so s2f nominal en input o1 o2 o3 o4 o5 lim answers So N Loc V1 P1 V2 V3 V4 V5 L. destruct (prepare_dialogue so s2f nominal en input o1 o2 o3 o4 o5 lim answers So N Loc V1 P1 V2 V3 V4 V5 L) as (t & d & E & HI & K & B).
  eexists. split; [exact E|]. rewrite map_map. cbn [fst]. rewrite map_id. split; [exact HI|]. intros r c J k Hk. apply in_map_iff in J as (r' & J & _). injection J as -> <-.
  assert (G : forall d' : dict string bool, (forall j b, In (j, b) d' -> b = answer_for answers j) -> In k (map fst d') -> dict_get String.eqb (commits d' r) k = Some (if String.eqb k disable_key then answer_for answers k else (answer_for answers k && negb (r_disabled r))%bool)).
  { clear. induction d' as [|[j b] d' IH]; intros B J; [destruct J|]. cbn [commits map dict_get fst snd]. destruct (String.eqb_spec k j) as [->|D].
    - rewrite (B j b (or_introl eq_refl)). reflexivity.
    - apply IH; [intros; apply B; now right|]. destruct J as [J|J]; [cbn in J; congruence|exact J]. }
  rewrite (G d B) by (rewrite K; exact Hk). change disable_key with "DEVICE_CLASSIFIED_NONFUNCTIONAL". destruct (String.eqb k _); [reflexivity|]. destruct (r_disabled r); cbn [negb]; rewrite ?Bool.andb_false_r, ?Bool.andb_true_r; reflexivity.
Qed.
Print Assumptions C52_dialogue.
(** As the code is, the nominal locations can never be loaded, and the script stops before writing anything, whatever the input and the answers. *)
Theorem C52_completes_refuted : forall set_order str2float en input inp out,
  prepare set_order str2float load_nominal_positioner_locations en input inp <> Ok out.
Proof.
  intros so s2f en input inp out H. unfold prepare in H. destruct (eliminate_rows _ _ _ _) as [t0|]; [|discriminate]. cbn [rbind] in H. destruct (if en then _ else _) as [i1|] in H; [|discriminate]. cbn [rbind] in H.
  unfold checks in H. cbn [run_checks] in H. destruct (run_and_adjust _ _ _ _ _ F_num_outliers _ _ _) as [[t1 j1]|]; [|discriminate]. cbn [rbind fst snd] in H. destruct (run_and_adjust _ _ _ _ _ F_fit_error _ _ _) as [[t2 j2]|]; [|discriminate]. cbn [rbind fst snd] in H.
  destruct (run_and_adjust _ _ _ _ _ F_flags _ _ _) as [[t3 j3]|]; [|discriminate]. cbn [rbind fst snd] in H. destruct (run_and_adjust _ _ _ _ _ F_bounds _ _ _) as [[t4 j4]|]; [|discriminate]. cbn [rbind fst snd run_and_adjust run num_arg dict_get] in H. discriminate H.
Qed.
Print Assumptions C52_completes_refuted.

(** The bounds which the model puts on the loops of the prompts are never reached. *)
Theorem C52_prompts_end : forall set_order str2float load en input inp,
  load <> Err OutOfFuel -> prepare set_order str2float load en input inp <> Err OutOfFuel.
Proof. intros so s2f load en input inp H. apply prepare_fuel. exact H. Qed.
Print Assumptions C52_prompts_end.

(** Examples: a positioner with a good fit, one with a stuck motor, and one without any fit error (NaN). *)
Definition ex_row (id : string) (flags : Z) (err : option R) : prow :=
  {| r_id := id; r_missing := false; r_flags := Some flags; r_loc := 7; r_npts := Some 20%Z; r_nfit := fun _ => Some 19%Z; r_err := fun _ => err;
     r_par := fun k => if mem_str k ["LENGTH_R1"; "LENGTH_R2"] then Some 3 else if mem_str k ["OFFSET_X"; "OFFSET_Y"] then Some 10 else Some 5; r_disabled := false; r_notes := [] |}.
Definition ex_nominal : list (Z * (R * R)) := [(7%Z, (10.1, 10.2)); (8%Z, (20, 20))].
Lemma ex_acceptable id err : match err with Some e => e <= 0.03 | None => True end -> acceptable ex_nominal default_limits (ex_row id 0 err).
Proof.
  intros HE. unfold acceptable. cbn [default_limits l_outliers l_error l_tighten l_xy l_arms]. split; [reflexivity|]. split; [intros n m [= <-] [= <-]; cbn; lra|]. split; [intros e E; cbn in E; subst err; exact HE|]. split; [intros v i [= <-] _; apply Z.bits_0|].
  split; [|split].
  - unfold good_bounds, within. cbn. repeat (split; [intros v [= <-]; lra|]). intros v [= <-]; lra.
  - intros ex ey J. cbn in J. destruct J as [J|[J|[]]]; [|discriminate]. injection J as <- <-. unfold near. cbn. split; intros v [= <-]; unfold Rabs; destruct Rcase_abs; lra.
  - unfold good_arms, near. cbn. split; intros v [= <-]; unfold Rabs; destruct Rcase_abs; lra.
Qed.
Lemma ex_bad id err : ~ acceptable ex_nominal default_limits (ex_row id 2 err).
Proof. intros (_ & _ & _ & F & _). specialize (F 2%Z 1%Z eq_refl ltac:(lia)). discriminate. Qed.
Definition ex_table : list prow := [ex_row "M00001" 0 (Some 0.01); ex_row "M00002" 2 (Some 0.01); ex_row "M00003" 0 None].
Lemma ex_order : enumerates_sets (nodup string_dec).
Proof. intros l. split; [apply NoDup_nodup|]. intros x. apply nodup_In. Qed.
Lemma ex_limits inp lim : limits_in_force (fun _ => None) inp lim -> lim = default_limits.
Proof.
  intros (A & B & C & D & E). assert (T : forall x y, (x = y \/ typed (fun _ => None) inp x) -> x = y) by (intros x y [H|(s & _ & H)]; [exact H|discriminate]).
  apply T in A, B, C, D, E. destruct lim. cbn in *. subst. reflexivity.
Qed.
(** The script completes; the row with the stuck motor is left out. *)
Example C52_example : exists out, prepare (nodup string_dec) (fun _ => None) (Ok ex_nominal) false ex_table (["no"; "no"; ""; "no"; "no"; "no"; ""] ++ repeat "yes" 7) = Ok out /\
  map (fun rc => r_id (fst rc)) out = ["M00001"; "M00003"].
Proof.
  destruct (C52_completes (nodup string_dec) (fun _ => None) ex_nominal false ex_table ex_order) as (out & E).
  - cbn. repeat constructor; cbn; intros J; repeat (destruct J as [J|J]; [discriminate|]); destruct J.
  - intros r J. cbn in J. repeat (destruct J as [<-|J]; [eexists; reflexivity|]). destruct J.
  - exists out. split; [exact E|]. apply C52_written in E as (lim & kept & L & F & (S & N & O)). apply ex_limits in L. subst lim.
    assert (K : kept = [ex_row "M00001" 0 (Some 0.01); ex_row "M00003" 0 None]).
    { unfold ex_table in F. pose proof (ex_acceptable "M00001" (Some 0.01) ltac:(lra)) as A1. pose proof (ex_acceptable "M00003" None I) as A3. pose proof (ex_bad "M00002" (Some 0.01)) as A2.
      inversion F as [| ? ? m1 P1 F1 | ? ? m1 P1 F1]; subst; [|now contradiction A1]. inversion F1 as [| ? ? m2 P2 F2 | ? ? m2 P2 F2]; subst; [now contradiction A2|]. inversion F2 as [| ? ? m3 P3 F3 | ? ? m3 P3 F3]; subst; [|now contradiction A3]. inversion F3. reflexivity. }
    subst kept. rewrite <- (map_map fst r_id). pose proof (O "M00001" eq_refl) as O1. pose proof (O "M00003" eq_refl) as O3. revert S O1 O3. generalize (map fst out). intros l S O1 O3.
    inversion S as [|? l1 ? S1|? l1 ? S1]; subst.
    + inversion S1 as [|? l2 ? S2|? l2 ? S2]; subst; inversion S2; subst; [reflexivity|discriminate O3].
    + inversion S1 as [|? l2 ? S2|? l2 ? S2]; subst; inversion S2; subst; discriminate O1.
Qed.

(** With the fit error limited to 0.005 only the row without fit error remains, and only the offset in x is committed. *)
Example C52_dialogue_example : exists out, prepare (nodup string_dec) (fun s => if String.eqb s "0.005" then Some 0.005 else None) (Ok ex_nominal) false ex_table
    (["no"; "yes"; "0.005"; "no"; ""; "no"; "no"; "no"; ""] ++ map yes_or_no [false; false; false; false; true; false; false]) = Ok out /\
  map (fun rc => r_id (fst rc)) out = ["M00003"] /\ forall r c, In (r, c) out -> dict_get String.eqb c "OFFSET_X" = Some (negb (r_disabled r)) /\ dict_get String.eqb c "OFFSET_Y" = Some false.
Proof.
  destruct (C52_dialogue (nodup string_dec) (fun s => if String.eqb s "0.005" then Some 0.005 else None) ex_nominal false ex_table None (Some "0.005") None None None
    {| l_outliers := 2; l_error := 0.005; l_tighten := 0.001; l_xy := 0.5; l_arms := 0.5 |} [false; false; false; false; true; false; false]) as (out & E & (kept & F & M) & C);
    try reflexivity; try exact ex_order; cbn [l_outliers l_error l_tighten l_xy l_arms sets]; try lra.
  - repeat constructor; cbn; intuition discriminate.
  - intros r [<-|[<-|[<-|[]]]]; eexists; reflexivity.
  - split; [reflexivity|]. split; [lra|]. cbn. intuition discriminate.
  - exists out. split; [exact E|]. split.
    + rewrite <- map_map, M, map_map. cbn [fresh_row r_id]. assert (G3 : kept = [ex_row "M00003" 0 None]); [|now rewrite G3].
      inversion F as [|? ? ? A F1|? ? ? A F1]; subst; [exfalso; destruct A as (_ & _ & A & _); specialize (A 0.01 eq_refl); cbn in A; lra|].
      inversion F1 as [|? ? ? A2 F2|? ? ? A2 F2]; subst; [exfalso; destruct A2 as (_ & _ & A2 & _); specialize (A2 0.01 eq_refl); cbn in A2; lra|].
      inversion F2 as [|? ? ? A3 F3|? ? ? A3 F3]; subst; [inversion F3; reflexivity|]. exfalso. apply A3. destruct (ex_acceptable "M00003" None I) as (B1 & B2 & _ & B4). split; [exact B1|]. split; [exact B2|]. split; [intros x Hx; discriminate|exact B4].
    + intros r c J. rewrite (C r c J "OFFSET_X") by (cbn; tauto). rewrite (C r c J "OFFSET_Y") by (cbn; tauto). cbn. destruct (r_disabled r); auto.
Qed.
(** A fit error which is not a number passes: such a row is acceptable, written and committed. *)
Theorem C52_nan_refuted : ~ (forall set_order str2float nominal input inp out, prepare set_order str2float (Ok nominal) false input inp = Ok out ->
  forall r, In r (map fst out) -> exists e, r_err r "STATIC" = Some e).
Proof.
  intros H. destruct C52_example as (out & E & M). specialize (H _ _ _ _ _ _ E). pose proof E as E2. apply C52_written in E2 as (lim & kept & _ & F & (S & _ & _)).
  assert (J : In "M00003" (map (fun rc => r_id (fst rc)) out)) by (rewrite M; right; left; reflexivity). apply in_map_iff in J as ([r c] & Id & J). cbn in Id. assert (J' : In r (map fst out)) by (apply in_map_iff; exists (r, c); auto).
  destruct (H r J') as (e & Er). pose proof (sublist_In _ _ _ S J') as K. apply in_map_iff in K as (r0 & <- & K). assert (K' : In r0 ex_table). { clear -F K. induction F; cbn in *; tauto. }
  cbn in K'. destruct K' as [<-|[<-|[<-|[]]]]; try discriminate Id. discriminate Er.
Qed.
Print Assumptions C52_nan_refuted.

(** C53. What the prompt for a positioner with several rows does with the line typed: "skip" removes all its rows; the number [k] of one of the
    options keeps the row at position [k] of the table and removes the others, if that is a row of the positioner, and stops the program otherwise;
    any other line is ignored. Rows of other positioners are never touched. *)
Definition of_others (id : string) (t : list prow) : list prow := filter (fun r => negb (String.eqb (r_id r) id)) t.
Theorem C53_skip : forall t id s rest, In (lower s) ["skip"; "s"] -> resolve t id (s :: rest) = Ok (of_others id t, rest).
Proof.
  intros t id s rest H. cbn [resolve]. assert (E : entered s = s). { unfold entered. destruct (String.eqb_spec s "") as [->|N]; [cbn in H; destruct H as [H|[H|[]]]; discriminate|reflexivity]. }
  rewrite E. apply mem_str_In in H. rewrite H. now rewrite remove_all.
Qed.
Print Assumptions C53_skip.
Theorem C53_number : forall t id k rest, (k < List.length (rows_of id t))%nat ->
  resolve t id (str_of_nat k :: rest) =
  match nth_error t k with
  | Some r => if String.eqb (r_id r) id then Ok (of_others id (firstn k t) ++ r :: of_others id (skipn (S k) t), rest) else Err AssertionError
  | None => Err AssertionError
  end.
Proof.
  intros t id k rest L. cbn [resolve].
  assert (D : (forall c r, str_of_nat k = String c r -> c = "0" \/ c = "1" \/ c = "2" \/ c = "3" \/ c = "4" \/ c = "5" \/ c = "6" \/ c = "7" \/ c = "8" \/ c = "9")%char).
  { unfold str_of_nat, str_of_N. intros c r. destruct (N.to_uint (N.of_nat k)); cbn; intros [= <- _]; tauto. }
  destruct (str_of_nat k) as [|c w] eqn:Sk.
  { exfalso. clear D. unfold str_of_nat, str_of_N in Sk. destruct (N.to_uint (N.of_nat k)); cbn in Sk; discriminate. }
  specialize (D c w eq_refl). change (entered (String c w)) with (String c w).
  replace (mem_str (lower (String c w)) ["skip"; "s"]) with false by (decompose [or] D; subst c; reflexivity).
  rewrite <- Sk. rewrite row_idxs_length, (find_option _ _ L). rewrite remove_but, row_idxs_length.
  assert (Z : forall l, rows_of id (of_others id l) = []) by (intros l; apply rows_of_others).
  change (others id) with (of_others id). destruct (nth_error t k) as [r|]; [|now rewrite (Z t)]. rewrite rows_of_app. change (rows_of id (r :: of_others id (skipn (S k) t))) with (if (r_id r =? id)%string then r :: rows_of id (of_others id (skipn (S k) t)) else rows_of id (of_others id (skipn (S k) t))).
  rewrite !Z. destruct (String.eqb_spec (r_id r) id); reflexivity.
Qed.
Print Assumptions C53_number.
Theorem C53_ignored : forall t id s rest, ~ In (lower s) ["skip"; "s"] -> (forall k, (k < List.length (rows_of id t))%nat -> s <> str_of_nat k) ->
  resolve t id (s :: rest) = resolve t id rest.
Proof.
  intros t id s rest H N. cbn [resolve]. assert (M : mem_str (lower (entered s)) ["skip"; "s"] = false).
  { unfold entered. destruct (String.eqb_spec s "") as [->|E]; [reflexivity|]. apply Bool.not_true_iff_false. rewrite mem_str_In. exact H. }
  rewrite M. destruct (find _ _) as [k|] eqn:F; [|reflexivity]. exfalso. apply find_seq in F as [L E]. rewrite row_idxs_length in L. apply String.eqb_eq in E. unfold entered in E. destruct (String.eqb_spec s "") as [->|E'].
  - assert (D : forall c r, str_of_nat k = String c r -> c <> "("%char). { unfold str_of_nat, str_of_N. intros c r. destruct (N.to_uint (N.of_nat k)); cbn; intros [= <- _]; discriminate. }
    apply (D "("%char "no entry)"); [now rewrite <- E|reflexivity].
  - exact (N k L E).
Qed.
Print Assumptions C53_ignored.

(** Among all rows of the table exactly one positioner can have its selection obeyed: if the row kept after answering [k] is the one presented as
    option [k] then the first [k + 1] rows of the table are all of that positioner. *)
Theorem C53_first_rows_only : forall t id k, (k < List.length (rows_of id t))%nat ->
  (nth_error (get_row_idxs t id) k = Some k <-> (forall i, (i <= k)%nat -> exists r, nth_error t i = Some r /\ r_id r = id)).
Proof.
  intros t id k L. unfold get_row_idxs, where_, rows_of in *.
  assert (G : forall (f : prow -> bool) l j k, (k < List.length (filter f l))%nat -> (nth_error (where_from f j l) k = Some (j + k)%nat <-> forall i, (i <= k)%nat -> exists r, nth_error l i = Some r /\ f r = true)).
  { intros f l. assert (Low : forall j i x, nth_error (where_from f j l) i = Some x -> (j + i <= x)%nat).
    { induction l as [|a l IH]; intros j i x E; cbn in E; [destruct i; discriminate|]. destruct (f a); [destruct i as [|i]; [injection E as <-; lia|apply IH in E; lia]|apply IH in E; lia]. }
    induction l as [|a l IH]; intros j q Lq; [cbn in Lq; lia|]. cbn [where_from filter] in *. destruct (f a) eqn:Fa.
    - destruct q as [|q].
      + cbn. rewrite Nat.add_0_r. split; [|auto]. intros _ i Hi. replace i with 0%nat by lia. exists a. auto.
      + cbn [nth_error]. cbn in Lq. assert (Low' : forall j i x, nth_error (where_from f j l) i = Some x -> (j + i <= x)%nat). { clear. induction l as [|b l IH]; intros j i x E; cbn in E; [destruct i; discriminate|]. destruct (f b); [destruct i as [|i]; [injection E as <-; lia|apply IH in E; lia]|apply IH in E; lia]. }
        specialize (IH Low' (S j) q ltac:(lia)). replace (j + S q)%nat with (S j + q)%nat by lia. rewrite IH. split.
        * intros H [|i] Hi; [exists a; auto|]. apply H. lia.
        * intros H i Hi. apply (H (S i)). lia.
    - split.
      + intros E. exfalso. assert (Low' : forall j i x, nth_error (where_from f j l) i = Some x -> (j + i <= x)%nat). { clear. induction l as [|b l IH]; intros j i x E; cbn in E; [destruct i; discriminate|]. destruct (f b); [destruct i as [|i]; [injection E as <-; lia|apply IH in E; lia]|apply IH in E; lia]. }
        apply Low' in E. lia.
      + intros H. destruct (H 0%nat ltac:(lia)) as (r & E & F). cbn in E. injection E as <-. congruence. }
  rewrite (G _ t 0%nat k L). split; intros H i Hi; destruct (H i Hi) as (r & E & F); exists r; (split; [exact E|]); now apply String.eqb_eq.
Qed.
Print Assumptions C53_first_rows_only.

(** The row selected is not the one kept: the table has one row of M00001 and then two of M00002; answering 1 keeps option 0. *)
Theorem C53_selection_refuted :
  ~ (forall t id k r rest t', nth_error (rows_of id t) k = Some r -> resolve t id (str_of_nat k :: rest) = Ok (t', rest) -> rows_of id t' = [r]).
Proof.
  intros H. specialize (H [ex_row "M00001" 0 None; ex_row "M00002" 0 None; ex_row "M00002" 1 None] "M00002" 1%nat (ex_row "M00002" 1 None) [] [ex_row "M00001" 0 None; ex_row "M00002" 0 None] eq_refl).
  rewrite C53_number in H by (cbn; lia). specialize (H eq_refl). injection H as H. discriminate H.
Qed.
Print Assumptions C53_selection_refuted.
(** And answering 0 stops the program. *)
Example C53_example : resolve [ex_row "M00001" 0 None; ex_row "M00002" 0 None; ex_row "M00002" 1 None] "M00002" ["0"] = Err AssertionError /\
  resolve [ex_row "M00002" 0 None; ex_row "M00002" 1 None; ex_row "M00001" 0 None] "M00002" ["maybe"; ""; "1"; "y"] = Ok ([ex_row "M00002" 1 None; ex_row "M00001" 0 None], ["y"]) /\
  resolve [ex_row "M00002" 0 None; ex_row "M00002" 1 None; ex_row "M00001" 0 None] "M00002" ["SKIP"] = Ok ([ex_row "M00001" 0 None], []).
Proof. repeat split. Qed.
(** Whatever is typed, the check only ends with at most one row for each positioner, all rows of positioners with one row being kept. *)
Theorem C53_unique : forall set_order t inp t' rest, check_uniqueness set_order t inp = Ok (t', rest) -> one_each t t'.
Proof. intros so t inp t' rest H. apply uniqueness_spec in H. tauto. Qed.
Print Assumptions C53_unique.

(** C54. A prompt returns "yes", "no" or "help" only, for the first line typed which means something. *)
Theorem C54_answer : forall inp,
  yesnohelp true true true true inp =
  match first_answer inp with Some (a, rest) => if String.eqb a "exit" then Err (SysExit 0) else Ok (a, rest) | None => Err EOFError end.
Proof. exact yesnohelp_all. Qed.
Print Assumptions C54_answer.
(** When some answers are not offered, this holds for the first line only: a line which is not an offered answer is ignored, and all four answers are
    accepted from then on. *)
Theorem C54_restricted : forall yes no help_ exit_ s rest, (yes || no || help_ || exit_)%bool = true ->
  (forall a, means s = Some a -> offered yes no help_ exit_ a -> yesnohelp yes no help_ exit_ (s :: rest) = if String.eqb a "exit" then Err (SysExit 0) else Ok (a, rest)) /\
  ((forall a, means s = Some a -> ~ offered yes no help_ exit_ a) -> yesnohelp yes no help_ exit_ (s :: rest) = yesnohelp true true true true rest).
Proof.
  intros y n h e s rest O. rewrite yesnohelp_line by exact O. unfold offered. split.
  - intros a M F. rewrite M. decompose [or and] F; subst; try rewrite !Bool.andb_false_l; reflexivity.
  - intros H. destruct (means s) as [a|] eqn:M; [|reflexivity]. specialize (H a eq_refl). destruct (means_values s a M) as [-> | [-> | [-> | ->]]]; cbn.
    + destruct h; [exfalso; apply H; tauto|reflexivity].
    + destruct n; [exfalso; apply H; tauto|reflexivity].
    + destruct y; [exfalso; apply H; tauto|reflexivity].
    + destruct e; [exfalso; apply H; tauto|reflexivity].
Qed.
Print Assumptions C54_restricted.
Theorem C54_offered_refuted : ~ (forall yes no help_ exit_ inp a rest, yesnohelp yes no help_ exit_ inp = Ok (a, rest) -> offered yes no help_ exit_ a).
Proof.
  intros H. specialize (H true false false true ["no"; "no"] "no" [] eq_refl). unfold offered in H. decompose [or and] H; discriminate.
Qed.
Print Assumptions C54_offered_refuted.
(** The confirmation of --set-enabling, where "no" is not offered: answering no twice is taken as a confirmation. *)
Theorem C54_confirmation_refuted : forall set_order str2float load input inp,
  prepare set_order str2float load true input ("no" :: "no" :: inp) = prepare set_order str2float load true input ("yes" :: inp).
Proof. reflexivity. Qed.
Print Assumptions C54_confirmation_refuted.
Example C54_example : yesnohelp true true true true ["what"; ""; "Man"; "y"] = Ok ("help", ["y"]) /\ yesnohelp true false false true ["YES"; "x"] = Ok ("yes", ["x"]) /\
  yesnohelp true false false true ["Exit"] = Err (SysExit 0) /\ offered true false false true "yes" /\ means "YES" = Some "yes".
Proof. repeat split. left. auto. Qed.
