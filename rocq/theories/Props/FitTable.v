(** C107: the table of the fits of the windows. *)
From Coq Require Import Lra Lia.
From Verif.Model Require Import FitTable.
From Verif.Spec Require Import FitTable.
From Verif.Proofs Require Import Prelude Fitter FitNames FitTable.
Local Open Scope string_scope.
Local Open Scope list_scope.

(** If the fits of all windows return and none of the later ones has the offset of an exposure the first one has not, the table has
    one row for each window, with the columns of [fit_table]. The offsets met are added to the module variable output_keys. *)
Theorem C107_table fit clock posid rows cases mode nominals reject g E first os n2 b2 :
  known_offsets g E -> Forall (inside rows) cases -> fits fit rows mode reject nominals (v_bounds g) cases (first :: os) n2 b2 ->
  Forall (fun o => Forall offset_name (offsets o)) (first :: os) -> (forall o e, In o os -> In e (offsets o) -> In e (offsets first)) ->
  exists t g' N, process_cases fit clock posid rows cases mode nominals reject g = Ok (t, g') /\ v_bounds g' = b2 /\ known_offsets g' (E ++ N) /\
    (forall e, In e (E ++ N) <-> In e E \/ In e (offsets first)) /\ fit_table clock posid rows mode cases (first :: os) (E ++ N) t.
Proof.
  intros K FI Hf FO Hall. pose proof (inv_start clock posid rows mode g E nominals (v_bounds g) K) as I0. pose proof (fits_length _ _ _ _ _ _ _ _ _ _ Hf) as L. destruct cases as [|c cs]; [discriminate|].
  destruct (inv_loop fit clock posid rows mode reject E _ _ _ _ _ _ Hf FI FO 0 [] _ I0 eq_refl eq_refl) as (s & Es & I & En & Eb). cbn [app] in I.
  destruct (fit_table_spec clock posid rows mode E c cs first os s I) as (t & E' & Et & Ek & NE & FE & (N & ->) & HE & FT); [now injection L|exact FI|intros k y Y Y2; exact (Hall y k Y Y2)|exact (Forall_inv FO)|].
  exists t, {| v_okeys := l_okeys s; v_bounds := l_bounds s |}, N. split.
  - unfold process_cases. rewrite Es. cbn [rbind]. destruct (make_table (l_out s)) as [t0|]; [|discriminate]. cbn [rbind] in *. destruct (variances_to_errors (l_fitted s) (drop_null (l_fitted s) t0)) as [t1|]; [|discriminate]. cbn [rbind] in *. rewrite Et. reflexivity.
  - cbn [v_bounds v_okeys]. split; [exact Eb|]. split; [split; [exact Ek|]; auto|]. auto.
Qed.
Print Assumptions C107_table.

(** A later window with the offset of an exposure which the first one has not: the columns differ in length, the program ends with
    exit code 12. *)
Theorem C107_exit fit clock posid rows cases mode nominals reject g E first os n2 b2 o e :
  known_offsets g E -> Forall (inside rows) cases -> fits fit rows mode reject nominals (v_bounds g) cases (first :: os) n2 b2 ->
  Forall (fun o => Forall offset_name (offsets o)) (first :: os) -> In o os -> In e (offsets o) -> ~ In e (offsets first) ->
  process_cases fit clock posid rows cases mode nominals reject g = Err (SysExit 12).
Proof.
  intros K FI Hf FO Io Ie Hn. pose proof (inv_start clock posid rows mode g E nominals (v_bounds g) K) as I0. pose proof (fits_length _ _ _ _ _ _ _ _ _ _ Hf) as L. destruct cases as [|c cs]; [discriminate|].
  destruct (inv_loop fit clock posid rows mode reject E _ _ _ _ _ _ Hf FI FO 0 [] _ I0 eq_refl eq_refl) as (s & Es & I & _). cbn [app] in I. change (items 0 (c :: cs) (first :: os)) with ((0%nat, c, first) :: items 1 cs os) in I.
  assert (L' : List.length os = List.length cs) by (now injection L). rewrite <- (items_os 1 cs os L') in Io. apply in_map_iff in Io as (y & Ey & Y). subst o.
  unfold process_cases. rewrite Es. cbn [rbind]. rewrite (make_table_exit clock posid rows mode E _ _ s e y I Y Ie Hn). reflexivity.
Qed.
Print Assumptions C107_exit.

(** An exception of a fit ends the call; the windows before have been fitted. No windows: a table without columns. *)
Theorem C107_exception fit clock posid rows cases c rest mode nominals reject g E os n2 b2 x st :
  known_offsets g E -> Forall (inside rows) cases -> fits fit rows mode reject nominals (v_bounds g) cases os n2 b2 -> Forall (fun o => Forall offset_name (offsets o)) os ->
  fit (map w_move (stretch rows c)) mode n2 b2 reject = (Err x, st) -> process_cases fit clock posid rows (cases ++ c :: rest) mode nominals reject g = Err x.
Proof.
  intros K FI Hf FO Ex. pose proof (inv_start clock posid rows mode g E nominals (v_bounds g) K) as I0. unfold process_cases.
  rewrite (fits_error fit clock posid rows mode reject E _ _ _ _ _ _ c rest x st Hf FI FO Ex 0 [] _ I0 eq_refl eq_refl). reflexivity.
Qed.
Print Assumptions C107_exception.
Theorem C107_no_windows fit clock posid rows mode nominals reject g E : known_offsets g E -> exists t, process_cases fit clock posid rows [] mode nominals reject g = Ok (t, g) /\ t = [].
Proof.
  intros K. pose proof (inv_start clock posid rows mode g E nominals (v_bounds g) K) as I0. exists []. split; [|reflexivity]. unfold process_cases. cbn [case_fits rbind]. rewrite (make_table_none clock posid rows mode E _ I0). cbn [rbind l_out l_fitted l_okeys l_bounds].
  assert (D : forall l, fold_left drop_step l [] = []) by (induction l as [|[a b] l IH]; [reflexivity|]; cbn [fold_left]; unfold drop_step at 2; cbn [fst snd dict_get]; destruct (String.eqb a b); exact IH). rewrite drop_null_eq, D.
  rewrite errors_skip by (intros k _ []). cbn [rbind]. assert (A : forall ok, add_suffixes mode ok [] = Ok []) by (induction ok as [|[k v] ok IH]; [reflexivity|]; cbn [add_suffixes]; destruct v; [cbn [map rename_names rbind]|]; exact IH). rewrite A. cbn [rbind]. destruct g. reflexivity.
Qed.
Print Assumptions C107_no_windows.
