(** C57: loggers. *)
From Verif.Model Require Import Log.
From Verif.Proofs Require Import Prelude.
From Coq Require Import String.
Local Open Scope string_scope.
Local Open Scope list_scope.

(** A call of get_logger, with the level of the environment at that time. *)
Record call := { c_env : string; c_level : option string; c_path : option string; c_timestamps : bool }.
Definition level_of (c : call) : string := match c_level c with Some l => l | None => c_env c end.
Definition levels : list string := ["DEBUG"; "INFO"; "WARN"; "WARNING"; "ERROR"; "FATAL"; "CRITICAL"].
(** The thresholds of the module logging. *)
Definition thresholds : list (string * Z) := [("DEBUG", 10); ("INFO", 20); ("WARN", 30); ("WARNING", 30); ("ERROR", 40); ("FATAL", 50); ("CRITICAL", 50)].
(** The file asked for: none for an empty name. *)
Definition file_asked (p : option string) : option string := match p with Some s => if String.eqb s "" then None else Some s | None => None end.
(** The result of every call of a history, and the module state after it. *)
Fixpoint history (st : loggers) (h : list call) : list (res logger) * loggers :=
  match h with
  | [] => ([], st)
  | c :: r => match get_logger (c_env c) (c_level c) (c_path c) (c_timestamps c) st with
              | Ok (lg, st') => let '(out, st'') := history st' r in (Ok lg :: out, st'')
              | Err e => let '(out, st'') := history st r in (Err e :: out, st'')
              end
  end.

Lemma loglevel_known l : (exists n, loglevel l = Ok n) <-> In l levels.
Proof.
  unfold loglevel, levels. split.
  - intros (n & H). cbn. repeat (match type of H with (if ?b then _ else _) = _ => destruct b eqn:? end; [clear H|]); try discriminate;
      repeat match goal with E : (_ || _)%bool = true |- _ => apply Bool.orb_true_iff in E; destruct E end; repeat match goal with E : (l =? _)%string = true |- _ => apply String.eqb_eq in E; subst l end; tauto.
  - cbn. intros H. repeat (destruct H as [<-|H]; [eexists; reflexivity|]). destruct H.
Qed.
Lemma dict_get_set_eq {V} (d : dict string V) k v : dict_get String.eqb (dict_set String.eqb d k v) k = Some v.
Proof. induction d as [|[j w] d IH]; cbn; [now rewrite String.eqb_refl|]. destruct (String.eqb_spec k j) as [->|N]; cbn; [now rewrite String.eqb_refl|]. destruct (String.eqb_spec k j); [contradiction|exact IH]. Qed.
Lemma dict_get_set_neq {V} (d : dict string V) k j v : j <> k -> dict_get String.eqb (dict_set String.eqb d k v) j = dict_get String.eqb d j.
Proof.
  intros N. induction d as [|[i w] d IH]; cbn.
  - destruct (String.eqb_spec j k); [contradiction|reflexivity].
  - destruct (String.eqb_spec k i) as [->|Ni]; cbn; [destruct (String.eqb_spec j i); [contradiction|reflexivity]|]. destruct (String.eqb j i); [reflexivity|exact IH].
Qed.
(** the first call of the history for a known level [l], if there is none the state decides *)
Lemma history_last h : forall st c, In (level_of c) levels -> forall lg,
  nth_error (fst (history st (h ++ [c]))) (List.length h) = Some (Ok lg) ->
  match dict_get String.eqb st (level_of c) with
  | Some lg0 => lg = lg0
  | None => exists c0, find (fun x => String.eqb (level_of x) (level_of c)) (h ++ [c]) = Some c0 /\ loglevel (level_of c) = Ok (lg_level lg) /\ lg_path lg = some_path (c_path c0) /\ lg_timestamps lg = c_timestamps c0
  end.
Proof.
  induction h as [|a h IH]; intros st c K lg H.
  - cbn [app history] in H. unfold get_logger in H. fold (level_of c) in H. destruct (proj2 (loglevel_known _) K) as (n & Ln). rewrite Ln in H. cbn [rbind] in H. cbn [app find]. rewrite String.eqb_refl.
    destruct (dict_get String.eqb st (level_of c)) as [lg0|]; cbn in H; injection H as <-; [reflexivity|]. exists c. cbn. auto.
  - cbn [app history] in H. unfold get_logger in H. fold (level_of a) in H. cbn [app find].
    destruct (loglevel (level_of a)) as [n|e] eqn:Ln; cbn [rbind] in H.
    + destruct (dict_get String.eqb st (level_of a)) as [la|] eqn:Da.
      * destruct (history st (h ++ [c])) as [out st'] eqn:Hh. cbn in H. specialize (IH st c K lg). rewrite Hh in IH. specialize (IH H). destruct (dict_get String.eqb st (level_of c)) eqn:Dc; [exact IH|].
        destruct (String.eqb_spec (level_of a) (level_of c)) as [E|N]; [rewrite E in Da; congruence|exact IH].
      * destruct (history (dict_set _ _ _ _) (h ++ [c])) as [out st'] eqn:Hh. cbn in H. match type of Hh with history ?s _ = _ => specialize (IH s c K lg) end. rewrite Hh in IH. specialize (IH H). destruct (String.eqb_spec (level_of a) (level_of c)) as [E|N].
        -- rewrite E in *. rewrite dict_get_set_eq in IH. rewrite Da. subst lg. exists a. cbn. rewrite Ln. auto.
        -- rewrite (dict_get_set_neq _ _ _ _ (not_eq_sym N)) in IH. exact IH.
    + destruct (history st (h ++ [c])) as [out st'] eqn:Hh. cbn in H. specialize (IH st c K lg). rewrite Hh in IH. specialize (IH H). destruct (dict_get String.eqb st (level_of c)); [exact IH|].
      destruct (String.eqb_spec (level_of a) (level_of c)) as [E|N]; [|exact IH]. rewrite E in Ln. destruct (proj2 (loglevel_known _) K) as (n & Ln'). congruence.
Qed.
Lemma history_some h : forall st c, In (level_of c) levels -> exists lg, nth_error (fst (history st (h ++ [c]))) (List.length h) = Some (Ok lg).
Proof.
  induction h as [|a h IH]; intros st c K; cbn [app history].
  - unfold get_logger. fold (level_of c). destruct (proj2 (loglevel_known _) K) as (n & ->). cbn [rbind]. destruct (dict_get _ _ _); cbn; eauto.
  - destruct (get_logger _ _ _ _ st) as [[lg st']|e]; [destruct (IH st' c K) as (x & E)|destruct (IH st c K) as (x & E)]; destruct (history _ _); exists x; exact E.
Qed.

Lemma some_path_asked p : some_path p = file_asked p.
Proof. destruct p as [[|a s]|]; reflexivity. Qed.
Lemma loglevel_threshold l n : loglevel l = Ok n -> In (l, n) thresholds.
Proof.
  intros H. assert (K : In l levels) by (apply loglevel_known; eauto). cbn in K. repeat (destruct K as [<-|K]; [vm_compute in H; injection H as <-; cbn; tauto|]). destruct K.
Qed.
(** C57. In a program which starts afresh, a call with a known level returns a logger with the threshold of that level, which writes to the file and with
    the timestamps asked for by the first call of the program with that level, whatever this call asks for. *)
Theorem C57_first_call_decides : forall h c, In (level_of c) levels ->
  exists lg c0, nth_error (fst (history [] (h ++ [c]))) (List.length h) = Some (Ok lg) /\
    find (fun x => String.eqb (level_of x) (level_of c)) (h ++ [c]) = Some c0 /\
    In (level_of c, lg_level lg) thresholds /\ lg_path lg = file_asked (c_path c0) /\ lg_timestamps lg = c_timestamps c0.
Proof.
  intros h c K. destruct (history_some h [] c K) as (lg & E). pose proof (history_last h [] c K lg E) as L. cbn in L. destruct L as (c0 & F & A & B & C). exists lg, c0. rewrite <- some_path_asked. auto using loglevel_threshold.
Qed.
Print Assumptions C57_first_call_decides.
(** The path of a call is used when no earlier call had the same level. *)
Theorem C57_new_level : forall h c, In (level_of c) levels -> (forall a, In a h -> level_of a <> level_of c) ->
  exists lg, nth_error (fst (history [] (h ++ [c]))) (List.length h) = Some (Ok lg) /\ lg_path lg = file_asked (c_path c) /\ lg_timestamps lg = c_timestamps c.
Proof.
  intros h c K N. destruct (C57_first_call_decides h c K) as (lg & c0 & E & F & _ & B & C). exists lg. split; [exact E|]. assert (c0 = c); [|subst; auto].
  clear -F N. induction h as [|a h IH]; cbn in F; [rewrite String.eqb_refl in F; congruence|]. destruct (String.eqb_spec (level_of a) (level_of c)) as [X|X]; [exfalso; apply (N a (or_introl eq_refl) X)|]. apply IH; [|exact F]. intros b J. apply N. now right.
Qed.
Print Assumptions C57_new_level.
(** An unknown level is refused. *)
Theorem C57_unknown : forall env level path ts st, ~ In (match level with Some l => l | None => env end) levels -> get_logger env level path ts st = Err ValueError.
Proof.
  intros env level path ts st H. unfold get_logger. set (l := match level with Some l => l | None => env end) in *. destruct (loglevel l) as [n|e] eqn:E; [exfalso; apply H, loglevel_known; eauto|]. cbn. unfold loglevel in E. repeat match type of E with (if ?b then _ else _) = _ => destruct b; [discriminate|] end. congruence.
Qed.
Print Assumptions C57_unknown.
Example C57_example : let c p := {| c_env := "INFO"; c_level := None; c_path := p; c_timestamps := false |} in
  In (level_of (c (Some "run.log"))) levels /\
  map (fun r => match r with Ok lg => lg_path lg | Err _ => None end) (fst (history [] [c (Some "run.log"); {| c_env := "INFO"; c_level := Some "debug"; c_path := None; c_timestamps := true |}; c None])) = [Some "run.log"; None; Some "run.log"].
Proof. split; [right; left; reflexivity|reflexivity]. Qed.
(** A logger asked to write to a file does not, after a call without file. *)
Theorem C57_path_refuted : ~ (forall h c lg, nth_error (fst (history [] (h ++ [c]))) (List.length h) = Some (Ok lg) -> lg_path lg = file_asked (c_path c)).
Proof.
  intros H. specialize (H [{| c_env := "INFO"; c_level := None; c_path := None; c_timestamps := false |}] {| c_env := "INFO"; c_level := None; c_path := Some "run.log"; c_timestamps := false |} _ eq_refl). discriminate H.
Qed.
Print Assumptions C57_path_refuted.
