(** bin/fit_posparams: which files are fitted, and how the run ends (C116). *)
From Verif.Model Require Import FitPosparamsMain.
From Verif.Spec Require Import FitPosparamsMain.
From Verif.Proofs Require Import Prelude FitPosparamsMain.
From Coq Require Import Lia NArith Permutation.
Local Open Scope string_scope.
Local Open Scope list_scope.

(** Each positioner is fitted once, with the last of its files. *)
Theorem C116_files infiles : NoDup (map fst (csv_files infiles)) /\
  forall p path, In (p, path) (csv_files infiles) <-> file_of p path /\ exists a b, infiles = a ++ path :: b /\ Forall (fun f => ~ file_of p f) b.
Proof.
  assert (EQ : forall a b, String.eqb a b = true <-> a = b) by apply String.eqb_eq.
  assert (G : NoDup (map fst (csv_files infiles)) /\ forall p path, dict_get String.eqb (csv_files infiles) p = Some path <-> file_of p path /\ exists a b, infiles = a ++ path :: b /\ Forall (fun f => ~ file_of p f) b).
  { induction infiles as [|f l IH] using rev_ind; [split; [constructor|]; intros p path; split; [discriminate|]; intros (_ & [|] & b & E & _); discriminate|]. destruct IH as [N IH]. unfold csv_files. rewrite fold_left_app. fold (csv_files l). cbn [fold_left].
    assert (Sn : forall (P : string -> Prop) a b path, l ++ [f] = a ++ path :: b -> (b = [] /\ a = l /\ path = f) \/ exists b', b = b' ++ [f] /\ l = a ++ path :: b').
    { intros _ a b path E. destruct b as [|x b] using rev_ind; [left; apply app_inj_tail in E as [-> ->]; auto|]. right. exists b. rewrite app_comm_cons, app_assoc in E. apply app_inj_tail in E as [-> ->]. auto. }
    destruct (posid_of f) as [q|] eqn:Eq.
    - apply posid_spec in Eq. split; [apply (dict_set_NoDup String.eqb EQ); exact N|]. intros p path. destruct (String.eqb_spec q p) as [->|D].
      + rewrite (dict_get_set_same String.eqb EQ). split; [intros [= <-]; split; [exact Eq|]; exists l, []; auto|]. intros (_ & a & b & E & F). apply (Sn (fun _ => True)) in E as [(_ & _ & ->)|(b' & -> & _)]; [reflexivity|]. apply Forall_app in F as [_ F]. inversion F; contradiction.
      + rewrite (dict_get_set_other String.eqb EQ) by congruence. rewrite IH. assert (NF : ~ file_of p f) by (intros H; apply posid_spec in H, Eq; congruence). split; intros (Hp & a & b & E & F); (split; [exact Hp|]).
        * exists a, (b ++ [f]). split; [rewrite E, <- app_assoc; reflexivity|]. apply Forall_app. auto.
        * apply (Sn (fun _ => True)) in E as [(_ & _ & ->)|(b' & -> & ->)]; [contradiction|]. exists a, b'. split; [reflexivity|]. now apply Forall_app in F as [F _].
    - split; [exact N|]. intros p path. rewrite IH. assert (NF : ~ file_of p f) by (intros H; apply posid_spec in H; congruence). split; intros (Hp & a & b & E & F); (split; [exact Hp|]).
      * exists a, (b ++ [f]). split; [rewrite E, <- app_assoc; reflexivity|]. apply Forall_app. auto.
      * apply (Sn (fun _ => True)) in E as [(_ & _ & ->)|(b' & -> & ->)]; [contradiction|]. exists a, b'. split; [reflexivity|]. now apply Forall_app in F as [F _]. }
  destruct G as [N G]. split; [exact N|]. intros p path. rewrite <- G. split.
  - intros I. clear - N I. induction (csv_files infiles) as [|[k v] d IH]; [destruct I|]. cbn [map fst] in N. inversion N as [|? ? Nk N']; subst. cbn. destruct I as [[= -> ->]|I]; [now rewrite String.eqb_refl|]. destruct (String.eqb_spec p k) as [<-|]; [exfalso; apply Nk; apply in_map_iff; exists (p, path); auto|auto].
  - apply (dict_get_In String.eqb EQ).
Qed.
Print Assumptions C116_files.
(** What is printed when the fits are run one after the other, up to the first failure. *)
Theorem C116_one_by_one run order infiles : csv_files infiles <> [] ->
  (exists logs, Forall2 (fun '(p, f) log => run p f = Ok log) (csv_files infiles) logs /\ fit_posparams run order (Some 1%Z) infiles = Complete logs) \/
  (exists a p f b logs e, csv_files infiles = a ++ (p, f) :: b /\ Forall2 (fun '(p, f) log => run p f = Ok log) a logs /\ run p f = Err e /\ fit_posparams run order (Some 1%Z) infiles = Stopped logs e).
Proof.
  intros Ne. assert (X : fit_posparams run order (Some 1%Z) infiles = one_by_one run [] (csv_files infiles)) by (unfold fit_posparams; destruct (csv_files infiles); [congruence|reflexivity]).
  assert (Y : forall d pr, (exists logs, Forall2 (fun '(p, f) log => run p f = Ok log) d logs /\ one_by_one run pr d = Complete (pr ++ logs)) \/ (exists a p f b logs e, d = a ++ (p, f) :: b /\ Forall2 (fun '(p, f) log => run p f = Ok log) a logs /\ run p f = Err e /\ one_by_one run pr d = Stopped (pr ++ logs) e)).
  { clear. induction d as [|[p f] d IH]; intros pr; [left; exists []; split; [constructor|]; cbn; now rewrite app_nil_r|]. cbn [one_by_one]. destruct (run p f) as [log|e] eqn:E.
    - destruct (IH (pr ++ [log])) as [(logs & F & H)|(a & p' & f' & b & logs & e & -> & F & Er & H)].
      + left. exists (log :: logs). split; [now constructor|]. rewrite H, <- app_assoc. reflexivity.
      + right. exists ((p, f) :: a), p', f', b, (log :: logs), e. split; [reflexivity|]. split; [now constructor|]. split; [exact Er|]. rewrite H, <- app_assoc. reflexivity.
    - right. exists [], p, f, d, [], e. split; [reflexivity|]. split; [constructor|]. split; [exact E|]. now rewrite app_nil_r. }
  destruct (Y (csv_files infiles) []) as [(logs & F & H)|(a & p & f & b & logs & e & Ea & F & Er & H)].
  - left. exists logs. split; [exact F|]. etransitivity; [exact X|exact H].
  - right. exists a, p, f, b, logs, e. split; [exact Ea|]. split; [exact F|]. split; [exact Er|]. etransitivity; [exact X|exact H].
Qed.
Print Assumptions C116_one_by_one.
(** Without files, with a number of processes below one, and in a pool: the results of the fits that return one are printed, in some order;
    a fit that raises an exception is not mentioned; after one that exits the run never ends. *)
Theorem C116_endings run order n infiles : (forall l, Permutation (order l) l) ->
  (csv_files infiles = [] -> fit_posparams run order n infiles = Stopped [] (SysExit 0)) /\
  (csv_files infiles <> [] ->
     (forall k, n = Some k -> (k < 1)%Z -> fit_posparams run order n infiles = Stopped [] ValueError) /\
     (n = None \/ (exists k, n = Some k /\ (1 < k)%Z) -> exists printed,
        Permutation printed (flat_map (fun '(p, f) => match run p f with Ok log => [log] | Err _ => [] end) (csv_files infiles)) /\
        ((exists p f c, In (p, f) (csv_files infiles) /\ run p f = Err (SysExit c)) /\ fit_posparams run order n infiles = Waits printed \/
         (forall p f c, In (p, f) (csv_files infiles) -> run p f <> Err (SysExit c)) /\ fit_posparams run order n infiles = Complete printed))).
Proof.
  intros Ho. unfold fit_posparams. split; [intros ->; reflexivity|]. intros Ne. destruct (csv_files infiles) as [|x d] eqn:D; [congruence|]. rewrite <- D. set (files := csv_files infiles) in *. split.
  - intros k -> Hk. apply Z.ltb_lt in Hk. now rewrite Hk.
  - intros Hn. set (rs := map (fun '(p, f) => run p f) (order files)). exists (flat_map (fun r => match r with Ok log => [log] | Err _ => [] end) rs). split.
    { assert (FM : forall l, flat_map (fun r => match r with Ok log => [log] | Err _ => [] end) (map (fun '(p, f) => run p f) l) = flat_map (fun '(p, f) => match run p f with Ok log => [log] | Err _ => [] end) l) by (induction l as [|[p f] l IH]; [reflexivity|]; cbn; now rewrite IH). unfold rs. rewrite FM. apply Permutation_flat_map, Ho. }
    assert (E : match n with Some k => if (k <? 1)%Z then Stopped [] ValueError else if (k =? 1)%Z then one_by_one run [] files else in_pool run order files | None => in_pool run order files end = in_pool run order files).
    { destruct Hn as [->|(k & -> & Hk)]; [reflexivity|]. assert ((k <? 1)%Z = false) as -> by (apply Z.ltb_ge; lia). assert ((k =? 1)%Z = false) as -> by (apply Z.eqb_neq; lia). reflexivity. }
    rewrite E. unfold in_pool. fold rs. destruct (existsb _ rs) eqn:X; [left|right]; (split; [|reflexivity]).
    + apply existsb_exists in X as (r & I & H). apply in_map_iff in I as ([p f] & <- & I). apply (Permutation_in _ (Ho files)) in I. destruct (run p f) as [|[]] eqn:R; try discriminate. eauto 6.
    + intros p f c I R. apply Bool.not_true_iff_false in X. apply X, existsb_exists. exists (run p f). split; [|now rewrite R]. apply in_map_iff. exists (p, f). split; [reflexivity|]. now apply (Permutation_in _ (Permutation_sym (Ho files))).
Qed.
Print Assumptions C116_endings.
Example C116_example : csv_files ["/d/M00002_a.csv"; "/d/M00001.csv"; "/e/M00002.csv"; "/d/notes.csv"; "/d/M00003.txt"] = [("M00002", "/e/M00002.csv"); ("M00001", "/d/M00001.csv")] /\
  fit_posparams (fun p _ => if String.eqb p "M00002" then Ok "fine" else Err KeyError) (fun l => l) (Some 1%Z) ["/d/M00002.csv"; "/d/M00001.csv"] = Stopped ["fine"] KeyError.
Proof. split; reflexivity. Qed.
(** A run in a pool ends normally although a fit failed, and nothing tells so. *)
Theorem C116_failure_refuted : exists run n infiles, (exists p f, In (p, f) (csv_files infiles) /\ run p f = Err KeyError) /\
  forall order, (forall l, Permutation (order l) l) -> fit_posparams run order n infiles = Complete [].
Proof.
  exists (fun _ _ => Err KeyError), None, ["/d/M00001.csv"]. split; [exists "M00001", "/d/M00001.csv"; split; [now left|reflexivity]|]. intros order Ho. destruct (C116_endings (fun _ _ => Err KeyError) order None ["/d/M00001.csv"] Ho) as [_ H]. destruct (H ltac:(discriminate)) as [_ K]. destruct (K (or_introl eq_refl)) as (pr & P & [((p & f & c & _ & R) & _)|(_ & E)]); [discriminate|]. rewrite E. f_equal. cbn in P. now apply Permutation_sym, Permutation_nil in P.
Qed.
Print Assumptions C116_failure_refuted.
(** Not every recognized file is fitted. *)
Theorem C116_every_file_refuted : exists infiles f p, In f infiles /\ file_of p f /\ forall q, ~ In (q, f) (csv_files infiles).
Proof.
  exists ["/d/M00001.csv"; "/e/M00001.csv"], "/d/M00001.csv", "M00001". split; [now left|]. split; [now apply posid_spec|]. change (csv_files ["/d/M00001.csv"; "/e/M00001.csv"]) with [("M00001", "/e/M00001.csv")]. intros q [[=]|[]].
Qed.
Print Assumptions C116_every_file_refuted.
