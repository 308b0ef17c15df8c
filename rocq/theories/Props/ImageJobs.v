(** C124: the job files that process a list of images. *)
From Coq Require Import Lia FinFun.
From Verif.Model Require Import ImageJobs.
From Verif.Spec Require Import ImageJobs.
From Verif.Proofs Require Import ImageJobs.
From Verif.Model Require PosMoveSelection.
From Verif.Proofs Require PosMoveSelection Prelude.
Local Open Scope string_scope.
Local Open Scope list_scope.

Lemma frames_exist fits_open lines : Forall2 (line_has fits_open) lines (map (line_frames fits_open) lines).
Proof. induction lines as [|x l IH]; cbn; constructor; auto. apply line_spec. Qed.

(** C124: the table has a row for every frame of every image, in order, and the job files together a task for each of them whose two outputs are not both there *)
Theorem C124_tasks isfile fits_open a lines w : write_scripts isfile fits_open a lines = Ok w ->
  exists ls, Forall2 (line_has fits_open) lines ls /\
    w_table w = map (fun '(f, fr) => (snd fr, t_out (task_of a f fr))) (concat ls) /\
    concat (w_jobs w) = filter (fun t => negb (isfile (t_out t) && isfile (t_transfo t))) (map (fun '(f, fr) => task_of a f fr) (concat ls)).
Proof.
  intros H. destruct (written_spec _ _ _ _ _ H) as (_ & J & T & _). destruct (run_spec isfile fits_open a lines) as (T' & C & _). cbn zeta in *.
  exists (map (line_frames fits_open) lines). split; [apply frames_exist|]. rewrite <- flat_map_concat_map. rewrite T, T', J, concat_app. cbn. rewrite app_nil_r, C. split; reflexivity.
Qed.
(** The frames of a line are determined by the image *)
Theorem C124_frames fits_open line l l' : line_has fits_open line l -> line_has fits_open line l' -> l = l'.
Proof. intros A B. now rewrite (line_unique _ _ _ A), (line_unique _ _ _ B). Qed.
(** The outputs of a frame of an image whose name has the usual form *)
Theorem C124_outputs a d b e ext date : (d = "" \/ exists d', d = append d' "/") -> free_of "/" b -> ~ contains ".fits" b -> In e [""; ".fz"; ".gz"] ->
  let image := (d ++ b ++ ".fits" ++ e)%string in
  task_of a image (ext, date) = {| t_image := image; t_ext := ext; t_out := (a_outdir a ++ "/" ++ dashed b ++ "-" ++ ext ++ "-" ++ date ++ ".csv")%string;
    t_transfo := (path_join (a_outdir a) "transfo" ++ "/" ++ dashed b ++ "-" ++ ext ++ "-" ++ date ++ ".json")%string |}.
Proof.
  intros D F C E image. unfold task_of, image. rewrite (short_name_spec d b e D F C E). cbn [fst snd]. f_equal; rewrite !PosMoveSelection.append_assoc; reflexivity.
Qed.
(** The sizes of the job files: a new one begins with the first image after the number asked for is reached; with a number below 1, with every image *)
Theorem C124_sizes isfile fits_open a lines w m : write_scripts isfile fits_open a lines = Ok w -> (1 <= a_ntasks a)%Z ->
  (forall line l, In line lines -> line_has fits_open line l -> (length l <= m)%nat) ->
  exists closed last, w_jobs w = closed ++ [last] /\
    Forall (fun j => (a_ntasks a <= Z.of_nat (length j) < a_ntasks a + Z.of_nat m)%Z) closed /\ (Z.of_nat (length last) < a_ntasks a + Z.of_nat m)%Z.
Proof.
  intros H P B. destruct (written_spec _ _ _ _ _ H) as (_ & J & _). exists (s_jobs (run isfile fits_open a lines)), (s_open (run isfile fits_open a lines)). split; [exact J|].
  apply (sizes isfile fits_open a m lines P). intros line I. apply (B line); auto. apply line_spec.
Qed.
Theorem C124_no_size isfile fits_open a lines w : write_scripts isfile fits_open a lines = Ok w -> (a_ntasks a <= 0)%Z -> (forall line, In line lines -> ~ primary line) ->
  length (w_jobs w) = S (length lines).
Proof.
  intros H P B. destruct (written_spec _ _ _ _ _ H) as (_ & J & _). rewrite J, app_length, always_new; auto; [cbn; lia|].
  intros line I. apply found_false. intros C. apply (B line I). exists (PosMoveSelection.strip line). split; [apply PosMoveSelection.strip_trimmed|exact C].
Qed.
(** The files: one for every job, with different names, and in each the lines of its tasks in order *)
Theorem C124_files a w : map fst (job_files a w) = map (job_name a) (seq 0 (length (w_jobs w))) /\ NoDup (map fst (job_files a w)) /\
  forall k l, nth_error (w_jobs w) k = Some l ->
    Forall (fun t => free_of newline (t_image t) /\ free_of newline (t_ext t) /\ free_of newline (t_out t) /\ free_of newline (t_transfo t)) l ->
    free_of newline (done_file a) -> match a_options a with None => True | Some o => free_of newline o end ->
    exists text, nth_error (job_files a w) k = Some (job_name a k, text) /\ split_char newline text = "#!/bin/bash" :: flat_map (task_lines a) l ++ [""].
Proof.
  assert (N : map fst (job_files a w) = map (job_name a) (seq 0 (length (w_jobs w)))).
  { unfold job_files. generalize 0%nat. induction (w_jobs w) as [|x l IH]; intros n; cbn; [reflexivity|]. now rewrite IH. }
  split; [exact N|]. split.
  - rewrite N. apply FinFun.Injective_map_NoDup; [intros x y E; now apply job_name_inj in E|apply seq_NoDup].
  - intros k l E F D O. exists (job_text a l). split.
    + unfold job_files. assert (G : forall (js : list (list task)) n i, nth_error js i = Some l -> nth_error (map (fun '(k, l) => (job_name a k, job_text a l)) (combine (seq n (length js)) js)) i = Some (job_name a (n + i), job_text a l)).
      { induction js as [|x js IH]; intros n [|i] Q; cbn in Q; try discriminate; cbn [length seq combine map nth_error]; [injection Q as ->; now rewrite Nat.add_0_r|]. rewrite IH by exact Q. now rewrite Nat.add_succ_r. }
      apply (G _ 0%nat k E).
    + unfold job_text. rewrite split_line by reflexivity. f_equal. clear E N. induction F as [|t l (F1 & F2 & F3 & F4) _ IH]; [reflexivity|].
      cbn [map flat_map]. rewrite <- app_assoc, <- IH. rewrite <- text_lines by assumption. f_equal. destruct l as [|t' l]; cbn; [now rewrite PosMoveSelection.append_nil_r|reflexivity].
Qed.
(** What chmod is given are names of images of the list, one for each job file: a job file only if the list names it *)
Theorem C124_chmod isfile fits_open a lines w : write_scripts isfile fits_open a lines = Ok w ->
  length (w_chmod w) = length (w_jobs w) /\ forall f, In f (w_chmod w) -> exists line, In line lines /\ trimmed line f.
Proof.
  intros H. destruct (written_spec _ _ _ _ _ H) as (E & J & _ & M). destruct (run_spec isfile fits_open a lines) as (_ & _ & _ & L & K & _). cbn zeta in *.
  rewrite M, J, !app_length, L. split; [reflexivity|]. intros f I. apply in_app_or in I. destruct I as [I|[<-|[]]].
  - destruct (K f I) as (line & Il & ->). exists line. split; auto. apply PosMoveSelection.strip_trimmed.
  - exists (last lines ""). split; [|apply PosMoveSelection.strip_trimmed]. destruct lines as [|x l] using rev_ind; [contradiction|]. rewrite last_last. apply in_or_app. right. now left.
Qed.
(** A list without a line stops the script; any other does not *)
Theorem C124_fails isfile fits_open a lines : (lines = [] -> write_scripts isfile fits_open a lines = Err NameError) /\ (lines <> [] -> exists w, write_scripts isfile fits_open a lines = Ok w).
Proof.
  split; [intros ->; reflexivity|]. intros H. unfold write_scripts. destruct (run_spec isfile fits_open a lines) as (_ & _ & _ & _ & _ & F). unfold run in F. cbn zeta in *. rewrite F.
  destruct lines as [|x l] using rev_ind; [contradiction|]. rewrite map_app. cbn [map]. rewrite last_last. eauto.
Qed.
Print Assumptions C124_tasks.
Print Assumptions C124_frames.
Print Assumptions C124_outputs.
Print Assumptions C124_sizes.
Print Assumptions C124_no_size.
Print Assumptions C124_files.
Print Assumptions C124_chmod.
Print Assumptions C124_fails.

(** Running the job files one after the other, with any grep that finds a name in its own line: an output is processed at most once and only if DONE.txt has no line for it,
    every one has a line then, and running the files again does nothing, whatever the processing did *)
Theorem C124_run matches done jobs : (forall t, In t (concat jobs) -> matches (t_out t) (t_out t) = true) ->
  let r := run_jobs matches done jobs in
  fst r = done ++ map t_out (snd r) /\ incl (snd r) (concat jobs) /\ NoDup (map t_out (snd r)) /\ (forall t l, In t (snd r) -> In l done -> matches (t_out t) l = false) /\
  (forall t, In t (concat jobs) -> exists l, In l (fst r) /\ matches (t_out t) l = true) /\ run_jobs matches (fst r) jobs = (fst r, []).
Proof.
  unfold run_jobs. generalize (concat jobs) as ts. intros ts S0.
  assert (G : let r := fold_left (run_task matches) ts (done, []) in
    fst r = done ++ map t_out (snd r) /\ incl (snd r) ts /\ NoDup (map t_out (snd r)) /\ (forall t l, In t (snd r) -> In l done -> matches (t_out t) l = false) /\
    (forall t, In t ts -> exists l, In l (fst r) /\ matches (t_out t) l = true)).
  { induction ts as [|t ts IH] using rev_ind; [cbn; rewrite app_nil_r; split; [reflexivity|]; split; [intros ? []|]; split; [constructor|]; split; [intros ? ? []|intros ? []]|].
    destruct IH as (A & B & C & D & E); [intros x I; apply S0, in_or_app; auto|]. rewrite fold_left_app. cbn [fold_left]. cbn zeta in *.
    set (r := fold_left (run_task matches) ts (done, [])) in *. clearbody r. unfold run_task. destruct (existsb (matches (t_out t)) (fst r)) eqn:X.
    - repeat split; auto; [intros x I; apply in_or_app; auto|]. intros x I. apply in_app_or in I. destruct I as [I|[<-|[]]]; [auto|]. apply existsb_exists in X. destruct X as (l & Il & M). eauto.
    - assert (Y : forall l, In l (fst r) -> matches (t_out t) l = false) by (intros l I; destruct (matches (t_out t) l) eqn:M; [|reflexivity]; rewrite <- X; symmetry; apply existsb_exists; eauto).
      cbn [fst snd]. rewrite map_app. cbn [map]. repeat split.
      + rewrite A at 1. now rewrite app_assoc.
      + intros x I. apply in_or_app. apply in_app_or in I. destruct I as [I|[<-|[]]]; [left; auto|right; now left].
      + rewrite <- (app_nil_r (map t_out (snd r) ++ [t_out t])), <- app_assoc. apply NoDup_Add with (a := t_out t) (l := map t_out (snd r)); [rewrite <- (app_nil_r (map t_out (snd r))) at 1; apply Add_app|].
        split; auto. intros I. assert (K : matches (t_out t) (t_out t) = false) by (apply Y; rewrite A; apply in_or_app; auto).
        rewrite S0 in K; [discriminate|]. apply in_or_app. right. now left.
      + intros x l I Il. apply in_app_or in I. destruct I as [I|[<-|[]]]; [eauto|]. apply Y. rewrite A. apply in_or_app. auto.
      + intros x I. apply in_app_or in I. destruct I as [I|[<-|[]]].
        * destruct (E x I) as (l & Il & M). exists l. split; auto. apply in_or_app. auto.
        * exists (t_out t). split; [apply in_or_app; right; now left|]. apply S0, in_or_app. right. now left. }
  cbn zeta in *. destruct G as (A & B & C & D & E). repeat split; auto. clear A B C D S0. set (dn := fst (fold_left (run_task matches) ts (done, []))) in *. clearbody dn.
  induction ts as [|t ts IH]; [reflexivity|]. cbn [fold_left]. unfold run_task at 2. cbn [fst]. assert (X : existsb (matches (t_out t)) dn = true) by (apply existsb_exists; destruct (E t) as (l & ?); [now left|exists l; auto]).
  rewrite X. apply IH. intros x I. apply E. now right.
Qed.
(** With a grep that finds nothing but whole lines, the outputs processed are those of the jobs without a line in DONE.txt *)
Theorem C124_run_exact done jobs t : In t (concat jobs) -> (In (t_out t) (map t_out (snd (run_jobs String.eqb done jobs))) <-> ~ In (t_out t) done).
Proof.
  intros I. destruct (C124_run String.eqb done jobs) as (A & B & C & D & E & _); [intros x _; apply String.eqb_refl|]. split.
  - intros J K. apply in_map_iff in J. destruct J as (x & Ex & Ix). specialize (D x (t_out t) Ix K). rewrite Ex, String.eqb_refl in D. discriminate.
  - intros N. destruct (E t I) as (l & Il & M). apply String.eqb_eq in M. subst l. rewrite A in Il. apply in_app_or in Il. tauto.
Qed.
Print Assumptions C124_run.
Print Assumptions C124_run_exact.

(** * Concrete lists *)
Definition ex_args := {| a_jobdir := "jobs"; a_outdir := "out"; a_ntasks := 1; a_options := Some "--expected x" |}.
Definition ex_open (f : string) : option (list hdu) :=
  if String.eqb f "/d/fvc.1.fits.fz" then Some [{| h_extname := None; h_dateobs := None; h_date := None |};
     {| h_extname := Some (Some "F0000"); h_dateobs := Some " 2020-01-01T00:00:00.5 "; h_date := None |}; {| h_extname := Some (Some "F0001"); h_dateobs := None; h_date := Some "2020-01-01T00:01:00" |}]
  else if String.eqb f "/d/two.fits" then Some [{| h_extname := None; h_dateobs := Some "2020-02-02"; h_date := Some "x" |}]
  else if String.eqb f "/e/two.fits" then Some [{| h_extname := None; h_dateobs := Some "2020-02-02"; h_date := None |}]
  else None.
Example C124_example : exists w, write_scripts (fun _ => false) ex_open ex_args ["/d/fvc.1.fits.fz "; "/d/primary.fits"; "/d/none.fits"; "/d/two.fits"] = Ok w /\
  map (map t_out) (w_jobs w) = [["out/fvc-1-F0000-2020-01-01T00:00:00.csv"; "out/fvc-1-F0001-2020-01-01T00:01:00.csv"]; ["out/two-0-2020-02-02.csv"]] /\
  map fst (job_files ex_args w) = ["jobs/job-000.sh"; "jobs/job-001.sh"] /\
  map fst (w_table w) = ["2020-01-01T00:00:00"; "2020-01-01T00:01:00"; "2020-02-02"] /\
  nth_error (map (fun f => split_char newline (snd f)) (job_files ex_args w)) 1 = Some ["#!/bin/bash"; "done=`grep out/two-0-2020-02-02.csv jobs/DONE.txt | wc -l`"; "if (( done == 0 )) ; then";
    "desi_fvc_proc -i /d/two.fits -o out/two-0-2020-02-02.csv --output-transform out/transfo/two-0-2020-02-02.json --expected x";
    "echo out/two-0-2020-02-02.csv >> jobs/DONE.txt"; "else"; "echo out/two-0-2020-02-02.csv exists"; "fi"; ""] /\
  fst (run_jobs String.eqb ["# DONE:"; "out/fvc-1-F0001-2020-01-01T00:01:00.csv"] (w_jobs w)) = ["# DONE:"; "out/fvc-1-F0001-2020-01-01T00:01:00.csv"; "out/fvc-1-F0000-2020-01-01T00:00:00.csv"; "out/two-0-2020-02-02.csv"].
Proof. eexists. vm_compute. repeat split; reflexivity. Qed.
(** It is false that a job file has at most as many tasks as asked for (the frames of an image stay together) *)
Theorem C124_sizes_refuted : ~ (forall isfile fits_open a lines w j, write_scripts isfile fits_open a lines = Ok w -> (1 <= a_ntasks a)%Z -> In j (w_jobs w) -> (Z.of_nat (length j) <= a_ntasks a)%Z).
Proof.
  intros H. destruct (write_scripts (fun _ => false) ex_open ex_args ["/d/fvc.1.fits.fz"]) as [w|e] eqn:E; [|vm_compute in E; discriminate].
  pose proof (H _ _ _ _ w (hd [] (w_jobs w)) E) as K. vm_compute in E. injection E as <-. cbn in K. specialize (K ltac:(lia) ltac:(auto)). lia.
Qed.
(** It is false that the job files are made executable *)
Theorem C124_executable_refuted : ~ (forall isfile fits_open a lines w f, write_scripts isfile fits_open a lines = Ok w -> In f (map fst (job_files a w)) -> In f (w_chmod w)).
Proof.
  intros H. destruct (write_scripts (fun _ => false) ex_open ex_args ["/d/two.fits"]) as [w|e] eqn:E; [|vm_compute in E; discriminate].
  pose proof (H _ _ _ _ w "jobs/job-000.sh" E) as K. vm_compute in E. injection E as <-. specialize (K ltac:(vm_compute; auto)). vm_compute in K. destruct K as [K|[]]. discriminate.
Qed.
(** It is false that every image of the list is processed: images of the same name in two directories have the same output, and the second is not processed *)
Theorem C124_collision_refuted : ~ (forall fits_open a lines w t, write_scripts (fun _ => false) fits_open a lines = Ok w -> In t (concat (w_jobs w)) -> In (t_image t) (map t_image (snd (run_jobs String.eqb [] (w_jobs w))))).
Proof.
  intros H. destruct (write_scripts (fun _ => false) ex_open ex_args ["/d/two.fits"; "/e/two.fits"]) as [w|e] eqn:E; [|vm_compute in E; discriminate].
  pose proof (H _ _ _ w (task_of ex_args "/e/two.fits" ("0", "2020-02-02")) E) as K. vm_compute in E. injection E as <-. specialize (K ltac:(vm_compute; auto)). vm_compute in K. destruct K as [K|[]]. discriminate.
Qed.
Print Assumptions C124_sizes_refuted.
Print Assumptions C124_executable_refuted.
Print Assumptions C124_collision_refuted.
