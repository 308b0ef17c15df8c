(** Lemmas about the job files of images. *)
From Coq Require Import Lia DecimalString DecimalN.
From Verif.Model Require Import ImageJobs PosMoveSelection.
From Verif.Spec Require Import ImageJobs.
From Verif.Proofs Require Import Prelude PosMoveSelection.
From Verif.Proofs Require PyString.
Local Open Scope string_scope.
Local Open Scope list_scope.

(** * Dates and frames *)
Lemma split_first c s : exists d r, split_char c s = d :: r /\ free_of c d /\ (s = d \/ exists t, s = append d (String c t)).
Proof.
  induction s as [|a s IH]; cbn; [exists "", []; cbn; auto|]. destruct (Ascii.eqb a c) eqn:E.
  - apply Ascii.eqb_eq in E. subst a. exists "", (split_char c s). cbn. split; [reflexivity|]. split; [auto|]. right. exists s. reflexivity.
  - apply Ascii.eqb_neq in E. destruct IH as (d & r & Es & F & Q). rewrite Es. exists (String a d), r. split; [reflexivity|]. split; [cbn; auto|].
    destruct Q as [->|(t & ->)]; [left; reflexivity|right; exists t; reflexivity].
Qed.
Lemma before_unique c t d d' : free_of c d -> free_of c d' -> (t = d \/ exists r, t = append d (String c r)) -> (t = d' \/ exists r, t = append d' (String c r)) -> d = d'.
Proof.
  revert t d'. induction d as [|a d IH]; intros t d' F F' Q Q'.
  - destruct d' as [|a' d']; [reflexivity|]. cbn in F'. destruct Q as [->|(r & ->)]; destruct Q' as [E|(r' & E)]; try discriminate E; cbn in E; injection E; intros; subst; tauto.
  - destruct d' as [|a' d'].
    + cbn in F. destruct Q' as [->|(r & ->)]; destruct Q as [E|(r' & E)]; try discriminate E; cbn in E; injection E; intros; subst; tauto.
    + cbn in F, F'. destruct t as [|b t]; [destruct Q as [E|(r & E)]; discriminate E|].
      assert (b = a /\ (t = d \/ exists r, t = append d (String c r))) as [-> K] by (destruct Q as [E|(r & E)]; cbn in E; injection E; intros; subst; eauto).
      assert (a = a' /\ (t = d' \/ exists r, t = append d' (String c r))) as [-> K'] by (destruct Q' as [E|(r & E)]; cbn in E; injection E; intros; subst; eauto).
      f_equal. now apply (IH t d').
Qed.
Lemma found_false kw s : found kw s = false <-> ~ contains kw s.
Proof. rewrite <- found_spec. destruct (found kw s); split; congruence. Qed.
Lemma date_of_spec h : match date_of h with Some d => dated h d | None => forall d, ~ dated h d end.
Proof.
  assert (G : forall raw, (h_dateobs h = Some raw \/ h_dateobs h = None /\ h_date h = Some raw) ->
     match (match strip raw with "" => None | String _ _ => if found "astropy" (hd "" (split_char "." (strip raw))) then None else Some (hd "" (split_char "." (strip raw))) end) with Some d => dated h d | None => forall d, ~ dated h d end).
  { intros raw Hr. pose proof (strip_trimmed raw) as T.
    assert (U : forall raw' t, (h_dateobs h = Some raw' \/ h_dateobs h = None /\ h_date h = Some raw') -> trimmed raw' t -> t = strip raw).
    { intros raw' t Hr' T'. assert (raw' = raw) by (destruct Hr as [H|[H K]], Hr' as [H'|[H' K']]; congruence). subst. now apply (trimmed_unique raw). }
    destruct (strip raw) as [|c s] eqn:Es.
    - intros d (raw' & t & Hr' & T' & N & _). apply N. now apply (U raw').
    - destruct (split_first "." (String c s)) as (d & r & E & F & Q). rewrite E. cbn [hd]. destruct (found "astropy" d) eqn:A.
      + intros d' (raw' & t & Hr' & T' & N & F' & Q' & NA). rewrite (U _ _ Hr' T') in Q'. assert (d = d') by (eapply before_unique; eauto). subst. apply NA. now apply found_spec.
      + exists raw, (String c s). repeat split; auto; [discriminate|]. now apply found_false. }
  unfold date_of. destruct (h_dateobs h) as [s|] eqn:O; [apply G; now left|]. destruct (h_date h) as [s|] eqn:D; [apply G; now right|].
  intros d (raw & t & [H|[_ H]] & _); congruence.
Qed.
Lemma dated_unique h d d' : dated h d -> dated h d' -> d = d'.
Proof.
  intros (raw & t & H & T & N & F & Q & A) (raw' & t' & H' & T' & N' & F' & Q' & A').
  assert (raw' = raw) by (destruct H as [H|[H K]], H' as [H'|[H' K']]; congruence). subst. rewrite (trimmed_unique _ _ _ T' T) in Q'. eapply before_unique; eauto.
Qed.
Lemma frames_spec l : frames_are l (frames l).
Proof.
  induction l as [|h r IH]; cbn; [constructor|]. destruct (h_extname h) as [[e|]|] eqn:E; [|now constructor|constructor 3; auto].
  destruct (found "F0" e) eqn:F; cbn [negb]; [|constructor 3; auto; right; exists e; split; auto; left; now apply found_false].
  pose proof (date_of_spec h) as D. destruct (date_of h) as [d|]; [constructor 4; auto; now apply found_spec|constructor 3; auto; right; exists e; auto].
Qed.
Lemma image_spec o : image_has o (image_frames o).
Proof.
  destruct o as [[|h [|g r]]|]; cbn; try constructor.
  - pose proof (date_of_spec h) as D. destruct (date_of h); now constructor.
  - apply frames_spec.
Qed.
Lemma frames_unique l : forall a b, frames_are l a -> frames_are l b -> a = b.
Proof.
  induction l as [|h r IH]; intros a b A B; [inversion A; inversion B; reflexivity|].
  inversion A as [|? ? E1|? ? ? O1 R1|? ? ? e1 d1 E1 C1 D1 R1]; subst; inversion B as [|? ? E2|? ? ? O2 R2|? ? ? e2 d2 E2 C2 D2 R2]; subst; auto; try congruence.
  - destruct O2 as [O2|(e & O2 & _)]; congruence.
  - destruct O1 as [O1|(e & O1 & _)]; congruence.
  - destruct O1 as [O1|(e & O1 & [K|K])]; [congruence|..]; exfalso; [rewrite O1 in E2; injection E2 as <-; contradiction|eapply K; eauto].
  - destruct O2 as [O2|(e & O2 & [K|K])]; [congruence|..]; exfalso; [rewrite O2 in E1; injection E1 as <-; contradiction|eapply K; eauto].
  - f_equal; [|now apply IH]. f_equal; [congruence|eapply dated_unique; eauto].
Qed.
Lemma image_unique o a b : image_has o a -> image_has o b -> a = b.
Proof.
  intros A B. inversion A; subst; inversion B; subst; auto.
  - do 2 f_equal. eapply dated_unique; eauto.
  - exfalso. match goal with [H : forall d, ~ dated _ d, K : dated _ _ |- _] => exact (H _ K) end.
  - exfalso. match goal with [H : forall d, ~ dated _ d, K : dated _ _ |- _] => exact (H _ K) end.
  - eapply frames_unique; eauto.
Qed.
(** the frames of a line *)
Definition line_frames (fits_open : string -> option (list hdu)) (line : string) : list (string * (string * string)) :=
  if found "primary" (strip line) then [] else map (pair (strip line)) (image_frames (fits_open (strip line))).
Lemma line_spec fits_open line : line_has fits_open line (line_frames fits_open line).
Proof.
  exists (strip line). split; [apply strip_trimmed|]. unfold line_frames. destruct (found "primary" (strip line)) eqn:F; [left; split; auto; now apply found_spec|].
  right. split; [now apply found_false|]. exists (image_frames (fits_open (strip line))). split; [apply image_spec|reflexivity].
Qed.
Lemma line_unique fits_open line l : line_has fits_open line l -> l = line_frames fits_open line.
Proof.
  intros (f & T & Q). pose proof (trimmed_unique _ _ _ T (strip_trimmed line)) as ->. unfold line_frames. destruct Q as [[C ->]|[C (fr & I & ->)]].
  - apply found_spec in C. now rewrite C.
  - apply found_false in C. rewrite C. f_equal. eapply image_unique; [exact I|apply image_spec].
Qed.

(** * The loop *)
Definition missing (isfile : string -> bool) (t : task) : bool := negb (isfile (t_out t) && isfile (t_transfo t)).
Lemma add_frames isfile a f l : forall s,
  let s' := fold_left (add_frame isfile a f) l s in
  s_jobs s' = s_jobs s /\ s_open s' = s_open s ++ filter (missing isfile) (map (task_of a f) l) /\
  s_count s' = (s_count s + Z.of_nat (length (filter (missing isfile) (map (task_of a f) l))))%Z /\
  s_table s' = s_table s ++ map (fun fr => (snd fr, t_out (task_of a f fr))) l /\ s_chmod s' = s_chmod s /\ s_filename s' = s_filename s.
Proof.
  induction l as [|x l IH]; intros s; cbn [fold_left map filter]; [rewrite !app_nil_r; cbn; repeat split; lia|].
  destruct (IH (add_frame isfile a f s x)) as (J & O & C & T & M & N). cbn zeta. rewrite J, O, C, T, M, N. change (missing isfile (task_of a f x)) with (negb (isfile (t_out (task_of a f x)) && isfile (t_transfo (task_of a f x)))).
  unfold add_frame.
  destruct (isfile (t_out (task_of a f x)) && isfile (t_transfo (task_of a f x)))%bool; cbn [negb s_jobs s_open s_count s_table s_chmod s_filename length];
    rewrite <- ?app_assoc; repeat split; try reflexivity; lia.
Qed.
Section Loop.
Variable isfile : string -> bool.
Variable fits_open : string -> option (list hdu).
Variable a : args.
Definition tasks_of (l : list (string * (string * string))) : list task := filter (missing isfile) (map (fun '(f, fr) => task_of a f fr) l).
Definition rows_of (l : list (string * (string * string))) : list (string * string) := map (fun '(f, fr) => (snd fr, t_out (task_of a f fr))) l.
Definition run (lines : list string) : state := fold_left (line_step isfile fits_open a) lines start.
Definition starts (line : string) (s : state) : bool := (negb (found "primary" (strip line)) && (a_ntasks a <=? s_count s)%Z)%bool.
Lemma tasks_app l m : tasks_of (l ++ m) = tasks_of l ++ tasks_of m.
Proof. unfold tasks_of. now rewrite map_app, filter_app. Qed.
Lemma step_spec s line :
  let s' := line_step isfile fits_open a s line in
  s_table s' = s_table s ++ rows_of (line_frames fits_open line) /\ s_filename s' = Some (strip line) /\
  (if starts line s then s_jobs s' = s_jobs s ++ [s_open s] /\ s_open s' = tasks_of (line_frames fits_open line) /\
       s_count s' = Z.of_nat (length (tasks_of (line_frames fits_open line))) /\ s_chmod s' = s_chmod s ++ [strip line]
   else s_jobs s' = s_jobs s /\ s_open s' = s_open s ++ tasks_of (line_frames fits_open line) /\
       s_count s' = (s_count s + Z.of_nat (length (tasks_of (line_frames fits_open line))))%Z /\ s_chmod s' = s_chmod s).
Proof.
  unfold line_step, starts, line_frames, rows_of, tasks_of. destruct (found "primary" (strip line)) eqn:F; cbn [negb andb].
  - cbn. rewrite !app_nil_r. repeat split; lia.
  - rewrite !map_map. unfold next_job. cbn [s_count s_jobs s_open s_table s_chmod s_filename]. destruct (a_ntasks a <=? s_count s)%Z eqn:L;
      match goal with |- context [fold_left (add_frame isfile a ?f) ?l ?st] => pose proof (add_frames isfile a f l st) as Q end;
      cbn zeta in Q |- *; cbn [s_count s_jobs s_open s_table s_chmod s_filename] in Q; destruct Q as (J & O & C & T & M & N); rewrite J, O, C, T, M, N; repeat split; reflexivity.
Qed.
Lemma run_app lines line : run (lines ++ [line]) = line_step isfile fits_open a (run lines) line.
Proof. unfold run. now rewrite fold_left_app. Qed.
Definition all_frames (lines : list string) := flat_map (line_frames fits_open) lines.
Lemma all_app l x : all_frames (l ++ [x]) = all_frames l ++ line_frames fits_open x.
Proof. unfold all_frames. rewrite flat_map_app. cbn. now rewrite app_nil_r. Qed.
Lemma run_spec lines : let s := run lines in
  s_table s = rows_of (all_frames lines) /\ concat (s_jobs s) ++ s_open s = tasks_of (all_frames lines) /\ s_count s = Z.of_nat (length (s_open s)) /\
  length (s_chmod s) = length (s_jobs s) /\ (forall f, In f (s_chmod s) -> exists line, In line lines /\ f = strip line) /\
  s_filename s = last (map (fun l => Some (strip l)) lines) None.
Proof.
  induction lines as [|line lines IH] using rev_ind; [cbn; repeat split; auto; intros f []|]. rewrite run_app. destruct IH as (T & C & N & L & M & F).
  destruct (step_spec (run lines) line) as (T' & F' & Q). cbn zeta in *. rewrite T', T, F', all_app. split; [unfold rows_of; now rewrite map_app|].
  rewrite tasks_app, <- C. rewrite map_app. cbn [map]. rewrite last_last. destruct (starts line (run lines)); destruct Q as (J & O & K & H); rewrite J, O, K, H; repeat split; auto.
  - rewrite concat_app. cbn. now rewrite app_nil_r.
  - rewrite !app_length. cbn. lia.
  - intros f I. apply in_app_or in I. destruct I as [I|[<-|[]]]; [destruct (M f I) as (l & Il & E); exists l; split; auto; apply in_or_app; auto|].
    exists line. split; auto. apply in_or_app. right. now left.
  - now rewrite app_assoc.
  - rewrite app_length, N. lia.
  - intros f I. destruct (M f I) as (l & Il & E). exists l. split; auto. apply in_or_app. auto.
Qed.
Lemma sizes (m : nat) lines : (1 <= a_ntasks a)%Z -> (forall line, In line lines -> (length (line_frames fits_open line) <= m)%nat) ->
  let s := run lines in
  Forall (fun j => (a_ntasks a <= Z.of_nat (length j) < a_ntasks a + Z.of_nat m)%Z) (s_jobs s) /\ (Z.of_nat (length (s_open s)) < a_ntasks a + Z.of_nat m)%Z.
Proof.
  intros P. induction lines as [|line lines IH] using rev_ind; intros B; [cbn; split; [constructor|lia]|]. rewrite run_app.
  destruct IH as (A & O); [intros l I; apply B, in_or_app; auto|]. destruct (step_spec (run lines) line) as (_ & _ & Q). cbn zeta in *.
  assert (K : (length (tasks_of (line_frames fits_open line)) <= m)%nat).
  { specialize (B line). unfold tasks_of. transitivity (length (line_frames fits_open line)); [|apply B, in_or_app; right; now left].
    rewrite <- (map_length (fun '(f, fr) => task_of a f fr)). generalize (map (fun '(f, fr) => task_of a f fr) (line_frames fits_open line)). intros l. induction l as [|x l IHl]; cbn; [lia|]. destruct (missing isfile x); cbn; lia. }
  destruct (run_spec lines) as (_ & _ & N & _). cbn zeta in N. unfold starts in Q. destruct (found "primary" (strip line)) eqn:F; cbn [negb andb] in Q.
  - destruct Q as (J & O' & _). rewrite J, O'. unfold line_frames. rewrite F. cbn. rewrite app_nil_r. auto.
  - destruct (a_ntasks a <=? s_count (run lines))%Z eqn:L; [apply Z.leb_le in L|apply Z.leb_gt in L]; destruct Q as (J & O' & _); rewrite J, O'; split; auto.
    + apply Forall_app. split; auto. constructor; [|constructor]. lia.
    + lia.
    + rewrite app_length. lia.
Qed.
Lemma always_new lines : (a_ntasks a <= 0)%Z -> (forall line, In line lines -> found "primary" (strip line) = false) -> length (s_jobs (run lines)) = length lines.
Proof.
  intros P. induction lines as [|line lines IH] using rev_ind; intros B; [reflexivity|]. rewrite run_app. destruct (step_spec (run lines) line) as (_ & _ & Q). cbn zeta in Q.
  unfold starts in Q. rewrite (B line) in Q by (apply in_or_app; right; now left). destruct (run_spec lines) as (_ & _ & N & _). cbn zeta in N.
  assert (E : (a_ntasks a <=? s_count (run lines))%Z = true) by (apply Z.leb_le; lia). rewrite E in Q. cbn in Q. destruct Q as (J & _). rewrite J, !app_length, IH; [reflexivity|].
  intros l I. apply B, in_or_app. auto.
Qed.
Lemma written_spec lines w : write_scripts isfile fits_open a lines = Ok w ->
  lines <> [] /\ w_jobs w = s_jobs (run lines) ++ [s_open (run lines)] /\ w_table w = s_table (run lines) /\ w_chmod w = s_chmod (run lines) ++ [strip (last lines "")].
Proof.
  unfold write_scripts. fold (run lines). destruct (run_spec lines) as (_ & _ & _ & _ & _ & F). cbn zeta in *. rewrite F. destruct lines as [|x l] using rev_ind; [discriminate|].
  rewrite map_app. cbn [map]. rewrite last_last. intros E. injection E as <-. rewrite last_last. cbn. repeat split. intros K. apply app_eq_nil in K. now destruct K.
Qed.
End Loop.

(** * Names of job files *)
Definition value (s : string) : option N := option_map N.of_uint (NilEmpty.uint_of_string s).
Lemma value_number n : value (str_of_N n) = Some n.
Proof.
  unfold value, str_of_N. destruct (N.to_uint n) eqn:E; cbn [NilZero.string_of_uint];
    [pose proof (Unsigned.of_to n) as K; rewrite E in K; cbn in K; subst n; reflexivity|..]; rewrite NilEmpty.usu; cbn [option_map]; rewrite <- E, Unsigned.of_to; reflexivity.
Qed.
Lemma value_zero s : value ("0" ++ s) = value s.
Proof. unfold value. cbn. destruct (NilEmpty.uint_of_string s); reflexivity. Qed.
Lemma value_pad s : value (pad3 s) = value s.
Proof.
  unfold pad3. destruct (String.length s) as [|[|[|k]]].
  - change ("000" ++ s)%string with ("0" ++ ("0" ++ ("0" ++ s)))%string. now rewrite !value_zero.
  - change ("00" ++ s)%string with ("0" ++ ("0" ++ s))%string. now rewrite !value_zero.
  - apply value_zero.
  - reflexivity.
Qed.
Lemma app_inv_head_s x : forall y z, append x y = append x z -> y = z.
Proof. induction x as [|c x IH]; intros y z E; [exact E|]. injection E as E. auto. Qed.
Lemma join_plain a : exists p, forall r, path_join a (String "j" r) = append p (String "j" r).
Proof.
  unfold path_join. destruct (last_char a) as [[b0 b1 b2 b3 b4 b5 b6 b7]|]; [|exists a; reflexivity].
  assert (D : forall r, (a ++ "/" ++ String "j" r)%string = ((a ++ "/") ++ String "j" r)%string) by (intros r; now rewrite PyString.app_assoc_s).
  destruct b0; [|exists (a ++ "/")%string; exact D]. destruct b1; [|exists (a ++ "/")%string; exact D]. destruct b2; [|exists (a ++ "/")%string; exact D].
  destruct b3; [|exists (a ++ "/")%string; exact D]. destruct b4; [exists (a ++ "/")%string; exact D|]. destruct b5; [|exists (a ++ "/")%string; exact D].
  destruct b6; [exists (a ++ "/")%string; exact D|]. destruct b7; [exists (a ++ "/")%string; exact D|]. exists a. reflexivity.
Qed.
Lemma job_name_inj a k j : job_name a k = job_name a j -> k = j.
Proof.
  unfold job_name. cbn [append]. destruct (join_plain (a_jobdir a)) as (p & Q). rewrite !Q. intros E. apply app_inv_head_s in E. injection E as K.
  apply PyString.app_inv_tail_s in K. apply (f_equal value) in K. rewrite !value_pad, !value_number in K. injection K as K. lia.
Qed.

(** * Text *)
Lemma has_app c s t : has_char c (append s t) = (has_char c s || has_char c t)%bool.
Proof. induction s as [|x s IH]; cbn; [reflexivity|]. rewrite IH. now destruct (Ascii.eqb x c). Qed.
Lemma split_line w s : has_char newline w = false -> split_char newline (append w (append nl s)) = w :: split_char newline s.
Proof. intros H. change (append nl s) with (String newline s). now apply split_char_app. Qed.
Lemma replace_none old new s : ~ contains old s -> old <> "" -> replace old new s = s.
Proof.
  unfold replace. induction s as [|c s IH]; intros H N; [reflexivity|]. cbn [replace_from]. destruct (String.prefix old (String c s)) eqn:E.
  - apply PyString.prefix_app in E as (r & E). exfalso. apply H. exists "", r. exact E.
  - rewrite IH; auto. intros (x & y & ->). apply H. exists (String c x), y. reflexivity.
Qed.
Lemma replace_dots s : replace "." "-" s = dashed s.
Proof.
  unfold replace. induction s as [|c s IH]; [reflexivity|]. cbn [replace_from String.prefix dashed]. destruct (ascii_dec "." c) as [<-|N].
  - cbn. rewrite IH. now destruct s.
  - rewrite IH. destruct (Ascii.eqb_spec c "."); [congruence|]. reflexivity.
Qed.
Lemma contains_longer x y s : contains (append x y) s -> contains x s.
Proof. intros (a & b & ->). exists a, (append y b). now rewrite append_assoc. Qed.
Lemma free_no_slash b : free_of "/" b -> PyString.has_char "/" b = false.
Proof. induction b as [|c b IH]; cbn; [reflexivity|]. intros [N F]. rewrite (IH F). apply Ascii.eqb_neq in N. now rewrite N. Qed.
Lemma short_name_spec d b e : (d = "" \/ exists d', d = append d' "/") -> free_of "/" b -> ~ contains ".fits" b -> In e [""; ".fz"; ".gz"] ->
  short_name (append d (append b (append ".fits" e))) = dashed b.
Proof.
  intros D F C E. unfold short_name. rewrite replace_dots. f_equal.
  assert (B : basename (append d (append b (append ".fits" e))) = append b (append ".fits" e)).
  { assert (K : PyString.has_char "/" (append b (append ".fits" e)) = false) by (rewrite !PyString.has_app, (free_no_slash _ F); destruct E as [<-|[<-|[<-|[]]]]; reflexivity).
    destruct D as [->|(d' & ->)]; [now apply PyString.basename_plain|]. rewrite append_assoc. now apply PyString.basename_dir. }
  rewrite B. assert (Cl : PyString.clean b) by exact C.
  assert (Z : forall o, In o [".fits"; ".fits.gz"; ".fits.fz"] -> replace o "" b = b).
  { intros o O. apply replace_none; [|destruct O as [<-|[<-|[<-|[]]]]; discriminate]. intros K. apply C. destruct O as [<-|[<-|[<-|[]]]]; auto; eapply (contains_longer ".fits"); exact K. }
  assert (A : forall o x, In o [".fits"; ".fits.gz"; ".fits.fz"] -> replace o "" (append b (String "." x)) = append b (replace o "" (String "." x))).
  { intros o x O. destruct O as [<-|[<-|[<-|[]]]]; [apply (PyString.replace_clean _ "")|apply (PyString.replace_clean _ ".gz")|apply (PyString.replace_clean _ ".fz")]; auto. }
  destruct E as [<-|[<-|[<-|[]]]]; cbn [append].
  - rewrite (A ".fits.fz") by (cbn; auto). change (replace ".fits.fz" "" ".fits") with ".fits". rewrite (A ".fits.gz") by (cbn; auto). change (replace ".fits.gz" "" ".fits") with ".fits".
    rewrite (A ".fits") by (cbn; auto). change (replace ".fits" "" ".fits") with "". apply append_nil_r.
  - rewrite (A ".fits.fz") by (cbn; auto). change (replace ".fits.fz" "" ".fits.fz") with "". rewrite append_nil_r, !Z by (cbn; auto). reflexivity.
  - rewrite (A ".fits.fz") by (cbn; auto). change (replace ".fits.fz" "" ".fits.gz") with ".fits.gz". rewrite (A ".fits.gz") by (cbn; auto). change (replace ".fits.gz" "" ".fits.gz") with "".
    rewrite append_nil_r, Z by (cbn; auto). reflexivity.
Qed.
(** the lines of a task *)
Lemma has_free c s : free_of c s -> Prelude.has_char c s = false.
Proof. intros H. now apply free_of_has. Qed.
Lemma text_lines a t rest : free_of newline (t_image t) -> free_of newline (t_ext t) -> free_of newline (t_out t) -> free_of newline (t_transfo t) -> free_of newline (done_file a) ->
  match a_options a with None => True | Some o => free_of newline o end ->
  split_char newline (append (task_text a t) rest) = task_lines a t ++ split_char newline rest.
Proof.
  intros H1 H2 H3 H4 H5 H6. apply has_free in H1, H2, H3, H4, H5. unfold task_text, task_lines.
  assert (H7 : Prelude.has_char newline (if String.eqb (t_ext t) "0" then "" else (" --ext " ++ t_ext t)%string) = false) by (destruct (String.eqb (t_ext t) "0"); [reflexivity|]; now rewrite has_app, H2).
  assert (H8 : Prelude.has_char newline (match a_options a with None => "" | Some o => (" " ++ o)%string end) = false) by (destruct (a_options a) as [o|]; [apply has_free in H6; now rewrite has_app, H6|reflexivity]).
  set (ext := if String.eqb (t_ext t) "0" then "" else (" --ext " ++ t_ext t)%string) in *. set (opt := match a_options a with None => "" | Some o => (" " ++ o)%string end) in *. clearbody ext opt.
  set (out := t_out t) in *. set (dn := done_file a) in *. set (im := t_image t) in *. set (tr := t_transfo t) in *. clearbody out dn im tr.
  transitivity (split_char newline (("done=`grep " ++ out ++ " " ++ dn ++ " | wc -l`") ++ nl ++ "if (( done == 0 )) ; then" ++ nl ++
    ("desi_fvc_proc -i " ++ im ++ " -o " ++ out ++ " --output-transform " ++ tr ++ ext ++ opt) ++ nl ++ ("echo " ++ out ++ " >> " ++ dn) ++ nl ++ "else" ++ nl ++ ("echo " ++ out ++ " exists") ++ nl ++ "fi" ++ nl ++ rest)%string).
  { f_equal. rewrite !append_assoc. reflexivity. }
  repeat (rewrite split_line; [|rewrite ?has_app, ?H1, ?H3, ?H4, ?H5, ?H7, ?H8; reflexivity]). reflexivity.
Qed.
