(** C58: which image the table returned by process_fvc belongs to. *)
From Verif.Model Require Import ProcessFvc.
From Verif.Proofs Require Import PyString.
From Verif.Spec Require Import FileNames.
Local Open Scope string_scope.
Local Open Scope list_scope.

(** the argument parser takes two file names that are not options as they are *)
Definition parses (parse : list string -> option (string * string)) : Prop := forall i o, (forall r, i <> ("-" ++ r)%string) -> (forall r, o <> ("-" ++ r)%string) -> parse ["-i"; i; "-o"; o] = Some (i, o).
Definition output (b : string) : string := ("/tmp/" ++ b ++ ".csv")%string.

Lemma output_inj b b' : output b = output b' -> b = b'.
Proof. unfold output. intros H. injection H as H. now apply app_inv_tail_s in H. Qed.

(** Without a previous output, or with overwrite, the table returned is that of the image, in whichever way it is run; it is also what the output file holds afterwards. *)
Theorem C58_processed : forall (image table : Type) analyse parse (fs : files image table) d b f overwrite sub i, parses parse -> exposure d b f -> overwrite = true \/ fs (output b) = None -> fs f = Some (Image i) ->
  process_fvc analyse parse fs f overwrite sub =
  match analyse i with
  | Ok (Some t) => (Ok (Some t), write fs (output b) t)
  | Ok None => (Ok None, fs)
  | Err e => (if sub then Ok None else Err e, fs)
  end.
Proof.
  intros image table analyse parse fs d b f overwrite sub i Hp He Hc Hi. unfold process_fvc. rewrite (find_csv _ _ _ He). cbn [Z.gtb Z.compare]. pose proof (find_fits _ _ _ He) as Hf. destruct (Z.ltb_spec (find ".fits" f) 0); [lia|]. cbv zeta. pose proof (outfilename _ _ _ He) as Ho. rewrite (command_words _ _ _ He). rewrite Ho. fold (output b) in *.
  replace (match fs (output b) with Some _ => true | None => false end && negb overwrite)%bool with false by (destruct Hc as [-> | ->]; [now rewrite Bool.andb_false_r|reflexivity]).
  assert (Pa : parse ["-i"; f; "-o"; output b] = Some (f, output b)) by (apply Hp; [exact (e_dash _ _ _ He)|intros r; discriminate]).
  assert (Ew : endswith ".csv" (output b) = true) by (unfold output; rewrite <- app_assoc_s; apply endswith_app).
  assert (Ef : fvc_proc analyse fs f (output b) = rmap (fun r => match r with None => (13, fs) | Some t => (0, write fs (output b) t) end) (analyse i)). { unfold fvc_proc. rewrite Ew. cbn [negb]. destruct (Z.gtb_spec (find ".fits" f) 0); [|lia]. now rewrite Hi. }
  unfold program. rewrite Pa, Ef. assert (Rd : forall t, read_table (write fs (output b) t) (output b) = Ok t) by (intros t; unfold read_table, write; now rewrite String.eqb_refl).
  destruct sub, (analyse i) as [[t|]|e]; cbn [rmap Z.eqb]; rewrite ?Rd; reflexivity.
Qed.
Print Assumptions C58_processed.
(** Otherwise the image is not looked at. *)
Theorem C58_cached : forall (image table : Type) analyse parse (fs : files image table) d b f sub c, exposure d b f -> fs (output b) = Some c ->
  process_fvc analyse parse fs f false sub = (match c with Csv t => Ok (Some t) | Image _ => Err ValueError end, fs).
Proof.
  intros image table analyse parse fs d b f sub c He Hc. unfold process_fvc. rewrite (find_csv _ _ _ He). cbn [Z.gtb Z.compare]. pose proof (find_fits _ _ _ He) as Hf. destruct (Z.ltb_spec (find ".fits" f) 0); [lia|]. cbv zeta. rewrite (outfilename _ _ _ He). fold (output b). rewrite Hc. cbn [negb andb]. unfold read_table. rewrite Hc. destruct c; reflexivity.
Qed.
Print Assumptions C58_cached.

Lemma index_found sub a b : exists n, String.index 0 sub (a ++ sub ++ b)%string = Some n.
Proof.
  induction a as [|c a [n IH]].
  - exists 0%nat. change ("" ++ sub ++ b)%string with (sub ++ b)%string. assert (P : String.prefix sub (sub ++ b)%string = true) by (apply prefix_app; now exists b). destruct (sub ++ b)%string as [|c r]; [destruct sub; [reflexivity|discriminate]|]. cbn [String.index]. now rewrite P.
  - change (String c a ++ sub ++ b)%string with (String c (a ++ sub ++ b))%string. cbn [String.index]. rewrite IH. destruct (String.prefix _ _); eexists; reflexivity.
Qed.
Lemma index_start sub s : String.index 0 sub s = Some 0%nat -> exists r, s = (sub ++ r)%string.
Proof.
  intros E. apply prefix_app. destruct s as [|c s]; [destruct sub; [reflexivity|discriminate]|]. cbn [String.index] in E. destruct (String.prefix sub (String c s)); [reflexivity|]. destruct (String.index 0 sub s); discriminate.
Qed.
(** A name with ".csv" in it, not at its start, is read as it is, and any other name without ".fits" in it ends the program with code 12: no file changes. *)
Theorem C58_other_names : forall (image table : Type) analyse parse (fs : files image table) f overwrite sub,
  (forall a b, f = (a ++ ".csv" ++ b)%string -> (forall b', f <> (".csv" ++ b')%string) ->
     process_fvc analyse parse fs f overwrite sub = (match fs f with Some (Csv t) => Ok (Some t) | Some (Image _) => Err ValueError | None => Err FileNotFound end, fs)) /\
  (~ occurs ".csv" f -> ~ occurs ".fits" f -> process_fvc analyse parse fs f overwrite sub = (Err (SysExit 12), fs)).
Proof.
  intros image table analyse parse fs f overwrite sub. split.
  - intros a b -> Nb. unfold process_fvc. assert (G : (find ".csv" (a ++ ".csv" ++ b) >? 0)%Z = true).
    { unfold find. destruct (index_found ".csv" a b) as [n E]. rewrite E. destruct n as [|n]; [exfalso|apply Z.gtb_lt; lia]. apply index_start in E as [r Er]. exact (Nb r Er). }
    rewrite G. unfold read_table. destruct (fs _) as [[]|]; reflexivity.
  - intros N1 N2. unfold process_fvc. now rewrite !find_occurs by assumption.
Qed.
Print Assumptions C58_other_names.
(** one call: the result and what is left in the output file *)
Lemma call_step (image table : Type) analyse parse (fs : files image table) d b f overwrite sub r fs' : parses parse -> exposure d b f -> process_fvc analyse parse fs f overwrite sub = (r, fs') ->
  (forall p, p <> output b -> fs' p = fs p) /\ (forall t, r = Ok (Some t) -> fs' (output b) = Some (Csv t)) /\
  (forall t, fs' (output b) = Some (Csv t) -> fs (output b) = Some (Csv t) \/ exists i, fs f = Some (Image i) /\ analyse i = Ok (Some t)) /\
  (forall t, r = Ok (Some t) -> overwrite = true -> exists i, fs f = Some (Image i) /\ analyse i = Ok (Some t)).
Proof.
  intros Hp He H. destruct (fs f) as [[i|t0]|] eqn:Hi.
  - destruct (fs (output b)) as [c|] eqn:Ec; [destruct overwrite eqn:Eo|].
    + rewrite (C58_processed _ _ analyse parse fs d b f true sub i Hp He (or_introl eq_refl) Hi) in H. destruct (analyse i) as [[t|]|e] eqn:Ea; injection H as <- <-; (split; [intros p Np; first [reflexivity|unfold write; destruct (String.eqb_spec p (output b)); [contradiction|reflexivity]]|]).
      * unfold write. rewrite String.eqb_refl. split; [intros u Hu; congruence|]. split; [intros u Hu; right; exists i; split; [reflexivity|congruence]|]. intros u Hu _. exists i. split; [reflexivity|congruence].
      * split; [discriminate|]. split; [intros u Hu; left; congruence|discriminate].
      * destruct sub; (split; [discriminate|]; split; [intros u Hu; left; congruence|discriminate]).
    + rewrite (C58_cached _ _ analyse parse fs d b f sub c He Ec) in H. injection H as <- <-. split; [reflexivity|]. split; [intros t Ht; destruct c; congruence|]. split; [intros t Ht; left; congruence|]. intros t _ X. discriminate.
    + rewrite (C58_processed _ _ analyse parse fs d b f overwrite sub i Hp He (or_intror Ec) Hi) in H. destruct (analyse i) as [[t|]|e] eqn:Ea; injection H as <- <-; (split; [intros p Np; first [reflexivity|unfold write; destruct (String.eqb_spec p (output b)); [contradiction|reflexivity]]|]).
      * unfold write. rewrite String.eqb_refl. split; [intros u Hu; congruence|]. split; [intros u Hu; right; exists i; split; [reflexivity|congruence]|]. intros u Hu _. exists i. split; [reflexivity|congruence].
      * split; [discriminate|]. split; [intros u Hu; left; congruence|discriminate].
      * destruct sub; (split; [discriminate|]; split; [intros u Hu; left; congruence|discriminate]).
  - assert (Q : (r = match fs (output b) with Some (Csv t) => Ok (Some t) | _ => r end /\ (overwrite = true -> forall t, r <> Ok (Some t)) /\ fs' = fs /\ forall t, r = Ok (Some t) -> fs (output b) = Some (Csv t)) \/ (fs' = fs /\ forall t, r <> Ok (Some t))).
    { unfold process_fvc in H. rewrite (find_csv _ _ _ He) in H. cbn [Z.gtb Z.compare] in H. pose proof (find_fits _ _ _ He) as Hf. destruct (Z.ltb_spec (find ".fits" f) 0); [lia|]. cbv zeta in H. rewrite (command_words _ _ _ He), (outfilename _ _ _ He) in H. fold (output b) in H.
      destruct (_ && _)%bool eqn:B in H.
      - injection H as <- <-. apply andb_prop in B as [B1 B2]. unfold read_table. destruct (fs (output b)) as [[|t]|]; [right; split; [reflexivity|discriminate]|left|discriminate]. split; [reflexivity|]. split; [intros ->; discriminate|]. split; [reflexivity|]. intros u Hu. cbn in Hu. congruence.
      - right. assert (Pa : parse ["-i"; f; "-o"; output b] = Some (f, output b)) by (apply Hp; [exact (e_dash _ _ _ He)|intros x; discriminate]).
        assert (Ew : endswith ".csv" (output b) = true) by (unfold output; rewrite <- app_assoc_s; apply endswith_app).
        assert (Ef : fvc_proc analyse fs f (output b) = Err ValueError). { unfold fvc_proc. rewrite Ew. cbn [negb]. destruct (Z.gtb_spec (find ".fits" f) 0); [|lia]. now rewrite Hi. }
        unfold program in H. rewrite Pa, Ef in H. destruct sub; cbn in H; injection H as <- <-; (split; [reflexivity|discriminate]). }
    destruct Q as [(_ & N & -> & Q) | (-> & N)].
    + split; [reflexivity|]. split; [exact Q|]. split; [auto|]. intros t Ht Ov. exfalso. exact (N Ov t Ht).
    + split; [reflexivity|]. split; [intros t Ht; exfalso; exact (N t Ht)|]. split; [auto|]. intros t Ht _. exfalso. exact (N t Ht).
  - assert (Q : ((overwrite = true -> forall t, r <> Ok (Some t)) /\ fs' = fs /\ forall t, r = Ok (Some t) -> fs (output b) = Some (Csv t)) \/ (fs' = fs /\ forall t, r <> Ok (Some t))).
    { unfold process_fvc in H. rewrite (find_csv _ _ _ He) in H. cbn [Z.gtb Z.compare] in H. pose proof (find_fits _ _ _ He) as Hf. destruct (Z.ltb_spec (find ".fits" f) 0); [lia|]. cbv zeta in H. rewrite (command_words _ _ _ He), (outfilename _ _ _ He) in H. fold (output b) in H.
      destruct (_ && _)%bool eqn:B in H.
      - injection H as <- <-. apply andb_prop in B as [B1 B2]. unfold read_table. destruct (fs (output b)) as [[|t]|]; [right; split; [reflexivity|discriminate]|left|discriminate]. split; [intros ->; discriminate|]. split; [reflexivity|]. intros u Hu. cbn in Hu. congruence.
      - right. assert (Pa : parse ["-i"; f; "-o"; output b] = Some (f, output b)) by (apply Hp; [exact (e_dash _ _ _ He)|intros x; discriminate]).
        assert (Ew : endswith ".csv" (output b) = true) by (unfold output; rewrite <- app_assoc_s; apply endswith_app).
        assert (Ef : fvc_proc analyse fs f (output b) = Err FileNotFound). { unfold fvc_proc. rewrite Ew. cbn [negb]. destruct (Z.gtb_spec (find ".fits" f) 0); [|lia]. now rewrite Hi. }
        unfold program in H. rewrite Pa, Ef in H. destruct sub; cbn in H; injection H as <- <-; (split; [reflexivity|discriminate]). }
    destruct Q as [(N & -> & Q) | (-> & N)].
    + split; [reflexivity|]. split; [exact Q|]. split; [auto|]. intros t Ht Ov. exfalso. exact (N Ov t Ht).
    + split; [reflexivity|]. split; [intros t Ht; exfalso; exact (N t Ht)|]. split; [auto|]. intros t Ht _. exfalso. exact (N t Ht).
Qed.

(** an exposure has one name and one directory *)
Lemma exposure_unique d b f d' b' : exposure d b f -> exposure d' b' f -> b = b'.
Proof. intros H H'. apply output_inj. unfold output. now rewrite <- (outfilename _ _ _ H), <- (outfilename _ _ _ H'). Qed.

Lemma calls_history (image table : Type) analyse parse (fs0 : files image table) seen l : parses parse -> forall fs rs fs', Forall (fun c => exists d b, exposure d b (c_file c)) l ->
  (forall d b f, exposure d b f -> fs f = fs0 f) ->
  (forall d b f t, exposure d b f -> fs (output b) = Some (Csv t) -> (exists c d' i, In c seen /\ exposure d' b (c_file c) /\ fs0 (c_file c) = Some (Image i) /\ analyse i = Ok (Some t))) ->
  calls analyse parse fs l = (rs, fs') ->
  forall k c t, nth_error l k = Some c -> nth_error rs k = Some (Ok (Some t)) ->
  exists c' d d' b i, In c' (seen ++ firstn (S k) l) /\ (c_overwrite c = true -> c' = c) /\ exposure d b (c_file c) /\ exposure d' b (c_file c') /\ fs0 (c_file c') = Some (Image i) /\ analyse i = Ok (Some t).
Proof.
  intros Hp. revert seen. induction l as [|c0 l IH]; intros seen fs rs fs' HF Hsame Hinv H k c t Hk Ht; [destruct k; discriminate|].
  cbn [calls] in H. destruct (process_fvc analyse parse fs (c_file c0) (c_overwrite c0) (c_subprocess c0)) as [r fs1] eqn:E. destruct (calls analyse parse fs1 l) as [rs1 fs2] eqn:E2. injection H as <- <-. inversion HF as [|? ? (d & b & He) HF']; subst.
  destruct (call_step _ _ _ _ _ _ _ _ _ _ _ _ Hp He E) as (Hkeep & Hres & Hnew & Hov).
  assert (Hinv' : forall d' b' f t', exposure d' b' f -> fs1 (output b') = Some (Csv t') -> exists c d2 i, In c (seen ++ [c0]) /\ exposure d2 b' (c_file c) /\ fs0 (c_file c) = Some (Image i) /\ analyse i = Ok (Some t')).
  { intros d' b' f t' He' Ht'. destruct (string_dec b' b) as [->|N].
    - destruct (Hnew t' Ht') as [Old | (i & Hi & Ha)].
      + destruct (Hinv d' b f t' He' Old) as (c1 & d2 & i & I1 & X). exists c1, d2, i. split; [apply in_or_app; now left|exact X].
      + exists c0, d, i. split; [apply in_or_app; right; now left|]. split; [exact He|]. split; [|exact Ha]. rewrite <- (Hsame _ _ _ He). exact Hi.
    - rewrite Hkeep in Ht' by (intros X; apply N, output_inj, X). destruct (Hinv d' b' f t' He' Ht') as (c1 & d2 & i & I1 & X). exists c1, d2, i. split; [apply in_or_app; now left|exact X]. }
  destruct k as [|k].
  - cbn in Hk, Ht. injection Hk as ->. injection Ht as ->. destruct (c_overwrite c) eqn:Ov.
    + destruct (Hov t eq_refl eq_refl) as (i & Hi & Ha). exists c, d, d, b, i. split; [apply in_or_app; right; now left|]. split; [reflexivity|]. split; [exact He|]. split; [exact He|]. split; [rewrite <- (Hsame _ _ _ He); exact Hi|exact Ha].
    + destruct (Hinv' d b (c_file c) t He (Hres t eq_refl)) as (c1 & d2 & i & I1 & H1 & H2 & H3). exists c1, d, d2, b, i. split; [exact I1|]. split; [discriminate|]. auto.
  - cbn in Hk, Ht. destruct (IH (seen ++ [c0]) fs1 rs1 fs2 HF') with (k := k) (c := c) (t := t) as (c' & d1 & d2 & b1 & i & I1 & X); try assumption.
    + intros d' b' f He'. rewrite Hkeep; [now apply (Hsame d' b')|]. intros ->. unfold output in He'. apply (e_csv _ _ _ He'). exists ("/tmp/" ++ b)%string, "". now rewrite app_assoc_s.
    + exists c', d1, d2, b1, i. split; [|exact X]. cbn [firstn]. rewrite <- app_assoc in I1. exact I1.
Qed.
(** C58. In any sequence of calls, starting without output files, the table returned for an image is the one measured in the image of the same name, in the same or another directory, of that call or an earlier one; with overwrite, in the image itself. *)
Theorem C58_history : forall (image table : Type) analyse parse (fs : files image table) l rs fs', parses parse -> Forall (fun c => exists d b, exposure d b (c_file c)) l -> (forall d b f, exposure d b f -> fs (output b) = None) ->
  calls analyse parse fs l = (rs, fs') -> forall k c t, nth_error l k = Some c -> nth_error rs k = Some (Ok (Some t)) ->
  exists c' d d' b i, In c' (firstn (S k) l) /\ (c_overwrite c = true -> c' = c) /\ exposure d b (c_file c) /\ exposure d' b (c_file c') /\ fs (c_file c') = Some (Image i) /\ analyse i = Ok (Some t).
Proof.
  intros image table analyse parse fs l rs fs' Hp HF Hn H k c t Hk Ht. apply (calls_history image table analyse parse fs [] l Hp fs rs fs' HF); try assumption; [reflexivity|]. intros d b f t' He X. rewrite (Hn _ _ _ He) in X. discriminate.
Qed.
Print Assumptions C58_history.
(** If no two of the images have the same name, every table returned is that of the image asked for. *)
Theorem C58_distinct : forall (image table : Type) analyse parse (fs : files image table) l rs fs', parses parse -> Forall (fun c => exists d b, exposure d b (c_file c)) l -> (forall d b f, exposure d b f -> fs (output b) = None) ->
  (forall c c' d d' b, In c l -> In c' l -> exposure d b (c_file c) -> exposure d' b (c_file c') -> c_file c = c_file c') ->
  calls analyse parse fs l = (rs, fs') -> forall k c t, nth_error l k = Some c -> nth_error rs k = Some (Ok (Some t)) -> exists i, fs (c_file c) = Some (Image i) /\ analyse i = Ok (Some t).
Proof.
  intros image table analyse parse fs l rs fs' Hp HF Hn Hd H k c t Hk Ht. destruct (C58_history _ _ _ _ _ _ _ _ Hp HF Hn H k c t Hk Ht) as (c' & d & d' & b & i & I & _ & E & E' & Hi & Ha). exists i. split; [|exact Ha]. rewrite (Hd c c' d d' b); try assumption; [eapply nth_error_In; eassumption|]. clear - I. revert I. generalize (S k). intros n I. rewrite <- (firstn_skipn n l). apply in_or_app. now left.
Qed.
Print Assumptions C58_distinct.

(** a parser *)
Definition plain_parse (l : list string) : option (string * string) := match l with ["-i"; i; "-o"; o] => Some (i, o) | _ => None end.
Lemma plain_parses : parses plain_parse.
Proof. intros i o _ _. reflexivity. Qed.
Lemma not_occurs sub s : String.index 0 sub s = None -> ~ occurs sub s.
Proof.
  intros H (a & b & ->). revert H. induction a as [|c a IH]; cbn [append]; intros H.
  - destruct (sub ++ b)%string as [|x r] eqn:E; [destruct sub; discriminate|]. cbn [String.index] in H. rewrite (proj2 (prefix_app sub (String x r))) in H; [discriminate|]. exists b. now symmetry.
  - cbn [String.index] in H. destruct (String.prefix sub (String c (a ++ sub ++ b))); [discriminate|]. destruct (String.index 0 sub (a ++ sub ++ b)); [discriminate|]. now apply IH.
Qed.
Lemma free_forall (P : ascii -> Prop) s : Forall (fun c => ~ P c) (list_ascii_of_string s) -> free_of P s.
Proof. intros H a c b ->. induction a as [|x a IH]; cbn in H; inversion H; subst; auto. Qed.
Definition night1 : string := "/data/1/fvc.fits".
Definition night2 : string := "/data/2/fvc.fits.fz".
Lemma exposure1 : exposure "/data/1/" "fvc" night1.
Proof. constructor; [now left|right; now exists "/data/1"|apply free_forall; repeat constructor; discriminate|discriminate|apply not_occurs; reflexivity|apply not_occurs; reflexivity|apply free_forall; repeat constructor; vm_compute; intuition discriminate|discriminate]. Qed.
Lemma exposure2 : exposure "/data/2/" "fvc" night2.
Proof. constructor; [now right|right; now exists "/data/2"|apply free_forall; repeat constructor; discriminate|discriminate|apply not_occurs; reflexivity|apply not_occurs; reflexivity|apply free_forall; repeat constructor; vm_compute; intuition discriminate|discriminate]. Qed.
(** two images: 1 and 2; the table measured in an image is its number *)
Definition two_nights : files nat nat := fun p => if String.eqb p night1 then Some (Image 1%nat) else if String.eqb p night2 then Some (Image 2%nat) else None.
Example C58_example : fst (calls (fun i => Ok (Some i)) plain_parse two_nights
   [{| c_file := night1; c_overwrite := false; c_subprocess := true |}; {| c_file := night2; c_overwrite := false; c_subprocess := false |}; {| c_file := night2; c_overwrite := true; c_subprocess := true |}])
   = [Ok (Some 1%nat); Ok (Some 1%nat); Ok (Some 2%nat)].
Proof. vm_compute. reflexivity. Qed.
(** Two images of the same name in two directories: the second call returns the table of the first image. *)
Theorem C58_own_image_refuted : ~ (forall (analyse : nat -> res (option nat)) parse fs l rs fs', parses parse -> Forall (fun c => exists d b, exposure d b (c_file c)) l -> (forall d b f, exposure d b f -> fs (output b) = None) ->
  calls analyse parse fs l = (rs, fs') -> forall k c t, nth_error l k = Some c -> nth_error rs k = Some (Ok (Some t)) -> exists i, fs (c_file c) = Some (Image i) /\ analyse i = Ok (Some t)).
Proof.
  intros H. set (l := [{| c_file := night1; c_overwrite := false; c_subprocess := true |}; {| c_file := night2; c_overwrite := false; c_subprocess := true |}]).
  destruct (calls (fun i => Ok (Some i)) plain_parse two_nights l) as [rs fs'] eqn:E. assert (Er : rs = [Ok (Some 1%nat); Ok (Some 1%nat)]) by (apply (f_equal fst) in E; vm_compute in E; now symmetry).
  destruct (H (fun i => Ok (Some i)) plain_parse two_nights l rs fs' plain_parses) with (k := 1%nat) (c := {| c_file := night2; c_overwrite := false; c_subprocess := true |}) (t := 1%nat) as (i & Hi & Ha); try assumption; try (now rewrite Er); try reflexivity.
  - repeat constructor; do 2 eexists; [exact exposure1|exact exposure2].
  - vm_compute in Hi. congruence.
Qed.
Print Assumptions C58_own_image_refuted.
