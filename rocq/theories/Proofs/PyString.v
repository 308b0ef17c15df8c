(** Lemmas about the string functions. *)
From Verif.Model Require Import PyString ProcessFvc.
From Verif.Spec Require Import FileNames.
Local Open Scope string_scope.

Lemma app_assoc_s a b c : (a ++ b) ++ c = a ++ b ++ c.
Proof. induction a as [|x a IH]; cbn; [reflexivity|]. now rewrite IH. Qed.
Lemma app_nil_s a : a ++ "" = a.
Proof. induction a as [|x a IH]; cbn; [reflexivity|]. now rewrite IH. Qed.
Lemma app_inv_tail_s a b c : a ++ c = b ++ c -> a = b.
Proof.
  assert (L : forall x y, String.length (x ++ y) = (String.length x + String.length y)%nat) by (induction x as [|z x IH]; intros y; cbn; [reflexivity|now rewrite IH]).
  revert b. induction a as [|x a IH]; intros [|y b] H; [reflexivity| | |].
  - exfalso. apply (f_equal String.length) in H. cbn in H. rewrite L in H. lia.
  - exfalso. apply (f_equal String.length) in H. cbn in H. rewrite L in H. lia.
  - cbn in H. injection H as -> H. f_equal. now apply IH.
Qed.
Lemma prefix_app p s : String.prefix p s = true <-> exists r, s = p ++ r.
Proof.
  revert s. induction p as [|x p IH]; intros s.
  - destruct s; split; intros; try reflexivity; eexists; reflexivity.
  - destruct s as [|y s]; [split; [discriminate|intros (r & H); discriminate]|]. cbn [String.prefix]. destruct (ascii_dec x y) as [->|N].
    + rewrite IH. split; intros (r & H); exists r; cbn in *; [now rewrite H|now injection H].
    + split; [discriminate|]. intros (r & H). cbn in H. congruence.
Qed.
Lemma prefix_refl p : String.prefix p p = true.
Proof. apply prefix_app. exists "". now rewrite app_nil_s. Qed.
Lemma find_occurs sub s : ~ occurs sub s -> find sub s = (-1)%Z.
Proof.
  intros H. unfold find. enough (String.index 0 sub s = None) as -> by reflexivity. induction s as [|c s IH].
  - cbn. destruct sub; [|reflexivity]. exfalso. apply H. exists "", "". reflexivity.
  - cbn [String.index]. destruct (String.prefix sub (String c s)) eqn:E. { apply prefix_app in E as (r & E). exfalso. apply H. exists "", r. exact E. }
    rewrite IH; [reflexivity|]. intros (a & b & ->). apply H. exists (String c a), b. reflexivity.
Qed.
Lemma endswith_app p s : endswith s (p ++ s) = true.
Proof. induction p as [|c p IH]; cbn; [destruct s; cbn; rewrite ?Ascii.eqb_refl, ?String.eqb_refl; reflexivity|]. rewrite IH. apply Bool.orb_true_r. Qed.

(** ** names without ".fits" *)
Definition clean (p : string) : Prop := ~ occurs ".fits" p.
Lemma clean_tail c p : clean (String c p) -> clean p.
Proof. intros H (a & b & ->). apply H. exists (String c a), b. reflexivity. Qed.
Lemma clean_prefix c p t : clean (String c p) -> String.prefix ".fits" (String c p ++ String "." t) = false.
Proof.
  intros H. destruct (String.prefix ".fits" (String c p ++ String "." t)) eqn:E; [|reflexivity]. exfalso. apply prefix_app in E as (r & E). cbn in E. injection E as -> E.
  destruct p as [|a1 p]; [discriminate|]. cbn in E. injection E as -> E. destruct p as [|a2 p]; [discriminate|]. cbn in E. injection E as -> E. destruct p as [|a3 p]; [discriminate|]. cbn in E. injection E as -> E. destruct p as [|a4 p]; [discriminate|]. cbn in E. injection E as -> E.
  apply H. exists "", p. reflexivity.
Qed.
Lemma prefix_longer a b s : String.prefix a s = false -> String.prefix (a ++ b) s = false.
Proof. intros H. destruct (String.prefix (a ++ b) s) eqn:E; [|reflexivity]. apply prefix_app in E as (r & ->). rewrite app_assoc_s in H. enough (String.prefix a (a ++ b ++ r) = true) by congruence. apply prefix_app. eauto. Qed.
(** over a clean name the replacement does nothing until the extension *)
Lemma replace_clean old e new p t : old = ".fits" ++ e -> clean p -> replace old new (p ++ String "." t) = p ++ replace old new (String "." t).
Proof.
  intros -> H. unfold replace. induction p as [|c p IH]; [reflexivity|]. specialize (IH (clean_tail _ _ H)). pose proof (prefix_longer ".fits" e _ (clean_prefix c p t H)) as B.
  change (String c p ++ String "." t) with (String c (p ++ String "." t)) in *. change (String c p ++ replace_from (".fits" ++ e) new 0 (String "." t)) with (String c (p ++ replace_from (".fits" ++ e) new 0 (String "." t))).
  rewrite <- IH. generalize dependent (".fits" ++ e). intros old IH B. cbn [replace_from]. now rewrite B.
Qed.
Lemma csv_name d : clean d -> replace ".fits" ".csv" (replace ".fits.fz" ".csv" (d ++ ".fits")) = d ++ ".csv" /\ replace ".fits" ".csv" (replace ".fits.fz" ".csv" (d ++ ".fits.fz")) = d ++ ".csv".
Proof.
  intros H. rewrite !(replace_clean ".fits.fz" ".fz") by (auto). change (replace ".fits.fz" ".csv" ".fits") with ".fits". change (replace ".fits.fz" ".csv" ".fits.fz") with ".csv". split; rewrite (replace_clean ".fits" "") by auto; reflexivity.
Qed.
Lemma find_clean p t : clean p -> String.index 0 ".fits" (p ++ ".fits" ++ t) = Some (String.length p).
Proof.
  intros H. induction p as [|c p IH].
  - cbn [append String.length]. change (String "." (String "f" (String "i" (String "t" (String "s" t))))) with (".fits" ++ t). cbn [append String.index]. change (String "." (String "f" (String "i" (String "t" (String "s" t))))) with (".fits" ++ t). now rewrite (proj2 (prefix_app ".fits" (".fits" ++ t)) (ex_intro _ t eq_refl)).
  - pose proof (clean_prefix c p ("fits" ++ t) H) as B. cbn [append String.index String.length] in *. rewrite B. rewrite (IH (clean_tail _ _ H)). reflexivity.
Qed.

(** ** directories *)
Lemma free_tail P c s : free_of P (String c s) -> ~ P c /\ free_of P s.
Proof. intros H. split; [apply (H "" c s); reflexivity|]. intros a x b ->. apply (H (String c a) x b). reflexivity. Qed.
Lemma free_app P a b : free_of P (a ++ b) -> free_of P a /\ free_of P b.
Proof. intros H. split; [intros x c y ->; apply (H x c (y ++ b)); rewrite app_assoc_s; reflexivity|intros x c y ->; apply (H (a ++ x) c y); now rewrite app_assoc_s]. Qed.
Lemma free_slash s : free_of (fun c => c = "/"%char) s -> has_char "/" s = false.
Proof. induction s as [|c s IH]; intros H; [reflexivity|]. apply free_tail in H as [Hc H]. cbn [has_char]. rewrite (IH H). destruct (Ascii.eqb_spec c "/"); [contradiction|reflexivity]. Qed.
Lemma has_app a s t : has_char a (s ++ t) = (has_char a s || has_char a t)%bool.
Proof. induction s as [|c s IH]; cbn; [reflexivity|]. rewrite IH. apply Bool.orb_assoc. Qed.
Lemma basename_plain s : has_char "/" s = false -> basename s = s.
Proof. destruct s as [|c s]; [reflexivity|]. intros H. cbn [basename]. now rewrite H. Qed.
Lemma basename_dir d s : has_char "/" s = false -> basename (d ++ "/" ++ s) = s.
Proof.
  intros H. induction d as [|c d IH].
  - cbn [append basename has_char]. change (Ascii.eqb "/" "/") with true. cbn [orb]. now apply basename_plain.
  - cbn [append basename]. replace (has_char "/" (String c (d ++ String "/" s))) with true; [exact IH|]. cbn [has_char]. rewrite has_app. cbn [has_char]. change (Ascii.eqb "/" "/") with true. cbn [orb]. now rewrite !Bool.orb_true_r.
Qed.
(** ** words *)
Lemma space_white c : is_space c = true <-> white c.
Proof. unfold white. destruct c as [[] [] [] [] [] [] [] []]; vm_compute; (split; [try discriminate; intros _; repeat (try (left; reflexivity); right); fail || idtac | intros H; try reflexivity; repeat (destruct H as [H|H]; [discriminate|]); contradiction]); tauto. Qed.
Lemma words_end w : forall cur, free_of white w -> cur ++ w <> "" -> words_aux cur w = [cur ++ w].
Proof.
  induction w as [|c w IH]; intros cur H N; cbn [words_aux]; rewrite ?app_nil_s in *; [destruct cur; [now contradiction N|reflexivity]|].
  apply free_tail in H as [Hc H]. destruct (is_space c) eqn:E; [apply space_white in E; contradiction|]. rewrite IH; [|exact H|rewrite app_assoc_s; exact N]. now rewrite app_assoc_s.
Qed.
Lemma words_next w r : forall cur, free_of white w -> cur ++ w <> "" -> words_aux cur (w ++ " " ++ r) = (cur ++ w) :: words_aux "" r.
Proof.
  induction w as [|c w IH]; intros cur H N; cbn [words_aux append]; rewrite ?app_nil_s in *; [change (is_space " ") with true; cbn iota; destruct cur; [now contradiction N|reflexivity]|].
  apply free_tail in H as [Hc H]. destruct (is_space c) eqn:E; [apply space_white in E; contradiction|]. cbn [append] in IH. rewrite IH; [|exact H|rewrite app_assoc_s; exact N]. now rewrite app_assoc_s.
Qed.

(** ** the file names of process_fvc *)
Section Exposure.
Variables d b f : string.
Hypothesis H : exposure d b f.
Lemma outfilename : get_outfilename f = "/tmp/" ++ b ++ ".csv".
Proof.
  unfold get_outfilename. cbv zeta. assert (E : replace ".fits" ".csv" (replace ".fits.fz" ".csv" f) = (d ++ b) ++ ".csv") by (destruct (e_name _ _ _ H) as [-> | ->]; rewrite <- app_assoc_s; apply csv_name; exact (e_fits _ _ _ H)). rewrite E, app_assoc_s.
  assert (Nb : has_char "/" (b ++ ".csv") = false) by (rewrite has_app, (free_slash b (e_base _ _ _ H)); reflexivity).
  assert (B : basename (d ++ b ++ ".csv") = b ++ ".csv") by (destruct (e_dir _ _ _ H) as [-> | (d' & ->)]; [now apply basename_plain|rewrite app_assoc_s; now apply basename_dir]). rewrite B.
  unfold path_join. destruct b as [|c r]; [reflexivity|]. cbn [append]. pose proof (e_base _ _ _ H "" c r eq_refl) as Nc. destruct c as [[] [] [] [] [] [] [] []]; try reflexivity. now contradiction Nc.
Qed.
Lemma find_fits : (find ".fits" f > 0)%Z.
Proof.
  unfold find. assert (E : exists t, f = (d ++ b) ++ ".fits" ++ t) by (destruct (e_name _ _ _ H) as [-> | ->]; [exists ""|exists ".fz"]; now rewrite <- app_assoc_s). destruct E as (t & ->). rewrite (find_clean _ _ (e_fits _ _ _ H)). pose proof (e_some _ _ _ H). destruct (d ++ b); [contradiction|]. cbn. lia.
Qed.
Lemma find_csv : find ".csv" f = (-1)%Z.
Proof. apply find_occurs, (e_csv _ _ _ H). Qed.
Lemma command_words : words ("desi_fvc_proc -i " ++ f ++ " -o " ++ get_outfilename f) = ["desi_fvc_proc"; "-i"; f; "-o"; get_outfilename f].
Proof.
  rewrite outfilename. change ("desi_fvc_proc -i " ++ f ++ " -o " ++ "/tmp/" ++ b ++ ".csv") with ("desi_fvc_proc" ++ " " ++ "-i" ++ " " ++ f ++ " " ++ "-o" ++ " " ++ "/tmp/" ++ b ++ ".csv"). unfold words.
  assert (K : forall s, forallb (fun c => negb (is_space c)) (list_ascii_of_string s) = true -> free_of white s). { intros s Hs a c b' -> W. apply space_white in W. assert (L : forall x y, list_ascii_of_string (x ++ y) = (list_ascii_of_string x ++ list_ascii_of_string y)%list) by (induction x as [|z x IH]; intros; cbn; [reflexivity|now rewrite IH]). rewrite L, forallb_app in Hs. apply andb_prop in Hs as [_ Hs]. cbn in Hs. rewrite W in Hs. discriminate. }
  assert (Fb : free_of white b). { pose proof (e_white _ _ _ H) as W. destruct (e_name _ _ _ H) as [-> | ->]; apply free_app in W as [_ W]; apply free_app in W as [W _]; exact W. }
  assert (Nf : f <> "") by (destruct (e_name _ _ _ H) as [-> | ->]; destruct d; try discriminate; destruct b; discriminate).
  rewrite words_next by (try (apply K; reflexivity); discriminate). rewrite words_next by (try (apply K; reflexivity); discriminate). rewrite words_next by (try exact Nf; exact (e_white _ _ _ H)). rewrite words_next by (try (apply K; reflexivity); discriminate).
  rewrite words_end; [reflexivity| |discriminate]. intros a c r E W. assert (F2 : free_of white ("/tmp/" ++ b ++ ".csv")). 2: { exact (F2 a c r E W). }
  clear - Fb K. assert (J : forall x y, free_of white x -> free_of white y -> free_of white (x ++ y)). { clear. induction x as [|z x IH]; intros y Hx Hy; [exact Hy|]. apply free_tail in Hx as [Hz Hx]. intros [|a0 a] c r E; cbn in E; injection E as -> E; [exact Hz|]. exact (IH y Hx Hy a c r E). }
  apply J; [apply K; reflexivity|]. apply J; [exact Fb|apply K; reflexivity].
Qed.
Lemma out_differs d' b' f' : exposure d' b' f' -> get_outfilename f <> f'.
Proof.
  intros H'. rewrite outfilename. intros E. pose proof (e_csv _ _ _ H') as C. apply C. exists ("/tmp/" ++ b), "". rewrite <- E. now rewrite app_assoc_s.
Qed.
End Exposure.
