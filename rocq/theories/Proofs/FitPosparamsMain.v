From Verif.Model Require Import FitPosparamsMain.
From Verif.Spec Require Import FitPosparamsMain.
From Verif.Proofs Require Import Prelude.
From Coq Require Import Lia NArith Permutation.
Local Open Scope string_scope.
Local Notation has_char := PyString.has_char.
Local Open Scope list_scope.

Lemma app_assoc_s a b c : ((a ++ b) ++ c = a ++ (b ++ c))%string.
Proof. induction a; cbn; [reflexivity|now rewrite IHa]. Qed.
Lemma length_app_s a b : String.length (a ++ b)%string = (String.length a + String.length b)%nat.
Proof. induction a; cbn; [reflexivity|now rewrite IHa]. Qed.
Lemma substring_all s : String.substring 0 (String.length s) s = s.
Proof. induction s; cbn; [reflexivity|now rewrite IHs]. Qed.
Lemma substring_app a b : String.substring 0 (String.length a) (a ++ b) = a.
Proof. induction a; cbn; [destruct b; reflexivity|now rewrite IHa]. Qed.
Lemma drop_app a b : drop (String.length a) (a ++ b) = b.
Proof. unfold drop. rewrite length_app_s. replace (String.length a + String.length b - String.length a)%nat with (String.length b) by lia. induction a; cbn; [apply substring_all|exact IHa]. Qed.
Lemma last_dot_app a b n : last_dot b = Some n -> last_dot (a ++ b) = Some (String.length a + n)%nat.
Proof. intros H. induction a as [|c a IH]; cbn; [exact H|]. now rewrite IH. Qed.
Lemma last_dot_split s n : last_dot s = Some n -> s = (String.substring 0 n s ++ drop n s)%string /\ String.length (String.substring 0 n s) = n.
Proof.
  revert n. induction s as [|c s IH]; cbn [last_dot]; [discriminate|]. intros n. destruct (last_dot s) as [m|].
  - intros [= <-]. destruct (IH m eq_refl) as [E L]. split; [|cbn; now rewrite L]. cbn. f_equal. exact E.
  - destruct (Ascii.eqb c "."); [|discriminate]. intros [= <-]. split; [|reflexivity]. cbn. f_equal. now rewrite substring_all.
Qed.
Lemma splitext_csv s root : splitext s = (root, ".csv") <-> s = (root ++ ".csv")%string /\ only_dots root = false.
Proof.
  unfold splitext. split.
  - destruct (last_dot s) as [n|] eqn:E; [|discriminate]. destruct (only_dots _) eqn:D; [discriminate|]. intros [= <- H]. destruct (last_dot_split s n E) as [S _]. rewrite H in S. auto.
  - intros [-> D]. rewrite (last_dot_app root ".csv" 0 eq_refl), Nat.add_0_r, substring_app, D, drop_app. reflexivity.
Qed.
Lemma sub_drop n s : s = (String.substring 0 n s ++ drop n s)%string.
Proof. revert n. induction s as [|a s IH]; intros [|n]; cbn; [reflexivity..| |]; [f_equal; now rewrite substring_all|]. f_equal. exact (IH n). Qed.
Lemma no_slash_has s : no_slash s <-> has_char "/" s = false.
Proof. induction s as [|c s IH]; cbn; [tauto|]. rewrite IH, Bool.orb_false_iff. destruct (Ascii.eqb_spec c "/"); split; intros [A B]; try discriminate; try congruence; auto. Qed.
Lemma has_app a s t : has_char a (s ++ t) = (has_char a s || has_char a t)%bool.
Proof. induction s as [|c s IH]; cbn; [reflexivity|]. now rewrite IH, Bool.orb_assoc. Qed.
Lemma basename_none s : has_char "/" s = false -> basename s = s.
Proof. destruct s as [|c s]; [reflexivity|]. intros H. cbn [basename]. now rewrite H. Qed.
Lemma basename_dir d s : has_char "/" s = false -> basename (d ++ String "/" s) = s.
Proof.
  intros H. induction d as [|c d IH]; cbn [String.append basename].
  - cbn [has_char]. rewrite Ascii.eqb_refl. cbn [orb]. now apply basename_none.
  - assert (has_char "/" (String c (d ++ String "/" s)) = true) as ->; [|exact IH]. cbn [has_char]. rewrite has_app. cbn [has_char]. rewrite Ascii.eqb_refl. cbn. now rewrite !Bool.orb_true_r.
Qed.
Lemma basename_split s : has_char "/" (basename s) = false /\ (s = basename s \/ exists d, s = (d ++ "/" ++ basename s)%string).
Proof.
  induction s as [|c s [IH1 IH2]]; [split; [reflexivity|now left]|]. cbn [basename]. destruct (has_char "/" (String c s)) eqn:E; [|split; [exact E|now left]]. split; [exact IH1|]. right. cbn [has_char] in E. destruct IH2 as [Es|[d Es]].
  - rewrite <- Es in IH1. rewrite IH1, Bool.orb_false_r in E. apply Ascii.eqb_eq in E. subst c. exists "". cbn. now rewrite <- Es.
  - exists (String c d). cbn. f_equal. exact Es.
Qed.
Lemma is_digit_between c : is_digit c = true <-> char_range "0" "9" c.
Proof. unfold is_digit, char_range. rewrite Bool.andb_true_iff, !N.leb_le. reflexivity. Qed.
Lemma is_alpha_between c : is_alpha c = true <-> char_range "A" "Z" c \/ char_range "a" "z" c.
Proof. unfold is_alpha, char_range. rewrite Bool.orb_true_iff, !Bool.andb_true_iff, !N.leb_le. reflexivity. Qed.
Lemma positioner_name_spec p : positioner_name p <-> String.length p = 6%nat /\ match p with String c r => (is_alpha c && all_digits r)%bool = true | EmptyString => False end.
Proof.
  split.
  - intros (c & d1 & d2 & d3 & d4 & d5 & -> & A & F). split; [reflexivity|]. cbn [all_digits]. apply is_alpha_between in A. rewrite A. repeat match goal with H : Forall _ (_ :: _) |- _ => inversion H; subst; clear H end. repeat match goal with H : char_range "0" "9" ?d |- _ => apply is_digit_between in H; rewrite H; clear H end. reflexivity.
  - intros [L H]. destruct p as [|c [|d1 [|d2 [|d3 [|d4 [|d5 [|x p]]]]]]]; try discriminate. cbn [all_digits] in H. rewrite !Bool.andb_true_iff in H. destruct H as (A & B1 & B2 & B3 & B4 & B5 & _). exists c, d1, d2, d3, d4, d5. split; [reflexivity|]. split; [now apply is_alpha_between|]. repeat constructor; now apply is_digit_between.
Qed.
Lemma alpha_not c : is_alpha c = true -> c <> "."%char /\ c <> "/"%char.
Proof. intros H. split; intros ->; discriminate. Qed.
Lemma posid_spec file p : posid_of file = Some p <-> file_of p file.
Proof.
  unfold posid_of. destruct (basename_split file) as [NS FS]. destruct (splitext (basename file)) as [root ext] eqn:E. split.
  - destruct (String.eqb_spec ext ".csv") as [->|]; [|discriminate]. cbn [andb]. destruct (Nat.eqb_spec (String.length (String.substring 0 6 root)) 6) as [L|]; [|discriminate]. apply splitext_csv in E as [E _].
    destruct (String.substring 0 6 root) as [|c r] eqn:S; [discriminate|]. destruct (is_alpha c && all_digits r)%bool eqn:A; [|discriminate]. intros [= <-].
    assert (Rt : exists rest, root = (String c r ++ rest)%string) by (exists (drop 6 root); rewrite <- S; apply sub_drop).
    destruct Rt as [rest ->]. split; [apply positioner_name_spec; auto|]. exists rest. rewrite E in NS, FS. rewrite !app_assoc_s in FS. split; [|destruct FS as [FS|[d FS]]; [left; exact FS|right; exists d; exact FS]].
    apply no_slash_has. rewrite !has_app in NS. apply Bool.orb_false_iff in NS as [NS _]. now apply Bool.orb_false_iff in NS as [_ NS].
  - intros [P (rest & Nr & F)]. pose proof (proj1 (positioner_name_spec p) P) as [L A]. destruct p as [|c r]; [contradiction|]. apply no_slash_has in Nr.
    assert (Np : has_char "/" (String c r) = false). { apply andb_prop in A as [A D]. cbn [has_char]. apply Bool.orb_false_iff. split; [apply alpha_not in A as [_ A]; now apply Ascii.eqb_neq|]. clear - D. induction r as [|a r IH]; [reflexivity|]. cbn in D. apply andb_prop in D as [D1 D]. cbn. rewrite (IH D), Bool.orb_false_r. apply Ascii.eqb_neq. intros ->. discriminate. }
    assert (B : basename file = (String c r ++ rest ++ ".csv")%string). { assert (H : has_char "/" (String c r ++ rest ++ ".csv") = false) by (rewrite !has_app, Np, Nr; reflexivity). destruct F as [->|[d ->]]; [now apply basename_none|now apply (basename_dir d)]. }
    assert (Sp : splitext (basename file) = ((String c r ++ rest)%string, ".csv")). { apply splitext_csv. split; [now rewrite B, app_assoc_s|]. cbn. apply andb_prop in A as [A _]. apply alpha_not in A as [A _]. apply Ascii.eqb_neq in A. now rewrite A. }
    rewrite Sp in E. injection E as <- <-. rewrite String.eqb_refl. cbv zeta. assert (Sb : String.substring 0 6 (String c (r ++ rest)) = String c r) by (rewrite <- L; exact (substring_app (String c r) rest)). rewrite Sb, L, Nat.eqb_refl. cbn [andb]. rewrite A. reflexivity.
Qed.
