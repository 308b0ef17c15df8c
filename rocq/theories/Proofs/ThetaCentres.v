From Verif.Model Require Import ThetaCentres.
From Verif.Spec Require Import ThetaCentres.
From Verif.Proofs Require Import Prelude.
From Coq Require Import Lra Lia.
Local Open Scope R_scope.
Local Open Scope list_scope.

Definition key (h : pinhole) : Z := (h_loc h * 10 + h_pin h)%Z.
Lemma combine_snoc {A B} (l : list A) : forall (m : list B) x y, length l = length m -> combine (l ++ [x]) (m ++ [y]) = combine l m ++ [(x, y)].
Proof. induction l as [|a l IH]; intros [|b m] x y L; cbn in *; try discriminate; [reflexivity|]. f_equal. apply IH. lia. Qed.
Lemma l2i_spec o k i : dict_get Z.eqb (l2i o) k = Some i <-> exists a h b, o = a ++ h :: b /\ length a = i /\ key h = k /\ Forall (fun g => key g <> k) b.
Proof.
  unfold l2i, enum. revert k i. induction o as [|v m IH] using rev_ind; [intros p i; split; [discriminate|]; intros (a & v & b & E & _); destruct a; discriminate|]. intros p i.
  rewrite app_length. cbn [length]. rewrite seq_app. cbn [seq Nat.add]. assert (CA : combine (seq 0 (length m) ++ [length m]) (m ++ [v]) = combine (seq 0 (length m)) m ++ [(length m, v)]) by (apply combine_snoc, seq_length).
  rewrite CA, fold_left_app. cbn [fold_left]. fold (key v). destruct (Z.eqb_spec p (key v)) as [->|D].
  - rewrite (dict_get_set_same Z.eqb Z.eqb_eq). split; [intros [= <-]; exists m, v, []; auto|]. intros (a & w & b & E & L & Hd & F). destruct b as [|y b] using rev_ind; [apply app_inj_tail in E as [-> _]; now f_equal|]. rewrite app_comm_cons, app_assoc in E. apply app_inj_tail in E as [_ <-]. apply Forall_app in F as [_ F]. inversion F; congruence.
  - rewrite (dict_get_set_other Z.eqb Z.eqb_eq) by congruence. rewrite IH. split; intros (a & w & b & E & L & Hd & F).
    + exists a, w, (b ++ [v]). split; [rewrite E, <- app_assoc; reflexivity|]. repeat split; auto. apply Forall_app. split; [exact F|]. constructor; [congruence|constructor].
    + destruct b as [|y b] using rev_ind; [apply app_inj_tail in E as [_ <-]; congruence|]. rewrite app_comm_cons, app_assoc in E. apply app_inj_tail in E as [-> ->]. apply Forall_app in F as [F _]. exists a, w, b. auto.
Qed.
Lemma l2i_None o k : dict_get Z.eqb (l2i o) k = None -> Forall (fun g => key g <> k) o.
Proof.
  unfold l2i, enum. revert k. induction o as [|v m IH] using rev_ind; intros p; [constructor|].
  rewrite app_length. cbn [length]. rewrite seq_app. cbn [seq Nat.add]. assert (CA : combine (seq 0 (length m) ++ [length m]) (m ++ [v]) = combine (seq 0 (length m)) m ++ [(length m, v)]) by (apply combine_snoc, seq_length).
  rewrite CA, fold_left_app. cbn [fold_left]. fold (key v). destruct (Z.eqb_spec p (key v)) as [->|D]; [rewrite (dict_get_set_same Z.eqb Z.eqb_eq); discriminate|].
  rewrite (dict_get_set_other Z.eqb Z.eqb_eq) by congruence. intros H. apply Forall_app. split; [now apply IH|]. constructor; [congruence|constructor].
Qed.
Lemma key_same h r : one_digit (h_pin h) -> one_digit (c_pin r) -> (key h = (c_loc r * 10 + c_pin r)%Z <-> h_loc h = c_loc r /\ h_pin h = c_pin r).
Proof. unfold key, one_digit. intros. split; [lia|intros [-> ->]; reflexivity]. Qed.
Lemma other_place_target o r : Forall (fun h => one_digit (h_pin h)) o -> one_digit (c_pin r) -> exists q, other_place o r = Ok q /\ target (Some o) r q.
Proof.
  intros D Dr. unfold other_place. destruct (dict_get Z.eqb (l2i o) (c_loc r * 10 + c_pin r)%Z) as [i|] eqn:E.
  - apply l2i_spec in E as (a & h & b & E & L & K & F). exists (h_fp h). split; [unfold geti; rewrite E, <- L, nth_error_app2, Nat.sub_diag by lia; reflexivity|]. left. rewrite E in D. apply Forall_app in D as [_ D]. inversion D as [|? ? Dh Db]; subst. apply key_same in K as [K1 K2]; [|assumption|assumption].
    exists a, h, b. repeat split; auto. rewrite Forall_forall in *. intros g I C. apply (F g I). apply key_same; auto.
  - apply l2i_None in E. exists (0, 0). split; [reflexivity|]. right. split; [|reflexivity]. rewrite Forall_forall in *. intros g I C. apply (E g I). apply key_same; auto.
Qed.
Lemma target_unique other r q q' : target other r q -> target other r q' -> q = q'.
Proof.
  destruct other as [o|]; cbn; [|congruence]. intros [(a & h & b & E & L & K & F & ->)|[F ->]] [(a' & h' & b' & E' & L' & K' & F' & ->)|[F' ->]]; [| | |reflexivity].
  - f_equal. subst o. clear - E' L K F L' K' F'. revert a' E'; induction a as [|x a IH]; intros [|x' a'] E'; cbn in E'; injection E' as -> E'.
    + reflexivity.
    + exfalso. subst b. apply Forall_app in F as [_ F]. inversion F as [|? ? C _]; subst. apply C. auto.
    + exfalso. subst b'. apply Forall_app in F' as [_ F']. inversion F' as [|? ? C _]; subst. apply C. auto.
    + eapply IH; eauto.
  - exfalso. subst o. apply Forall_app in F' as [_ F']. inversion F' as [|? ? C _]; subst. apply C. auto.
  - exfalso. subst o. apply Forall_app in F as [_ F]. inversion F as [|? ? C _]; subst. apply C. auto.
Qed.
Definition complete (other : option (list pinhole)) (t : circles) : Prop := has_metro t = true /\ (other <> None -> has_loc t = true /\ has_pin t = true).
Definition paired (other : option (list pinhole)) (r : circle) (d : (R * R) * (R * R)) : Prop := fst d = c_fp r /\ target other r (snd d).
Lemma paired_unique other rows : forall k k', Forall2 (paired other) rows k -> Forall2 (paired other) rows k' -> k = k'.
Proof.
  induction rows as [|r l IH]; intros k k' H H'; inversion H as [|? d ? ds P Ps]; inversion H' as [|? d' ? ds' P' Ps']; subst; [reflexivity|]. f_equal; [|eapply IH; eauto]. destruct d, d', P, P'. cbn in *. subst. f_equal. eapply target_unique; eauto.
Qed.
Definition digits (other : option (list pinhole)) (rows : list circle) : Prop := match other with None => True | Some o => Forall (fun h => one_digit (h_pin h)) o /\ Forall (fun r => one_digit (c_pin r)) rows end.
Lemma read_total other t : digits other (c_rows t) -> complete other t -> exists k, read_circles other t = Ok k /\ Forall2 (paired other) (c_rows t) k.
Proof.
  intros D [M C]. unfold read_circles. rewrite M. cbn [negb]. destruct other as [o|].
  - destruct (C ltac:(discriminate)) as [-> ->]. cbn [andb negb]. cbn in D. destruct D as [Do Dr]. induction Dr as [|r l Hr _ IH]; [exists []; split; [reflexivity|constructor]|].
    destruct IH as (k & E & F). destruct (other_place_target o r Do Hr) as (q & Q & T). cbn [rmapM]. rewrite Q. cbn [rmap rbind]. rewrite E. cbn. eexists. split; [reflexivity|]. constructor; [split; [reflexivity|exact T]|exact F].
  - eexists. split; [reflexivity|]. clear. induction (c_rows t) as [|r l IH]; cbn; constructor; [split; reflexivity|exact IH].
Qed.
Lemma read_Ok other t k : read_circles other t = Ok k -> complete other t.
Proof.
  unfold read_circles, complete. destruct other as [o|].
  - destruct (has_loc t), (has_pin t); cbn [andb negb]; try discriminate. destruct (has_metro t); [|discriminate]. tauto.
  - destruct (has_metro t); [|discriminate]. split; [reflexivity|congruence].
Qed.
