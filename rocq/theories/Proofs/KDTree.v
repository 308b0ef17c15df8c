From Verif.Model Require Import KDTree.
From Verif.Spec Require Import Match.
From Verif.Proofs Require Import RealNum.
From Coq Require Import Lra.

Lemma scan_spec {A} (f : A -> R) (l pre : list A) b :
  (match b with
   | (None, i) => pre = [] /\ i = 0%nat
   | (Some d, i) => exists q, nth_error pre i = Some q /\ d = f q /\ forall q', In q' pre -> (f q <= f q')%R
   end) ->
  match scan f l (length pre) b with
  | (None, i) => pre ++ l = [] /\ i = 0%nat
  | (Some d, i) => exists q, nth_error (pre ++ l) i = Some q /\ d = f q /\ forall q', In q' (pre ++ l) -> (f q <= f q')%R
  end.
Proof.
  revert pre b; induction l as [|a l IH]; intros pre b H; cbn [scan].
  - rewrite app_nil_r. exact H.
  - replace (pre ++ a :: l) with ((pre ++ [a]) ++ l) by (rewrite <- app_assoc; reflexivity).
    replace (S (length pre)) with (length (pre ++ [a])) by (rewrite app_length; cbn; lia).
    apply IH. destruct b as [[d|] i]; cbn [fst edist_ltb].
    + destruct H as (q & Hq & -> & Hm). destruct (Rltb (f a) (f q)) eqn:E.
      * apply Rltb_true in E. exists a. rewrite nth_error_app2, Nat.sub_diag by lia. split; [reflexivity|]. split; [reflexivity|].
        intros q' Hq'. apply in_app_iff in Hq' as [Hq'|[<-|[]]]; [specialize (Hm _ Hq')|]; lra.
      * apply Rltb_false in E. exists q. rewrite nth_error_app1 by (apply nth_error_Some; congruence). split; [exact Hq|]. split; [reflexivity|].
        intros q' Hq'. apply in_app_iff in Hq' as [Hq'|[<-|[]]]; [auto|exact E].
    + destruct H as [-> ->]. exists a. cbn. split; [reflexivity|]. split; [reflexivity|]. intros q' [<-|[]]. lra.
Qed.

Lemma scan_query_ok {A} (dist : A -> A -> R) cat p : cat <> [] ->
  exists i q, scan_query dist cat p = (Some (dist p q), i) /\ nth_error cat i = Some q /\
    forall q', In q' cat -> (dist p q <= dist p q')%R.
Proof.
  intros Hne. pose proof (scan_spec (dist p) cat [] (None, 0%nat) (conj eq_refl eq_refl)) as H. cbn in H.
  unfold scan_query. destruct (scan (dist p) cat 0 (None, 0%nat)) as [[d|] i].
  - destruct H as (q & H1 & -> & H3). eauto.
  - destruct H as [H _]. contradiction.
Qed.

Lemma scan_query2 : nearest_query (scan_query distance).
Proof.
  split; [reflexivity|]. intros cat p Hne. destruct (scan_query_ok distance cat p Hne) as (i & q & E & Hi & Hm).
  exists i, q. repeat split; auto. eapply nth_error_In; eauto.
Qed.
Lemma scan_query3 : nearest_query3 (scan_query distance3).
Proof. split; [reflexivity|]. intros cat p Hne. exact (scan_query_ok distance3 cat p Hne). Qed.
