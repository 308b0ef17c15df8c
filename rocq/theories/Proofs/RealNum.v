From Verif.Model Require Export RealNum.
From Verif.Spec Require Import Numpy.
From Coq Require Import Lra.

Lemma Rltb_true x y : Rltb x y = true <-> (x < y)%R.
Proof. unfold Rltb. destruct (Rlt_dec x y); split; intros; try discriminate; auto; contradiction. Qed.
Lemma Rltb_false x y : Rltb x y = false <-> (y <= x)%R.
Proof. unfold Rltb. destruct (Rlt_dec x y); split; intros; try discriminate; auto; lra. Qed.
Lemma Rleb_true x y : Rleb x y = true <-> (x <= y)%R.
Proof. unfold Rleb. destruct (Rle_dec x y); split; intros; try discriminate; auto; contradiction. Qed.
Lemma Rleb_false x y : Rleb x y = false <-> (y < x)%R.
Proof. unfold Rleb. destruct (Rle_dec x y); split; intros; try discriminate; auto; lra. Qed.
Lemma Reqb_true x y : Reqb x y = true <-> x = y.
Proof. unfold Reqb. destruct (Req_EM_T x y); split; intros; try discriminate; auto; contradiction. Qed.
Lemma Reqb_false x y : Reqb x y = false <-> x <> y.
Proof. unfold Reqb. destruct (Req_EM_T x y); split; intros; try discriminate; auto; contradiction. Qed.

Lemma Rltb_strict_total : strict_total Rltb.
Proof.
  split; [split|]; intros *; rewrite ?Rltb_true, ?Rltb_false; try lra.
Qed.
Lemma edist_ltb_weak : strict_weak edist_ltb.
Proof.
  split.
  - intros [x|]; cbn; [|reflexivity]. rewrite Rltb_false. lra.
  - intros [x|] [y|] [z|]; cbn; try discriminate; auto. rewrite !Rltb_true; lra.
  - intros [x|] [y|] [z|]; cbn; try discriminate; auto. rewrite !Rltb_true. intros. destruct (Rlt_dec x y); [auto|right; lra].
Qed.
