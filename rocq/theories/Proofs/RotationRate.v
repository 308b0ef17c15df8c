(** Lemmas about the fit of the rotation rate. *)
From Coq Require Import Lra Lia.
From Verif.Model Require Import RotationRate.
From Verif.Spec Require Import RotationRate.
From Verif.Proofs Require Import RealNum Trig LinAlg.
Local Open Scope R_scope.
Local Open Scope list_scope.

Lemma usable_spec s g : usable s g = true <-> good s g.
Proof.
  unfold usable, good. rewrite !Bool.andb_true_iff, !Rltb_true, Bool.negb_true_iff, Z.ltb_lt. split.
  - intros ((((A & B) & C) & D) & E). repeat split; auto. intros Z0. apply Reqb_true in Z0. congruence.
  - intros (A & B & C & D & E). repeat split; auto. destruct (Reqb (g_rate g) 0) eqn:F; [apply Reqb_true in F; contradiction|reflexivity].
Qed.
Lemma terms_cubic c g : length c = 10%nat -> combination c (terms g) = cubic c g.
Proof.
  intros L. do 10 (destruct c as [|? c]; [discriminate|]). destruct c; [|discriminate]. unfold terms, cubic, sindeg, D2R. cbn [combination nth]. ring.
Qed.
Lemma rows_width l : Forall (fun r => length r = length (map g_rate l)) (term_rows l).
Proof. unfold term_rows. apply Forall_forall. intros r I. apply in_map_iff in I. destruct I as (k & <- & _). now rewrite !map_length. Qed.
Lemma rows_length l : length (term_rows l) = 10%nat.
Proof. unfold term_rows. now rewrite map_length, seq_length. Qed.
Lemma rows_samples l : samples (term_rows l) (map g_rate l) = map (fun g => (terms g, g_rate g)) l.
Proof.
  induction l as [|g l IH]; [reflexivity|]. cbn [map samples]. f_equal. rewrite <- IH. f_equal.
Qed.
Lemma squares_sum l c : length c = 10%nat -> sum_sq c (map (fun g => (terms g, g_rate g)) l) = squares l c.
Proof. intros L. unfold sum_sq, squares. f_equal. rewrite map_map. apply map_ext. intros g. cbn [fst snd]. now rewrite terms_cubic. Qed.
Lemma spread_independent l : spread l <-> independent 10 (map (fun g => (terms g, g_rate g)) l).
Proof.
  unfold spread, independent. split; intros H c L Q; apply H; auto.
  - intros g I. rewrite <- terms_cubic by exact L. apply (Q (terms g, g_rate g)). apply in_map_iff. eauto.
  - intros s I. apply in_map_iff in I. destruct I as (g & <- & I). cbn [fst]. rewrite terms_cubic by exact L. auto.
Qed.
Lemma solve_spec l : match linalg_solve (gram (term_rows l)) (matvec (term_rows l) (map g_rate l)) with
  | Ok p => best_cubic l p /\ spread l
  | Err e => e = LinAlgError /\ ~ spread l end.
Proof.
  destruct (linalg_solve _ _) as [p|e] eqn:E.
  - apply normal_fit_Ok in E; [|apply rows_width]. rewrite rows_length, rows_samples in E. destruct E as ((L & M) & I). split; [|now apply spread_independent].
    split; [exact L|]. intros q Lq N. specialize (M q Lq N). now rewrite !squares_sum in M.
  - apply normal_fit_Err in E; [|apply rows_width]. rewrite rows_length, rows_samples in E. now rewrite <- spread_independent in E.
Qed.
Lemma cut3_thousandths p : cut3 p (thousandths p).
Proof.
  unfold cut3, thousandths, trunc, Rltb. destruct (Rlt_dec (p * 1000) 0) as [L|L].
  - pose proof (Rfloor_spec (- (p * 1000))) as F. rewrite opp_IZR. set (k := Rfloor (- (p * 1000))) in *.
    assert (0 <= IZR k) by (apply IZR_le; enough (-1 < k)%Z by lia; apply lt_IZR; lra).
    split; [exists (- k)%Z; now rewrite opp_IZR|]. rewrite !(Rabs_left1) by lra. split; [lra|nra].
  - pose proof (Rfloor_spec (p * 1000)) as F. set (k := Rfloor (p * 1000)) in *. assert (0 <= IZR k) by (apply IZR_le; enough (-1 < k)%Z by lia; apply lt_IZR; lra).
    split; [eauto|]. rewrite !Rabs_right by lra. split; [lra|nra].
Qed.
Lemma thousandths_exact k : thousandths (IZR k / 1000) = IZR k / 1000.
Proof.
  unfold thousandths. replace (IZR k / 1000 * 1000) with (IZR k) by lra. f_equal. f_equal. unfold trunc, Rltb. destruct (Rlt_dec (IZR k) 0).
  - rewrite <- opp_IZR, (Rfloor_unique (IZR (- k)) (- k)) by lra. lia.
  - apply Rfloor_unique. lra.
Qed.
Lemma sq_sum_zero (l : list guide) (f : guide -> R) : (forall g, In g l -> f g = 0) -> fold_right Rplus 0 (map (fun g => f g ^ 2) l) = 0.
Proof. induction l as [|g l IH]; intros H; cbn [map fold_right]; [reflexivity|]. rewrite IH by (intros; apply H; now right). rewrite (H g) by now left. ring. Qed.
Lemma squares_nonneg l c : 0 <= squares l c.
Proof. unfold squares. induction l as [|g l IH]; cbn [map fold_right]; [lra|]. pose proof (pow2_ge_0 (g_rate g - cubic c g)). lra. Qed.
Lemma best_exact l p c : best_cubic l p -> length c = 10%nat -> (forall g, In g l -> g_rate g = cubic c g) -> p = c.
Proof.
  intros (L & M) Lc H. destruct (list_eq_dec Req_EM_T p c) as [E|N]; [exact E|]. exfalso. specialize (M c Lc (fun E => N (eq_sym E))).
  assert (squares l c = 0) by (apply (sq_sum_zero l (fun g => g_rate g - cubic c g)); intros g I; rewrite (H g I); ring). pose proof (squares_nonneg l p). lra.
Qed.
