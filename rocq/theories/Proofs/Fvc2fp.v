From Verif.Model Require Import Fvc2fp.
From Verif.Spec Require Import LinAlg ZhaoBurge SimpleCorr Fvc2fp.
From Verif.Proofs Require Import Prelude RealNum LinAlg ZhaoBurge.
From Coq Require Import Lra Lia.
Local Open Scope R_scope.

Lemma sup_sym p q : sup_dist p q = sup_dist q p.
Proof. unfold sup_dist. f_equal; apply Rabs_minus_sym. Qed.
Lemma sup_tri p q r : sup_dist p r <= sup_dist p q + sup_dist q r.
Proof.
  unfold sup_dist. apply Rmax_lub.
  - replace (fst p - fst r) with ((fst p - fst q) + (fst q - fst r)) by ring. eapply Rle_trans; [apply Rabs_triang|]. apply Rplus_le_compat; apply Rmax_l.
  - replace (snd p - snd r) with ((snd p - snd q) + (snd q - snd r)) by ring. eapply Rle_trans; [apply Rabs_triang|]. apply Rplus_le_compat; apply Rmax_r.
Qed.
Lemma sup_nonneg p q : 0 <= sup_dist p q.
Proof. unfold sup_dist. eapply Rle_trans; [apply Rabs_pos|apply Rmax_l]. Qed.
Lemma sup_refl p : sup_dist p p = 0.
Proof. unfold sup_dist. rewrite !Rminus_diag_eq by reflexivity. rewrite Rabs_R0. apply Rmax_left. lra. Qed.
Lemma sup_norm_dist p : sup_norm p = sup_dist p (0, 0).
Proof. unfold sup_norm, sup_dist. cbn. now rewrite !Rminus_0_r. Qed.
Lemma sup_minus r a b : sup_dist (minus2 r a) (minus2 r b) = sup_dist a b.
Proof. unfold sup_dist, minus2. cbn. f_equal; rewrite <- Rabs_Ropp; f_equal; ring. Qed.
Lemma sup_minus0 r a : sup_dist (minus2 r a) r = sup_norm a.
Proof. unfold sup_dist, sup_norm, minus2. cbn. f_equal; rewrite <- Rabs_Ropp; f_equal; ring. Qed.

Lemma Rmax_mono a b c d : a <= c -> b <= d -> Rmax a b <= Rmax c d.
Proof. intros. apply Rmax_lub; eapply Rle_trans; [eassumption|apply Rmax_l|eassumption|apply Rmax_r]. Qed.
Lemma fold_max_ge r : forall a x, (x <= a \/ exists y, In y r /\ x <= Rabs y) -> x <= fold_left (fun m y => Rmax m (Rabs y)) r a.
Proof.
  induction r as [|z r IH]; intros a x H; cbn; [destruct H as [H|(y & [] & _)]; exact H|].
  apply IH. destruct H as [H|(y & [<-|Hy] & H)]; [left; eapply Rle_trans; [exact H|apply Rmax_l]|left; eapply Rle_trans; [exact H|apply Rmax_r]|right; eauto].
Qed.
Lemma maxabs_ge l m x : maxabs l = Ok m -> In x l -> Rabs x <= m.
Proof.
  destruct l as [|y l]; [discriminate|]. cbn. intros H Hx. injection H as <-. apply fold_max_ge. destruct Hx as [<-|Hx]; [left; lra|right; exists x; split; [exact Hx|lra]].
Qed.
Lemma maxabs_Ok l : l <> [] -> exists m, maxabs l = Ok m.
Proof. destruct l; [congruence|]. cbn. eauto. Qed.
Lemma fold_max_lub r : forall a b, a <= b -> (forall y, In y r -> Rabs y <= b) -> fold_left (fun m y => Rmax m (Rabs y)) r a <= b.
Proof. induction r as [|z r IH]; intros a b Ha H; cbn; [exact Ha|]. apply IH; [apply Rmax_lub; [exact Ha|apply H; now left]|intros; apply H; now right]. Qed.
Lemma maxabs_le l m b : maxabs l = Ok m -> (forall x, In x l -> Rabs x <= b) -> m <= b.
Proof. destruct l as [|y l]; [discriminate|]. cbn. intros H B. injection H as <-. apply fold_max_lub; [apply B; now left|intros; apply B; now right]. Qed.
Lemma maxabs_max l m : maxabs l = Ok m -> exists x, In x l /\ Rabs x = m.
Proof.
  destruct l as [|y l]; [discriminate|]. cbn [maxabs]. intros H. injection H as <-.
  assert (G : forall l a y, Rabs y = a -> exists x, (x = y \/ In x l) /\ Rabs x = fold_left (fun m y => Rmax m (Rabs y)) l a).
  { clear. induction l as [|z l IH]; intros a y E; cbn; [exists y; auto|]. destruct (Rle_lt_dec a (Rabs z)) as [L|L].
    - rewrite Rmax_right by exact L. destruct (IH (Rabs z) z eq_refl) as (x & [->|Hx] & Ex); [exists z|exists x]; auto.
    - rewrite Rmax_left by lra. destruct (IH a y E) as (x & [->|Hx] & Ex); [exists y|exists x]; auto. }
  destruct (G l (Rabs y) y eq_refl) as (x & [->|Hx] & E); [exists y|exists x]; cbn; auto.
Qed.

Section Iter.
Variable t : tx.
Hypothesis ids : Forall valid_id (tx_polids t).
Definition D : R * R -> R * R := field (getZhaoBurgeXY (tx_polids t) (tx_coeffs t)).
Lemma D_spec x y : getZhaoBurgeXY (tx_polids t) (tx_coeffs t) x y = Ok (D (x, y)).
Proof. unfold D, field. cbn [fst snd]. rewrite XY_Ok by exact ids. reflexivity. Qed.
Fixpoint it (r : R * R) (k : nat) : R * R := match k with O => (0, 0) | S k' => D (minus2 r (it r k')) end.
Lemma map_combine2 {A B C} (f : A -> B) (g : A -> C) l : combine (map f l) (map g l) = map (fun a => (f a, g a)) l.
Proof. induction l; cbn; congruence. Qed.
Lemma combine_map_r {A B} (g : A -> B) l : combine l (map g l) = map (fun a => (a, g a)) l.
Proof. induction l; cbn; congruence. Qed.
Lemma undo_step rfp k : rmapM (fun '(r, e) => let u := minus2 r e in getZhaoBurgeXY (tx_polids t) (tx_coeffs t) (fst u) (snd u)) (combine rfp (map (fun r => it r k) rfp)) = Ok (map (fun r => it r (S k)) rfp).
Proof.
  rewrite combine_map_r. rewrite (rmapM_total _ (fun re => D (minus2 (fst re) (snd re)))); [rewrite map_map; reflexivity|]. intros [r e] _. cbv beta iota zeta. rewrite D_spec. reflexivity.
Qed.
Lemma undo_spec rfp : rfp <> [] -> forall n k, exists j, undo_zb t n rfp (map (fun r => it r k) rfp) = Ok (map (fun r => it r j) rfp) /\
  (k <= j <= k + n)%nat /\ (j = (k + n)%nat \/ (k < j)%nat /\ forall r, In r rfp -> sup_dist (it r j) (it r (j - 1)) < 1e-12).
Proof.
  intros NE n. induction n as [|n IH]; intros k.
  - exists k. cbn. repeat split; [lia|lia|left; lia].
  - cbn [undo_zb]. rewrite undo_step. cbn [rbind].
    assert (NE2 : forall (f : R * R -> R), map f rfp <> []) by (intros f E; apply NE; destruct rfp; [reflexivity|discriminate]).
    rewrite map_combine2, !map_map.
    destruct (maxabs_Ok (map (fun r => fst (it r (S k)) - fst (it r k)) rfp) (NE2 _)) as [mx Ex]. destruct (maxabs_Ok (map (fun r => snd (it r (S k)) - snd (it r k)) rfp) (NE2 _)) as [my Ey].
    rewrite Ex, Ey. cbn [rbind]. destruct (Rltb (Rmax mx my) 1e-12) eqn:L.
    + apply Rltb_true in L. exists (S k). split; [reflexivity|]. split; [lia|]. right. split; [lia|]. intros r Hr. replace (S k - 1)%nat with k by lia. unfold sup_dist.
      eapply Rle_lt_trans; [|exact L]. apply Rmax_mono; [apply (maxabs_ge _ _ _ Ex)|apply (maxabs_ge _ _ _ Ey)]; apply in_map_iff; eauto.
    + destruct (IH (S k)) as (j & E & B & C). exists j. split; [exact E|]. split; [lia|]. destruct C as [C|[C1 C2]]; [left; lia|right; split; [lia|exact C2]].
Qed.

(** The iteration from a point where the field is small. *)
Lemma it_steps r q rho : 0 <= q < 1 -> contracts D q r rho -> sup_norm (D r) <= (1 - q) * rho ->
  forall k, sup_dist (it r (S k)) (it r k) <= q ^ k * sup_norm (D r) /\ sup_norm (it r k) <= (1 - q ^ k) * rho /\ sup_norm (it r (S k)) <= rho.
Proof.
  intros Hq C S. assert (Hrho : 0 <= rho) by (pose proof (sup_nonneg (D r) (0, 0)); rewrite <- sup_norm_dist in *; nra).
  assert (E1 : it r 1 = D r) by (cbn; f_equal; unfold minus2; destruct r; cbn; f_equal; ring).
  assert (P : forall k, 0 <= q ^ k <= 1) by (intros k; split; [apply pow_le; lra|rewrite <- (pow1 k); apply pow_incr; lra]).
  assert (N0 : 0 <= sup_norm (D r)) by (rewrite sup_norm_dist; apply sup_nonneg).
  assert (G : forall k, sup_dist (it r (Datatypes.S k)) (it r k) <= q ^ k * sup_norm (D r) /\ sup_norm (it r k) <= (1 - q ^ k) * rho).
  { induction k as [|k [IH1 IH2]].
    - rewrite E1. cbn [it pow]. rewrite <- sup_norm_dist. split; [lra|]. rewrite sup_norm_dist, sup_refl. lra.
    - assert (B : sup_norm (it r (Datatypes.S k)) <= (1 - q ^ Datatypes.S k) * rho).
      { rewrite sup_norm_dist. eapply Rle_trans; [apply (sup_tri _ (it r k))|]. rewrite <- sup_norm_dist. cbn [pow]. pose proof (P k). assert (q ^ k * sup_norm (D r) <= q ^ k * ((1 - q) * rho)) by (apply Rmult_le_compat_l; lra). lra. }
      split; [|exact B]. change (it r (Datatypes.S (Datatypes.S k))) with (D (minus2 r (it r (Datatypes.S k)))). change (it r (Datatypes.S k)) with (D (minus2 r (it r k))) at 2.
      eapply Rle_trans; [apply C|].
      + rewrite sup_minus0. pose proof (P (Datatypes.S k)). nra.
      + rewrite sup_minus0. pose proof (P k). nra.
      + rewrite sup_minus. cbn [pow]. nra. }
  intros k. destruct (G k) as [A B]. destruct (G (Datatypes.S k)) as [A' B']. split; [exact A|]. split; [exact B|]. pose proof (P (Datatypes.S k)). nra.
Qed.
(** Towards a point u0 with r = u0 + D u0. *)
Lemma it_converges r u0 q : 0 <= q < 1 -> minus2 r (D u0) = u0 -> contracts D q u0 (sup_norm (D u0)) ->
  forall k, sup_dist (it r k) (D u0) <= q ^ k * sup_norm (D u0).
Proof.
  intros Hq E C. assert (P : forall k, 0 <= q ^ k <= 1) by (intros k; split; [apply pow_le; lra|rewrite <- (pow1 k); apply pow_incr; lra]).
  assert (N0 : 0 <= sup_norm (D u0)) by (rewrite sup_norm_dist; apply sup_nonneg).
  induction k as [|k IH]; [cbn [it pow]; rewrite sup_sym, <- sup_norm_dist; lra|].
  change (it r (S k)) with (D (minus2 r (it r k))). assert (Z : sup_dist (minus2 r (it r k)) u0 = sup_dist (it r k) (D u0)) by (transitivity (sup_dist (minus2 r (it r k)) (minus2 r (D u0))); [now rewrite E|apply sup_minus]).
  eapply Rle_trans; [apply C|].
  - rewrite Z. pose proof (P k). nra.
  - rewrite sup_refl. exact N0.
  - rewrite Z. cbn [pow]. nra.
Qed.
End Iter.

(** The similarity and its inverse. *)
Definition unsim (s th : R) (o : R * R) (u : R * R) : R * R :=
  let v := (fst u / s, snd u / s) in
  (fst v * cos (- th) - snd v * sin (- th) - fst o, fst v * sin (- th) + snd v * cos (- th) - snd o).
Lemma sincos1 th : cos th * cos th + sin th * sin th = 1.
Proof. pose proof (sin2_cos2 th) as H. unfold Rsqr in H. lra. Qed.
Lemma sim_unsim s th o u : s <> 0 -> similarity s th (fst (unsim s th o u) + fst o, snd (unsim s th o u) + snd o) = u.
Proof.
  intros Hs. unfold similarity, unsim. cbn [fst snd]. rewrite cos_neg, sin_neg. pose proof (sincos1 th) as T. destruct u as [x y]. cbn [fst snd]. f_equal.
  - transitivity (x * (cos th * cos th + sin th * sin th)); [field; exact Hs|rewrite T; ring].
  - transitivity (y * (cos th * cos th + sin th * sin th)); [field; exact Hs|rewrite T; ring].
Qed.
Lemma unsim_sim s th o p : s <> 0 -> unsim s th o (similarity s th (fst p + fst o, snd p + snd o)) = p.
Proof.
  intros Hs. unfold similarity, unsim. cbn [fst snd]. rewrite cos_neg, sin_neg. pose proof (sincos1 th) as T. destruct p as [x y]. cbn [fst snd]. f_equal.
  - transitivity ((x + fst o) * (cos th * cos th + sin th * sin th) - fst o); [field; exact Hs|rewrite T; ring].
  - transitivity ((y + snd o) * (cos th * cos th + sin th * sin th) - snd o); [field; exact Hs|rewrite T; ring].
Qed.
Lemma Rabs_cos x : Rabs (cos x) <= 1.
Proof. apply Rabs_le. pose proof (COS_bound x). lra. Qed.
Lemma Rabs_sin x : Rabs (sin x) <= 1.
Proof. apply Rabs_le. pose proof (SIN_bound x). lra. Qed.
Lemma unsim_lipschitz s th o u u' : s <> 0 -> sup_dist (unsim s th o u) (unsim s th o u') <= 2 / Rabs s * sup_dist u u'.
Proof.
  intros Hs. assert (Ps : 0 < Rabs s) by now apply Rabs_pos_lt.
  assert (G : forall a b c d, Rabs c <= 1 -> Rabs d <= 1 -> Rabs (a / s * c + b / s * d) <= 2 / Rabs s * Rmax (Rabs a) (Rabs b)).
  { intros a b c d Hc Hd. eapply Rle_trans; [apply Rabs_triang|]. unfold Rdiv. rewrite !Rabs_mult, !Rabs_inv. pose proof (Rmax_l (Rabs a) (Rabs b)). pose proof (Rmax_r (Rabs a) (Rabs b)).
    pose proof (Rabs_pos a). pose proof (Rabs_pos b). pose proof (Rabs_pos c). pose proof (Rabs_pos d). assert (I : 0 < / Rabs s) by now apply Rinv_0_lt_compat.
    assert (H5 : Rabs a * / Rabs s * Rabs c <= Rmax (Rabs a) (Rabs b) * / Rabs s).
    { rewrite <- (Rmult_1_r (Rmax _ _ * _)). apply Rmult_le_compat; [apply Rmult_le_pos; lra|lra| |exact Hc]. apply Rmult_le_compat_r; lra. }
    assert (H6 : Rabs b * / Rabs s * Rabs d <= Rmax (Rabs a) (Rabs b) * / Rabs s).
    { rewrite <- (Rmult_1_r (Rmax _ _ * _)). apply Rmult_le_compat; [apply Rmult_le_pos; lra|lra| |exact Hd]. apply Rmult_le_compat_r; lra. }
    lra. }
  unfold sup_dist at 1. unfold unsim. cbn [fst snd]. apply Rmax_lub.
  - match goal with |- Rabs ?e <= _ => replace e with ((fst u - fst u') / s * cos (- th) + (snd u - snd u') / s * (- sin (- th))) by (field; exact Hs) end. apply G; [apply Rabs_cos|rewrite Rabs_Ropp; apply Rabs_sin].
  - match goal with |- Rabs ?e <= _ => replace e with ((fst u - fst u') / s * sin (- th) + (snd u - snd u') / s * cos (- th)) by (field; exact Hs) end. apply G; [apply Rabs_sin|apply Rabs_cos].
Qed.

Section Maps.
Variable t : tx.
Hypothesis ids : Forall valid_id (tx_polids t).
Hypothesis scale_nz : tx_scale t <> 0.
Hypothesis xs_nz : xfvc_scale t <> 0.
Hypothesis ys_nz : yfvc_scale t <> 0.
Definition off : R * R := (tx_offset_x t, tx_offset_y t).
Definition redpix (p : R * R) : R * R := ((fst p - xfvc_offset t) / xfvc_scale t, (snd p - yfvc_offset t) / yfvc_scale t).
(** The reduced focal plane point before the displacement. *)
Definition before (p : R * R) : R * R := similarity (tx_scale t) (tx_rotation t) (fst (redpix p) + fst off, snd (redpix p) + snd off).
Definition forward (p : R * R) : R * R := expand_xyfp (fst (before p) + fst (D t (before p)), snd (before p) + snd (D t (before p))).
Definition back (u : R * R) : R * R := expand_xyfvc t (unsim (tx_scale t) (tx_rotation t) off u).
Lemma fvc2fp_forward pix : fvc2fp t pix = Ok (map forward pix).
Proof.
  unfold fvc2fp. apply rmapM_total. intros p _. unfold reduce_xyfvc. assert (Reqb (xfvc_scale t) 0 = false) as -> by now apply Reqb_false. assert (Reqb (yfvc_scale t) 0 = false) as -> by now apply Reqb_false.
  cbn [orb rbind]. rewrite transform_similarity by exact ids. cbn [fst snd rbind]. fold (redpix p). change (similarity (tx_scale t) (tx_rotation t) _) with (before p). rewrite (D_spec t ids). unfold displaced. destruct (before p) as [a b] eqn:E. cbn [fst snd].
  unfold forward. rewrite E. reflexivity.
Qed.
Lemma before_back u : before (back u) = u.
Proof.
  unfold before, back. assert (E : redpix (expand_xyfvc t (unsim (tx_scale t) (tx_rotation t) off u)) = unsim (tx_scale t) (tx_rotation t) off u).
  { unfold redpix, expand_xyfvc. cbn [fst snd]. destruct (unsim _ _ _ u) as [a b]. cbn [fst snd]. f_equal; field; assumption. }
  rewrite E. now apply sim_unsim.
Qed.
Lemma back_before p : back (before p) = p.
Proof.
  unfold before, back. rewrite unsim_sim by exact scale_nz. unfold redpix, expand_xyfvc. destruct p as [a b]. cbn [fst snd]. f_equal; field; assumption.
Qed.
Lemma fp2fvc_back fp : fp <> [] -> exists j, fp2fvc t fp = Ok (map (fun P => back (minus2 (reduce_xyfp P) (it t (reduce_xyfp P) j))) fp) /\
  (j <= 20)%nat /\ (j = 20%nat \/ (0 < j)%nat /\ forall P, In P fp -> sup_dist (it t (reduce_xyfp P) j) (it t (reduce_xyfp P) (j - 1)) < 1e-12).
Proof.
  intros NE. destruct (undo_spec t ids (map reduce_xyfp fp)) with (n := 20%nat) (k := 0%nat) as (j & E & B & C); [intros E; apply NE; now destruct fp|].
  exists j. split; [|split; [lia|]].
  - unfold fp2fvc. cbn [it] in E. rewrite E. cbn [rbind]. assert (Reqb (tx_scale t) 0 = false) as -> by now apply Reqb_false.
    f_equal. rewrite map_map, map_combine2, map_map. apply map_ext. intros P. reflexivity.
  - destruct C as [->|[C1 C2]]; [left; reflexivity|right; split; [exact C1|]]. intros P HP. apply C2, in_map, HP.
Qed.
Lemma expand_dist a b : sup_dist (expand_xyfp a) (expand_xyfp b) = 420 * sup_dist a b.
Proof.
  unfold sup_dist, expand_xyfp. cbn [fst snd]. rewrite <- RmaxRmult by lra.
  assert (G : forall u v, Rabs (u * 420.0 - v * 420.0) = 420 * Rabs (u - v)) by (intros u v; transitivity (Rabs 420 * Rabs (u - v)); [rewrite <- Rabs_mult; f_equal; lra|rewrite (Rabs_right 420) by lra; reflexivity]).
  now rewrite !G.
Qed.
Lemma expand_reduce P : expand_xyfp (reduce_xyfp P) = P.
Proof. unfold expand_xyfp, reduce_xyfp. destruct P as [x y]. cbn. f_equal; field; lra. Qed.
Lemma reduce_expand P : reduce_xyfp (expand_xyfp P) = P.
Proof. unfold expand_xyfp, reduce_xyfp. destruct P as [x y]. cbn. f_equal; field; lra. Qed.
Lemma forward_back r j : sup_dist (forward (back (minus2 r (it t r j)))) (expand_xyfp r) = 420 * sup_dist (it t r (S j)) (it t r j).
Proof.
  unfold forward. rewrite before_back, expand_dist. f_equal. change (it t r (S j)) with (D t (minus2 r (it t r j))). set (e := D t (minus2 r (it t r j))). set (d := it t r j).
  unfold sup_dist, minus2. cbn [fst snd]. f_equal; f_equal; ring.
Qed.
Lemma back_dist_x u u' : Rabs (fst (back u) - fst (back u')) <= Rabs (xfvc_scale t) * (2 / Rabs (tx_scale t)) * sup_dist u u'.
Proof.
  unfold back, expand_xyfvc. cbn [fst]. match goal with |- Rabs ?e <= _ => replace e with (xfvc_scale t * (fst (unsim (tx_scale t) (tx_rotation t) off u) - fst (unsim (tx_scale t) (tx_rotation t) off u'))) by ring end.
  rewrite Rabs_mult, Rmult_assoc. apply Rmult_le_compat_l; [apply Rabs_pos|]. eapply Rle_trans; [apply Rmax_l|apply (unsim_lipschitz _ _ _ u u' scale_nz)].
Qed.
Lemma back_dist_y u u' : Rabs (snd (back u) - snd (back u')) <= Rabs (yfvc_scale t) * (2 / Rabs (tx_scale t)) * sup_dist u u'.
Proof.
  unfold back, expand_xyfvc. cbn [snd]. match goal with |- Rabs ?e <= _ => replace e with (yfvc_scale t * (snd (unsim (tx_scale t) (tx_rotation t) off u) - snd (unsim (tx_scale t) (tx_rotation t) off u'))) by ring end.
  rewrite Rabs_mult, Rmult_assoc. apply Rmult_le_compat_l; [apply Rabs_pos|]. eapply Rle_trans; [apply Rmax_r|apply (unsim_lipschitz _ _ _ u u' scale_nz)].
Qed.
End Maps.
