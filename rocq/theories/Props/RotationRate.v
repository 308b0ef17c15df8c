(** C125: the fit of the rate of the field rotation. *)
From Coq Require Import Lra Lia.
From Verif.Model Require Import RotationRate.
From Verif.Spec Require Import RotationRate.
From Verif.Proofs Require Import RealNum Trig LinAlg RotationRate.
Local Open Scope R_scope.
Local Open Scope list_scope.

Lemma kept_filter s t l : kept (good s) t l <-> l = filter (usable s) t.
Proof.
  split.
  - intros H. induction H as [|x l m P _ IH|x l m P _ IH]; cbn; [reflexivity|..]; subst.
    + apply usable_spec in P. now rewrite P.
    + destruct (usable s x) eqn:U; [apply usable_spec in U; contradiction|reflexivity].
  - intros ->. induction t as [|x t IH]; cbn; [constructor|]. destruct (usable s x) eqn:U; [constructor; auto; now apply usable_spec|]. constructor; auto. intros G. apply usable_spec in G. congruence.
Qed.
(** C125: the coefficients are those of the one best cubic for the good rows, cut to three decimals; there is none, and the script stops, if and only if a cubic other than 0 is 0 at all of them *)
Theorem C125_fit s t l : kept (good s) t l ->
  (forall c, fit_rate s t = Ok c -> exists p, best_cubic l p /\ Forall2 cut3 p c) /\
  (spread l -> exists c, fit_rate s t = Ok c) /\ (~ spread l -> fit_rate s t = Err LinAlgError).
Proof.
  intros K. apply kept_filter in K. subst l. unfold fit_rate. cbv zeta. pose proof (solve_spec (filter (usable s) t)) as S0. destruct (linalg_solve _ _) as [p|e]; cbn [rmap] in *.
  - destruct S0 as (B & S1). split; [|split; [eauto|contradiction]]. intros c E. cbn in E. injection E as <-. exists p. split; [exact B|]. clear. induction p; constructor; auto. apply cut3_thousandths.
  - destruct S0 as (-> & N). split; [discriminate|split; [contradiction|reflexivity]].
Qed.
(** Rates that follow a cubic with coefficients of three decimals give these coefficients *)
Theorem C125_exact s t l ks : kept (good s) t l -> spread l -> length ks = 10%nat -> (forall g, In g l -> g_rate g = cubic (map (fun k => IZR k / 1000) ks) g) ->
  fit_rate s t = Ok (map (fun k => IZR k / 1000) ks).
Proof.
  intros K S0 L H. apply kept_filter in K. subst l. unfold fit_rate. cbv zeta. pose proof (solve_spec (filter (usable s) t)) as Q. destruct (linalg_solve _ _) as [p|e]; [|destruct Q; contradiction].
  destruct Q as (B & _). apply (best_exact _ _ _ B) in H; [|now rewrite map_length]. subst p. cbn. f_equal. rewrite map_map. apply map_ext. intros k. apply thousandths_exact.
Qed.
(** Good rows of one declination only, or of one hour angle only, stop the script *)
Theorem C125_one_line s t l d : kept (good s) t l -> (forall g, In g l -> g_dec g = d) \/ (forall g, In g l -> g_ha g = d) -> fit_rate s t = Err LinAlgError.
Proof.
  intros K H. apply (C125_fit s t l K). intros S0. destruct H as [H|H].
  - specialize (S0 [- ((d - 30) / 30); 0; 1; 0; 0; 0; 0; 0; 0; 0] eq_refl). assert (E : [- ((d - 30) / 30); 0; 1; 0; 0; 0; 0; 0; 0; 0] = repeat 0 10) by (apply S0; intros g I; unfold cubic; cbn [nth]; rewrite (H g I); lra).
    cbn in E. injection E. intros. lra.
  - specialize (S0 [- sin (PI / 180 * d); 1; 0; 0; 0; 0; 0; 0; 0; 0] eq_refl). assert (E : [- sin (PI / 180 * d); 1; 0; 0; 0; 0; 0; 0; 0; 0] = repeat 0 10) by (apply S0; intros g I; unfold cubic; cbn [nth]; rewrite (H g I); lra).
    cbn in E. injection E. intros. lra.
Qed.
(** The numbers reported: no good row deviates by more than the largest deviation, which some row has; they are 0 for rates that follow the cubic *)
Theorem C125_report s t l c rms dev chi n k : kept (good s) t l -> length c = 10%nat -> report s t c = Ok (rms, dev, chi, n, k) ->
  n = length l /\ k = 10%nat /\ (forall g, In g l -> Rabs (g_rate g - cubic c g) <= dev) /\ (exists g, In g l /\ dev = Rabs (g_rate g - cubic c g)) /\
  chi = fold_right Rplus 0 (map (fun g => ((g_rate g - cubic c g) / g_std g) ^ 2) l) /\
  rms = sqrt (squares l c / INR (length l) - (fold_right Rplus 0 (map (fun g => g_rate g - cubic c g) l) / INR (length l)) ^ 2).
Proof.
  intros K L E. apply kept_filter in K. revert E. unfold report. cbv zeta. rewrite <- K. clear K.
  assert (D : forall g, model_rate c g = cubic c g) by (intros g; unfold model_rate; rewrite dot_comm, <- combination_dot; now apply terms_cubic).
  assert (D1 : map (fun g => g_rate g - model_rate c g) l = map (fun g => g_rate g - cubic c g) l) by (apply map_ext; intros g; now rewrite D). rewrite D1.
  assert (D2 : map (fun g => ((g_rate g - model_rate c g) / g_std g) ^ 2) l = map (fun g => ((g_rate g - cubic c g) / g_std g) ^ 2) l) by (apply map_ext; intros g; now rewrite D). rewrite D2. clear D D1 D2.
  assert (N0 : l = [] \/ l <> [] /\ mean (map (fun g => g_rate g - cubic c g) l) = Ok (Rsum (map (fun g => g_rate g - cubic c g) l) / INR (length (map (fun g => g_rate g - cubic c g) l)))) by (destruct l; [now left|right; split; [discriminate|reflexivity]]).
  destruct N0 as [->|(N0 & Em)]; [discriminate|]. rewrite Em. cbn [rbind]. assert (Nl : INR (length l) <> 0) by (apply not_0_INR; destruct l; [contradiction|discriminate]). destruct (existsb _ _); [discriminate|]. intros E.
  apply (f_equal (fun r => match r with Ok v => v | Err _ => (0, 0, 0, 0%nat, 0%nat) end)) in E.
  pose proof (f_equal (fun v => fst (fst (fst (fst v)))) E) as E1. pose proof (f_equal (fun v => snd (fst (fst (fst v)))) E) as E2. pose proof (f_equal (fun v => snd (fst (fst v))) E) as E3.
  pose proof (f_equal (fun v => snd (fst v)) E) as E4. pose proof (f_equal snd E) as E5. clear E. cbn [fst snd] in *. subst. repeat split.
  - intros g I. clear Nl N0 Em. induction l as [|a l IH]; [destruct I|]. cbn [map fold_right]. destruct I as [->|I]; [apply Rmax_l|]. eapply Rle_trans; [apply (IH I)|apply Rmax_r].
  - assert (G : forall m, (exists g, In g m /\ fold_right Rmax 0 (map Rabs (map (fun g => g_rate g - cubic c g) m)) = Rabs (g_rate g - cubic c g)) \/ m = []).
    { induction m as [|a m IH]; [now right|]. left. cbn [map fold_right]. destruct IH as [(g & I & ->)| ->].
      - unfold Rmax. destruct (Rle_dec _ _); [exists g; split; [now right|reflexivity]|exists a; split; [now left|reflexivity]].
      - exists a. split; [now left|]. cbn. apply Rmax_left, Rabs_pos. }
    destruct (G l) as [Q|Q]; [exact Q|contradiction].
  - f_equal. rewrite !map_length. set (n := INR (length l)) in *. unfold squares, Rsum. rewrite map_map. set (m := fold_right Rplus 0 (map (fun g => g_rate g - cubic c g) l) / n).
    assert (Q : forall k, fold_right Rplus 0 (map (fun g => (g_rate g - cubic c g - m) ^ 2) k) =
       fold_right Rplus 0 (map (fun g => (g_rate g - cubic c g) ^ 2) k) - 2 * m * fold_right Rplus 0 (map (fun g => g_rate g - cubic c g) k) + INR (length k) * m ^ 2).
    { induction k as [|a k IH]; [cbn; ring|]. cbn [map fold_right length]. rewrite IH, S_INR. ring. }
    rewrite Q. fold n. assert (M : fold_right Rplus 0 (map (fun g => g_rate g - cubic c g) l) = m * n) by (unfold m; field; exact Nl). rewrite M. field. exact Nl.
Qed.
Print Assumptions C125_fit.
Print Assumptions C125_exact.
Print Assumptions C125_one_line.
Print Assumptions C125_report.

(** * Ten rows that determine the cubic *)
Definition row (rate ha dec : R) : guide := {| g_mjd := 1; g_rate := rate; g_rms := 100; g_iterations := 40; g_std := 0.1; g_ha := ha; g_dec := dec |}.
Definition places : list (R * R) := [(0, 0); (0, 30); (0, 60); (0, 90); (30, 30); (30, 60); (30, 90); (-30, 30); (-30, 60); (90, 30)].
Definition rows (f : R * R -> R) : list guide := map (fun p => row (f p) (fst p) (snd p)) places.
Lemma sin_30 : sin (PI / 180 * 30) = 1 / 2. Proof. replace (PI / 180 * 30) with (PI / 6) by field. apply sin_PI6. Qed.
Lemma sin_m30 : sin (PI / 180 * -30) = - (1 / 2). Proof. replace (PI / 180 * -30) with (- (PI / 6)) by field. now rewrite sin_neg, sin_PI6. Qed.
Lemma sin_90 : sin (PI / 180 * 90) = 1. Proof. replace (PI / 180 * 90) with (PI / 2) by field. apply sin_PI2. Qed.
Lemma sin_00 : sin (PI / 180 * 0) = 0. Proof. rewrite Rmult_0_r. apply sin_0. Qed.
Lemma rows_spread f : spread (rows f).
Proof.
  intros c L H. do 10 (destruct c as [|? c]; [discriminate|]). destruct c; [|discriminate].
  assert (G : forall p, In p places -> cubic [r; r0; r1; r2; r3; r4; r5; r6; r7; r8] (row (f p) (fst p) (snd p)) = 0) by (intros p I; apply H; unfold rows; apply in_map_iff; eauto).
  pose proof (G (0, 0) ltac:(cbn; tauto)) as H0. pose proof (G (0, 30) ltac:(cbn; tauto)) as H1. pose proof (G (0, 60) ltac:(cbn; tauto)) as H2. pose proof (G (0, 90) ltac:(cbn; tauto)) as H3.
  pose proof (G (30, 30) ltac:(cbn; tauto)) as H4. pose proof (G (30, 60) ltac:(cbn; tauto)) as H5. pose proof (G (30, 90) ltac:(cbn; tauto)) as H6.
  pose proof (G (-30, 30) ltac:(cbn; tauto)) as H7. pose proof (G (-30, 60) ltac:(cbn; tauto)) as H8. pose proof (G (90, 30) ltac:(cbn; tauto)) as H9. clear H G.
  unfold cubic, row in *. cbn [g_ha g_dec nth fst snd] in *. rewrite ?sin_00, ?sin_30, ?sin_m30, ?sin_90 in *.
  assert (r = 0) by lra. subst r. assert (r1 = 0 /\ r4 = 0 /\ r8 = 0) as (-> & -> & ->) by (repeat split; lra). 
  assert (r0 = 0 /\ r3 = 0 /\ r5 = 0) as (-> & -> & ->) by (repeat split; lra). assert (r2 = 0 /\ r6 = 0 /\ r7 = 0) as (-> & -> & ->) by (repeat split; lra). reflexivity.
Qed.
Lemma rows_kept f : (forall p, In p places -> f p <> 0) -> kept (good 2) (rows f) (rows f).
Proof.
  intros H. unfold rows. assert (G : forall p, In p places -> good 2 (row (f p) (fst p) (snd p))) by (intros p I; unfold good, row; cbn [g_mjd g_rate g_rms g_iterations g_std]; repeat split; try lra; try lia; now apply H).
  induction places as [|p l IH]; cbn [map]; constructor; [apply G; now left|]. apply IH; intros q I; [apply H|apply G]; now right.
Qed.
Example C125_example : fit_rate 2 (rows (fun p => 0.5 + 0.25 * sin (PI / 180 * fst p))) = Ok [500 / 1000; 250 / 1000; 0 / 1000; 0 / 1000; 0 / 1000; 0 / 1000; 0 / 1000; 0 / 1000; 0 / 1000; 0 / 1000].
Proof.
  apply (C125_exact 2 _ (rows (fun p => 0.5 + 0.25 * sin (PI / 180 * fst p))) [500; 250; 0; 0; 0; 0; 0; 0; 0; 0]%Z); [|apply rows_spread|reflexivity|].
  - apply rows_kept. intros p _. pose proof (SIN_bound (PI / 180 * fst p)). lra.
  - intros g I. unfold rows in I. apply in_map_iff in I. destruct I as (p & <- & _). unfold cubic, row. cbn [map nth g_rate g_ha g_dec]. lra.
Qed.
(** It is false that the coefficients are the best ones to the nearest third decimal *)
Theorem C125_nearest_refuted : ~ (forall s t l c, kept (good s) t l -> fit_rate s t = Ok c -> exists p, best_cubic l p /\ Forall2 (fun x y => Rabs (x - y) <= 0.0005) p c).
Proof.
  intros H. set (f := fun _ : R * R => 0.0006). assert (K : kept (good 2) (rows f) (rows f)) by (apply rows_kept; intros p _; unfold f; lra).
  destruct (C125_fit 2 _ _ K) as (Q & E & _). destruct (E (rows_spread f)) as (c & Ec). destruct (Q c Ec) as (p & B & F). destruct (H 2 _ _ c K Ec) as (p' & B' & F').
  assert (X : forall q, best_cubic (rows f) q -> q = 0.0006 :: repeat 0 9).
  { intros q Bq. apply (best_exact (rows f) q (0.0006 :: repeat 0 9) Bq); [reflexivity|]. intros g I. unfold rows in I. apply in_map_iff in I. destruct I as (x & <- & _). unfold cubic, row, f. cbn [repeat nth g_rate g_ha g_dec]. lra. }
  rewrite (X p B) in F. rewrite (X p' B') in F'. inversion F as [|? y ? ? ((k & ->) & C & _)]; subst. inversion F' as [|? ? ? ? C' _]; subst. rewrite (Rabs_right 0.0006) in C by lra.
  assert (Hk : Rabs (IZR k / 1000) < 0.0007) by lra. apply Rabs_def2 in Hk. assert (k = 0%Z) by (assert (-1 < k)%Z by (apply lt_IZR; lra); assert (k < 1)%Z by (apply lt_IZR; lra); lia). subst k.
  replace (0.0006 - 0 / 1000) with 0.0006 in C' by lra. rewrite Rabs_right in C' by lra. lra.
Qed.
Print Assumptions C125_nearest_refuted.
