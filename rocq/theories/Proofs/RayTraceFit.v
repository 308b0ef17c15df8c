From Verif.Model Require Import RayTraceFit.
From Verif.Spec Require Import Trig Fvc2fp Numpy Adc ZhaoBurge.
From Verif.Proofs Require Import Prelude RealNum Trig Numpy ZhaoBurge Stats Sorting Fvc2fp Fvc2fpPairs.
From Coq Require Import Lra Lia Permutation Sorted.
Local Open Scope R_scope.

(** *** Angles *)
Lemma same_refl a : same_angle a a.
Proof. exists 0%Z. lra. Qed.
Lemma same_sym a b : same_angle a b -> same_angle b a.
Proof. intros [k ->]. exists (- k)%Z. rewrite opp_IZR. lra. Qed.
Lemma same_trans a b c : same_angle a b -> same_angle b c -> same_angle a c.
Proof. intros [k ->] [j ->]. exists (k + j)%Z. rewrite plus_IZR. lra. Qed.
Lemma same_add a b d : same_angle a b -> same_angle (a + d) (b + d).
Proof. intros [k ->]. exists k. lra. Qed.
Lemma average_adc adc1 adc2 : average_angles_adc adc1 adc2 = put360 (adc1 + delta_angles_adc adc1 adc2 / 2).
Proof.
  unfold average_angles_adc, delta_angles_adc. destruct (Reqb _ 0) eqn:E.
  - apply Reqb_true in E. assert (S : same_angle (adc2 - adc1) 0). { unfold pymod in E. exists (- Rfloor ((adc1 - adc2) / 360))%Z. rewrite opp_IZR. lra. }
    assert (put360 (adc2 - adc1) = 0) as ->. { destruct S as [k S]. rewrite S. unfold put360. rewrite pymod_add by lra. apply pymod_id. lra. }
    unfold put360. f_equal. lra.
  - apply Reqb_false in E. pose proof (put360_range (adc2 - adc1)) as Rg. destruct (put360_same (adc2 - adc1)) as [k Hk]. set (d := put360 (adc2 - adc1)) in *.
    assert (d <> 0). { intros Z. apply E. replace (adc1 - adc2) with (0 + 360 * IZR k) by lra. rewrite pymod_add by lra. apply pymod_id. lra. }
    rewrite (average_same (adc1 + 90) (adc1 + 90) (adc2 - 90) (adc1 + d - 90)); [|apply same_refl|exists (- k)%Z; rewrite opp_IZR; lra].
    rewrite average_bisects by (apply Rabs_def1; lra). f_equal. lra.
Qed.

(** *** Turned axes *)
Section Turn.
Variable m : R.
Let c := cos (PI * m / 180).
Let s := sin (PI * m / 180).
Lemma cs : c * c + s * s = 1.
Proof. apply sincos1. Qed.
Lemma turn_back p : turned m (turned_back m p) = p.
Proof.
  unfold turned, turned_back. fold c s. pose proof cs. destruct p as [x y]. cbn [fst snd]. f_equal.
  - transitivity (x * (c * c + s * s)); [ring|rewrite H; ring].
  - transitivity (y * (c * c + s * s)); [ring|rewrite H; ring].
Qed.
Lemma back_turn p : turned_back m (turned m p) = p.
Proof.
  unfold turned, turned_back. fold c s. pose proof cs. destruct p as [x y]. cbn [fst snd]. f_equal.
  - transitivity (x * (c * c + s * s)); [ring|rewrite H; ring].
  - transitivity (y * (c * c + s * s)); [ring|rewrite H; ring].
Qed.
Lemma turn_sup p q : sup_dist (turned_back m p) (turned_back m q) <= sqrt 2 * sup_dist p q.
Proof.
  assert (G : forall a b u v, a * a + b * b = 1 -> Rabs (a * u + b * v) <= sqrt 2 * Rmax (Rabs u) (Rabs v)).
  { intros a b u v H. eapply Rle_trans; [apply Rabs_triang|]. rewrite !Rabs_mult. set (M := Rmax (Rabs u) (Rabs v)).
    assert (Rabs u <= M) by apply Rmax_l. assert (Rabs v <= M) by apply Rmax_r. pose proof (Rabs_pos u). pose proof (Rabs_pos a). pose proof (Rabs_pos b). pose proof (Rabs_pos v).
    assert (Rabs a + Rabs b <= sqrt 2).
    { assert (A2 : Rabs a * Rabs a = a * a) by (rewrite <- Rabs_mult; apply Rabs_right; nra). assert (B2 : Rabs b * Rabs b = b * b) by (rewrite <- Rabs_mult; apply Rabs_right; nra).
      assert (P : 0 <= sqrt 2) by apply sqrt_pos. assert (Q : sqrt 2 * sqrt 2 = 2) by (apply sqrt_sqrt; lra). assert ((Rabs a + Rabs b) * (Rabs a + Rabs b) <= sqrt 2 * sqrt 2) by (pose proof (pow2_ge_0 (Rabs a - Rabs b)); lra). nra. }
    apply Rle_trans with ((Rabs a + Rabs b) * M); [nra|]. apply Rmult_le_compat_r; lra. }
  pose proof cs as H. unfold sup_dist at 1. unfold turned_back. cbn [fst snd]. fold c s. apply Rmax_lub.
  - match goal with |- Rabs ?e <= _ => replace e with (c * (fst p - fst q) + (- s) * (snd p - snd q)) by ring end. apply G. lra.
  - match goal with |- Rabs ?e <= _ => replace e with (s * (fst p - fst q) + c * (snd p - snd q)) by ring end. apply G. lra.
Qed.
Lemma turn_linear k p : turned m (reduced_by k p) = reduced_by k (turned m p).
Proof. unfold turned, reduced_by. cbn [fst snd]. unfold Rdiv. f_equal; ring. Qed.
End Turn.

Section RT.
Variable argsort : forall K, (K -> K -> bool) -> list K -> list nat.
Variable interp1d : list R -> list R -> R -> res R.
Variable t : rtf.
Variables adc1 adc2 : R.
Variable k : params.
Hypothesis K : interpolate_coeffs argsort interp1d t adc1 adc2 = Ok k.
Let m := average_angles_adc adc1 adc2.
Let T := zb_params t k.

Lemma fp2tan_turned pts : fp2tan argsort interp1d t pts adc1 adc2 = rmap (map (turned_back m)) (fp2fvc T (map (turned m) pts)).
Proof.
  unfold fp2tan, fp2fvc. rewrite K. cbn [rbind]. cbv zeta. rewrite !map_map. fold m. unfold turned. rewrite <- (deg_rad m).
  set (c := cos (D2R * m)). set (s := sin (D2R * m)).
  assert (E : map (fun p => (c * fst (reduce_xyfp p) + s * snd (reduce_xyfp p), - s * fst (reduce_xyfp p) + c * snd (reduce_xyfp p))) pts = map (fun x => reduce_xyfp (c * fst x + s * snd x, - s * fst x + c * snd x)) pts).
  { apply map_ext. intros [x y]. unfold reduce_xyfp. cbn [fst snd]. f_equal; field; lra. }
  rewrite E. set (rr := map _ pts). rewrite <- (map_map (fun x => reduce_xyfp (c * fst x + s * snd x, - s * fst x + c * snd x)) (fun _ => (0, 0))). fold rr.
  destruct (undo_zb T 20 rr _) as [d|e] eqn:U; fold T; rewrite U; cbn [rbind rmap]; [|reflexivity].
  change (tx_scale T) with (p_scale k). destruct (Reqb (p_scale k) 0); [reflexivity|]. cbn [rmap]. f_equal. rewrite map_map. apply map_ext. intros [r e].
  unfold turned_back. rewrite <- deg_rad. fold c s. unfold expand_xytan, expand_xyfvc. cbn [T zb_params fst snd tx_scale tx_rotation tx_offset_x tx_offset_y xfvc_scale yfvc_scale xfvc_offset yfvc_offset]. f_equal; ring.
Qed.

Hypothesis ids : Forall valid_id (r_polids t).
Lemma tan2fp_turned pts : tan2fp argsort interp1d t pts adc1 adc2 = rmap (map (turned_back m)) (fvc2fp T (map (turned m) pts)).
Proof.
  assert (X : xfvc_scale T <> 0) by (cbn; lra). assert (Y : yfvc_scale T <> 0) by (cbn; lra).
  rewrite fvc2fp_forward by assumption. cbn [rmap]. rewrite !map_map. unfold tan2fp. rewrite K. cbn [rbind]. cbv zeta. apply rmapM_total. intros p _. cbv beta.
  pose proof (fvc2fp_forward T ids X Y [turned m p]) as F. cbn [map] in F. unfold fvc2fp in F. cbn [rmapM] in F. unfold reduce_xyfvc in F.
  assert (Z : Reqb (xfvc_scale T) 0 = false /\ Reqb (yfvc_scale T) 0 = false) by (split; apply Reqb_false; assumption). destruct Z as [Z1 Z2]. rewrite Z1, Z2 in F. cbn [orb rbind] in F.
  fold m. set (c := cos (D2R * m)) in *. set (s := sin (D2R * m)) in *.
  assert (E : ((fst (turned m p) - xfvc_offset T) / xfvc_scale T, (snd (turned m p) - yfvc_offset T) / yfvc_scale T) = (c * fst (reduce_xytan p) + s * snd (reduce_xytan p), - s * fst (reduce_xytan p) + c * snd (reduce_xytan p))).
  { unfold turned, reduce_xytan. rewrite <- deg_rad. fold c s. cbn [T zb_params xfvc_scale yfvc_scale xfvc_offset yfvc_offset fst snd]. f_equal; field; lra. }
  rewrite E in F. cbn [fst snd] in F. change (tx_scale T) with (p_scale k) in F. change (tx_rotation T) with (p_rotation k) in F. change (tx_offset_x T) with (p_offset_x k) in F. change (tx_offset_y T) with (p_offset_y k) in F. change (tx_polids T) with (r_polids t) in F. change (tx_coeffs T) with (p_coeffs k) in F.
  destruct (transform _ _ _ _ _ _ _ _) as [f|e]; cbn [rbind] in *; [|discriminate F]. apply Ok_inj in F. assert (F' : expand_xyfp f = forward T (turned m p)) by congruence. f_equal. rewrite <- F'.
  unfold turned_back. rewrite <- deg_rad. fold c s. unfold expand_xyfp. cbn [fst snd]. f_equal; ring.
Qed.
End RT.

(** *** Knots *)
Lemma sub_arrays_nth a : forall b i, length a = length b -> (i < length b)%nat -> nth i (sub_arrays a b) 0 = nth i a 0 - nth i b 0.
Proof. induction a as [|x a IH]; intros [|y b] [|i] L H; cbn in *; try lia; [reflexivity|]. apply IH; lia. Qed.
Section Knots.
Variable argsort : forall K, (K -> K -> bool) -> list K -> list nat.
Hypothesis argsort_ok : is_argsort argsort.
Lemma Rltb_weak : strict_weak Rltb.
Proof.
  split.
  - intros x. apply Rltb_false. lra.
  - intros x y z H1 H2. apply Rltb_true in H1, H2. apply Rltb_true. lra.
  - intros x y z H. apply Rltb_true in H. destruct (Rltb x y) eqn:E; [now left|]. apply Rltb_false in E. right. apply Rltb_true. lra.
Qed.
Lemma take_nth {A} (l : list A) idx d : Forall (fun i => i < length l)%nat idx -> take l idx = Ok (map (fun i => nth i l d) idx).
Proof.
  intros H. unfold take. apply rmapM_total. intros i Hi. unfold geti. rewrite Forall_forall in H. rewrite (nth_error_nth' l d (H i Hi)). reflexivity.
Qed.
Lemma ascending_strict l : NoDup l -> ascending Rltb l -> StronglySorted Rlt l.
Proof.
  intros N A. induction A as [|x l A IH F]; [constructor|]. inversion N; subst. constructor; [now apply IH|]. apply Forall_forall. intros y Hy. rewrite Forall_forall in F. specialize (F y Hy). apply Rltb_false in F.
  destruct (Req_dec x y) as [->|]; [contradiction|lra].
Qed.
Lemma knot interp1d dadc col i : interpolates interp1d -> (4 <= length dadc)%nat -> NoDup dadc -> (i < length dadc)%nat -> length col = length dadc ->
  exists xs ys, take dadc (argsort R Rltb dadc) = Ok xs /\ take col (argsort R Rltb dadc) = Ok ys /\ interp1d xs ys (nth i dadc 0) = Ok (nth i col 0).
Proof.
  intros I L4 N Hi Lc. set (idx := argsort R Rltb dadc). pose proof (argsort_ok R Rltb dadc Rltb_weak) as S. fold idx in S. destruct S as [P S].
  assert (B : Forall (fun j => j < length dadc)%nat idx). { apply Forall_forall. intros j Hj. apply (Permutation_in _ P) in Hj. apply in_seq in Hj. lia. }
  pose proof (take_nth dadc idx 0 B) as Ex. pose proof (take_nth col idx 0 ltac:(now rewrite Lc)) as Ey. eexists _, _. split; [exact Ex|]. split; [exact Ey|].
  assert (Ii : In i idx) by (apply (Permutation_in _ (Permutation_sym P)), in_seq; lia). apply (In_nth _ _ 0%nat) in Ii as (j & Hj & Ej).
  assert (Li : length idx = length dadc) by (rewrite (Permutation_length P); apply seq_length).
  assert (M : forall l, nth j (map (fun q => nth q l 0) idx) 0 = nth i l 0). { intros l. rewrite (nth_indep _ 0 (nth 0%nat l 0)) by (rewrite map_length; lia). rewrite (map_nth (fun q => nth q l 0)). now rewrite Ej. }
  rewrite <- (M dadc), <- (M col). apply I; rewrite ?map_length; [lia|lia| |lia].
  apply ascending_strict; [|apply (take_sorted Rltb dadc idx); [split; assumption|exact Ex]].
  apply take_perm in Ex; [|exact P]. apply (Permutation_NoDup (Permutation_sym Ex) N).
Qed.
End Knots.
