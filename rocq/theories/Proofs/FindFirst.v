From Verif.Model Require Import FindFiducials.
From Verif.Spec Require Import Numpy Match FindFiducials.
From Verif.Proofs Require Import Prelude Numpy RealNum FindFiducials FindTables FindRecover FindGroups.
From Verif.Proofs Require Match.
From Coq Require Import Lra Lia.
From Coq Require String.
Local Open Scope R_scope.
Local Open Scope list_scope.

Lemma central_unique l p q : central l p -> central l q -> p = q.
Proof.
  intros (i & Hi & P) (j & Hj & Q). destruct (P j q Hj) as [P1 P2]. destruct (Q i p Hi) as [Q1 Q2]. assert (i = j) by (apply PeanoNat.Nat.le_antisymm; [apply P2; lra|apply Q2; lra]). congruence.
Qed.
Lemma rbind_Ok {A B} (r : res A) (f : A -> res B) b : rbind r f = Ok b -> exists a, r = Ok a /\ f a = Ok b.
Proof. destruct r as [a|e]; [eauto|discriminate]. Qed.
Lemma rmapM_length' {A B} (f : A -> res B) l r : rmapM f l = Ok r -> length r = length l.
Proof. intros H. apply rmapM_Ok_Forall2 in H. symmetry. exact (Forall2_length _ _ _ H). Qed.

Section First.
Variables (argsort : forall K, (K -> K -> bool) -> list K -> list nat) (query2 : list point -> point -> edist * nat)
  (query3 : list descr -> descr -> edist * nat) (query4 : list point -> R -> point -> list (edist * nat)).
Hypothesis argsort_ok : is_argsort argsort.
Hypothesis query2_ok : nearest_query query2.
Hypothesis query3_ok : nearest_query3 query3.
Hypothesis query4_ok : near_query query4.

Lemma undo_zb_length t n : forall rfp d r, length d = length rfp -> undo_zb t n rfp d = Ok r -> length r = length rfp.
Proof.
  induction n as [|n IH]; cbn [undo_zb]; intros rfp d r L E; [now injection E as <-|]. apply rbind_Ok in E as (d2 & E2 & E). apply rmapM_length' in E2. rewrite combine_length, L, Nat.min_id in E2.
  apply rbind_Ok in E as (mx & _ & E). apply rbind_Ok in E as (my & _ & E). destruct (Rltb _ _); [now injection E as <-|eauto].
Qed.
Lemma fp2fvc_length t fp pix : fp2fvc t fp = Ok pix -> length pix = length fp.
Proof.
  unfold fp2fvc. cbv zeta. intros E. apply rbind_Ok in E as (d & Ed & E). apply undo_zb_length in Ed; [|now rewrite !map_length]. destruct (Reqb _ _); [discriminate|]. injection E as <-. rewrite map_length, combine_length, Ed, Nat.min_id. apply map_length.
Qed.

Lemma find_first metrology t mm xy pix fp0 fp1 sep s u v :
  fp2fvc t (map v_fp (fiducial_devices metrology)) = Ok pix ->
  fvc2fp t [(2000, 0)] = Ok [fp0] -> fvc2fp t [(2001, 0)] = Ok [fp1] -> distance fp0 fp1 <> 0 -> sep = mm / distance fp0 fp1 ->
  let devices := fiducial_devices metrology in let im := dilate s u v in
  0 < s -> NoDup xy -> NoDup pix -> NoDup (map (fun d => (v_location d, v_pinhole d)) devices) ->
  (forall d, In d devices -> (0 <= v_location d /\ 0 < v_pinhole d)%Z) ->
  (forall p, In p pix -> In (im p) xy) ->
  (forall d, In d devices -> length (positions_of devices pix (v_location d)) = 4%nat) ->
  (forall L p q, In p (positions_of devices pix L) -> In q (positions_of devices pix L) -> distance (im p) (im q) < sep) ->
  (forall L p spot, In p (positions_of devices pix L) -> In spot xy -> distance (im p) spot < sep -> exists q, In q (positions_of devices pix L) /\ spot = im q) ->
  (forall spot, In spot xy -> crowded xy sep spot -> exists p, In p pix /\ spot = im p) ->
  (forall d, In d devices -> NoDup (map fst (positions_of devices pix (v_location d))) /\ distinct_shapes (positions_of devices pix (v_location d))) ->
  (forall d c, In d devices -> central (positions_of devices pix (v_location d)) c -> distance (im c) c < 10) ->
  (forall d c p, In d devices -> central (positions_of devices pix (v_location d)) c -> In p pix -> p <> c -> distance (im c) c < distance (im p) c) ->
  (forall d c d' c', In d devices -> central (positions_of devices pix (v_location d)) c -> In d' devices -> central (positions_of devices pix (v_location d')) c' -> c' <> c ->
    distance (im c) c < distance (im c) c') ->
  (forall a b e, (forall d c, In d devices -> central (positions_of devices pix (v_location d)) c -> a + b * fst c + e * snd c = 0) -> a = 0 /\ b = 0 /\ e = 0) ->
  exists marks, fst (findfiducials argsort query2 query3 query4 None metrology t mm xy) = Ok marks /\ length marks = length xy /\
    (forall i d p, nth_error devices i = Some d -> nth_error pix i = Some p ->
       forall k, nth_error xy k = Some (im p) -> nth_error marks k = Some {| k_location := v_location d; k_petal_loc := v_location d / 1000; k_device_loc := v_location d mod 1000; k_pinhole := v_pinhole d |}) /\
    (forall k spot, nth_error xy k = Some spot -> (forall p, In p pix -> spot <> im p) -> nth_error marks k = Some {| k_location := -1; k_petal_loc := -1; k_device_loc := -1; k_pinhole := 0 |}).
Proof.
  intros E F0 F1 Nz Es devices im Hs HX HP HN Hpos Hseen Hfour Htog Hiso Hoth Hgen Hc1 Hc2 Hc3 Hspr.
  pose proof (fp2fvc_length _ _ _ E) as Lp. rewrite map_length in Lp. fold devices in Lp.
  destruct (make_tables_spec t metrology pix E) as (fiducials & ET & EL & HF). cbv zeta in *. fold devices in ET, EL, HF. set (pinholes := map as_pinhole (combine devices pix)) in *.
  assert (MS : max_separation t mm = Ok sep).
  { unfold max_separation. rewrite F0. cbn [rbind]. replace (2000 + 1) with 2001 by lra. rewrite F1. cbn [rbind]. unfold geti. cbn [nth_error rbind].
    assert (D : dist2d fp1 fp0 = distance fp0 fp1) by (rewrite <- Match.distance_dist2d; apply distance_sym). rewrite D.
    destruct (Reqb _ 0) eqn:Er; [apply Reqb_true in Er; contradiction|]. now rewrite Es. }
  assert (PI : forall p, In p pinholes <-> exists i d q, nth_error devices i = Some d /\ nth_error pix i = Some q /\ p = as_pinhole (d, q)).
  { intros p. unfold pinholes. split.
    - intros H. apply in_map_iff in H as ([d q] & <- & H). apply In_nth_error in H as [i H]. apply combine_nth2 in H as [H1 H2]. eauto 7.
    - intros (i & d & q & H1 & H2 & ->). apply in_map. apply nth_error_In with (n := i). now apply combine_nth2. }
  assert (POS : forall L q, In q (positions_of devices pix L) <-> exists p, In p pinholes /\ p_location p = L /\ p_pix p = q).
  { intros L q. rewrite <- at_location_positions, in_map_iff. fold pinholes. split; [intros (p & <- & H); apply at_location_In in H as []; eauto|intros (p & H1 & H2 & <-); exists p; split; [reflexivity|now apply at_location_In]]. }
  assert (PP : map p_pix pinholes = pix).
  { unfold pinholes. rewrite map_map. etransitivity; [|apply (combine_snd devices pix (eq_sym Lp))]. apply map_ext. now intros [d q]. }
  assert (FP : forall p, In p pinholes -> exists d, In d devices /\ v_location d = p_location p /\ v_pinhole d = p_id p).
  { intros p Hp. apply PI in Hp as (i & d & q & H1 & _ & ->). exists d. split; [eapply nth_error_In; eauto|auto]. }
  destruct (find_exact s u v Hs xy sep pinholes) with (argsort := argsort) (query2 := query2) (query3 := query3) (query4 := query4) (fiducials := fiducials) as (labels & EF & LL & RA & RB); auto.
  - now rewrite PP.
  - intros p Hp. apply Hseen. rewrite <- PP. now apply in_map.
  - intros p q Hp Hq EL'. apply (Htog (p_location p)); apply POS; eauto.
  - intros p spot Hp Hsp Hd. destruct (Hiso (p_location p) (p_pix p) spot) as (q & Hq & ->); [apply POS; eauto|exact Hsp|exact Hd|]. apply POS in Hq as (q' & H1 & H2 & <-). exists q'. auto.
  - intros p Hp. destruct (FP p Hp) as (d & Hd & Ed & _). rewrite <- Ed, <- (Hfour d Hd), <- at_location_positions, map_length. reflexivity.
  - intros p Hp. destruct (FP p Hp) as (d & Hd & Ed & _). rewrite <- Ed. unfold pinholes. rewrite at_location_positions. now apply Hgen.
  - intros p q Hp Hq E1 E2. apply PI in Hp as (i & d & a & H1 & H2 & ->). apply PI in Hq as (j & d' & b & H3 & H4 & ->). cbn in E1, E2.
    assert (i = j). { rewrite NoDup_nth_error in HN. apply HN; [rewrite map_length; apply nth_error_Some; congruence|]. rewrite !nth_error_map, H1, H3. cbn. congruence. } congruence.
  - intros p Hp. destruct (FP p Hp) as (d & Hd & _ & <-). now apply Hpos.
  - intros f Hf. now apply HF.
  - intros p Hp. assert (In (p_location p) (map p_location fiducials)) as Hin by (rewrite EL; apply unique_In; now apply in_map). apply in_map_iff in Hin as (f & ? & ?). eauto.
  - rewrite EL. apply unique_NoDup.
  - intros spot Hsp Hcr. destruct (Hoth spot Hsp Hcr) as (q & Hq & ->). rewrite <- PP in Hq. apply in_map_iff in Hq as (p & <- & Hp). exists p. auto.
  - intros f Hf. destruct (HF f Hf) as [Hp Hc]. destruct (FP f Hp) as (d & Hd & Ed & _). apply (Hc1 d); [exact Hd|]. rewrite Ed, <- at_location_positions. exact Hc.
  - intros f p Hf Hp Np. destruct (HF f Hf) as [Hpf Hc]. destruct (FP f Hpf) as (d & Hd & Ed & _). apply (Hc2 d); [exact Hd|rewrite Ed, <- at_location_positions; exact Hc|rewrite <- PP; now apply in_map|].
    intros Ep. apply Np. apply (image_inj s u v Hs pinholes); [now rewrite PP|exact Hp|exact Hpf|]. unfold FindGroups.image. now rewrite Ep.
  - intros f f' Hf Hf' Nf. destruct (HF f Hf) as [Hpf Hc]. destruct (FP f Hpf) as (d & Hd & Ed & _). destruct (HF f' Hf') as [Hpf' Hc']. destruct (FP f' Hpf') as (d' & Hd' & Ed' & _).
    apply (Hc3 d _ d'); [exact Hd|rewrite Ed, <- at_location_positions; exact Hc|exact Hd'|rewrite Ed', <- at_location_positions; exact Hc'|].
    intros Ep. apply Nf. apply (image_inj s u v Hs pinholes); [now rewrite PP|exact Hpf'|exact Hpf|]. unfold FindGroups.image. now rewrite Ep.
  - intros a b e H. apply Hspr. intros d c Hd Hc. apply In_nth_error in Hd as [i Hi]. destruct (nth_error_length devices pix i d (eq_sym Lp) Hi) as [q Hq].
    assert (Hp : In (as_pinhole (d, q)) pinholes) by (apply PI; eauto 6). assert (Hin : In (v_location d) (map p_location fiducials)) by (rewrite EL; apply unique_In; apply in_map_iff; exists (as_pinhole (d, q)); auto).
    apply in_map_iff in Hin as (f & Ef & Hf). destruct (HF f Hf) as [_ Hcf]. unfold pinholes in Hcf. rewrite at_location_positions, Ef in Hcf. rewrite (central_unique _ _ _ Hc Hcf). apply H. now apply in_map.
  - exists (map marks_of labels). unfold findfiducials. rewrite MS, ET. cbn [fst]. split; [exact EF|]. rewrite map_length. split; [exact LL|]. split.
    + intros i d p Hi Hp k Hk. rewrite nth_error_map. rewrite (RA k (as_pinhole (d, p))); [|apply PI; eauto 6|exact Hk]. cbn. unfold marks_of. cbn [fst snd]. rewrite (proj2 (Z.leb_le 0 _)) by (apply Hpos; eapply nth_error_In; eauto). reflexivity.
    + intros k spot Hk Hn. rewrite nth_error_map. rewrite (RB k spot Hk); [reflexivity|]. intros p Hp. apply Hn. rewrite <- PP. now apply in_map.
Qed.
End First.

(** *** Later calls *)
Section Later.
Variables (argsort : forall K, (K -> K -> bool) -> list K -> list nat) (query2 : list point -> point -> edist * nat)
  (query3 : list descr -> descr -> edist * nat) (query4 : list point -> R -> point -> list (edist * nat)).
Lemma set_after cache c marks : fst (call_with argsort query2 query3 query4 cache c) = Ok marks -> exists t, snd (call_with argsort query2 query3 query4 cache c) = Some t.
Proof.
  unfold call_with, findfiducials. destruct (max_separation _ _) as [sep|]; [|discriminate]. destruct (match cache with Some t => Ok t | None => _ end) as [[ps fs]|]; [|discriminate]. cbn. eauto.
Qed.
Lemma metrology_kept calls c0 calls' marks : fst (call_with argsort query2 query3 query4 (after argsort query2 query3 query4 calls) c0) = Ok marks ->
  forall metrology metrology' t mm xy,
    fst (call_with argsort query2 query3 query4 (after argsort query2 query3 query4 (calls ++ c0 :: calls')) {| a_metrology := metrology; a_tx := t; a_mm := mm; a_xy := xy |}) =
    fst (call_with argsort query2 query3 query4 (after argsort query2 query3 query4 (calls ++ c0 :: calls')) {| a_metrology := metrology'; a_tx := t; a_mm := mm; a_xy := xy |}).
Proof.
  intros H metrology metrology' t mm xy. destruct (set_after _ _ _ H) as [tb E].
  assert (E' : after argsort query2 query3 query4 (calls ++ [c0]) = Some tb) by (unfold after in *; rewrite fold_left_app; exact E).
  replace (calls ++ c0 :: calls') with ((calls ++ [c0]) ++ calls') by (rewrite <- app_assoc; reflexivity). rewrite (after_keeps _ _ _ _ _ _ _ E'). reflexivity.
Qed.
(** Calling again with the same arguments. *)
Lemma repeated c : (forall e, fst (call_with argsort query2 query3 query4 None c) <> Err e) ->
  fst (call_with argsort query2 query3 query4 (after argsort query2 query3 query4 [c]) c) = fst (call_with argsort query2 query3 query4 None c).
Proof.
  unfold after. cbn [fold_left]. unfold call_with, findfiducials. destruct (max_separation _ _) as [sep|e]; [|now intros H; destruct (H e)]. destruct (make_tables _ _) as [[ps fs]|e]; [|now intros H; destruct (H e)]. reflexivity.
Qed.
End Later.

(** *** No group of spots *)
Lemma no_groups argsort query2 query3 query4 metrology t mm xy pix fp0 fp1 sep : near_query query4 ->
  fp2fvc t (map v_fp (fiducial_devices metrology)) = Ok pix ->
  fvc2fp t [(2000, 0)] = Ok [fp0] -> fvc2fp t [(2001, 0)] = Ok [fp1] -> distance fp0 fp1 <> 0 -> sep = mm / distance fp0 fp1 ->
  (forall spot, In spot xy -> ~ crowded xy sep spot) -> fst (findfiducials argsort query2 query3 query4 None metrology t mm xy) = Err LinAlgError.
Proof.
  intros Q E F0 F1 Nz Es H. destruct (make_tables_spec t metrology pix E) as (fiducials & ET & _). cbv zeta in ET.
  assert (MS : max_separation t mm = Ok sep).
  { unfold max_separation. rewrite F0. cbn [rbind]. replace (2000 + 1) with 2001 by lra. rewrite F1. cbn [rbind]. unfold geti. cbn [nth_error rbind].
    assert (D : dist2d fp1 fp0 = distance fp0 fp1) by (rewrite <- Match.distance_dist2d; apply distance_sym). rewrite D. destruct (Reqb _ 0) eqn:Er; [apply Reqb_true in Er; contradiction|]. now rewrite Es. }
  unfold findfiducials. rewrite MS, ET. cbn [fst]. unfold find_with.
  destruct (where_ _ (map (query4 xy sep) xy)) as [|i r] eqn:W.
  - cbn [take rmapM rbind]. now rewrite refine_nil.
  - exfalso. assert (Hi : In i (i :: r)) by now left. rewrite <- W in Hi. apply (candidates_spec query4 Q) in Hi as (c & Hc & Cr). exact (H c (nth_error_In _ _ Hc) Cr).
Qed.
