(** bin/desi_fit_fvc2fp_using_theta_centers (C123). *)
From Verif.Model Require Import ThetaCentres.
From Verif.Spec Require Import LinAlg Numpy ZhaoBurge SimpleCorr Fvc2fp CentresTx ThetaCentres.
From Verif.Proofs Require Import Prelude RealNum Numpy LinAlg ZhaoBurge Fvc2fp CentresTx ThetaCentres.
From Verif.Props Require Import ZhaoBurge Fvc2fp CentresTx.
From Coq Require Import Lra Lia.
Local Open Scope R_scope.
Local Open Scope list_scope.

(** The pairs used, from all files that are there: the centre of a circle, and its place in its table or in the other metrology; a circle the other metrology does not have is paired with the origin. *)
Theorem C123_pairs other files data : match other with None => True | Some o => Forall (fun h => one_digit (h_pin h)) o /\ Forall (fun r => one_digit (c_pin r)) (all_circles files) end ->
  (gather_circles other files = Ok data <->
   present files <> [] /\ Forall (fun t => has_metro t = true /\ (other <> None -> has_loc t = true /\ has_pin t = true)) (present files) /\
   Forall2 (fun r d => fst d = c_fp r /\ target other r (snd d)) (all_circles files) data).
Proof.
  intros D. change (digits other (all_circles files)) in D. unfold gather_circles, all_circles in *. fold (present files).
  assert (T : forall ts, digits other (flat_map c_rows ts) -> Forall (complete other) ts -> exists parts, rmapM (read_circles other) ts = Ok parts /\ length parts = length ts /\ Forall2 (paired other) (flat_map c_rows ts) (concat parts)).
  { induction ts as [|t ts IH]; intros Dg C; [exists []; split; [reflexivity|]; split; [reflexivity|constructor]|]. inversion C as [|? ? Ct Cs]; subst. cbn [flat_map] in *.
    assert (D1 : digits other (c_rows t) /\ digits other (flat_map c_rows ts)) by (destruct other; cbn in *; [destruct Dg as [? Dg]; apply Forall_app in Dg; tauto|tauto]). destruct D1 as [D1 D2].
    destruct (read_total other t D1 Ct) as (k & E & F). destruct (IH D2 Cs) as (parts & E' & L & F'). exists (k :: parts). cbn [rmapM]. rewrite E. cbn [rbind]. rewrite E'. cbn [rbind]. split; [reflexivity|]. split; [cbn; lia|]. cbn [concat]. now apply Forall2_app. }
  assert (N : forall ts parts, rmapM (read_circles other) ts = Ok parts -> Forall (complete other) ts).
  { induction ts as [|t ts IH]; intros parts; [constructor|]. cbn [rmapM]. destruct (read_circles other t) as [k|] eqn:E; [|discriminate]. cbn [rbind]. destruct (rmapM _ ts) as [ks|] eqn:E'; [|discriminate]. intros _. constructor; [eapply read_Ok; eauto|eapply IH; eauto]. }
  split.
  - destruct (rmapM _ (present files)) as [parts|] eqn:E; [|discriminate]. cbn [rbind]. intros H. assert (C := N _ _ E). destruct (T _ D C) as (parts' & E' & L & F). rewrite E in E'. injection E' as <-. split; [intros X; rewrite X in L; destruct parts; discriminate|]. split; [exact C|]. destruct parts; [discriminate|]. injection H as <-. exact F.
  - intros (Ne & C & F). destruct (T _ D C) as (parts & E & L & F'). rewrite E. cbn [rbind]. rewrite (paired_unique other _ _ _ F F'). destruct parts; [|reflexivity]. destruct (present files); [congruence|discriminate].
Qed.
Print Assumptions C123_pairs.

(** The two fits, as in C118. *)
Theorem C123_fit minimize init zbpolids other files t' : Forall (fun z => 0 <= z <= 32)%Z zbpolids -> usable init ->
  fit_using_theta_centres minimize init zbpolids other files = Ok t' ->
  exists data pix t1, gather_circles other files = Ok data /\ fp2fvc init (map fst data) = Ok pix /\
    let all := combine pix (map snd data) in
    let kept := filter (fun d => if Rlt_dec (sqrt ((fst (image t1 (fst d)) - fst (snd d)) ^ 2 + (snd (image t1 (fst d)) - snd (snd d)) ^ 2)) 0.08 then true else false) all in
    same_camera t1 init /\ tx_polids t1 = zbpolids /\ same_camera t' init /\ tx_polids t' = zbpolids /\
    (forall c, length c = length zbpolids -> c <> tx_coeffs t1 -> misfit (image t1) all < misfit (image (with_coeffs t1 c)) all) /\
    (forall c, length c = length zbpolids -> c <> tx_coeffs t' -> misfit (image t') kept < misfit (image (with_coeffs t' c)) kept).
Proof.
  intros V U E. unfold fit_using_theta_centres in E. destruct (forallb _ _); [|discriminate]. destruct (gather_circles other files) as [data|] eqn:G; [|discriminate]. cbn [rbind] in E.
  destruct (fit_centres minimize init zbpolids data None) as [[t2 new]|] eqn:F; [|discriminate]. injection E as <-. cbn [fst] in *.
  destruct (centres_steps _ _ _ _ _ _ _ V U F) as (pix & t1 & H). cbv zeta in H. exists data, pix, t1. split; [reflexivity|]. cbv zeta. tauto.
Qed.
Print Assumptions C123_fit.

(** If some transformation without terms takes the pixels of all centres to their places, the result is that transformation. *)
Theorem C123_exact minimize init zbpolids other files t' u data pix : Forall (fun z => 0 <= z <= 32)%Z zbpolids -> usable init ->
  fit_using_theta_centres minimize init zbpolids other files = Ok t' ->
  gather_circles other files = Ok data -> fp2fvc init (map fst data) = Ok pix ->
  Forall (fun z => 0 <= z <= 32)%Z (tx_polids u) -> same_camera u init -> (forall x y, getZhaoBurgeXY (tx_polids u) (tx_coeffs u) x y = Ok (0, 0)) ->
  map (image u) pix = map snd data -> forall p, image t' p = image u p.
Proof.
  intros V U E G F Vu Su Zu H. unfold fit_using_theta_centres in E. destruct (forallb _ _) eqn:B; [|discriminate]. rewrite G in E. cbn [rbind] in E.
  assert (Mand : Forall (fun z => In z zbpolids) [0; 1; 2; 27]%Z).
  { rewrite forallb_forall in B. apply Forall_forall. intros z I. specialize (B z I). apply existsb_exists in B as (w & Iw & Ew). apply Z.eqb_eq in Ew. now subst. }
  destruct (fit_centres minimize init zbpolids data None) as [[t2 new]|] eqn:X; [|discriminate]. injection E as <-. cbn [fst] in *. eapply centres_exact; eassumption.
Qed.
Print Assumptions C123_exact.

(** If the centres are at their places already and the initial transformation has no displacement, nothing changes. *)
Theorem C123_unchanged minimize init zbpolids other files t' data : Forall (fun z => 0 <= z <= 32)%Z zbpolids -> usable init ->
  (forall x y, getZhaoBurgeXY (tx_polids init) (tx_coeffs init) x y = Ok (0, 0)) ->
  fit_using_theta_centres minimize init zbpolids other files = Ok t' -> gather_circles other files = Ok data -> Forall (fun d => fst d = snd d) data ->
  forall p, image t' p = image init p.
Proof.
  intros V U Z E G D. destruct (C123_fit _ _ _ _ _ _ V U E) as (data' & pix & t1 & G' & F & _). rewrite G in G'. injection G' as <-.
  assert (VI := U). destruct VI as (VI & _ & CX & CY). assert (CI : camera_ok init) by (split; assumption).
  assert (Ne : map fst data <> []) by (intros X; rewrite X in F; discriminate).
  assert (Rt : map (image init) pix = map fst data).
  { destruct (proj1 (C30_exact_without_terms init U Z) (map fst data) Ne) as (k' & K & B). rewrite F in K. injection K as <-. rewrite fvc2fp_image in B by assumption. now injection B as ->. }
  apply (C123_exact minimize init zbpolids other files t' init data pix); try assumption; [repeat split|]. rewrite Rt. clear - D. induction D as [|d l H _ IH]; [reflexivity|]. cbn [map]. now rewrite H, IH.
Qed.
Print Assumptions C123_unchanged.

(** When it gives up: without the mandatory terms; with another metrology and a table that has no LOCATION or no PINHOLE_ID; a table without places; no file at all. *)
Theorem C123_refused minimize init zbpolids other files :
  (~ Forall (fun z => In z zbpolids) [0; 1; 2; 27]%Z -> fit_using_theta_centres minimize init zbpolids other files = Err (SysExit 12)) /\
  (Forall (fun z => In z zbpolids) [0; 1; 2; 27]%Z ->
   (present files = [] -> fit_using_theta_centres minimize init zbpolids other files = Err ValueError) /\
   (forall t l, present files = t :: l -> other <> None -> has_loc t = false \/ has_pin t = false -> fit_using_theta_centres minimize init zbpolids other files = Err (SysExit 12)) /\
   (forall t l, present files = t :: l -> has_metro t = false -> other = None \/ has_loc t = true /\ has_pin t = true -> fit_using_theta_centres minimize init zbpolids other files = Err KeyError)).
Proof.
  unfold fit_using_theta_centres. assert (B : forallb (fun z => existsb (Z.eqb z) zbpolids) [0; 1; 2; 27]%Z = true <-> Forall (fun z => In z zbpolids) [0; 1; 2; 27]%Z).
  { rewrite forallb_forall, Forall_forall. split; intros H z I; specialize (H z I); [apply existsb_exists in H as (w & Iw & Ew); apply Z.eqb_eq in Ew; now subst|apply existsb_exists; exists z; split; [assumption|apply Z.eqb_refl]]. }
  split.
  - intros H. destruct (forallb _ _) eqn:E; [exfalso; now apply H, B|reflexivity].
  - intros H. apply B in H. rewrite H. unfold gather_circles. fold (present files). split; [intros ->; reflexivity|]. split; intros t l E.
    + intros O C. rewrite E. cbn [rmapM]. unfold read_circles. destruct other; [|congruence]. assert (X : (has_loc t && has_pin t)%bool = false) by (destruct C as [-> | ->]; [reflexivity|apply Bool.andb_false_r]). now rewrite X.
    + intros M C. rewrite E. cbn [rmapM]. unfold read_circles. rewrite M. destruct other; [|reflexivity]. destruct C as [C|[-> ->]]; [discriminate|reflexivity].
Qed.
Print Assumptions C123_refused.

(** The claim that the place of a circle in the other metrology is that of its location and pinhole is false from pinhole 10 on: the key is 10 * LOCATION + PINHOLE_ID. *)
Theorem C123_key_refuted : ~ (forall o r q, Forall (fun h => 0 <= h_pin h)%Z o -> (0 <= c_pin r)%Z -> other_place o r = Ok q -> target (Some o) r q).
Proof.
  intros H. specialize (H [{| h_loc := 541; h_pin := 0; h_fp := (1, 1) |}] {| c_loc := 540; c_pin := 10; c_fp := (0, 0); c_metro := (0, 0) |} (1, 1)). cbn in H.
  destruct H as [(a & h & b & E & L & _)|[_ E]]; [repeat constructor; cbn; lia|lia|reflexivity| |].
  - destruct a as [|x a]; [injection E as <- _; discriminate|destruct a; discriminate].
  - injection E as E _. lra.
Qed.
Print Assumptions C123_key_refuted.

(** The claim that the circles which the other metrology does not have are left out is false: they are to go to the origin. *)
Theorem C123_unmatched_refuted : ~ (forall o files data, gather_circles (Some o) files = Ok data ->
  forall d, In d data -> exists r h, In r (all_circles files) /\ In h o /\ h_loc h = c_loc r /\ h_pin h = c_pin r /\ d = (c_fp r, h_fp h)).
Proof.
  intros H. destruct (H [] [Some {| has_loc := true; has_pin := true; has_metro := true; c_rows := [{| c_loc := 540; c_pin := 1; c_fp := (100, 50); c_metro := (100, 50) |}] |}] [((100, 50), (0, 0))] eq_refl _ (or_introl eq_refl)) as (r & h & _ & [] & _).
Qed.
Print Assumptions C123_unmatched_refuted.

(** Two circles at their places, one of them named twice in the other metrology; the minimizer stays at its start. *)
Example C123_example : exists t', let init := {| xfvc_scale := 1; yfvc_scale := 1; xfvc_offset := 0; yfvc_offset := 0; tx_scale := 1; tx_rotation := 0; tx_offset_x := 1; tx_offset_y := 0; tx_polids := []; tx_coeffs := [] |} in
  let row l p q := {| c_loc := l; c_pin := p; c_fp := q; c_metro := (7, 7) |} in
  fit_using_theta_centres (fun _ start => Ok start) init [0; 1; 2; 27]%Z
    (Some [{| h_loc := 1; h_pin := 0; h_fp := (5, 5) |}; {| h_loc := 2; h_pin := 3; h_fp := (420, 0) |}; {| h_loc := 1; h_pin := 0; h_fp := (0, 0) |}])
    [None; Some {| has_loc := true; has_pin := true; has_metro := true; c_rows := [row 1%Z 0%Z (0, 0)] |}; Some {| has_loc := true; has_pin := true; has_metro := true; c_rows := [row 2%Z 3%Z (420, 0)] |}] = Ok t' /\
  forall p, image t' p = image init p.
Proof.
  destruct C118_example as (t' & E & I). exists t'. cbv zeta in *. split; [|exact I]. unfold fit_using_posparams in E. unfold fit_using_theta_centres. destruct (forallb _ _); [|discriminate].
  match type of E with rbind ?g _ = _ => assert (G : g = Ok [((0, 0), (0, 0)); ((420, 0), (420, 0))]) end.
  { unfold gather. cbn [flat_map offset_of has_offset app]. unfold good_rows. cbn [has_flags has_error andb q_rows filter q_flags Z.eqb]. reflexivity. }
  rewrite G in E. cbn [rbind] in E. match goal with |- rbind ?g _ = _ => assert (G' : g = Ok [((0, 0), (0, 0)); ((420, 0), (420, 0))]) by reflexivity end. rewrite G'. cbn [rbind].
  (* the patch plays no part in the fit *)
  clear G G'. unfold fit_centres in *. destruct (fp2fvc _ (map fst _)) as [pix|]; [|discriminate]. cbn [rbind] in *. destruct (fp2fvc _ [(42, 42)]) as [pp|]; [|discriminate]. cbn [rmap rbind] in *.
  destruct (rmapM (reduce_xyfvc _) pix) as [rpix|]; [|discriminate]. cbn [rbind] in *. destruct (refit _ _ rpix _) as [t1|]; [|discriminate]. cbn [rbind] in *. destruct (fvc2fp t1 pix) as [x1b|]; [|discriminate]. cbn [rbind] in *.
  destruct (refit _ t1 _ _) as [t2|]; [|discriminate]. cbn [rbind] in *. destruct (fvc2fp t2 pp) as [np|]; [|discriminate]. cbn [rmap rbind] in E. injection E as <- _. reflexivity.
Qed.
