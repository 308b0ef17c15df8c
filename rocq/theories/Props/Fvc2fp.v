From Verif.Model Require Import Fvc2fp.
From Verif.Spec Require Import LinAlg Numpy ZhaoBurge SimpleCorr Fvc2fp.
From Verif.Proofs Require Import Prelude RealNum LinAlg Stats ZhaoBurge Fvc2fp Fvc2fpPairs.
From Coq Require Import Lra Lia Permutation.
Local Open Scope R_scope.

(** C30. [usable]: the term ids exist and no scale is 0. *)
Definition usable (t : tx) : Prop :=
  Forall (fun z => 0 <= z <= 32)%Z (tx_polids t) /\ tx_scale t <> 0 /\ xfvc_scale t <> 0 /\ yfvc_scale t <> 0.
(** Image of a pixel in reduced coordinates, without the Zhao-Burge displacement. *)
Definition undisplaced (t : tx) (p : R * R) : R * R :=
  similarity (tx_scale t) (tx_rotation t)
    ((fst p - xfvc_offset t) / xfvc_scale t + tx_offset_x t, (snd p - yfvc_offset t) / yfvc_scale t + tx_offset_y t).

(** Pixels to focal plane (mm): the similarity, then the displacement at its image. *)
Theorem C30_forward : forall t pix, usable t ->
  let D := field (getZhaoBurgeXY (tx_polids t) (tx_coeffs t)) in
  fvc2fp t pix = Ok (map (fun p => let u := undisplaced t p in (420 * (fst u + fst (D u)), 420 * (snd u + snd (D u)))) pix).
Proof.
  intros t pix (V & S & X & Y) D. rewrite fvc2fp_forward by assumption. f_equal. apply map_ext. intros p. cbv zeta. unfold forward, expand_xyfp. change (before t p) with (undisplaced t p). change (Fvc2fp.D t) with D. cbn [fst snd]. f_equal; lra.
Qed.
Print Assumptions C30_forward.
(** Without displacement, inverse in both directions. *)
Theorem C30_exact_without_terms : forall t, usable t -> (forall x y, getZhaoBurgeXY (tx_polids t) (tx_coeffs t) x y = Ok (0, 0)) ->
  (forall fp, fp <> [] -> exists pix, fp2fvc t fp = Ok pix /\ fvc2fp t pix = Ok fp) /\
  (forall pix, pix <> [] -> exists fp, fvc2fp t pix = Ok fp /\ fp2fvc t fp = Ok pix).
Proof.
  intros t (V & S & X & Y) Z. assert (D0 : forall p, D t p = (0, 0)) by (intros p; unfold D, field; now rewrite Z).
  assert (I0 : forall r k, it t r k = (0, 0)) by (intros r [|k]; cbn; auto).
  assert (M0 : forall r, minus2 r (0, 0) = r) by (intros [a b]; unfold minus2; cbn; f_equal; ring).
  assert (F0 : forall p, forward t p = expand_xyfp (before t p)) by (intros p; unfold forward; rewrite D0; destruct (before t p); cbn; rewrite !Rplus_0_r; reflexivity).
  split; intros l NE.
  - destruct (fp2fvc_back t V S l NE) as (j & E & _). rewrite E. eexists. split; [reflexivity|]. rewrite fvc2fp_forward by assumption. rewrite map_map. f_equal. rewrite <- (map_id l) at 2. apply map_ext. intros P.
    rewrite I0, M0, F0, before_back by assumption. apply expand_reduce.
  - rewrite fvc2fp_forward by assumption. eexists. split; [reflexivity|]. destruct (fp2fvc_back t V S (map (forward t) l)) as (j & E & _); [intros E; apply NE; now destruct l|]. rewrite E, map_map. f_equal. rewrite <- (map_id l) at 2. apply map_ext. intros p.
    rewrite I0, M0, F0, reduce_expand. now apply back_before.
Qed.
Print Assumptions C30_exact_without_terms.
Lemma sqrt2_sq : sqrt 2 * sqrt 2 = 2.
Proof. apply sqrt_sqrt. lra. Qed.
Lemma tenth u : sqrt 2 / 20 * (sqrt 2 * u) = 1 / 10 * u.
Proof. replace (sqrt 2 / 20 * (sqrt 2 * u)) with (sqrt 2 * sqrt 2 * (1 / 20) * u) by field. rewrite sqrt2_sq. lra. Qed.
(** The transform with one coefficient of the magnification term. *)
Definition magnifier (c : R) : tx := {| xfvc_scale := -3000; yfvc_scale := 3000; xfvc_offset := 3000; yfvc_offset := 3000;
  tx_scale := 1; tx_rotation := 0; tx_offset_x := 0; tx_offset_y := 0; tx_polids := [2%Z]; tx_coeffs := [c] |}.
Lemma usable_magnifier c : usable (magnifier c).
Proof. unfold usable, magnifier. cbn. repeat split; try lra. repeat constructor; lia. Qed.
Lemma magnifier_field c x y : getZhaoBurgeXY (tx_polids (magnifier c)) (tx_coeffs (magnifier c)) x y = Ok (c * (sqrt 2 * x), c * (sqrt 2 * y)).
Proof. unfold getZhaoBurgeXY. cbn [magnifier tx_polids tx_coeffs combine add_terms]. destruct (S4_T4 x y) as [-> _]. cbn. f_equal. f_equal; ring. Qed.
Example C30_exact_example : usable (magnifier 0) /\ forall x y, getZhaoBurgeXY (tx_polids (magnifier 0)) (tx_coeffs (magnifier 0)) x y = Ok (0, 0).
Proof. split; [apply usable_magnifier|]. intros x y. rewrite magnifier_field. f_equal. f_equal; ring. Qed.

(** Focal plane -> pixels -> focal plane (mm), where the displacement D contracts by q in a square around each
    point (reduced coordinates) that contains its displacement. *)
Theorem C30_focal_plane_round_trip : forall t q fp, usable t -> 0 <= q < 1 -> fp <> [] ->
  let D := field (getZhaoBurgeXY (tx_polids t) (tx_coeffs t)) in
  (forall P, In P fp -> let r := (fst P / 420, snd P / 420) in
     exists rho, contracts D q r rho /\ sup_norm (D r) <= (1 - q) * rho) ->
  exists pix, fp2fvc t fp = Ok pix /\ exists fp', fvc2fp t pix = Ok fp' /\
    Forall2 (fun P P' => sup_dist P' P <= 420 * Rmax (q * 1e-12) (q ^ 20 * sup_norm (D (fst P / 420, snd P / 420)))) fp fp'.
Proof.
  intros t q fp (V & S & X & Y) Hq NE D0 C. destruct (fp2fvc_back t V S fp NE) as (j & E & Bj & Cj). rewrite E. eexists. split; [reflexivity|]. rewrite fvc2fp_forward by assumption. eexists. split; [reflexivity|].
  rewrite map_map. assert (G : forall P, In P fp -> sup_dist (forward t (back t (minus2 (reduce_xyfp P) (it t (reduce_xyfp P) j)))) P <= 420 * Rmax (q * 1e-12) (q ^ 20 * sup_norm (D0 (fst P / 420, snd P / 420)))).
  { intros P HP. rewrite <- (expand_reduce P) at 3. rewrite forward_back by assumption. apply Rmult_le_compat_l; [lra|].
    assert (Er : reduce_xyfp P = (fst P / 420, snd P / 420)) by (unfold reduce_xyfp; f_equal; lra). rewrite Er in *. set (r := (fst P / 420, snd P / 420)) in *.
    destruct (C P HP) as (rho & Cr & Sr). destruct Cj as [->|[Pj Cj]].
    - destruct (it_steps t r q rho Hq Cr Sr 20) as [A _]. eapply Rle_trans; [exact A|apply Rmax_r].
    - specialize (Cj P HP). rewrite Er in Cj. fold r in Cj. replace j with (Datatypes.S (j - 1)) at 1 2 by lia. set (k := (j - 1)%nat) in *. replace j with (Datatypes.S k) in Cj by lia.
      destruct (it_steps t r q rho Hq Cr Sr k) as (_ & A1 & A2). change (it t r (Datatypes.S (Datatypes.S k))) with (D t (minus2 r (it t r (Datatypes.S k)))). change (it t r (Datatypes.S k)) with (D t (minus2 r (it t r k))) at 2.
      assert (0 <= q ^ k <= 1) by (split; [apply pow_le; lra|rewrite <- (pow1 k); apply pow_incr; lra]).
      assert (0 <= rho) by (eapply Rle_trans; [|exact A2]; rewrite sup_norm_dist; apply sup_nonneg).
      eapply Rle_trans; [|apply Rmax_l]. eapply Rle_trans; [apply Cr|].
      + rewrite sup_minus0. exact A2.
      + rewrite sup_minus0. nra.
      + rewrite sup_minus. apply Rmult_le_compat_l; lra. }
  clear - G. induction fp as [|P fp IH]; cbn [map]; constructor; [apply G; now left|apply IH; intros; apply G; now right].
Qed.
Print Assumptions C30_focal_plane_round_trip.
(** A magnification by 1/10 around any points. *)
Example C30_focal_plane_example P : usable (magnifier (sqrt 2 / 20)) /\
  let D := field (getZhaoBurgeXY (tx_polids (magnifier (sqrt 2 / 20))) (tx_coeffs (magnifier (sqrt 2 / 20)))) in
  let r := (fst P / 420, snd P / 420) in exists rho, contracts D (1 / 10) r rho /\ sup_norm (D r) <= (1 - 1 / 10) * rho.
Proof.
  split; [apply usable_magnifier|]. cbv zeta. set (r := (fst P / 420, snd P / 420)).
  assert (E : forall p, field (getZhaoBurgeXY (tx_polids (magnifier (sqrt 2 / 20))) (tx_coeffs (magnifier (sqrt 2 / 20)))) p = (1 / 10 * fst p, 1 / 10 * snd p)).
  { intros p. unfold field. rewrite magnifier_field. f_equal; apply tenth. }
  assert (A : forall u, Rabs (1 / 10 * u) = 1 / 10 * Rabs u) by (intros u; rewrite Rabs_mult, Rabs_right by lra; reflexivity).
  exists (sup_norm r). split.
  - intros p p' _ _. rewrite !E. unfold sup_dist. cbn [fst snd]. rewrite <- !Rmult_minus_distr_l, !A, RmaxRmult by lra. lra.
  - rewrite E. unfold sup_norm. cbn [fst snd]. rewrite !A, RmaxRmult by lra. assert (0 <= Rmax (Rabs (fst P / 420)) (Rabs (snd P / 420))) by (eapply Rle_trans; [apply Rabs_pos|apply Rmax_l]). cbn [fst snd r]. lra.
Qed.

(** Pixels -> focal plane -> pixels. *)
Theorem C30_pixel_round_trip : forall t q pix, usable t -> 0 <= q < 1 -> pix <> [] ->
  let D := field (getZhaoBurgeXY (tx_polids t) (tx_coeffs t)) in
  (forall p, In p pix -> contracts D q (undisplaced t p) (sup_norm (D (undisplaced t p)))) ->
  exists fp, fvc2fp t pix = Ok fp /\ exists pix', fp2fvc t fp = Ok pix' /\
    Forall2 (fun p p' => let e := 2 / Rabs (tx_scale t) * Rmax (q / (1 - q) * 1e-12) (q ^ 20 * sup_norm (D (undisplaced t p))) in
      Rabs (fst p' - fst p) <= Rabs (xfvc_scale t) * e /\ Rabs (snd p' - snd p) <= Rabs (yfvc_scale t) * e) pix pix'.
Proof.
  intros t q pix (V & S & X & Y) Hq NE D0 C. rewrite fvc2fp_forward by assumption. eexists. split; [reflexivity|].
  destruct (fp2fvc_back t V S (map (forward t) pix)) as (j & E & Bj & Cj); [intros E; apply NE; now destruct pix|]. rewrite E. eexists. split; [reflexivity|]. rewrite map_map.
  assert (G : forall p, In p pix -> sup_dist (minus2 (reduce_xyfp (forward t p)) (it t (reduce_xyfp (forward t p)) j)) (before t p) <= Rmax (q / (1 - q) * 1e-12) (q ^ 20 * sup_norm (D0 (undisplaced t p)))).
  { intros p Hp. assert (U : before t p = undisplaced t p) by reflexivity. set (u := undisplaced t p) in *. specialize (C p Hp). fold u in C.
    set (r := reduce_xyfp (forward t p)). assert (Er : minus2 r (D t u) = u). { unfold r, forward. rewrite reduce_expand, U. unfold minus2. destruct u as [a b]. cbn. f_equal; ring. }
    assert (Z : sup_dist (minus2 r (it t r j)) (before t p) = sup_dist (it t r j) (D t u)) by (rewrite U; transitivity (sup_dist (minus2 r (it t r j)) (minus2 r (D t u))); [now rewrite Er|apply sup_minus]).
    rewrite Z. pose proof (it_converges t r u q Hq Er C) as K. destruct Cj as [->|[Pj Cj]]; [eapply Rle_trans; [apply K|apply Rmax_r]|].
    eapply Rle_trans; [|apply Rmax_l]. specialize (Cj (forward t p) (in_map _ _ _ Hp)). fold r in Cj. set (k := (j - 1)%nat) in *. replace j with (Datatypes.S k) in Cj |- * by lia.
    assert (K1 : sup_dist (it t r (Datatypes.S k)) (D t u) <= q * sup_dist (it t r k) (D t u)).
    { change (it t r (Datatypes.S k)) with (D t (minus2 r (it t r k))). assert (Zk : sup_dist (minus2 r (it t r k)) u = sup_dist (it t r k) (D t u)) by (transitivity (sup_dist (minus2 r (it t r k)) (minus2 r (D t u))); [now rewrite Er|apply sup_minus]).
      rewrite <- Zk. apply C; [rewrite Zk|rewrite sup_refl; rewrite sup_norm_dist; apply sup_nonneg].
      eapply Rle_trans; [apply K|]. assert (0 <= q ^ k <= 1) by (split; [apply pow_le; lra|rewrite <- (pow1 k); apply pow_incr; lra]). assert (0 <= sup_norm (D t u)) by (rewrite sup_norm_dist; apply sup_nonneg). change D0 with (D t). nra. }
    pose proof (sup_tri (it t r k) (it t r (Datatypes.S k)) (D t u)) as T. rewrite (sup_sym (it t r k) (it t r (Datatypes.S k))) in T. set (a := sup_dist (it t r (Datatypes.S k)) (D t u)) in *. set (b := sup_dist (it t r k) (D t u)) in *.
    assert (a * (1 - q) <= q * 1e-12) by nra. apply (Rmult_le_reg_r (1 - q)); [lra|]. replace (q / (1 - q) * 1e-12 * (1 - q)) with (q * 1e-12) by (field; lra). exact H. }
  assert (P2 : 0 <= 2 / Rabs (tx_scale t)) by (apply Rlt_le, Rdiv_lt_0_compat; [lra|now apply Rabs_pos_lt]).
  clear - G V S X Y P2. induction pix as [|p pix IH]; cbn [map]; constructor; [|apply IH; intros; apply G; now right].
  specialize (G p (or_introl eq_refl)). set (u := minus2 _ _) in *. cbv zeta. split.
  - pose proof (back_dist_x t S u (before t p)) as B. rewrite (back_before t S X Y p) in B. eapply Rle_trans; [exact B|]. rewrite Rmult_assoc. apply Rmult_le_compat_l; [apply Rabs_pos|]. now apply Rmult_le_compat_l.
  - pose proof (back_dist_y t S u (before t p)) as B. rewrite (back_before t S X Y p) in B. eapply Rle_trans; [exact B|]. rewrite Rmult_assoc. apply Rmult_le_compat_l; [apply Rabs_pos|]. now apply Rmult_le_compat_l.
Qed.
Print Assumptions C30_pixel_round_trip.
Example C30_pixel_example p : usable (magnifier (sqrt 2 / 20)) /\
  let D := field (getZhaoBurgeXY (tx_polids (magnifier (sqrt 2 / 20))) (tx_coeffs (magnifier (sqrt 2 / 20)))) in
  contracts D (1 / 10) (undisplaced (magnifier (sqrt 2 / 20)) p) (sup_norm (D (undisplaced (magnifier (sqrt 2 / 20)) p))).
Proof.
  split; [apply usable_magnifier|]. cbv zeta.
  assert (E : forall p, field (getZhaoBurgeXY (tx_polids (magnifier (sqrt 2 / 20))) (tx_coeffs (magnifier (sqrt 2 / 20)))) p = (1 / 10 * fst p, 1 / 10 * snd p)).
  { intros p'. unfold field. rewrite magnifier_field. f_equal; apply tenth. }
  assert (A : forall u, Rabs (1 / 10 * u) = 1 / 10 * Rabs u) by (intros u; rewrite Rabs_mult, Rabs_right by lra; reflexivity).
  intros a b _ _. rewrite !E. unfold sup_dist. cbn [fst snd]. rewrite <- !Rmult_minus_distr_l, !A, RmaxRmult by lra. lra.
Qed.

(** Without the contraction hypothesis fp2fvc still returns a value, which can be far from an inverse. *)
Theorem C30_inverse_refuted : exists t P, usable t /\ exists pix, fp2fvc t [P] = Ok [pix] /\ exists P', fvc2fp t [pix] = Ok [P'] /\ sup_dist P' P >= 420 * 2 ^ 20.
Proof.
  exists (magnifier (sqrt 2)), (420, 0). pose proof (usable_magnifier (sqrt 2)) as U. split; [exact U|]. destruct U as (V & S & X & Y). set (t := magnifier (sqrt 2)) in *.
  destruct (fp2fvc_back t V S [(420, 0)] ltac:(discriminate)) as (j & E & Bj & Cj). cbn [map] in E. rewrite E. eexists. split; [reflexivity|]. rewrite fvc2fp_forward by assumption. cbn [map]. eexists. split; [reflexivity|].
  assert (Er : reduce_xyfp (420, 0) = (1, 0)) by (unfold reduce_xyfp; cbn; f_equal; lra). rewrite Er in *.
  assert (ED : forall p, D t p = (2 * fst p, 2 * snd p)). { intros p. unfold D, field, t. rewrite magnifier_field. rewrite <- !Rmult_assoc, sqrt2_sq. reflexivity. }
  assert (St : forall k, sup_dist (it t (1, 0) (Datatypes.S k)) (it t (1, 0) k) = 2 * 2 ^ k).
  { induction k as [|k IH].
    - cbn [it]. rewrite ED. unfold sup_dist, minus2. cbn. replace (2 * (1 - 0) - 0) with 2 by ring. replace (2 * (0 - 0) - 0) with 0 by ring. rewrite Rabs_right, Rabs_R0, Rmax_left; lra.
    - change (it t (1, 0) (Datatypes.S (Datatypes.S k))) with (D t (minus2 (1, 0) (it t (1, 0) (Datatypes.S k)))). change (it t (1, 0) (Datatypes.S k)) with (D t (minus2 (1, 0) (it t (1, 0) k))) at 2.
      rewrite !ED. unfold sup_dist in *. cbn [fst snd]. rewrite <- !Rmult_minus_distr_l, !Rabs_mult, (Rabs_right 2), RmaxRmult by lra. fold (sup_dist (minus2 (1, 0) (it t (1, 0) (Datatypes.S k))) (minus2 (1, 0) (it t (1, 0) k))). rewrite sup_minus. unfold sup_dist. rewrite IH. cbn [pow]. ring. }
  assert (J : j = 20%nat).
  { destruct Cj as [?|[Pj Cj]]; [assumption|]. exfalso. specialize (Cj (420, 0) (or_introl eq_refl)). rewrite Er in Cj. replace j with (Datatypes.S (j - 1)) in Cj at 1 by lia. rewrite St in Cj. pose proof (pow_R1_Rle 2 (j - 1) ltac:(lra)). lra. }
  subst j. replace (420, 0) with (expand_xyfp (1, 0)) by (unfold expand_xyfp; cbn; f_equal; lra). rewrite forward_back, St by assumption. apply Rle_ge. apply Rmult_le_compat_l; [lra|]. assert (0 < 2 ^ 20) by (apply pow_lt; lra). lra.
Qed.
Print Assumptions C30_inverse_refuted.

(** C31. Fiducial spots are those with a location and a pinhole number. *)
Definition fiducial (s : spot) : bool := ((0 <=? s_location s) && (0 <? s_pinhole s))%Z%bool.
(** No two fiducial spots, and no two metrology rows, share location and pinhole; pinholes are below 10. *)
Definition well_labelled (spots : list spot) (metrology : list metro) : Prop :=
  NoDup (map (fun s => (s_location s, s_pinhole s)) (filter fiducial spots)) /\
  NoDup (map (fun m => (m_location m, m_pinhole m)) metrology) /\
  (forall s, In s spots -> fiducial s = true -> s_pinhole s < 10)%Z /\ (forall m, In m metrology -> 0 <= m_pinhole m < 10)%Z.
Definition same_pinhole (s : spot) (m : metro) : Prop := s_location s = m_location m /\ s_pinhole s = m_pinhole m.
Lemma same_pinhole_key s m : spot_key s = metro_key m <-> same_pinhole s m.
Proof. unfold spot_key, metro_key, same_pinhole. split; [intros H; injection H; auto|intros [-> ->]; reflexivity]. Qed.
Lemma Forall2_same F M : Forall2 (fun s m => spot_key s = metro_key m) F M <-> Forall2 same_pinhole F M.
Proof. split; intros H; (eapply Forall2_impl; [|exact H]); intros s m E; now apply same_pinhole_key. Qed.

Theorem C31_pairing : forall argsort, is_argsort argsort -> forall spots metrology, well_labelled spots metrology ->
  ((forall s, In s spots -> fiducial s = true -> exists m, In m metrology /\ same_pinhole s m) ->
   exists F M, fit_pairs argsort spots metrology = Ok (F, M) /\ Permutation F (filter fiducial spots) /\ incl M metrology /\ Forall2 same_pinhole F M) /\
  (forall s, In s spots -> fiducial s = true -> (forall m, In m metrology -> ~ same_pinhole s m) -> (2 <= length (filter fiducial spots))%nat ->
   exists e, fit_pairs argsort spots metrology = Err e).
Proof.
  intros argsort A spots metrology (U1 & U2 & P1 & P2). split.
  - intros C. destruct (fit_pairs_complete argsort A spots metrology U1 U2 P1 P2) as (F & M & E & PF & IM & K).
    + intros s Hs Fs. destruct (C s Hs Fs) as (m & Hm & K). exists m. split; [exact Hm|]. symmetry. now apply same_pinhole_key.
    + exists F, M. split; [exact E|]. split; [exact PF|]. split; [exact IM|]. now apply Forall2_same.
  - intros s Hs Fs N L. apply (fit_pairs_missing argsort A spots metrology U1 P1 P2 s Hs Fs); [|exact L]. intros m Hm E. symmetry in E. apply same_pinhole_key in E. now apply (N m).
Qed.
Print Assumptions C31_pairing.

(** With update_spots each fiducial spot gets the metrology of its own pinhole and all others the default. *)
Theorem C31_metrology_columns : forall argsort, is_argsort argsort -> forall spots metrology, well_labelled spots metrology ->
  (forall s, In s spots -> fiducial s = true -> s_location s <> 0)%Z ->
  forall F M, Permutation F (filter fiducial spots) -> incl M metrology -> Forall2 same_pinhole F M ->
  exists cols, metro_columns argsort spots M = Ok cols /\
    Forall2 (fun s o => if fiducial s then exists m, o = Some m /\ In m metrology /\ same_pinhole s m else o = None) spots cols.
Proof.
  intros argsort A spots metrology (U1 & U2 & P1 & P2) L F M PF IM K. apply Forall2_same in K.
  destruct (columns_ok argsort A spots F M U1 PF K) as (cols & E & H); [intros s Hs Fs; split; [now apply P1|now apply L]|].
  exists cols. split; [exact E|]. eapply Forall2_impl; [|exact H]. intros s o Ho. cbn in Ho |- *. change (is_fid s) with (fiducial s) in Ho. destruct (fiducial s); [|exact Ho]. destruct Ho as (m & ? & K' & Hm). exists m. split; [assumption|]. split; [now apply IM|]. now apply same_pinhole_key.
Qed.
Print Assumptions C31_metrology_columns.
Definition ex_spot l p := {| s_location := l; s_pinhole := p; s_pix := (0, 0) |}.
Definition ex_metro l p := {| m_location := l; m_pinhole := p; m_fp := (0, 0); m_z := 0 |}.
Definition key_dec (a b : Z * Z) : {a = b} + {a <> b}.
Proof. decide equality; apply Z.eq_dec. Defined.
Definition nodup_keys (l : list (Z * Z)) : bool := Nat.eqb (length (nodup key_dec l)) (length l).
Lemma NoDup_dec_true l : nodup_keys l = true -> NoDup l.
Proof.
  unfold nodup_keys. set (dec := key_dec). intros H. apply Nat.eqb_eq in H. clearbody dec.
  assert (G : forall l, (length (nodup dec l) <= length l)%nat) by (clear; induction l as [|a l IH]; cbn; [lia|]; destruct (in_dec dec a l); cbn; lia).
  induction l as [|a l IH]; [constructor|]. cbn in H. destruct (in_dec dec a l) as [I|I]; [specialize (G l); lia|]. constructor; [exact I|]. apply IH. cbn in H. lia.
Qed.
Example C31_example :
  let spots := [ex_spot 1541 2; ex_spot 75 0; ex_spot 1541 1; ex_spot (-1) 0; ex_spot 214 4]%Z in
  let metrology := [ex_metro 1541 1; ex_metro 214 4; ex_metro 214 3; ex_metro 1541 2]%Z in
  well_labelled spots metrology /\ (forall s, In s spots -> fiducial s = true -> s_location s <> 0%Z) /\
  (forall s, In s spots -> fiducial s = true -> exists m, In m metrology /\ same_pinhole s m) /\
  fit_pairs isort_argsort spots metrology = Ok ([ex_spot 214 4; ex_spot 1541 1; ex_spot 1541 2], [ex_metro 214 4; ex_metro 1541 1; ex_metro 1541 2])%Z /\
  metro_columns isort_argsort spots [ex_metro 214 4; ex_metro 1541 1; ex_metro 1541 2]%Z =
    Ok [Some (ex_metro 1541 2); None; Some (ex_metro 1541 1); None; Some (ex_metro 214 4)]%Z.
Proof.
  cbv zeta. split; [|split; [|split; [|split]]]; try reflexivity.
  - unfold well_labelled. cbn. split; [apply NoDup_dec_true; reflexivity|]. split; [apply NoDup_dec_true; reflexivity|]. split.
    + intros s H _. decompose [or] H; subst; cbn; try lia; tauto.
    + intros m H. decompose [or] H; subst; cbn; try lia; tauto.
  - intros s H _. cbn in H. decompose [or] H; subst; cbn; try lia; tauto.
  - intros s H F. cbn in H. decompose [or] H; subst; cbn in F; try discriminate; try tauto.
    + exists (ex_metro 1541 2). cbn. unfold same_pinhole. cbn. tauto.
    + exists (ex_metro 1541 1). cbn. unfold same_pinhole. cbn. tauto.
    + exists (ex_metro 214 4). cbn. unfold same_pinhole. cbn. tauto.
Qed.
(** Pinhole numbers of 10 and more collide with the next location: a matched fiducial is refused. *)
Theorem C31_pinhole_above_nine_refuted : exists spots metrology, NoDup (map spot_key spots) /\ NoDup (map metro_key metrology) /\
  (forall s, In s spots -> fiducial s = true /\ exists m, In m metrology /\ same_pinhole s m) /\
  exists e, fit_pairs isort_argsort spots metrology = Err e.
Proof.
  exists [ex_spot 1 1; ex_spot 5 1]%Z, [ex_metro 1 1; ex_metro 5 1; ex_metro 0 11]%Z. cbn. split; [apply NoDup_dec_true; reflexivity|]. split; [apply NoDup_dec_true; reflexivity|]. split.
  - intros s [<-|[<-|[]]]; (split; [reflexivity|]); [exists (ex_metro 1 1)|exists (ex_metro 5 1)]; cbn; unfold same_pinhole; cbn; auto.
  - eexists. reflexivity.
Qed.
Print Assumptions C31_pinhole_above_nine_refuted.
(** A single fiducial spot without metrology is not noticed: the assertions pass on an empty table. *)
Theorem C31_lone_missing_refuted : exists s metrology, fiducial s = true /\ well_labelled [s] metrology /\ (forall m, In m metrology -> ~ same_pinhole s m) /\
  fit_pairs isort_argsort [s] metrology = Ok ([s], []).
Proof.
  exists (ex_spot 5 1), [ex_metro 1 1]%Z. split; [reflexivity|]. split.
  - unfold well_labelled. cbn. split; [apply NoDup_dec_true; reflexivity|]. split; [apply NoDup_dec_true; reflexivity|]. split; [intros s [<-|[]]; cbn; lia|intros m [<-|[]]; cbn; lia].
  - split; [|reflexivity]. intros m [<-|[]] [H _]. discriminate H.
Qed.
Print Assumptions C31_lone_missing_refuted.
(** A fiducial at location 0 takes part in the fit but is left out of the columns, whose assertion then fails. *)
Theorem C31_location_zero_refuted : exists spots metrology F M, well_labelled spots metrology /\
  fit_pairs isort_argsort spots metrology = Ok (F, M) /\ Forall2 same_pinhole F M /\ exists e, metro_columns isort_argsort spots M = Err e.
Proof.
  exists [ex_spot 0 1; ex_spot 5 1]%Z, [ex_metro 0 1; ex_metro 5 1]%Z, [ex_spot 0 1; ex_spot 5 1]%Z, [ex_metro 0 1; ex_metro 5 1]%Z. split.
  - unfold well_labelled. cbn. split; [apply NoDup_dec_true; reflexivity|]. split; [apply NoDup_dec_true; reflexivity|]. split; [intros s [<-|[<-|[]]]; cbn; lia|intros m [<-|[<-|[]]]; cbn; lia].
  - split; [reflexivity|]. split; [repeat constructor|]. eexists. reflexivity.
Qed.
Print Assumptions C31_location_zero_refuted.

(** C67. What a successful fit reports and writes. *)
Definition distance2d (p q : R * R) : R := sqrt ((fst p - fst q) ^ 2 + (snd p - snd q) ^ 2).
Theorem C67_fit_report : forall argsort minimize, is_argsort argsort -> forall t spots metrology update zbfit fs fr t' g upd,
  well_labelled spots metrology -> (forall s, In s spots -> fiducial s = true -> exists m, In m metrology /\ same_pinhole s m) ->
  fit argsort minimize t spots metrology update zbfit fs fr = Ok (t', g, upd) ->
  exists F M meas, Permutation F (filter fiducial spots) /\ incl M metrology /\ Forall2 same_pinhole F M /\
    fvc2fp t' (map s_pix F) = Ok meas /\
    let d := map (fun mq => 1000 * distance2d (m_fp (fst mq)) (snd mq)) (combine M meas) in
    nmatch g = length d /\ length d = length (filter fiducial spots) /\ (0 < length d)%nat /\
    meandistance g * INR (length d) = Rsum d /\ 0 <= rmsdistance g /\ rmsdistance g ^ 2 * INR (length d) = Rsum (map (fun x => x ^ 2) d) /\
    (length d <= 2 * length (filter (fun x => Rleb x (mediandistance g)) d) /\ length d <= 2 * length (filter (fun x => Rleb (mediandistance g) x) d))%nat /\
    meandistance g <= rmsdistance g /\ 0 <= mediandistance g <= sqrt 2 * rmsdistance g /\
    (fs = true -> tx_scale t' = tx_scale t) /\ (fr = true -> tx_rotation t' = tx_rotation t) /\
    (zbfit = false -> tx_polids t' = tx_polids t /\ tx_coeffs t' = tx_coeffs t).
Proof.
  intros argsort minimize A t spots metrology update zbfit fs fr t' g upd W C H.
  destruct (proj1 (C31_pairing argsort A spots metrology W) C) as (F & M & E & PF & IM & K). unfold fit in H. rewrite E in H. cbn [rbind] in H.
  pose proof (Forall2_length _ _ _ K) as L. assert (En : (if Nat.eqb (length F) 1 then length M else length F) = length F) by (destruct (Nat.eqb (length F) 1); congruence).
  assert (St : forall X (l : list X), length l = length F -> stretch (length F) l = l) by (intros X [|x [|y l]] Hl; cbn in *; rewrite <- ?Hl; reflexivity).
  cbv zeta in H. rewrite !En, !St, Nat.eqb_refl, Bool.andb_false_r in H by auto.
  destruct (rmapM _ F) as [rpix|] eqn:Er; [|discriminate H]. cbn [rbind] in H. unfold fit_scale_rotation_offset in H.
  destruct (minimize _ _) as [[[[sc ro] ox] oy]|]; [|discriminate H]. cbn [rbind] in H.
  assert (G : exists polids coeffs sc2 ro2 ox2 oy2,
    (if zbfit then True else (polids = tx_polids t /\ coeffs = tx_coeffs t)) /\ sc2 = or_fixed (if fs then Some (tx_scale t) else None) sc /\ ro2 = or_fixed (if fr then Some (tx_rotation t) else None) ro /\
    t' = {| xfvc_scale := xfvc_scale t; yfvc_scale := yfvc_scale t; xfvc_offset := xfvc_offset t; yfvc_offset := yfvc_offset t;
      tx_scale := sc2; tx_rotation := ro2; tx_offset_x := ox2; tx_offset_y := oy2; tx_polids := polids; tx_coeffs := coeffs |} /\ goodness_of_fit t' (length F) F M = Ok g).
  { destruct zbfit; cbn [rbind] in H.
    - destruct (rmapM _ rpix) as [qs|]; [|discriminate H]. cbn [rbind] in H. destruct (fitZhaoBurge _ _ _) as [[pl co]|]; [|discriminate H]. cbn [rbind] in H.
      destruct (goodness_of_fit _ (length F) F M) as [g'|] eqn:Eg; [|discriminate H]. cbn [rbind] in H. exists pl, co. do 4 eexists. split; [exact I|]. split; [reflexivity|]. split; [reflexivity|].
      destruct update; [destruct (fvc2fp _ _); [|discriminate H]; cbn [rbind] in H; destruct (metro_columns _ _ _); [|discriminate H]; cbn [rbind] in H|]; injection H as <- <- _; (split; [reflexivity|exact Eg]).
    - destruct (goodness_of_fit _ (length F) F M) as [g'|] eqn:Eg; [|discriminate H]. cbn [rbind] in H. exists (tx_polids t), (tx_coeffs t). do 4 eexists. split; [auto|]. split; [reflexivity|]. split; [reflexivity|].
      destruct update; [destruct (fvc2fp _ _); [|discriminate H]; cbn [rbind] in H; destruct (metro_columns _ _ _); [|discriminate H]; cbn [rbind] in H|]; injection H as <- <- _; (split; [reflexivity|exact Eg]). }
  clear H. destruct G as (pl & co & sc2 & ro2 & ox2 & oy2 & Hz & Es & Ero & Et & Eg). unfold goodness_of_fit in Eg. destruct (fvc2fp t' (map s_pix F)) as [meas|] eqn:Em; [|discriminate Eg]. cbn [rbind] in Eg.
  exists F, M, meas. split; [exact PF|]. split; [exact IM|]. split; [exact K|]. split; [exact Em|]. cbv zeta.
  assert (Lm : length meas = length F). { unfold fvc2fp in Em. apply rmapM_Ok_Forall2, Forall2_length in Em. now rewrite map_length in Em. }
  set (dr := map _ (combine M meas)) in Eg. set (d := map _ (combine M meas)).
  assert (Ed : d = map (fun x => 1000 * x) dr) by (unfold d, dr; rewrite map_map; apply map_ext; intros [m q]; reflexivity).
  assert (Ld : length d = length F) by (unfold d; rewrite map_length, combine_length; lia). assert (Ldr : length dr = length F) by (unfold dr; rewrite map_length, combine_length; lia).
  assert (P0 : Forall (fun x => 0 <= x) dr) by (unfold dr; apply Forall_forall; intros x Hx; apply in_map_iff in Hx; destruct Hx as ([m q] & <- & _); apply sqrt_pos).
  destruct (mean dr) as [a|] eqn:Ea; [|discriminate Eg]. cbn [rbind] in Eg. destruct (median dr) as [b|] eqn:Eb; [|discriminate Eg]. cbn [rbind] in Eg. destruct (mean (map (fun d => d ^ 2) dr)) as [c|] eqn:Ec; [|discriminate Eg]. cbn [rbind] in Eg. apply Ok_inj in Eg. subst g. cbn [nmatch meandistance rmsdistance mediandistance].
  assert (N : dr <> []) by (intros Q; rewrite Q in Ea; discriminate).
  pose proof (mean_le_rms _ _ _ Ea Ec) as M1. pose proof (median_le_rms _ _ _ P0 Eb Ec) as M2. pose proof (median_halves _ _ Eb) as M3. pose proof (INR_length_pos dr N) as P.
  rewrite mean_Ok in Ea by assumption. rewrite mean_Ok in Ec by (destruct dr; discriminate || congruence). apply Ok_inj in Ea, Ec. rewrite map_length in Ec.
  assert (Cn : 0 <= c). { rewrite <- Ec. apply Rmult_le_pos; [|left; now apply Rinv_0_lt_compat]. apply Rsum_nonneg. apply Forall_forall. intros y Hy. apply in_map_iff in Hy. destruct Hy as (x & <- & _). apply pow2_ge_0. }
  assert (Fl : forall f h, (forall x, f (1000 * x) = h x) -> length (filter f d) = length (filter h dr)). { intros f h Hf. rewrite Ed. clear - Hf. induction dr as [|x l IH]; [reflexivity|]. cbn [map filter]. rewrite Hf. destruct (h x); cbn [length]; congruence. }
  rewrite (Fl (fun x => Rleb x (1000 * b)) (fun x => Rleb x b)), (Fl (fun x => Rleb (1000 * b) x) (fun x => Rleb b x)).
  2,3: intros x; apply Bool.eq_true_iff_eq; rewrite !Rleb_true; lra.
  split; [congruence|]. split; [rewrite Ld; apply Permutation_length, PF|]. split; [rewrite Ld, <- Ldr; destruct dr; cbn; [congruence|lia]|].
  split; [rewrite Ld, <- Ldr, <- Ea, Ed, Rsum_scale, map_id; field; lra|].
  split; [pose proof (sqrt_pos c); lra|].
  split. { rewrite Ld, <- Ldr, Ed, map_map. rewrite (map_ext (fun x => (1000 * x) ^ 2) (fun x => 1000 ^ 2 * x ^ 2)) by (intros; ring). rewrite Rsum_scale. rewrite Rpow_mult_distr, <- Rsqr_pow2 with (x := sqrt c), Rsqr_sqrt by exact Cn. rewrite <- Ec. field. lra. }
  split; [rewrite Ld, <- Ldr; exact M3|]. split; [lra|]. split; [split; [lra|]; replace (sqrt 2 * (1000 * sqrt c)) with (1000 * (sqrt 2 * sqrt c)) by ring; lra|].
  rewrite Et. cbn. subst sc2 ro2. split; [intros ->; reflexivity|]. split; [intros ->; reflexivity|]. intros ->. exact Hz.
Qed.
Print Assumptions C67_fit_report.
(** With update_spots every spot gets its position by the new transform, and every fiducial the metrology of its own pinhole. *)
Theorem C67_update : forall argsort minimize, is_argsort argsort -> forall t spots metrology update zbfit fs fr t' g upd,
  well_labelled spots metrology -> (forall s, In s spots -> fiducial s = true -> s_location s <> 0%Z /\ exists m, In m metrology /\ same_pinhole s m) ->
  fit argsort minimize t spots metrology update zbfit fs fr = Ok (t', g, upd) ->
  xfvc_scale t' = xfvc_scale t /\ yfvc_scale t' = yfvc_scale t /\ xfvc_offset t' = xfvc_offset t /\ yfvc_offset t' = yfvc_offset t /\
  (update = false -> upd = None) /\
  (update = true -> exists fp cols, upd = Some (combine fp cols) /\ fvc2fp t' (map s_pix spots) = Ok fp /\
     Forall2 (fun s o => if fiducial s then exists m, o = Some m /\ In m metrology /\ same_pinhole s m else o = None) spots cols).
Proof.
  intros argsort minimize A t spots metrology update zbfit fs fr t' g upd W C H.
  destruct (proj1 (C31_pairing argsort A spots metrology W) (fun s I f => proj2 (C s I f))) as (F & M & E & PF & IM & K).
  destruct (C31_metrology_columns argsort A spots metrology W (fun s I f => proj1 (C s I f)) F M PF IM K) as (cols & Ec & Fc).
  unfold fit in H. rewrite E in H. cbn [rbind] in H. cbv zeta in H.
  destruct (_ && _)%bool; [discriminate H|]. destruct (rmapM _ _) as [rpix|]; [|discriminate H]. cbn [rbind] in H.
  destruct (fit_scale_rotation_offset _ _ _ _ _ _ _ _) as [[[[[sc ro] ox] oy] zb]|]; [|discriminate H]. cbn [rbind] in H.
  destruct (match zb with Some pc => pc | None => _ end) as [pl co]. destruct (goodness_of_fit _ _ _ _) as [g'|]; [|discriminate H]. cbn [rbind] in H.
  destruct update; [destruct (fvc2fp _ _) as [fp|] eqn:Ef; [|discriminate H]; cbn [rbind] in H; rewrite Ec in H; cbn [rbind] in H|]; injection H as <- _ <-;
    (do 4 (split; [reflexivity|]); split; intros Q; try discriminate Q).
  - exists fp, cols. split; [reflexivity|]. split; [exact Ef|exact Fc].
  - reflexivity.
Qed.
Print Assumptions C67_update.
Example C67_example : exists g upd, fit isort_argsort (fun _ p => Ok p) (magnifier 0) [ex_spot 5 1; ex_spot 77 0; ex_spot 214 2]%Z [ex_metro 214 2; ex_metro 5 1]%Z true false false true = Ok (magnifier 0, g, Some upd).
Proof.
  pose proof (usable_magnifier 0) as (V & S & X & Y).
  unfold fit. assert (E : fit_pairs isort_argsort [ex_spot 5 1; ex_spot 77 0; ex_spot 214 2]%Z [ex_metro 214 2; ex_metro 5 1]%Z = Ok ([ex_spot 5 1; ex_spot 214 2], [ex_metro 5 1; ex_metro 214 2])%Z) by reflexivity. rewrite E. cbn [rbind length Nat.eqb stretch andb negb].
  assert (R0 : forall p, exists q, reduce_xyfvc (magnifier 0) p = Ok q).
  { intros p. unfold reduce_xyfvc. rewrite !(proj2 (Reqb_false _ _)) by assumption. eexists. reflexivity. }
  cbn [rmapM]. destruct (R0 (s_pix (ex_spot 5 1))) as [q1 E1]. destruct (R0 (s_pix (ex_spot 214 2))) as [q2 E2]. rewrite E1, E2. cbn [rbind].
  unfold fit_scale_rotation_offset. cbn [rbind or_fixed]. change {| xfvc_scale := _; yfvc_scale := _; xfvc_offset := _; yfvc_offset := _; tx_scale := _; tx_rotation := _; tx_offset_x := _; tx_offset_y := _; tx_polids := _; tx_coeffs := _ |} with (magnifier 0).
  unfold goodness_of_fit. rewrite fvc2fp_forward by assumption. cbn [rbind map combine mean median].
  rewrite fvc2fp_forward by assumption. cbn [rbind map combine].
  assert (Ec : metro_columns isort_argsort [ex_spot 5 1; ex_spot 77 0; ex_spot 214 2]%Z [ex_metro 5 1; ex_metro 214 2]%Z = Ok [Some (ex_metro 5 1); None; Some (ex_metro 214 2)]%Z) by reflexivity.
  rewrite Ec. cbn [rbind]. do 2 eexists. reflexivity.
Qed.
