(** Guide stars, the pointing fitted to them, and the rotation of the field (C109, C110, C111). *)
From Verif.Model Require Import GuideStars.
From Verif.Spec Require Import Trig Sphere LinAlg SimpleCorr TanPlane Fiberassign GuideStars.
From Verif.Proofs Require Import Prelude RealNum Trig Sphere LinAlg SimpleCorr Radec2tan FieldModel GuideStars.
From Verif.Props Require Import Radec2tan FieldModel Gfa2fp.
From Coq Require Import Lra Lia.
Local Open Scope R_scope.

(** *** C109: the guide stars of a catalogue *)
Theorem C109_date jyear m cat sep : let m' := fst (read_guide_stars_catalog jyear m cat sep) in
  m' = with_mjd m (m_mjd m') /\
  m_mjd m' = match c_mjd_obs cat, c_stars cat with true, _ :: _ => Some (TanPlane.average (map s_mjd (c_stars cat))) | _, _ => m_mjd m end.
Proof.
  intros m'. assert (E : m' = if c_mjd_obs cat then match mean (map s_mjd (c_stars cat)) with Ok v => with_mjd m (Some v) | Err _ => m end else m).
  { unfold m', read_guide_stars_catalog. cbv zeta. set (m1 := if c_mjd_obs cat then _ else m). destruct (negb _ || negb _)%bool; [reflexivity|]. destruct (if c_pm cat then _ else _); [|reflexivity]. destruct (selected _ _ _); reflexivity. }
  rewrite E. destruct (c_mjd_obs cat); [|destruct m; split; reflexivity]. destruct (c_stars cat) as [|s l]; [destruct m; split; reflexivity|].
  rewrite mean_average by discriminate. split; reflexivity.
Qed.
Print Assumptions C109_date.
Theorem C109_refused jyear m cat sep : let '(m', r) := read_guide_stars_catalog jyear m cat sep in
  (c_xcentroid cat = false \/ c_ra_gaia cat = false -> r = Err RuntimeError) /\ (c_pm cat = true -> m_mjd m' = None -> r = Err RuntimeError).
Proof.
  unfold read_guide_stars_catalog. cbv zeta. set (m1 := if c_mjd_obs cat then _ else m). destruct (negb (c_xcentroid cat) || negb (c_ra_gaia cat))%bool eqn:E; [split; reflexivity|].
  apply Bool.orb_false_iff in E as [E1 E2]. apply Bool.negb_false_iff in E1, E2. destruct (c_pm cat) eqn:P.
  - destruct (m_mjd m1) as [v|] eqn:M; cbn iota beta; [|split; reflexivity]. destruct (selected _ _ _); (split; [intros [?|?]; congruence|intros _ H; rewrite M in H; discriminate]).
  - destruct (selected _ _ _); (split; [intros [?|?]; congruence|discriminate]).
Qed.
Print Assumptions C109_refused.
Theorem C109_selection jyear m cat sep mjd : let '(m', r) := read_guide_stars_catalog jyear m cat sep in
  c_xcentroid cat = true -> c_ra_gaia cat = true -> (c_pm cat = true -> m_mjd m' = Some mjd) ->
  let near s g := position_in (jyear mjd) cat s g /\ flat_separation (s_ra s, s_dec s) g < sep in
  exists l, chosen near (c_stars cat) l /\ (forall l', chosen near (c_stars cat) l' -> l' = l) /\ r = match l with [] => Err RuntimeError | _ => Ok l end.
Proof.
  unfold read_guide_stars_catalog. cbv zeta. set (m1 := if c_mjd_obs cat then _ else m). destruct (c_xcentroid cat); [|now destruct (c_ra_gaia cat)]. destruct (c_ra_gaia cat); [|discriminate]. cbn [negb orb].
  assert (F : forall s g g', position_in (jyear mjd) cat s g -> position_in (jyear mjd) cat s g' -> g = g') by (intros s g g'; unfold position_in; destruct (c_pm cat); [apply at_year_fun|congruence]).
  assert (U : forall l l', chosen (fun s g => position_in (jyear mjd) cat s g /\ flat_separation (s_ra s, s_dec s) g < sep) (c_stars cat) l -> chosen (fun s g => position_in (jyear mjd) cat s g /\ flat_separation (s_ra s, s_dec s) g < sep) (c_stars cat) l' -> l' = l).
  { intros l l' A B. eapply chosen_fun; [|exact B|exact A]. intros s g g' [? _] [? _]. eapply F; eassumption. }
  assert (Cp : forall position, (forall s, match position s with Some g => position_in (jyear mjd) cat s g | None => forall g, ~ position_in (jyear mjd) cat s g end) ->
    chosen (fun s g => position_in (jyear mjd) cat s g /\ flat_separation (s_ra s, s_dec s) g < sep) (c_stars cat) (selected sep position (c_stars cat))) by (intros position P; apply selected_chosen; [exact P|exact F]).
  destruct (c_pm cat) eqn:P.
  - destruct (m_mjd m1) as [v|] eqn:M; cbn iota beta.
    2:{ intros _ _ H. rewrite M in H. specialize (H eq_refl). discriminate. }
    assert (C : jyear v = jyear mjd -> chosen (fun s g => position_in (jyear mjd) cat s g /\ flat_separation (s_ra s, s_dec s) g < sep) (c_stars cat) (selected sep (moved_position (jyear v)) (c_stars cat))).
    { intros E. rewrite E. apply Cp. intros s. unfold position_in. rewrite P. pose proof (moved_spec (jyear mjd) s) as Q. exact Q. }
    destruct (selected sep (moved_position (jyear v)) (c_stars cat)) as [|x l]; intros _ _ H; rewrite M in H; specialize (H eq_refl); injection H as ->; specialize (C eq_refl); eexists; (split; [exact C|split; [intros l' Hl'; now apply U|reflexivity]]).
  - assert (C : chosen (fun s g => position_in (jyear mjd) cat s g /\ flat_separation (s_ra s, s_dec s) g < sep) (c_stars cat) (selected sep (fun s => Some (s_ra_gaia s, s_dec_gaia s)) (c_stars cat))).
    { apply Cp. intros s. unfold position_in. rewrite P. reflexivity. }
    destruct (selected sep _ (c_stars cat)) as [|x l]; intros _ _ _; eexists; (split; [exact C|split; [intros l' Hl'; now apply U|reflexivity]]).
Qed.
Print Assumptions C109_selection.
(** Away from the poles the stars kept are really that close on the sky, to one part in a thousand. *)
Theorem C109_separation jyear m cat sep l s g : snd (read_guide_stars_catalog jyear m cat sep) = Ok l -> In (s, g) l -> sep <= 2 -> -89 <= snd g <= 89 ->
  cos (PI / 180 * (1.001 * sep / 3600)) <= inner (unit_vector (s_ra s) (s_dec s)) (unit_vector (fst g) (snd g)).
Proof.
  intros E I S2 Hd. apply (separation_bound (s_ra s, s_dec s) g sep S2 Hd).
  assert (Q : forall position, In (s, g) (selected sep position (c_stars cat)) -> flat_separation (s_ra s, s_dec s) g < sep).
  { intros position H. unfold selected in H. apply in_flat_map in H as (s' & _ & H). destruct (good_match sep s' (position s')) eqn:G; [|destruct H]. destruct (position s') as [g'|]; [|destruct H]. destruct H as [H|[]]. injection H as -> ->. now apply good_match_spec. }
  unfold read_guide_stars_catalog in E. cbv zeta in E. destruct (negb _ || negb _)%bool; [discriminate|]. destruct (if c_pm cat then _ else _) as [position|]; [|discriminate].
  destruct (selected sep position (c_stars cat)) as [|x r] eqn:S; [discriminate|]. cbn [snd] in E. injection E as <-. rewrite <- S in I. now apply (Q position).
Qed.
Print Assumptions C109_separation.
(** A star measured 0.72 arcsec from its catalogued place, on the other side of right ascension 0, is not found. *)
Definition star_at (ra dec ra_gaia dec_gaia : R) (pmra pmdec : option R) : star :=
  {| s_x := 1000; s_y := 500; s_petal := 3; s_ra := ra; s_dec := dec; s_ra_gaia := ra_gaia; s_dec_gaia := dec_gaia; s_pmra := pmra; s_pmdec := pmdec; s_epoch := 2015.5; s_mjd := 59000 |}.
Theorem C109_wrap_refuted : exists s cat, c_stars cat = [s] /\ c_xcentroid cat = true /\ c_ra_gaia cat = true /\ c_pm cat = false /\
  cos (PI / 180 * (0.8 / 3600)) <= inner (unit_vector (s_ra s) (s_dec s)) (unit_vector (s_ra_gaia s) (s_dec_gaia s)) /\
  forall jyear m, snd (read_guide_stars_catalog jyear m cat 2) = Err RuntimeError.
Proof.
  exists (star_at 359.9999 0 0.0001 0 None None). exists {| c_mjd_obs := false; c_xcentroid := true; c_ra_gaia := true; c_pm := false; c_stars := [star_at 359.9999 0 0.0001 0 None None] |}.
  split; [reflexivity|]. split; [reflexivity|]. split; [reflexivity|]. split; [reflexivity|]. split.
  - cbn [s_ra s_dec s_ra_gaia s_dec_gaia star_at]. unfold unit_vector, inner. replace (PI * 0 / 180) with 0 by field. rewrite cos_0, sin_0.
    replace (PI * 359.9999 / 180) with (- (PI * 0.0001 / 180) + 2 * PI) by lra. rewrite cos_plus, sin_plus, cos_2PI, sin_2PI, cos_neg, sin_neg.
    replace ((cos (PI * 0.0001 / 180) * 1 - - sin (PI * 0.0001 / 180) * 0) * 1 * (cos (PI * 0.0001 / 180) * 1) + (- sin (PI * 0.0001 / 180) * 1 + cos (PI * 0.0001 / 180) * 0) * 1 * (sin (PI * 0.0001 / 180) * 1) + 0 * 0) with (cos (PI * 0.0001 / 180 + PI * 0.0001 / 180)) by (rewrite cos_plus; ring).
    apply cos_decr_1; pose proof PI_RGT_0; lra.
  - intros jyear m. pose proof (C109_selection jyear m {| c_mjd_obs := false; c_xcentroid := true; c_ra_gaia := true; c_pm := false; c_stars := [star_at 359.9999 0 0.0001 0 None None] |} 2 0) as H. destruct (read_guide_stars_catalog _ _ _ _) as [m' r].
    destruct (H eq_refl eq_refl) as (l & C & _ & E); [discriminate|]. cbn [snd]. rewrite E. cbn [c_stars] in C. inversion C as [|a b ? ? [Q L] _|? ? ? _ C']; subst; [|inversion C'; reflexivity]. exfalso.
    unfold position_in in Q. cbn in Q. subst b. unfold flat_separation in L. cbn [s_ra s_dec s_ra_gaia s_dec_gaia star_at fst snd] in L. replace (PI * 0 / 180) with 0 in L by field. rewrite cos_0 in L.
    replace (((359.9999 - 0.0001) * 1) ^ 2 + (0 - 0) ^ 2) with (359.9998 * 359.9998) in L by lra. rewrite sqrt_square in L by lra. lra.
Qed.
Print Assumptions C109_wrap_refuted.
Example C109_example : let s := star_at 10 0 10 (-0.001) None (Some 360) in
  let cat := {| c_mjd_obs := true; c_xcentroid := true; c_ra_gaia := true; c_pm := true; c_stars := [s; star_at 20 0 20 1 None None] |} in
  let '(m', r) := read_guide_stars_catalog (fun _ => 2025.5) (plain_model 0 0 0 0 0) cat 2 in m_mjd m' = Some 59000 /\ r = Ok [(s, (10, 0))].
Proof.
  cbv zeta. set (s := star_at 10 0 10 (-0.001) None (Some 360)). set (s2 := star_at 20 0 20 1 None None). set (cat := {| c_mjd_obs := true |}). set (m := plain_model 0 0 0 0 0).
  pose proof (C109_date (fun _ => 2025.5) m cat 2) as [_ D]. pose proof (C109_selection (fun _ => 2025.5) m cat 2 59000) as H. destruct (read_guide_stars_catalog _ _ _ _) as [m' r]. cbn [fst] in D. cbn [cat c_mjd_obs c_stars map s s2 star_at s_mjd] in D.
  assert (D' : m_mjd m' = Some 59000) by (rewrite D; unfold TanPlane.average; cbn [fold_right length INR]; f_equal; field). split; [exact D'|].
  destruct (H eq_refl eq_refl (fun _ => D')) as (l & _ & U & ->). clear H D.
  assert (C : chosen (fun s g => position_in 2025.5 cat s g /\ flat_separation (s_ra s, s_dec s) g < 2) (c_stars cat) [(s, (10, 0))]).
  { apply chosen_keep; [|apply chosen_drop; [|constructor]].
    - split.
      + unfold position_in, at_year. cbn. split; [|split; lra]. assert (H : 0 < cosdeg (-0.001)) by (apply cosd_pos; lra). unfold cosdeg in H. rewrite deg_rad in H. intros Z. cbn in Z. lra.
      + unfold flat_separation. cbn. replace (((10 - 10) * cos (PI * 0 / 180)) * (((10 - 10) * cos (PI * 0 / 180)) * 1) + (0 - 0) * ((0 - 0) * 1)) with 0 by ring. rewrite sqrt_0. lra.
    - intros [ra dec] [(_ & _ & Q) L]. cbn in Q. assert (dec = 1) by lra. subst dec. unfold flat_separation in L. cbn [s2 star_at s_ra s_dec fst snd] in L.
      assert (1 <= sqrt (((20 - ra) * cos (PI * 1 / 180)) ^ 2 + (0 - 1) ^ 2)) by (rewrite <- sqrt_1 at 1; apply sqrt_le_1_alt; pose proof (pow2_ge_0 ((20 - ra) * cos (PI * 1 / 180))); lra). lra. }
  rewrite <- (U _ C). reflexivity.
Qed.

(** *** C110: the pointing fitted to the guide stars *)
Theorem C110_arguments mjd2lst argsort metrology fp2tan tan2fp o m has stars mjd hexrot lst :
  let fit := fit_tancorr mjd2lst argsort metrology fp2tan tan2fp o m has stars in
  (m_mjd m = None -> has = false -> fit None hexrot lst = Err RuntimeError) /\
  (m_hexrot m = None -> (mjd <> None \/ m_mjd m <> None) -> fit mjd None lst = Err RuntimeError).
Proof.
  intros fit. unfold fit, fit_tancorr. split.
  - intros -> ->. reflexivity.
  - intros -> [H|H]; destruct mjd; try contradiction; destruct (m_mjd m); try contradiction; reflexivity.
Qed.
Print Assumptions C110_arguments.
(** Three corrections, each from the pointing left by the one before; the last one gives the parameters. *)
Theorem C110_fit mjd2lst argsort metrology fp2tan tan2fp o m has stars mjd hexrot lst m' :
  fit_tancorr mjd2lst argsort metrology fp2tan tan2fp o m has stars mjd hexrot lst = Ok m' ->
  exists t h l used meas tel1 tel2 c1 c2 c3,
    m_mjd m' = Some t /\ m_hexrot m' = Some h /\ m_lst m' = Some l /\
    match mjd, m_mjd m with Some v, _ => t = v | None, Some v => t = v | None, None => has = true /\ t = TanPlane.average (map (fun s => s_mjd (fst s)) stars) end /\
    match hexrot with Some v => h = v | None => m_hexrot m = Some h end /\
    match lst, m_lst m with Some v, _ => l = v | None, Some v => l = v | None, None => l = mjd2lst t end /\
    m_adc1 m' = m_adc1 m /\ m_adc2 m' = m_adc2 m /\
    chosen (on_focal_plane argsort metrology) stars used /\ fp2tan (m_adc1 m) (m_adc2 m) (map snd used) = Ok meas /\
    let sky := map (fun u => snd (fst u)) used in
    refit o t l h meas sky (m_ra m, m_dec m) c1 tel1 /\ refit o t l h meas sky tel1 c2 tel2 /\ refit o t l h meas sky tel2 c3 (m_ra m', m_dec m') /\
    m_corr m' = {| f_sxx := t_sxx c3; f_syy := t_syy c3; f_sxy := t_sxy c3; f_fieldrot_zp_deg := t_rot_deg c3 |} /\
    m_nstars m' = length used /\ m_rms m' = t_rms_arcsec c3 /\
    compute_fieldrot fp2tan tan2fp o m' t l h = Ok (m_fieldrot m').
Proof.
  unfold fit_tancorr. destruct (match mjd with Some v => Ok v | None => _ end) as [t|] eqn:Et; [|discriminate]. cbn [rbind].
  destruct (match hexrot with Some v => Ok v | None => _ end) as [h|] eqn:Eh; [|discriminate]. cbn [rbind]. cbv zeta.
  set (l := match lst with Some v => v | None => _ end). destruct (rmapM _ stars) as [placed|] eqn:Ep; [|discriminate]. cbn [rbind].
  set (kept := filter _ placed). destruct (fp2tan _ _ _) as [meas|] eqn:Em; [|discriminate]. cbn [rbind].
  assert (C : exists used, chosen (on_focal_plane argsort metrology) stars used /\ map snd used = map fst kept /\ map (fun u => snd (fst u)) used = map snd kept).
  { unfold kept. clear - Ep. apply rmapM_Ok_Forall2 in Ep. induction Ep as [|s d stars placed E Ep IH]; [exists []; split; [constructor|auto]|]. destruct IH as (used & C & U1 & U2).
    unfold rmap, star_fp in E. cbn [filter]. assert (K : gfa2fp argsort metrology (s_petal (fst s)) (s_x (fst s), s_y (fst s)) = Err KeyError /\ fst (fst d) = 0 \/ gfa2fp argsort metrology (s_petal (fst s)) (s_x (fst s), s_y (fst s)) = Ok (fst d) /\ d = (fst d, snd s)).
    { destruct (gfa2fp _ _ _ _) as [p|e]; [right; injection E as <-; auto|]. left. destruct e; try discriminate. injection E as <-. auto. }
    destruct (Req_dec (fst (fst d)) 0) as [Z|Z].
    - assert (Reqb (fst (fst d)) 0 = true) as -> by now apply Reqb_true. cbn [negb]. exists used. split; [|auto]. apply chosen_drop; [|exact C]. intros p [P N]. destruct K as [[K _]|[K _]]; rewrite K in P; [discriminate|]. injection P as <-. contradiction.
    - assert (Reqb (fst (fst d)) 0 = false) as -> by now apply Reqb_false. cbn [negb]. destruct K as [[_ K]|[K D]]; [contradiction|]. exists ((s, fst d) :: used). split; [apply chosen_keep; [split; assumption|exact C]|]. cbn [map fst snd]. rewrite U1, U2. split; [reflexivity|]. rewrite D. reflexivity. }
  destruct C as (used & C & U1 & U2). rewrite <- U2, <- U1 in *. clear kept Ep U1 U2.
  destruct (fit_pass _ _ _ _ _ _ (m_ra m, m_dec m)) as [r1|] eqn:F1; [|discriminate]. cbn [rbind]. destruct (fit_pass _ _ _ _ _ _ (fst r1)) as [r2|] eqn:F2; [|discriminate]. cbn [rbind]. destruct (fit_pass _ _ _ _ _ _ (fst r2)) as [[tel c]|] eqn:F3; [|discriminate]. cbn [rbind].
  destruct (compute_fieldrot _ _ _ _ _ _ _) as [f|] eqn:Ef; [|discriminate]. cbn [rbind]. intros E. injection E as <-.
  apply fit_pass_refit in F1 as (F1 & _ & _). apply fit_pass_refit in F2 as (F2 & _ & _). apply fit_pass_refit in F3 as (F3 & N3 & L3).
  exists t, h, l, used, meas, (fst r1), (fst r2), (snd r1), (snd r2), c. cbn [m_mjd m_hexrot m_lst m_ra m_dec m_corr m_nstars m_rms m_fieldrot m_adc1 m_adc2 fst snd] in *.
  split; [reflexivity|]. split; [reflexivity|]. split; [reflexivity|]. split.
  { destruct mjd as [v|]; [now injection Et|]. destruct (m_mjd m) as [v|]; [now injection Et|]. destruct has; [|discriminate]. split; [reflexivity|]. destruct stars as [|s r]; [discriminate|]. rewrite mean_average in Et by discriminate. now injection Et. }
  split. { destruct hexrot as [v|]; [now injection Eh|]. destruct (m_hexrot m) as [v|]; [now injection Eh as ->|discriminate]. }
  split. { unfold l. destruct lst; [reflexivity|]. destruct (m_lst m); reflexivity. }
  split; [reflexivity|]. split; [reflexivity|]. split; [exact C|]. split; [exact Em|]. split; [exact F1|]. split; [exact F2|]. split; [now rewrite <- surjective_pairing|]. split; [reflexivity|]. split.
  { rewrite N3, L3. apply map_length. }
  split; [reflexivity|]. exact Ef.
Qed.
Print Assumptions C110_fit.
(** Stars measured where they are expected, but for a rotation that is not a multiple of 90 degrees and a symmetric scale, around the centre of the field: the
    pointing is kept, rotation and scale are found and nothing is left over. *)
Theorem C110_exact mjd2lst argsort metrology fp2tan tan2fp o m has stars mjd hexrot lst used meas sxx syy sxy rho f :
  Forall (fun s => gfa2fp argsort metrology (s_petal (fst s)) (s_x (fst s), s_y (fst s)) = Err KeyError \/ exists p, gfa2fp argsort metrology (s_petal (fst s)) (s_x (fst s), s_y (fst s)) = Ok p) stars ->
  chosen (on_focal_plane argsort metrology) stars used -> fp2tan (m_adc1 m) (m_adc2 m) (map snd used) = Ok meas ->
  Forall2 (fun u q => radec2tan o (fst (snd (fst u))) (snd (snd (fst u))) (m_ra m) (m_dec m) mjd lst hexrot = Ok (mat2 sxx sxy sxy syy (rot2deg rho q))) used meas ->
  Forall in_disk meas -> (forall a b c, (forall q, In q meas -> a + b * fst q + c * snd q = 0) -> a = 0 /\ b = 0 /\ c = 0) ->
  fold_right Rplus 0 (map fst meas) = 0 -> fold_right Rplus 0 (map snd meas) = 0 ->
  0 < sxx + syy -> 0 <= rho < 360 -> sin (PI * rho / 180) <> 0 -> cos (PI * rho / 180) <> 0 -> cos (PI * m_dec m / 180) <> 0 ->
  let m' f := {| m_ra := m_ra m; m_dec := m_dec m; m_mjd := Some mjd; m_lst := Some lst; m_hexrot := Some hexrot; m_adc1 := m_adc1 m; m_adc2 := m_adc2 m;
    m_corr := {| f_sxx := sxx; f_syy := syy; f_sxy := sxy; f_fieldrot_zp_deg := rho |}; m_fieldrot := f; m_nstars := length used; m_rms := 0 |} in
  compute_fieldrot fp2tan tan2fp o (m' 0) mjd lst hexrot = Ok f ->
  fit_tancorr mjd2lst argsort metrology fp2tan tan2fp o m has stars (Some mjd) (Some hexrot) (Some lst) = Ok (m' f).
Proof.
  intros G C Em HR HD NC X0 Y0 P I Sn Cn Cd m' Ef.
  unfold fit_tancorr. cbn [rbind]. cbv zeta.
  assert (K : exists placed, rmapM (fun s : star * (R * R) => rmap (fun p => (p, snd s)) (star_fp argsort metrology (fst s))) stars = Ok placed /\
    map fst (filter (fun d : point * (R * R) => negb (Reqb (fst (fst d)) 0)) placed) = map snd used /\ map snd (filter (fun d : point * (R * R) => negb (Reqb (fst (fst d)) 0)) placed) = map (fun u => snd (fst u)) used).
  { clear - G C. induction C as [|s p stars used [Hp Np] C IH|s stars used N C IH]; [exists []; auto| |].
    - inversion G as [|? ? G1 G2]; subst. destruct (IH G2) as (placed & E & U1 & U2). exists ((p, snd s) :: placed). cbn [rmapM]. unfold star_fp at 1. rewrite Hp. cbn [rmap rbind]. rewrite E. cbn [rbind]. split; [reflexivity|].
      cbn [filter fst]. assert (Reqb (fst p) 0 = false) as -> by now apply Reqb_false. cbn [negb map fst snd]. now rewrite U1, U2.
    - inversion G as [|? ? G1 G2]; subst. destruct (IH G2) as (placed & E & U1 & U2). destruct G1 as [K|[p K]].
      + exists ((0, 0, snd s) :: placed). cbn [rmapM]. unfold star_fp at 1. rewrite K. cbn [rmap rbind]. rewrite E. cbn [rbind]. split; [reflexivity|]. cbn [filter fst]. assert (Reqb 0 0 = true) as -> by now apply Reqb_true. now cbn [negb].
      + exists ((p, snd s) :: placed). cbn [rmapM]. unfold star_fp at 1. rewrite K. cbn [rmap rbind]. rewrite E. cbn [rbind]. split; [reflexivity|]. cbn [filter fst].
        assert (Z : fst p = 0). { destruct (Req_dec (fst p) 0) as [Z|Z]; [exact Z|]. exfalso. apply (N p). now split. } assert (Reqb (fst p) 0 = true) as -> by now apply Reqb_true. now cbn [negb]. }
  destruct K as (placed & -> & U1 & U2). cbn [rbind]. rewrite U1, U2, Em. cbn [rbind].
  set (sky := map (fun u => snd (fst u)) used). set (gaia := map (fun q => mat2 sxx sxy sxy syy (rot2deg rho q)) meas).
  assert (HG : rmapM (fun g => radec2tan o (fst g) (snd g) (m_ra m) (m_dec m) mjd lst hexrot) sky = Ok gaia).
  { unfold sky, gaia. clear - HR. induction HR as [|u q used meas E _ IH]; [reflexivity|]. cbn [map rmapM]. rewrite E. cbn [rbind]. now rewrite IH. }
  assert (LM : length meas = length used) by (clear - HR; induction HR; cbn; congruence). assert (LG : length meas = length gaia) by (unfold gaia; now rewrite map_length).
  set (c := {| t_dha := 0; t_ddec := 0; t_sxx := sxx; t_syy := syy; t_sxy := sxy; t_rot_deg := rho; t_nstars := length used; t_rms_arcsec := 0 |}).
  assert (HF : tan_fit (map fst meas) (map snd meas) (map fst gaia) (map snd gaia) = Ok c).
  { destruct (data_combine meas gaia LG) as (A1 & A2 & A3 & A4). rewrite A1, A2, A3, A4. unfold c. rewrite <- LM. replace (length meas) with (length (combine meas gaia)) by (rewrite combine_length, <- LG; apply Nat.min_id).
    assert (CM : combine meas gaia = map (fun q => (q, mat2 sxx sxy sxy syy (rot2deg rho q))) meas) by (unfold gaia; clear; induction meas as [|q l IH]; [reflexivity|]; cbn; now rewrite IH).
    unfold cosdeg, sindeg in *. apply exact_fit.
    - rewrite CM. intros E. destruct meas; [|discriminate]. destruct (NC 1 0 0) as (? & _); [intros q []|lra].
    - rewrite CM, Forall_map. exact HD.
    - rewrite CM. intros a b d H. apply NC. intros q Hq. apply (H (q, mat2 sxx sxy sxy syy (rot2deg rho q))). apply in_map_iff. exists q. auto.
    - rewrite <- A1. exact X0.
    - rewrite <- A2. exact Y0.
    - rewrite CM, Forall_map. apply Forall_forall. reflexivity.
    - exact P.
    - unfold sindeg. now rewrite deg_rad.
    - unfold cosdeg. now rewrite deg_rad.
    - exact I. }
  assert (HP : fit_pass o mjd lst hexrot meas sky (m_ra m, m_dec m) = Ok ((m_ra m, m_dec m), c)).
  { unfold fit_pass. cbn [fst snd]. rewrite HG. cbn [rbind]. rewrite HF. cbn [rbind]. unfold c at 1 3. cbn [t_ddec t_dha]. replace (m_dec m - 0) with (m_dec m) by ring.
    assert (Reqb (cosdeg (m_dec m)) 0 = false) as -> by (apply Reqb_false; unfold cosdeg; now rewrite deg_rad). unfold c. cbn [t_dha t_ddec]. f_equal. f_equal. f_equal; [unfold Rdiv; ring|ring]. }
  rewrite HP. cbn [rbind fst]. rewrite HP. cbn [rbind fst]. rewrite HP. cbn [rbind fst snd]. unfold c. cbn [t_sxx t_syy t_sxy t_rot_deg t_nstars t_rms_arcsec].
  assert (Q : forall fr, compute_fieldrot fp2tan tan2fp o (m' fr) mjd lst hexrot = compute_fieldrot fp2tan tan2fp o (m' 0) mjd lst hexrot) by reflexivity.
  specialize (Q (m_fieldrot m)). unfold m' in Q at 1. rewrite Q, Ef. reflexivity.
Qed.
Print Assumptions C110_exact.

(** *** C111: between the sky and the focal plane, and the rotation of the field *)
(** A target sent to the focal plane and back comes within 2e-5 degrees, if the optics are inverted there. *)
Theorem C111_round_trip fp2tan tan2fp o m mjd lst hexrot ra dec ha d th td t q p :
  to_mount o ra dec mjd lst = (ha, d) -> to_mount o (m_ra m) (m_dec m) mjd lst = (th, td) ->
  sin (PI * 30 / 180) <= inner (unit_vector ha d) (unit_vector 0 LATITUDE) -> sin (PI * 30 / 180) <= inner (unit_vector th td) (unit_vector 0 LATITUDE) ->
  cos (PI * 89.9 / 180) <= inner (unit_vector ra dec) (unit_vector (m_ra m) (m_dec m)) -> (aberration o = true -> -80 <= d <= 80) ->
  f_sxx (m_corr m) * f_syy (m_corr m) <> f_sxy (m_corr m) ^ 2 ->
  radec2tan o ra dec (m_ra m) (m_dec m) mjd lst hexrot = Ok t -> tancorr_sky2inst (m_corr m) t = Ok q -> in_disk q ->
  tan2fp (m_adc1 m) (m_adc2 m) [q] = Ok [p] -> fp2tan (m_adc1 m) (m_adc2 m) [p] = Ok [q] ->
  radec2fp tan2fp o m mjd lst hexrot [(ra, dec)] = Ok [p] /\
  exists ra' dec', fp2radec fp2tan o m mjd lst hexrot [p] = Ok [(ra', dec')] /\
    cos (PI * (if aberration o then 2e-5 else if polar_misalignment o then 3e-6 else 3e-8) / 180) <= inner (unit_vector ra dec) (unit_vector ra' dec').
Proof.
  intros M1 M2 U1 U2 F A D T Q Dq O1 O2. destruct (C71_round_trip o ra dec (m_ra m) (m_dec m) mjd lst hexrot ha d th td M1 M2 U1 U2 F A) as (x & y & ra' & dec' & T' & B & N).
  rewrite T in T'. injection T' as ->. split.
  - unfold radec2fp. cbn [rmapM fst snd]. rewrite T. cbn [rbind]. rewrite Q. cbn [rbind]. exact O1.
  - exists ra', dec'. split; [|exact N]. unfold fp2radec. rewrite O2. cbn [rbind rmapM].
    assert (Dt : in_disk (x, y)) by (unfold in_disk; cbn [fst snd]; eapply C68_disk; exact T).
    apply (C40_field_inverse (m_corr m) q (x, y) D Dq Dt) in Q. rewrite Q. cbn [rbind fst snd]. rewrite B. reflexivity.
Qed.
Print Assumptions C111_round_trip.
(** The field rotation is the mean of the sines of the angles by which the arms of a cross of one degree are turned, taken as radians. *)
Theorem C111_fieldrot fp2tan tan2fp o m mjd lst hexrot fp centre sky :
  tan2fp (m_adc1 m) (m_adc2 m) ((0, 0) :: cross_ends) = Ok fp -> fp2radec fp2tan o m mjd lst hexrot fp = Ok (centre :: sky) -> length sky = 4%nat ->
  ((exists s, In s sky /\ sky_offset centre s = (0, 0)) -> compute_fieldrot fp2tan tan2fp o m mjd lst hexrot = Err NonFinite) /\
  ((forall s, In s sky -> sky_offset centre s <> (0, 0)) -> exists f, compute_fieldrot fp2tan tan2fp o m mjd lst hexrot = Ok f /\ Rabs f <= 180 / PI /\
    (exists angles, Forall2 (fun '(s, a) angle => turned_from angle (sky_offset centre s) a) (combine sky cross_ends) angles) /\
    forall angles, Forall2 (fun '(s, a) angle => turned_from angle (sky_offset centre s) a) (combine sky cross_ends) angles ->
      f = 180 / PI * Fiberassign.average (map sin angles) /\
      forall B, Forall (fun a => Rabs a <= B) angles -> Rabs (180 / PI * Fiberassign.average angles - f) <= 180 / PI * (B ^ 3 / 6)).
Proof.
  intros Ef Es L. pose proof PI_RGT_0 as Pi.
  assert (Ends : forall a, In a cross_ends -> a <> (0, 0)).
  { intros a [<-|[<-|[<-|[<-|[]]]]] E; injection E; lra. }
  assert (F : compute_fieldrot fp2tan tan2fp o m mjd lst hexrot = rbind (rmapM (fun d => term (snd d, sky_offset centre (fst d))) (combine sky cross_ends)) (fun terms => rbind (mean terms) (fun v => Ok (rad2deg v)))).
  { unfold compute_fieldrot. change arms with cross_ends. rewrite Ef. cbn [rbind]. rewrite Es. cbn [rbind]. cbv zeta.
    assert (M : forall (l : list point) (g : list (R * R)), combine l (map (fun g => hadec2xy (lst - fst g) (snd g) (lst - fst centre) (snd centre)) g) = map (fun d => (snd d, sky_offset centre (fst d))) (combine g l)).
    { induction l as [|a l IH]; intros [|x g]; try reflexivity. cbn [map combine]. rewrite IH, offset_lst. reflexivity. }
    rewrite M. f_equal. generalize (combine sky cross_ends). induction l as [|d l IH]; [reflexivity|]. cbn [map rmapM]. rewrite IH. reflexivity. }
  rewrite F. clear F Ef Es fp. set (pairs := combine sky cross_ends). assert (Np : pairs <> []) by (unfold pairs; destruct sky; discriminate).
  assert (Ip : forall d, In d pairs -> In (fst d) sky /\ snd d <> (0, 0)) by (intros [s a] H; split; [eapply in_combine_l; exact H|apply Ends; eapply in_combine_r; exact H]).
  assert (Tm : forall d, In d pairs -> term (snd d, sky_offset centre (fst d)) = if Req_EM_T (fst (sky_offset centre (fst d)) ^ 2 + snd (sky_offset centre (fst d)) ^ 2) 0 then Err NonFinite else Ok (Proofs.Fiberassign.sine centre d)).
  { intros [s a] H. cbn [fst snd]. apply term_sine. apply (Ip _ H). }
  split.
  - intros (s & Is & Z). assert (exists d, In d pairs /\ fst d = s) as (d & Id & <-).
    { unfold pairs. clear - Is L. destruct sky as [|s1 [|s2 [|s3 [|s4 [|]]]]]; try discriminate. destruct Is as [<-|[<-|[<-|[<-|[]]]]]; [exists (s1, (PI / 180, 0))|exists (s2, (0, PI / 180))|exists (s3, (- (PI / 180), 0))|exists (s4, (0, - (PI / 180)))]; (split; [cbn; tauto|reflexivity]). }
    assert (E : rmapM (fun d => term (snd d, sky_offset centre (fst d))) pairs = Err NonFinite); [|now rewrite E].
    clear - Tm Id Z. revert Tm Id. generalize pairs as l. induction l as [|e l IH]; intros Tm Id; [destruct Id|]. cbn [rmapM]. rewrite (Tm e (or_introl eq_refl)). destruct (Req_EM_T _ 0) as [Y|Y]; [reflexivity|]. cbn [rbind].
    destruct Id as [->|Id]; [exfalso; apply Y; rewrite Z; cbn; ring|]. rewrite IH; [reflexivity| |exact Id]. intros x Hx. apply Tm. now right.
  - intros Nz. assert (E : rmapM (fun d => term (snd d, sky_offset centre (fst d))) pairs = Ok (map (Proofs.Fiberassign.sine centre) pairs)).
    { clear Np. assert (H : forall d, In d pairs -> In (fst d) sky) by (intros d Hd; apply (Ip d Hd)). revert H Tm. generalize pairs as l. induction l as [|e l IH]; intros H Tm; [reflexivity|]. cbn [rmapM map]. rewrite (Tm e (or_introl eq_refl)). destruct (Req_EM_T _ 0) as [Y|Y].
      - exfalso. apply (Nz (fst e)); [apply H; now left|]. destruct (sky_offset centre (fst e)) as [x y]. now apply Proofs.Fiberassign.offset_zero.
      - cbn [rbind]. rewrite IH; [reflexivity|intros d Hd; apply H; now right|intros d Hd; apply Tm; now right]. }
    rewrite E. cbn [rbind]. rewrite mean_average by (destruct pairs; [contradiction|discriminate]). cbn [rbind]. eexists. split; [reflexivity|].
    assert (X : exists angles, Forall2 (fun '(s, a) angle => turned_from angle (sky_offset centre s) a) pairs angles).
    { clear - Ip Nz. revert Ip. generalize pairs as l. induction l as [|[s a] l IH]; intros Ip; [exists []; constructor|]. destruct (Ip (s, a) (or_introl eq_refl)) as [I1 I2]. destruct (turned_exists (sky_offset centre s) a I2 (Nz s I1)) as [th Hth]. destruct IH as [angles HA]; [intros d Hd; apply Ip; now right|]. exists (th :: angles). now constructor. }
    assert (V : forall angles, Forall2 (fun '(s, a) angle => turned_from angle (sky_offset centre s) a) pairs angles -> Forall2 (fun d a => Proofs.Fiberassign.sine centre d = sin a) pairs angles).
    { intros angles A. clear - A Ip. revert Ip. induction A as [|[s a] th l angles H A IH]; intros Ip; constructor.
      - apply Proofs.Fiberassign.sine_turned; [|exact H]. destruct (Ip _ (or_introl eq_refl)) as [_ N]. cbn [snd] in N. destruct a as [u v]. cbn [fst snd]. intros Z. apply N. now apply Proofs.Fiberassign.offset_zero.
      - apply IH. intros d Hd. apply Ip. now right. }
    assert (W : forall angles, Forall2 (fun '(s, a) angle => turned_from angle (sky_offset centre s) a) pairs angles -> map (Proofs.Fiberassign.sine centre) pairs = map sin angles) by (intros angles A; apply V in A; clear - A; induction A; cbn; congruence).
    assert (P180 : 0 < 180 / PI) by (apply Rdiv_lt_0_compat; lra). split; [|split; [exact X|]].
    + destruct X as [angles A]. rewrite (W angles A). unfold rad2deg. rewrite Rabs_mult, (Rabs_pos_eq (180 / PI)) by lra. assert (B : Rabs (TanPlane.average (map sin angles)) <= 1).
      { assert (N : angles <> []) by (intros ->; inversion A as [Z|]; now rewrite <- Z in Np). clear - N. unfold TanPlane.average. rewrite map_length. assert (S : Rabs (fold_right Rplus 0 (map sin angles)) <= INR (length angles)).
        { clear N. induction angles as [|a l IH]; [cbn; rewrite Rabs_R0; lra|]. cbn [map fold_right length]. rewrite S_INR. eapply Rle_trans; [apply Rabs_triang|]. assert (Rabs (sin a) <= 1) by (apply Rabs_le; pose proof (SIN_bound a); lra). lra. }
        assert (0 < INR (length angles)) by (apply lt_0_INR; destruct angles; [contradiction|cbn; lia]). unfold Rdiv. rewrite Rabs_mult, (Rabs_pos_eq (/ _)) by (left; now apply Rinv_0_lt_compat). apply (Rmult_le_reg_r (INR (length angles))); [assumption|]. rewrite Rmult_assoc, Rinv_l by lra. lra. }
      nra.
    + intros angles A. assert (E2 : rad2deg (TanPlane.average (map (Proofs.Fiberassign.sine centre) pairs)) = 180 / PI * Fiberassign.average (map (Proofs.Fiberassign.sine centre) pairs)) by (unfold rad2deg; apply Rmult_comm). rewrite E2. split; [now rewrite (W angles A)|].
      intros B HB. rewrite <- Rmult_minus_distr_l, Rabs_mult, (Rabs_pos_eq (180 / PI)) by lra. apply Rmult_le_compat_l; [lra|]. apply Proofs.Fiberassign.average_near; [now apply V|exact HB|exact Np].
Qed.
Print Assumptions C111_fieldrot.
(** At the zenith refraction does not turn the field: it is turned by the rotation of the hexapod less the one of the correction. *)
Theorem C111_zenith fp2tan tan2fp m mjd lst hexrot fp rho :
  m_ra m = lst -> m_dec m = 31.96403 -> m_corr m = {| f_sxx := 1; f_syy := 1; f_sxy := 0; f_fieldrot_zp_deg := rho |} ->
  tan2fp (m_adc1 m) (m_adc2 m) ((0, 0) :: cross_ends) = Ok fp -> fp2tan (m_adc1 m) (m_adc2 m) fp = Ok ((0, 0) :: cross_ends) ->
  compute_fieldrot fp2tan tan2fp {| precession := false; aberration := false; polar_misalignment := false; hardcoded_polmis := false |} m mjd lst hexrot = Ok (180 / PI * sin (PI * (hexrot - rho) / 180)).
Proof.
  intros Hra Hdec Hc O1 O2. change {| precession := false; aberration := false; polar_misalignment := false; hardcoded_polmis := false |} with plain_options. pose proof PI_RGT_0 as Pi. pose proof PI_4 as P4.
  assert (Pt : forall q, fst q ^ 2 + snd q ^ 2 <= 1 / 10 -> exists s, rbind (tancorr_inst2sky (m_corr m) q) (fun q => tan2radec plain_options (fst q) (snd q) (m_ra m) (m_dec m) mjd lst hexrot) = Ok s /\ (q = (0, 0) -> s = (lst, LATITUDE)) /\
     exists k, 0 < k /\ sky_offset (lst, LATITUDE) s = (k * (cosdeg (hexrot - rho) * fst q + sindeg (hexrot - rho) * snd q), k * (- sindeg (hexrot - rho) * fst q + cosdeg (hexrot - rho) * snd q))).
  { intros q Hq. assert (E : tancorr_inst2sky (m_corr m) q = Ok (rot2deg rho q)).
    { unfold tancorr_inst2sky. rewrite tan_apply_seen. assert (Rltb (1 - fst q ^ 2 - snd q ^ 2) 0 = false) as -> by (apply Rltb_false; lra). rewrite Hc. cbn [field_corr t_sxx t_sxy t_syy t_rot_deg t_dha t_ddec f_sxx f_syy f_sxy f_fieldrot_zp_deg]. rewrite seen_from_0. f_equal. unfold mat2. rewrite (surjective_pairing (rot2deg rho q)). cbn [fst snd]. f_equal; ring. }
    rewrite E. cbn [rbind]. rewrite Hra, Hdec. destruct (zenith_point lst mjd hexrot (fst (rot2deg rho q)) (snd (rot2deg rho q))) as (ra & dec & T & Z & k & K & O).
    { unfold rot2deg. cbn [fst snd]. pose proof (sincosd_one rho) as U. replace ((cosdeg rho * fst q - sindeg rho * snd q) ^ 2 + (sindeg rho * fst q + cosdeg rho * snd q) ^ 2) with ((sindeg rho * sindeg rho + cosdeg rho * cosdeg rho) * (fst q ^ 2 + snd q ^ 2)) by ring. rewrite U. lra. }
    exists (ra, dec). split; [exact T|]. split.
    - intros ->. apply Z. unfold rot2deg. cbn [fst snd]. f_equal; ring.
    - exists k. split; [exact K|]. rewrite O. unfold rot2deg. cbn [fst snd]. unfold Rminus. rewrite cosd_plus, sind_plus.
      assert (cosdeg (- rho) = cosdeg rho /\ sindeg (- rho) = - sindeg rho) as [-> ->] by (unfold cosdeg, sindeg; rewrite Ropp_mult_distr_r_reverse, cos_neg, sin_neg; auto). f_equal; ring. }
  assert (D : (PI / 180) ^ 2 <= 1 / 10) by nra.
  destruct (Pt (0, 0)) as (s0 & E0 & Z0 & _); [cbn; lra|]. specialize (Z0 eq_refl). subst s0.
  destruct (Pt (PI / 180, 0)) as (s1 & E1 & _ & k1 & K1 & F1); [cbn [fst snd]; nra|]. destruct (Pt (0, PI / 180)) as (s2 & E2 & _ & k2 & K2 & F2); [cbn [fst snd]; nra|].
  destruct (Pt (- (PI / 180), 0)) as (s3 & E3 & _ & k3 & K3 & F3); [cbn [fst snd]; nra|]. destruct (Pt (0, - (PI / 180))) as (s4 & E4 & _ & k4 & K4 & F4); [cbn [fst snd]; nra|].
  assert (Es : fp2radec fp2tan plain_options m mjd lst hexrot fp = Ok [(lst, LATITUDE); s1; s2; s3; s4]).
  { unfold fp2radec. rewrite O2. cbn [rbind]. unfold cross_ends. cbn [rmapM]. rewrite E0, E1, E2, E3, E4. reflexivity. }
  clear Pt E0 E1 E2 E3 E4. destruct (C111_fieldrot fp2tan tan2fp plain_options m mjd lst hexrot fp _ _ O1 Es eq_refl) as [_ H].
  set (th := PI * (hexrot - rho) / 180). assert (Ct : cosdeg (hexrot - rho) = cos th /\ sindeg (hexrot - rho) = sin th) by (unfold cosdeg, sindeg; rewrite deg_rad; auto). destruct Ct as [Ct St]. pose proof (sin2_cos2 th) as U. unfold Rsqr in U.
  assert (TF : forall s k a, 0 < k -> a <> (0, 0) -> sky_offset (lst, LATITUDE) s = (k * (cosdeg (hexrot - rho) * fst a + sindeg (hexrot - rho) * snd a), k * (- sindeg (hexrot - rho) * fst a + cosdeg (hexrot - rho) * snd a)) ->
    turned_from th (sky_offset (lst, LATITUDE) s) a /\ sky_offset (lst, LATITUDE) s <> (0, 0)).
  { intros s k [u v] K N E. rewrite Ct, St in E. rewrite E. cbn [fst snd]. assert (Q : turned_from th (k * (cos th * u + sin th * v), k * (- sin th * u + cos th * v)) (u, v)).
    { exists (/ k). split; [now apply Rinv_0_lt_compat|]. cbn [fst snd]. f_equal.
      - transitivity (/ k * k * ((sin th * sin th + cos th * cos th) * u)); [rewrite U, Rinv_l by lra; ring|ring].
      - transitivity (/ k * k * ((sin th * sin th + cos th * cos th) * v)); [rewrite U, Rinv_l by lra; ring|ring]. }
    split; [exact Q|]. intros Z. rewrite Z in Q. destruct Q as (j & _ & Q). cbn [fst snd] in Q. apply N. rewrite Q. f_equal; ring. }
  assert (Nd : PI / 180 <> 0) by lra.
  destruct (TF s1 k1 (PI / 180, 0) K1) as [T1 N1]; [intros E; injection E; lra|exact F1|]. destruct (TF s2 k2 (0, PI / 180) K2) as [T2 N2]; [intros E; injection E; lra|exact F2|].
  destruct (TF s3 k3 (- (PI / 180), 0) K3) as [T3 N3]; [intros E; injection E; lra|exact F3|]. destruct (TF s4 k4 (0, - (PI / 180)) K4) as [T4 N4]; [intros E; injection E; lra|exact F4|].
  destruct H as (f & -> & _ & _ & H); [intros s [<-|[<-|[<-|[<-|[]]]]]; assumption|]. f_equal.
  destruct (H [th; th; th; th]) as [-> _]; [unfold cross_ends; cbn [combine]; repeat constructor; assumption|]. unfold Fiberassign.average. cbn [map fold_right length INR]. field. lra.
Qed.
Print Assumptions C111_zenith.
(** Looking at the zenith, a hexapod turned by 90 degrees changes the field rotation by less than 60 degrees. *)
Theorem C111_angle_refuted : exists o ra dec mjd lst, let rotation := fieldrot (fun _ _ l => Ok l) (fun _ _ l => Ok l) o ra dec mjd lst in
  rotation 0 = Ok 0 /\ rotation 90 = Ok (180 / PI) /\ 180 / PI < 60.
Proof.
  exists plain_options, 100, 31.96403, 59000, 100. cbv zeta. unfold fieldrot.
  assert (H : forall h, compute_fieldrot (fun _ _ l => Ok l) (fun _ _ l => Ok l) plain_options (plain_model 100 31.96403 59000 100 h) 59000 100 h = Ok (180 / PI * sin (PI * (h - 0) / 180))) by (intros h; eapply C111_zenith; reflexivity).
  rewrite !H. split; [replace (PI * (0 - 0) / 180) with 0 by field; rewrite sin_0; f_equal; ring|]. split; [replace (PI * (90 - 0) / 180) with (PI / 2) by field; rewrite sin_PI2; f_equal; ring|].
  pose proof PI_RGT_0. pose proof PI2_3_2. apply (Rmult_lt_reg_r PI); [lra|]. unfold Rdiv. rewrite Rmult_assoc, Rinv_l by lra. lra.
Qed.
Print Assumptions C111_angle_refuted.
(** Without precession and aberration the field rotation depends on the hour angle only. *)
Theorem C111_sidereal fp2tan tan2fp o ra dec mjd lst hexrot t : precession o = false -> aberration o = false ->
  fieldrot fp2tan tan2fp o (ra + t) dec mjd (lst + t) hexrot = fieldrot fp2tan tan2fp o ra dec mjd lst hexrot.
Proof.
  intros Hp Ha. unfold fieldrot, compute_fieldrot. cbn [plain_model m_adc1 m_adc2]. destruct (tan2fp 0 0 _) as [fp|]; [|reflexivity]. cbn [rbind].
  assert (T : forall x y, tan2radec o x y (ra + t) dec mjd (lst + t) hexrot = rmap (fun s => (fst s + t, snd s)) (tan2radec o x y ra dec mjd lst hexrot)).
  { intros x y. unfold tan2radec, to_mount. rewrite Hp, Ha. replace (lst + t - (ra + t)) with (lst - ra) by ring. destruct (if polar_misalignment o then _ else _) as [th td]. destruct (refract th td) as [[th' td']|]; [|reflexivity]. cbn [rbind]. destruct (xy2hadec _ _ _ _) as [[h d]|]; [|reflexivity]. cbn [rbind].
    destruct (hadec2altaz h d) as [alt az]. destruct (undo_refraction alt) as [a|]; [|reflexivity]. cbn [rbind]. destruct (altaz2hadec a az) as [h' d']. destruct (if polar_misalignment o then _ else (h', d')) as [h2 d2]. cbn [rmap fst snd]. f_equal. f_equal. ring. }
  assert (F : fp2radec fp2tan o (plain_model (ra + t) dec mjd (lst + t) hexrot) mjd (lst + t) hexrot fp = rmap (map (fun s => (fst s + t, snd s))) (fp2radec fp2tan o (plain_model ra dec mjd lst hexrot) mjd lst hexrot fp)).
  { unfold fp2radec. cbn [plain_model m_adc1 m_adc2 m_ra m_dec m_corr]. destruct (fp2tan 0 0 fp) as [l|]; [|reflexivity]. cbn [rbind]. induction l as [|q l IH]; [reflexivity|]. cbn [rmapM]. destruct (tancorr_inst2sky _ q) as [q'|]; [|reflexivity]. cbn [rbind]. rewrite T.
    destruct (tan2radec o (fst q') (snd q') ra dec mjd lst hexrot) as [s|]; [|reflexivity]. cbn [rmap rbind]. match type of IH with _ = rmap _ ?x => etransitivity; [exact (f_equal (fun r => rbind r (fun b => Ok ((fst s + t, snd s) :: b))) IH)|destruct x; reflexivity] end. }
  rewrite F. destruct (fp2radec _ _ (plain_model ra dec mjd lst hexrot) _ _ _ _) as [sky|]; [|reflexivity]. cbn [rmap rbind]. destruct sky as [|c rest]; [reflexivity|]. cbn [map fst snd].
  replace (lst + t - (fst c + t)) with (lst - fst c) by ring. rewrite map_map. cbv zeta.
  assert (M : map (fun x : R * R => hadec2xy (lst + t - (fst x + t)) (snd x) (lst - fst c) (snd c)) rest = map (fun g => hadec2xy (lst - fst g) (snd g) (lst - fst c) (snd c)) rest) by (apply map_ext; intros g; now replace (lst + t - (fst g + t)) with (lst - fst g) by ring).
  cbn [fst snd]. rewrite M. reflexivity.
Qed.
Print Assumptions C111_sidereal.
(** Change in arc seconds of the field rotation while the sidereal time goes on by one minute of time. *)
Theorem C111_rate fp2tan tan2fp o ra dec mjd lst r :
  dfieldrotdt_physical_model fp2tan tan2fp o ra dec mjd lst = Ok r <->
  exists f0 f1, fieldrot fp2tan tan2fp o ra dec mjd lst 0 = Ok f0 /\ fieldrot fp2tan tan2fp o ra dec mjd (lst + 360 / (24 * 60)) 0 = Ok f1 /\ r = 3600 * (f1 - f0).
Proof.
  unfold dfieldrotdt_physical_model. cbv zeta. replace (1 / 60 / 24 * 360) with (360 / (24 * 60)) by field. split.
  - destruct (fieldrot _ _ _ _ _ _ (lst + _) _) as [a|]; [|discriminate]. cbn [rbind]. destruct (fieldrot _ _ _ _ _ _ lst _) as [b|]; [|discriminate]. cbn [rbind]. intros E. injection E as <-. exists b, a. auto.
  - intros (b & a & -> & -> & ->). reflexivity.
Qed.
Print Assumptions C111_rate.

(** Four stars one degree from the zenith, measured turned by 30 degrees. *)
Definition zenith_az : list R := [0; 90; 180; 270].
Definition zenith_star (lst az : R) : star * (R * R) := let '(ha, dec) := altaz2hadec 89 az in (star_at (lst - ha) dec (lst - ha) dec None None, (lst - ha, dec)).
Lemma zenith_seen mjd lst : exists k, 0 < k < 1 /\ forall az, let g := snd (zenith_star lst az) in radec2tan plain_options (fst g) (snd g) lst LATITUDE mjd lst 0 = Ok (- (k * sindeg az), k * cosdeg az).
Proof.
  assert (S : 0 < sindeg 89) by (unfold sindeg, D2R; apply sin_gt_0; pose proof PI_RGT_0; lra). assert (C : 0 < cosdeg 89) by (apply cosd_pos; lra).
  set (d := REFRACTION_AT_30DEG_ELEVATION / 3600 * (sindeg 30 / cosdeg 30) * (cosdeg 89 / sindeg 89)).
  assert (D : 0 <= d < 0.5).
  { destruct (cot_bound 89 ltac:(lra)) as [B _]. assert (HK : 0 < sindeg 30 / cosdeg 30 < 1).
    { pose proof (cosd_pos 30 ltac:(lra)) as C30. assert (S30 : 0 < sindeg 30) by (unfold sindeg, D2R; apply sin_gt_0; pose proof PI_RGT_0; lra). split; [now apply Rdiv_lt_0_compat|]. apply (Rmult_lt_reg_r (cosdeg 30)); [lra|]. unfold Rdiv. rewrite Rmult_assoc, Rinv_l, Rmult_1_r, Rmult_1_l by lra.
      assert (E : sindeg 30 = 1 / 2) by (unfold sindeg, D2R; replace (PI / 180 * 30) with (PI / 6) by lra; apply sin_PI6). pose proof (sincosd_one 30). nra. }
    unfold d, REFRACTION_AT_30DEG_ELEVATION. set (k := sindeg 30 / cosdeg 30) in *. set (c := cosdeg 89 / sindeg 89) in *. split; [apply Rmult_le_pos; nra|]. assert (79 / 3600 * k * c <= 79 / 3600 * 1 * 1); [|lra]. apply Rmult_le_compat; nra. }
  exists (cosdeg (89 + d)). assert (K : 0 < cosdeg (89 + d)) by (apply cosd_pos; lra). assert (S' : 0 < sindeg (89 + d)) by (unfold sindeg, D2R; apply sin_gt_0; pose proof PI_RGT_0; nra).
  split; [pose proof (sincosd_one (89 + d)); nra|]. intros az. cbv zeta. unfold zenith_star. pose proof (altaz2hadec_direction 89 az) as A. pose proof (C38_hadec_back 89 az ltac:(lra)) as B. destruct (altaz2hadec 89 az) as [ha dec]. cbn [fst snd].
  unfold radec2tan, to_mount, plain_options. cbn [precession aberration polar_misalignment]. replace (lst - (lst - ha)) with ha by ring. replace (lst - lst) with 0 by ring. rewrite refract_zenith. unfold refract at 1.
  destruct (hadec2altaz ha dec) as [alt az']. destruct B as (_ & _ & E & _ & Sa). destruct (Rlt_dec 89 0); [lra|]. subst alt. specialize (Sa ltac:(lra)).
  unfold apply_refraction. assert (Reqb (sindeg 89) 0 = false) as -> by (apply Reqb_false; lra). cbn [rbind]. fold d. pose proof (altaz2hadec_direction (89 + d) az') as Q. destruct (altaz2hadec (89 + d) az') as [h2 d2]. destruct Q as (_ & _ & Q). cbn [rbind].
  rewrite hadec2xy_components, Q, <- getXYZ_unit. unfold getXYZ. rewrite (cosd_same _ _ Sa), (sind_same _ _ Sa). rewrite east, north, cosd0, sind0. unfold horizon_map, inner. pose proof (sincosd_one LATITUDE) as U. f_equal. f_equal.
  - ring.
  - transitivity (cosdeg (89 + d) * cosdeg az * (sindeg LATITUDE * sindeg LATITUDE + cosdeg LATITUDE * cosdeg LATITUDE)); [ring|rewrite U; ring].
Qed.
Example C110_example : exists fp2tan f,
  fit_tancorr (fun _ => 0) isort_argsort gfa_table fp2tan (fun _ _ l => Ok l) plain_options (plain_model 100 LATITUDE 0 0 0) false (map (zenith_star 100) zenith_az) (Some 59000) (Some 0) (Some 100) =
  Ok {| m_ra := 100; m_dec := LATITUDE; m_mjd := Some 59000; m_lst := Some 100; m_hexrot := Some 0; m_adc1 := 0; m_adc2 := 0;
        m_corr := {| f_sxx := 1; f_syy := 1; f_sxy := 0; f_fieldrot_zp_deg := 30 |}; m_fieldrot := f; m_nstars := 4; m_rms := 0 |} /\ f = 180 / PI * sin (PI * (0 - 30) / 180).
Proof.
  destruct (zenith_seen 59000 100) as (k & K & H). pose (meas := map (fun az => rot2deg (-30) (- (k * sindeg az), k * cosdeg az)) zenith_az).
  exists (fun _ _ l => match l with p :: _ => if Reqb (fst p) 415 then Ok meas else Ok l | [] => Ok l end). eexists. split; [|reflexivity].
  set (fp2tan := fun (_ _ : R) (l : list point) => match l with p :: _ => if Reqb (fst p) 415 then Ok meas else Ok l | [] => Ok l end).
  assert (GF : gfa2fp isort_argsort gfa_table 3 (1000, 500) = Ok (415, 7.5 + 2.23 * (1 / 15.465))) by apply C74_example.
  set (p0 := (415, 7.5 + 2.23 * (1 / 15.465))) in *.
  assert (Zs : forall az, s_petal (fst (zenith_star 100 az)) = 3%Z /\ s_x (fst (zenith_star 100 az)) = 1000 /\ s_y (fst (zenith_star 100 az)) = 500) by (intros az; unfold zenith_star; destruct (altaz2hadec 89 az); auto).
  assert (R30 : forall q, rot2deg 30 (rot2deg (-30) q) = q).
  { intros [x y]. unfold rot2deg. cbn [fst snd]. assert (cosdeg (-30) = cosdeg 30 /\ sindeg (-30) = - sindeg 30) as [-> ->] by (replace (-30) with (- (30)) by lra; unfold cosdeg, sindeg; rewrite Ropp_mult_distr_r_reverse, cos_neg, sin_neg; auto). pose proof (sincosd_one 30) as U. f_equal.
    - transitivity ((sindeg 30 * sindeg 30 + cosdeg 30 * cosdeg 30) * x); [ring|rewrite U; ring].
    - transitivity ((sindeg 30 * sindeg 30 + cosdeg 30 * cosdeg 30) * y); [ring|rewrite U; ring]. }
  assert (C180 : cosdeg 180 = -1 /\ sindeg 180 = 0) by (unfold cosdeg, sindeg, D2R; replace (PI / 180 * 180) with PI by lra; rewrite cos_PI, sin_PI; auto).
  assert (C270 : cosdeg 270 = 0 /\ sindeg 270 = -1) by (replace 270 with (180 + 90) by lra; rewrite cosd_plus, sind_plus, cosd90, sind90; destruct C180 as [-> ->]; split; ring).
  set (c := cosdeg 30) in *. set (s := sindeg 30) in *. assert (N30 : cosdeg (-30) = c /\ sindeg (-30) = - s) by (replace (-30) with (- (30)) by lra; unfold c, s, cosdeg, sindeg; rewrite Ropp_mult_distr_r_reverse, cos_neg, sin_neg; auto).
  assert (Cp : 0 < c) by (apply cosd_pos; lra). assert (Sp : 0 < s) by (unfold s, sindeg, D2R; apply sin_gt_0; pose proof PI_RGT_0; lra). assert (U : s * s + c * c = 1) by apply sincosd_one.
  assert (Em : meas = [(k * s, k * c); (- (k * c), k * s); (- (k * s), - (k * c)); (k * c, - (k * s))]).
  { unfold meas, zenith_az, rot2deg. cbn [map fst snd]. destruct N30 as [-> ->]. destruct C180 as [-> ->]. destruct C270 as [-> ->]. rewrite cosd0, sind0, cosd90, sind90. repeat (apply f_equal2; [apply f_equal2; ring|]). reflexivity. }
  apply (C110_exact (fun _ => 0) isort_argsort gfa_table fp2tan (fun _ _ l => Ok l) plain_options (plain_model 100 LATITUDE 0 0 0) false (map (zenith_star 100) zenith_az) 59000 0 100 (map (fun az => (zenith_star 100 az, p0)) zenith_az) meas 1 1 0 30).
  - apply Forall_forall. intros st I. apply in_map_iff in I as (az & <- & _). destruct (Zs az) as (-> & -> & ->). right. eauto.
  - unfold zenith_az. cbn [map]. repeat (apply chosen_keep; [split; [match goal with |- context [zenith_star 100 ?az] => destruct (Zs az) as (-> & -> & ->) end; exact GF|cbn; lra]|]). constructor.
  - cbn [plain_model m_adc1 m_adc2 zenith_az map snd]. unfold fp2tan, p0. cbn [fst]. assert (Reqb 415 415 = true) as -> by now apply Reqb_true. reflexivity.
  - unfold meas, zenith_az. cbn [map plain_model m_ra m_dec]. assert (E : forall q, mat2 1 0 0 1 (rot2deg 30 (rot2deg (-30) q)) = q) by (intros q; rewrite R30; unfold mat2; destruct q; cbn [fst snd]; f_equal; ring). repeat (apply Forall2_cons; [cbn [fst snd]; rewrite E; apply H|]). constructor.
  - rewrite Em. assert (k * k * (s * s + c * c) <= 1) by (rewrite U; nra). repeat (apply Forall_cons; [unfold in_disk; cbn [fst snd]; nra|]). constructor.
  - rewrite Em. intros a b d Q. pose proof (Q _ (or_introl eq_refl)) as Q1. pose proof (Q _ (or_intror (or_introl eq_refl))) as Q2. pose proof (Q _ (or_intror (or_intror (or_introl eq_refl)))) as Q3. cbn [fst snd] in Q1, Q2, Q3.
    assert (a = 0) by lra. subst a. assert (E1 : b * s + d * c = 0) by (apply (Rmult_eq_reg_l k); [lra|lra]). assert (E2 : - (b * c) + d * s = 0) by (apply (Rmult_eq_reg_l k); [lra|lra]).
    split; [reflexivity|]. split; [transitivity (s * (b * s + d * c) - c * (- (b * c) + d * s)); [transitivity (b * (s * s + c * c)); [rewrite U; ring|ring]|rewrite E1, E2; ring]|transitivity (c * (b * s + d * c) + s * (- (b * c) + d * s)); [transitivity (d * (s * s + c * c)); [rewrite U; ring|ring]|rewrite E1, E2; ring]].
  - rewrite Em. cbn [map fst fold_right]. ring.
  - rewrite Em. cbn [map snd fold_right]. ring.
  - lra.
  - lra.
  - rewrite <- deg_rad. fold (sindeg 30). fold s. lra.
  - rewrite <- deg_rad. fold (cosdeg 30). fold c. lra.
  - cbn [plain_model m_dec]. rewrite <- deg_rad. fold (cosdeg LATITUDE). pose proof (cosd_pos LATITUDE lat_range). lra.
  - eapply C111_zenith; [reflexivity|reflexivity|reflexivity|reflexivity|]. unfold fp2tan. cbn [fst]. assert (Reqb 0 415 = false) as -> by (apply Reqb_false; lra). reflexivity.
Qed.
Example C111_example : let optics := fun (_ _ : R) (l : list point) => Ok l in let m := plain_model 100 LATITUDE 59000 100 30 in
  fieldrot optics optics plain_options 100 LATITUDE 59000 100 30 = Ok (90 / PI) /\
  exists ra dec p ra' dec', p <> (0, 0) /\ radec2fp optics plain_options m 59000 100 0 [(ra, dec)] = Ok [p] /\ fp2radec optics plain_options m 59000 100 0 [p] = Ok [(ra', dec')] /\
    cos (PI * 3e-8 / 180) <= inner (unit_vector ra dec) (unit_vector ra' dec').
Proof.
  cbv zeta. split.
  - unfold fieldrot. etransitivity; [eapply C111_zenith; reflexivity|]. replace (PI * (30 - 0) / 180) with (PI / 6) by field. rewrite sin_PI6. f_equal. field. pose proof PI_RGT_0. lra.
  - destruct (zenith_seen 59000 100) as (k & K & H). specialize (H 0). cbv zeta in H. unfold zenith_star in H. pose proof (altaz2hadec_direction 89 0) as A. destruct (altaz2hadec 89 0) as [ha dec]. destruct A as (_ & _ & A). cbn [fst snd] in H. rewrite sind0, cosd0 in H.
    assert (Z : inner (unit_vector ha dec) (unit_vector 0 LATITUDE) = sindeg 89) by (rewrite A, <- horizon_zenith, horizon_map_inner, <- getXYZ_unit; unfold getXYZ, inner; ring).
    assert (Z' : inner (unit_vector (100 - ha) dec) (unit_vector 100 LATITUDE) = sindeg 89).
    { rewrite <- Z, <- !getXYZ_unit. unfold getXYZ, inner. replace (100 - ha) with (100 + - ha) by ring. rewrite cosd_plus, sind_plus, cosd0, sind0. assert (cosdeg (- ha) = cosdeg ha /\ sindeg (- ha) = - sindeg ha) as [-> ->] by (unfold cosdeg, sindeg; rewrite Ropp_mult_distr_r_reverse, cos_neg, sin_neg; auto). pose proof (sincosd_one 100) as U. transitivity (cosdeg dec * cosdeg ha * cosdeg LATITUDE * (sindeg 100 * sindeg 100 + cosdeg 100 * cosdeg 100) + sindeg dec * sindeg LATITUDE); [ring|rewrite U; ring]. }
    assert (G : sin (PI * 30 / 180) <= sindeg 89) by (unfold sindeg, D2R; pose proof PI_RGT_0; apply sin_incr_1; lra).
    exists (100 - ha), dec, (- (k * 0), k * 1).
    destruct (C111_round_trip (fun _ _ l => Ok l) (fun _ _ l => Ok l) plain_options (plain_model 100 LATITUDE 59000 100 30) 59000 100 0 (100 - ha) dec ha dec 0 LATITUDE (- (k * 0), k * 1) (- (k * 0), k * 1) (- (k * 0), k * 1)) as (P1 & ra' & dec' & P2 & P3).
    + unfold to_mount, plain_options. cbn. f_equal. ring.
    + unfold to_mount, plain_options. cbn. f_equal. ring.
    + now rewrite Z.
    + rewrite <- horizon_zenith, horizon_map_inner. cbn. pose proof (SIN_bound (PI * 30 / 180)). lra.
    + cbn [plain_model m_ra m_dec]. rewrite Z'. apply (Rle_trans _ (sin (PI * 30 / 180))); [|exact G]. pose proof PI_RGT_0. replace (cos (PI * 89.9 / 180)) with (sin (PI / 2 - PI * 89.9 / 180)) by apply sin_shift. apply sin_incr_1; lra.
    + discriminate.
    + cbn. lra.
    + exact H.
    + unfold tancorr_sky2inst. rewrite tan_apply_inverse_seen by (cbn; lra). cbn [fst snd]. assert (Rltb (1 - (- (k * 0)) ^ 2 - (k * 1) ^ 2) 0 = false) as -> by (apply Rltb_false; nra). cbn [plain_model m_corr field_corr t_sxx t_sxy t_syy t_rot_deg t_dha t_ddec f_sxx f_syy f_sxy f_fieldrot_zp_deg].
      rewrite seen_from_0. unfold mat2, rot2deg. cbn [fst snd]. replace (- 0) with 0 by ring. rewrite cosd0, sind0. f_equal. f_equal; field.
    + unfold in_disk. cbn [fst snd]. nra.
    + reflexivity.
    + reflexivity.
    + exists ra', dec'. split; [intros E; injection E; lra|]. split; [exact P1|]. split; [exact P2|exact P3].
Qed.
