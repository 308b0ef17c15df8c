(** C106: positions of the targets of a tile for fiber assignment. *)
From Coq Require Import Lra Lia.
From Verif.Model Require Import Fiberassign.
From Verif.Spec Require Import Trig Match Adc Sphere Fiberassign.
From Verif.Spec Require Import Numpy.
From Verif.Proofs Require Import Prelude RealNum Trig Numpy Sphere Radec2tan Refraction Fiberassign.
From Verif.Props Require Import RayTraceFit.
From Verif.Props Require Xy2qs Radec2tan.
From Interval Require Import Tactic.
From Verif.Spec Require Import Sphere.
Local Open Scope R_scope.

(** Arrays of different lengths and a single ADC angle are refused; without angles those of platemaker are used. *)
Theorem C106_arguments argsort interp1d table platemaker o xs ys tile_ra tile_dec mjd tile_ha f pm :
  let forward := fiberassign_radec2xy_cs5 argsort interp1d table platemaker o xs ys tile_ra tile_dec mjd tile_ha f in
  let back := fiberassign_cs5_xy2radec argsort interp1d table platemaker o xs ys tile_ra tile_dec mjd tile_ha f in
  (length xs <> length ys -> forall adc1 adc2, forward adc1 adc2 pm = Err AssertionError /\ back adc1 adc2 pm = Err AssertionError) /\
  (length xs = length ys -> forall a, forward (Some a) None pm = Err ValueError /\ forward None (Some a) pm = Err ValueError /\ back (Some a) None pm = Err ValueError /\ back None (Some a) pm = Err ValueError) /\
  (let '(a, b) := pm_get_adc_angles tile_ha tile_dec in forward None None pm = forward (Some a) (Some b) pm /\ back None None pm = back (Some a) (Some b) pm).
Proof.
  intros forward back. unfold forward, back, fiberassign_radec2xy_cs5, fiberassign_cs5_xy2radec. split; [|split].
  - intros N adc1 adc2. apply Nat.eqb_neq in N. rewrite N. now split.
  - intros E a. rewrite E, Nat.eqb_refl. cbn [negb adc_angles rbind]. now repeat split.
  - unfold adc_angles. destruct (pm_get_adc_angles tile_ha tile_dec) as [a b]. now split.
Qed.
Print Assumptions C106_arguments.
(** Another requested rotation turns the positions about the centre of the focal plane by the difference, and changes nothing else. *)
Theorem C106_request argsort interp1d table platemaker o ra dec tile_ra tile_dec mjd tile_ha adc1 adc2 pm f f' :
  let positions f := fiberassign_radec2xy_cs5 argsort interp1d table platemaker o ra dec tile_ra tile_dec mjd tile_ha f adc1 adc2 pm in
  positions f' = match positions f with Ok l => Ok (map (option_map (turned_back (f' - f))) l) | Err e => Err e end.
Proof.
  intros positions. unfold positions, fiberassign_radec2xy_cs5. destruct (negb _); [reflexivity|]. cbv zeta. destruct (adc_angles _ _ _ _) as [[a b]|]; cbn [rbind]; [|reflexivity].
  destruct (nan_or (tune _ _ _ _ _ _ _ _ _ _ _ _)) as [[[tr td]|]|]; cbn [rbind]; [|now rewrite map_map|reflexivity].
  destruct (rmapM _ _) as [tan|]; cbn [rbind]; [|reflexivity]. destruct (on_array _ _) as [fp|]; cbn [rbind]; [|reflexivity]. destruct (if pm then _ else _) as [fp'|]; cbn [rbind]; [|reflexivity].
  destruct (measure_fieldrot_deg _ _ _) as [m|]; f_equal; rewrite map_map; apply map_ext; intros [p|]; cbn [option_map]; try reflexivity. f_equal. rewrite !rotated_turned, turned_add. f_equal. ring.
Qed.
Print Assumptions C106_request.
(** The telescope is pointed by two Newton steps that bring the centre of the tile to the centre of the focal plane. The targets are placed for that
    pointing and turned by f - m: m is the mean, in degrees, of the sines of the angles from the directions on the sky to the positions, for the
    targets beyond 10 mm; so the mean angle of the positions returned differs from the request by less than a sixth of the cube of the
    largest angle before turning. Without such a target, or with one exactly behind the centre of the tile, all positions are nan. *)
Theorem C106_positions argsort interp1d table platemaker o ra dec tile mjd tile_ha adc1 adc2 pm tel1 tel2 placed :
  let shown := shown argsort interp1d table o mjd (tile_ha + fst tile) adc1 adc2 in
  let positions f := fiberassign_radec2xy_cs5 argsort interp1d table platemaker o ra dec (fst tile) (snd tile) mjd tile_ha f (Some adc1) (Some adc2) pm in
  length ra = length dec -> newton_step shown tile tile tel1 -> newton_step shown tile tel1 tel2 ->
  Forall2 (placed_at argsort interp1d table platemaker o mjd (tile_ha + fst tile) adc1 adc2 pm tel2) (combine ra dec) placed ->
  let outer := outer_targets (combine (map Some (combine ra dec)) placed) in
  ((outer = [] \/ exists s p, In (s, p) outer /\ sky_offset tile s = (0, 0)) -> forall f, positions f = Ok (map (fun _ => None) ra)) /\
  (outer <> [] -> (forall s p, In (s, p) outer -> sky_offset tile s <> (0, 0)) -> exists m, (forall f, positions f = Ok (map (option_map (turned_back (f - m))) placed)) /\
     forall angles, Forall2 (fun '(s, p) angle => turned_from angle (sky_offset tile s) p) outer angles ->
       m = 180 / PI * average (map sin angles) /\
       forall B, Forall (fun a => Rabs a <= B) angles -> Rabs (180 / PI * average angles - m) <= 180 / PI * (B ^ 3 / 6)).
Proof.
  intros shown positions L N1 N2 F outer. pose proof N1 as (f0 & _ & _ & S0 & _). pose proof (shown_interpolates _ _ _ _ _ _ _ _ _ _ _ S0) as K.
  destruct (placed_all _ _ _ platemaker o mjd (tile_ha + fst tile) _ _ pm tel2 _ _ K F) as (tan & fp & E1 & E2 & E3). clear K S0 f0.
  assert (P : forall f, positions f = match measure_fieldrot_deg (combine (map (fun s => Some (- fst s, snd s)) (combine ra dec)) placed) (- fst tile) (snd tile) with
      None => Ok (map (fun _ => None) placed) | Some m => Ok (map (option_map (rotated (f - m))) placed) end).
  { intros f. unfold positions, fiberassign_radec2xy_cs5. rewrite L, Nat.eqb_refl. cbn [negb adc_angles rbind]. cbv zeta. replace (fst tile, snd tile) with tile by (now destruct tile).
    rewrite (tune_step _ _ _ _ _ _ _ _ 1 tile tile tel1 N1), (tune_step _ _ _ _ _ _ _ _ 0 tile tel1 tel2 N2). cbn [tune nan_or rbind]. destruct tel2 as [tr td]. cbn [fst snd] in E1. rewrite E1. cbn [rbind]. rewrite E2. cbn [rbind]. rewrite E3. reflexivity. }
  change (fun s : R * R => Some (- fst s, snd s)) with (fun s : point => option_map mirror (Some s)) in P. rewrite <- (map_map Some (option_map mirror)) in P.
  destruct (measured tile (map Some (combine ra dec)) placed) as [M0 M1]. fold outer in M0, M1.
  split.
  - intros H f. rewrite P, (M0 H). f_equal. assert (Len : length placed = length ra). { clear - F L. apply Forall2_length in F. rewrite combine_length in F. lia. } clear - Len. revert ra Len. induction placed; intros [|]; cbn; intros; try discriminate; f_equal; auto.
  - intros Ne Nz. exists (R2D * average (map (sine tile) outer)). split.
    + intros f. rewrite P, (M1 Ne Nz). f_equal. apply map_ext. intros [p|]; [|reflexivity]. cbn [option_map]. f_equal. apply rotated_turned.
    + intros angles A. assert (A' : Forall2 (fun d a => sine tile d = sin a) outer angles).
      { assert (I : forall d, In d outer -> In d outer) by auto. revert I. generalize outer at 1 3 as l, A. clear - outer. intros l A. induction A as [|[s p] a l angles H A IH]; intros I; constructor.
        - apply sine_turned; [|exact H]. pose proof (outer_far _ _ _ (I _ (or_introl eq_refl))). lra.
        - apply IH. intros d D. apply I. now right. }
      assert (E : map (sine tile) outer = map sin angles) by (clear - A'; induction A'; cbn; congruence).
      assert (RD : R2D = 180 / PI) by (unfold R2D, D2R; field; apply PI_neq0). rewrite RD.
      split; [now rewrite E|]. intros B HB. pose proof (average_near _ _ _ B A' HB Ne) as Av. rewrite <- Rmult_minus_distr_l, Rabs_mult. pose proof PI_RGT_0. rewrite (Rabs_pos_eq (180 / PI)) by (apply Rlt_le, Rdiv_lt_0_compat; lra).
      apply Rmult_le_compat_l; [apply Rlt_le, Rdiv_lt_0_compat; lra|exact Av].
Qed.
Print Assumptions C106_positions.
(** Where the positions of the centre of the tile and of the points one arc second away do not determine the derivatives, the call fails. *)
Theorem C106_singular argsort interp1d table platemaker o xs ys tile mjd tile_ha f adc1 adc2 pm tel f0 f1 f2 :
  let shown := shown argsort interp1d table o mjd (tile_ha + fst tile) adc1 adc2 in
  length xs = length ys -> tel = tile \/ newton_step shown tile tile tel ->
  shown tel tile f0 -> shown tel (fst tile + 1 / 3600, snd tile) f1 -> shown tel (fst tile, snd tile + 1 / 3600) f2 ->
  (fst f1 - fst f0) * (snd f2 - snd f0) = (fst f2 - fst f0) * (snd f1 - snd f0) ->
  fiberassign_radec2xy_cs5 argsort interp1d table platemaker o xs ys (fst tile) (snd tile) mjd tile_ha f (Some adc1) (Some adc2) pm = Err LinAlgError /\
  fiberassign_cs5_xy2radec argsort interp1d table platemaker o xs ys (fst tile) (snd tile) mjd tile_ha f (Some adc1) (Some adc2) pm = Err LinAlgError.
Proof.
  intros shown L St S0 S1 S2 E. assert (T : tune argsort interp1d table o 2 (fst tile) (snd tile) mjd (tile_ha + fst tile) adc1 adc2 (fst tile, snd tile) = Err LinAlgError).
  { replace (fst tile, snd tile) with tile by (now destruct tile). destruct St as [->|N]; [|rewrite (tune_step _ _ _ _ _ _ _ _ 1 tile tile tel N)]; exact (tune_singular _ _ _ _ _ _ _ _ _ tile _ f0 f1 f2 S0 S1 S2 E). }
  unfold fiberassign_radec2xy_cs5, fiberassign_cs5_xy2radec. rewrite L, Nat.eqb_refl. cbn [negb adc_angles rbind]. cbv zeta. rewrite T. now split.
Qed.
Print Assumptions C106_singular.
(** A step from a pointing where the positions are affine functions of sky and pointing within [eps] leaves the centre of the tile within
    2 eps (1 + 3600 (|dra| + |ddec|)) of the centre of the focal plane, for a step (dra, ddec) in degrees: exactly there where they are affine. *)
Theorem C106_centre shown tile tel tel' a b c d u v eps g :
  newton_step shown tile tel tel' -> shown tel' tile g ->
  (forall t s p, shown t s p -> In (t, s) [(tel, tile); (tel, (fst tile + 1 / 3600, snd tile)); (tel, (fst tile, snd tile + 1 / 3600)); (tel', tile)] ->
     Rabs (fst p - (a * (fst s - fst t) + b * (snd s - snd t) + u)) <= eps /\ Rabs (snd p - (c * (fst s - fst t) + d * (snd s - snd t) + v)) <= eps) ->
  let bound := 2 * eps * (1 + 3600 * (Rabs (fst tel' - fst tel) + Rabs (snd tel' - snd tel))) in
  Rabs (fst g) <= bound /\ Rabs (snd g) <= bound.
Proof.
  intros (f0 & f1 & f2 & S0 & S1 & S2 & _ & E) Sg H bound.
  destruct (H _ _ _ S0 ltac:(cbn; tauto)) as [X0 Y0]. destruct (H _ _ _ S1 ltac:(cbn; tauto)) as [X1 Y1]. destruct (H _ _ _ S2 ltac:(cbn; tauto)) as [X2 Y2]. destruct (H _ _ _ Sg ltac:(cbn; tauto)) as [Xg Yg]. clear H S0 S1 S2 Sg.
  destruct tile as [r t], tel as [p q], tel' as [p' q'], f0 as [x0 y0], f1 as [x1 y1], f2 as [x2 y2], g as [xg yg]. cbn [fst snd] in *. injection E as E1 E2.
  assert (G : forall e0 e1 e2 eg w1 w2, Rabs e0 <= eps -> Rabs e1 <= eps -> Rabs e2 <= eps -> Rabs eg <= eps -> Rabs ((e1 - e0) * 3600 * w1 + (e2 - e0) * 3600 * w2 + (eg - e0)) <= 2 * eps * (1 + 3600 * (Rabs w1 + Rabs w2))).
  { intros e0 e1 e2 eg w1 w2 A0 A1 A2 Ag. assert (D : forall s z, Rabs s <= eps -> Rabs z <= eps -> Rabs (s - z) <= 2 * eps) by (intros s z As Az; unfold Rminus; eapply Rle_trans; [apply Rabs_triang|]; rewrite Rabs_Ropp; lra).
    assert (M : forall k w, Rabs k <= 2 * eps -> Rabs (k * 3600 * w) <= 2 * eps * 3600 * Rabs w) by (intros k w Hk; rewrite !Rabs_mult, (Rabs_pos_eq 3600) by lra; apply Rmult_le_compat_r; [apply Rabs_pos|lra]).
    eapply Rle_trans; [apply Rabs_triang|]. eapply Rle_trans; [apply Rplus_le_compat_r, Rabs_triang|]. pose proof (M _ w1 (D _ _ A1 A0)). pose proof (M _ w2 (D _ _ A2 A0)). pose proof (D _ _ Ag A0). lra. }
  split.
  - specialize (G _ _ _ _ (p' - p) (q' - q) X0 X1 X2 Xg). fold bound in G. match type of G with Rabs ?l <= _ => replace l with xg in G; [exact G|] end. lra.
  - specialize (G _ _ _ _ (p' - p) (q' - q) Y0 Y1 Y2 Yg). fold bound in G. match type of G with Rabs ?l <= _ => replace l with yg in G; [exact G|] end. lra.
Qed.
Print Assumptions C106_centre.
(** The inverse: the positions (in desimeter coordinates) are turned by m - f, where m is measured on the same positions, and then taken to the sky
    for the same pointing; m differs from the mean angle from the sky to the positions by less than a sixth of the cube of the largest. *)
Theorem C106_back argsort interp1d table platemaker o xs ys tile mjd tile_ha adc1 adc2 pm tel1 tel2 fp tan sky :
  let shown := shown argsort interp1d table o mjd (tile_ha + fst tile) adc1 adc2 in
  let back f := fiberassign_cs5_xy2radec argsort interp1d table platemaker o xs ys (fst tile) (snd tile) mjd tile_ha f (Some adc1) (Some adc2) pm in
  length xs = length ys -> newton_step shown tile tile tel1 -> newton_step shown tile tel1 tel2 ->
  Forall2 (fun p q => (if pm then pm2dm platemaker p else Ok p) = Ok q) (combine xs ys) fp ->
  fp2tan argsort interp1d table fp adc1 adc2 = Ok tan -> Forall2 (on_sky o mjd (tile_ha + fst tile) tel2) tan sky ->
  let outer := outer_targets (combine sky (map Some fp)) in
  ((outer = [] \/ exists s p, In (s, p) outer /\ sky_offset tile s = (0, 0)) -> forall f, back f = Ok (map (fun _ => None) fp)) /\
  (outer <> [] -> (forall s p, In (s, p) outer -> sky_offset tile s <> (0, 0)) -> exists m,
     (forall f tan' sky', fp2tan argsort interp1d table (map (turned (f - m)) fp) adc1 adc2 = Ok tan' -> Forall2 (on_sky o mjd (tile_ha + fst tile) tel2) tan' sky' -> back f = Ok sky') /\
     forall angles, Forall2 (fun '(s, p) angle => turned_from angle (sky_offset tile s) p) outer angles ->
       m = 180 / PI * average (map sin angles) /\
       forall B, Forall (fun a => Rabs a <= B) angles -> Rabs (180 / PI * average angles - m) <= 180 / PI * (B ^ 3 / 6)).
Proof.
  intros shown back L N1 N2 F FT SK outer.
  assert (FP : (if pm then rmapM (pm2dm platemaker) (combine xs ys) else Ok (combine xs ys)) = Ok fp).
  { destruct pm; [now apply rmapM_Ok_Forall2|]. f_equal. clear - F. induction F as [|? ? ? ? H]; [reflexivity|]. injection H as ->. now f_equal. }
  assert (Sky : forall t q, Forall2 (on_sky o mjd (tile_ha + fst tile) tel2) t q -> rmapM (fun p => nan_or (tan2radec o (fst p) (snd p) (fst tel2) (snd tel2) mjd (tile_ha + fst tile) 0)) t = Ok q).
  { intros t q H. apply rmapM_Ok_Forall2. eapply Forall2_impl; [|exact H]. clear. intros p r. unfold on_sky. destruct (tan2radec _ _ _ _ _ _ _ _) as [s|[]]; cbn; try contradiction; now intros ->. }
  assert (P : forall f, back f = match measure_fieldrot_deg (combine (map (option_map mirror) sky) (map Some fp)) (- fst tile) (snd tile) with
      None => Ok (map (fun _ => None) fp)
    | Some m => rbind (fp2tan argsort interp1d table (map (rotated (- (f - m))) fp) adc1 adc2) (fun tan => rmapM (fun p => nan_or (tan2radec o (fst p) (snd p) (fst tel2) (snd tel2) mjd (tile_ha + fst tile) 0)) tan) end).
  { intros f. unfold back, fiberassign_cs5_xy2radec. rewrite L, Nat.eqb_refl. cbn [negb adc_angles rbind]. cbv zeta. replace (fst tile, snd tile) with tile by (now destruct tile).
    rewrite (tune_step _ _ _ _ _ _ _ _ 1 tile tile tel1 N1), (tune_step _ _ _ _ _ _ _ _ 0 tile tel1 tel2 N2). cbn [tune nan_or rbind]. rewrite FP. apply Sky in SK. destruct tel2 as [tr td]. cbn [fst snd rbind] in *. rewrite FT. cbn [rbind]. rewrite SK. reflexivity. }
  destruct (measured tile sky (map Some fp)) as [M0 M1]. fold outer in M0, M1.
  split.
  - intros H f. now rewrite P, (M0 H).
  - intros Ne Nz. exists (R2D * average (map (sine tile) outer)). split.
    + intros f tan' sky' T S. rewrite P, (M1 Ne Nz). rewrite (map_ext _ _ (rotated_turned_neg (f - R2D * average (map (sine tile) outer)))). rewrite T. cbn [rbind]. now apply Sky.
    + intros angles A. assert (A' : Forall2 (fun d a => sine tile d = sin a) outer angles).
      { assert (I : forall d, In d outer -> In d outer) by auto. revert I. generalize outer at 1 3 as l, A. clear - outer. intros l A. induction A as [|[s p] a l angles H A IH]; intros I; constructor.
        - apply sine_turned; [|exact H]. pose proof (outer_far _ _ _ (I _ (or_introl eq_refl))). lra.
        - apply IH. intros d D. apply I. now right. }
      assert (E : map (sine tile) outer = map sin angles) by (clear - A'; induction A'; cbn; congruence).
      assert (RD : R2D = 180 / PI) by (unfold R2D, D2R; field; apply PI_neq0). rewrite RD.
      split; [now rewrite E|]. intros B HB. pose proof (average_near _ _ _ B A' HB Ne) as Av. rewrite <- Rmult_minus_distr_l, Rabs_mult. pose proof PI_RGT_0. rewrite (Rabs_pos_eq (180 / PI)) by (apply Rlt_le, Rdiv_lt_0_compat; lra).
      apply Rmult_le_compat_l; [apply Rlt_le, Rdiv_lt_0_compat; lra|exact Av].
Qed.
Print Assumptions C106_back.
(** The curved coordinates: the same positions with the arc length of the radius, and back within 4.05 micrometres. *)
Theorem C106_flat argsort interp1d table platemaker o tile_ra tile_dec mjd tile_ha f adc1 adc2 pm :
  (forall ra dec, let cs5 := fiberassign_radec2xy_cs5 argsort interp1d table platemaker o ra dec tile_ra tile_dec mjd tile_ha f adc1 adc2 pm in
     let flat := fiberassign_radec2xy_flat argsort interp1d table platemaker o ra dec tile_ra tile_dec mjd tile_ha f adc1 adc2 pm in
     (forall e, cs5 = Err e -> flat = Err e) /\
     (forall out, cs5 = Ok out -> exists out', flat = Ok out' /\ Forall2 (fun p q => match p, q with
        | Some (x, y), Some q => let r := sqrt (x ^ 2 + y ^ 2) in 0 < r -> q = (r2s r * (x / r), r2s r * (y / r))
        | None, None => True | _, _ => False end) out out')) /\
  (forall xs ys, length xs <> length ys -> fiberassign_flat_xy2radec argsort interp1d table platemaker o xs ys tile_ra tile_dec mjd tile_ha f adc1 adc2 pm = Err ValueError) /\
  (forall pts, (forall x y, In (x, y) pts -> sqrt (x ^ 2 + y ^ 2) <= 420) -> let flat := map (fun p => ptl2flat (fst p) (snd p)) pts in
     exists near, Forall2 (fun p q => distance q p < 0.00405) pts near /\
       fiberassign_flat_xy2radec argsort interp1d table platemaker o (map fst flat) (map snd flat) tile_ra tile_dec mjd tile_ha f adc1 adc2 pm =
       fiberassign_cs5_xy2radec argsort interp1d table platemaker o (map fst near) (map snd near) tile_ra tile_dec mjd tile_ha f adc1 adc2 pm).
Proof.
  split; [|split].
  - intros ra dec cs5 flat. unfold flat, fiberassign_radec2xy_flat. fold cs5. split; [intros e ->; reflexivity|]. intros out ->. eexists. split; [reflexivity|]. induction out as [|p out IH]; constructor; [|exact IH].
    destruct p as [[x y]|]; cbn [option_map fst snd]; [|exact I]. intros Hr. destruct (Xy2qs.C21_polar x y) as (_ & _ & H). exact (proj1 (H Hr)).
  - intros xs ys N. unfold fiberassign_flat_xy2radec. apply Nat.eqb_neq in N. now rewrite N.
  - intros pts H flat. exists (map (fun p => flat2ptl (fst p) (snd p)) flat). split.
    + unfold flat. rewrite map_map. induction pts as [|[x y] pts IH]; constructor; [|apply IH; intros a b Iab; apply H; now right].
      destruct (Xy2qs.C21_positions_round_trip x y (H x y (or_introl eq_refl))) as (D & _). cbn [fst snd]. destruct (ptl2flat x y) as [a b]. exact D.
    + unfold fiberassign_flat_xy2radec. rewrite !map_length, Nat.eqb_refl. cbn [negb]. replace (combine (map fst flat) (map snd flat)) with flat; [reflexivity|]. clear. induction flat as [|[a b] l IH]; [reflexivity|]. cbn. now f_equal.
Qed.
Print Assumptions C106_flat.
(** *** An example: a target one degree north of a tile at the equator, observed on the meridian without distortions. *)
Definition plain_table : rtf := {| r_adc1 := [0; 0; 0; 0]; r_adc2 := [270; 90; 180; 0]; r_scale := [1; 1; 1; 1]; r_rotation := [0; 0; 0; 0]; r_offset_x := [0; 0; 0; 0]; r_offset_y := [0; 0; 0; 0];
  r_polids := []; r_coeffs := [[]; []; []; []] |}.
Definition plain_options : options := {| precession := false; aberration := false; polar_misalignment := false; hardcoded_polmis := false |}.
Lemma plain_tan2fp p : tan2fp isort_argsort knot_interp plain_table [p] 0 0 = Ok [(420 * (fst p / 0.027), 420 * (snd p / 0.027))].
Proof.
  assert (K : interpolate_coeffs isort_argsort knot_interp plain_table 0 0 = Ok {| p_scale := 1; p_rotation := 0; p_offset_x := 0; p_offset_y := 0; p_coeffs := [] |}).
  { apply (RayTraceFit.C73_knots isort_argsort knot_interp plain_table 3).
    - apply isort_is_argsort.
    - apply knot_interpolates.
    - cbn; lia.
    - cbn; lia.
    - repeat constructor.
    - reflexivity.
    - repeat constructor.
    - cbn. repeat (constructor; [cbn; intuition lra|]). constructor.
    - cbn. lra. }
  unfold tan2fp. rewrite K. cbn [rbind]. cbv zeta. assert (A : average_angles_adc 0 0 = 0).
  { rewrite RayTraceFit.average_adc. unfold delta_angles_adc, put360. replace (0 - 0) with 0 by ring. rewrite (pymod_id 0) by lra. rewrite pymod_id; lra. }
  rewrite A, Rmult_0_r, cos_0, sin_0. cbn [rmapM plain_table r_polids p_coeffs p_scale p_rotation p_offset_x p_offset_y]. unfold transform. cbn.
  rewrite ?cos_0, ?sin_0. match goal with |- Ok [?a] = Ok [?b] => replace a with b; [reflexivity|] end. unfold expand_xyfp. apply injective_projections; cbn; lra.
Qed.
Lemma meridian_up d : horizon_map (unit_vector 0 d) = unit_vector 180 (58.03597 + d).
Proof.
  rewrite <- !getXYZ_unit. unfold getXYZ. rewrite cosd0, sind0.
  assert (C : cosdeg 180 = -1) by (unfold cosdeg; replace (D2R * 180) with PI by (unfold D2R; lra); apply cos_PI). assert (S : sindeg 180 = 0) by (unfold sindeg; replace (D2R * 180) with PI by (unfold D2R; lra); apply sin_PI).
  replace (58.03597 + d) with (90 + (d + - LATITUDE)) by (unfold LATITUDE; lra). rewrite C, S, (cosd_plus 90), (sind_plus 90), (cosd_plus d), (sind_plus d), cosd_neg, sind_neg, cosd90, sind90. unfold horizon_map. apply triple_eq; ring.
Qed.
Lemma refract_meridian d : -45 <= d <= 30 -> refract 0 d = Ok (0, d + rc * cotd (58.03597 + d)).
Proof.
  intros H. unfold refract. pose proof (hadec2altaz_direction 0 d) as D. destruct (hadec2altaz 0 d) as [alt az]. destruct D as (R1 & R2 & C & D). rewrite meridian_up in D.
  assert (Sa : sindeg alt = sindeg (58.03597 + d)) by (rewrite <- !getXYZ_unit in D; unfold getXYZ in D; injection D as _ _ D; exact D).
  assert (Ra : 0 <= alt <= 90). { destruct (altitude_range alt R1 C) as [?|X]; [assumption|]. exfalso. pose proof (sind_pos (58.03597 + d) ltac:(lra)) as P. rewrite <- Sa in P. replace alt with (- (360 - alt) + 360 * IZR 1) in P by lra.
    rewrite (sind_same _ (- (360 - alt))) in P by (exists 1%Z; lra). rewrite sind_neg in P. destruct (Req_dec (360 - alt) 0) as [Z|Z]; [rewrite Z, sind0 in P; lra|]. pose proof (sind_pos (360 - alt) ltac:(lra)). lra. }
  assert (Ea : alt = 58.03597 + d) by (apply (unit_vector_lat az alt 180 (58.03597 + d)); [lra|lra|exact D]).
  assert (Eaz : az = 180). { assert (S : same_angle az 180) by (apply (unit_vector_lon az alt 180 (58.03597 + d)); [lra|lra|exact D]). destruct S as [k S]. assert (K : (-1 < k < 1)%Z) by (split; apply lt_IZR; lra). assert (k = 0%Z) as -> by lia. lra. }
  subst az. clear D. rewrite apply_refraction_Ok by lra. cbn [rbind]. rewrite Ea in *. clear Ea alt.
  destruct (refracted_range (58.03597 + d) ltac:(lra)) as (_ & G & _). specialize (G ltac:(lra)). set (r := rc * cotd (58.03597 + d)) in *.
  pose proof (altaz2hadec_direction (58.03597 + d + r) 180) as D. destruct (altaz2hadec _ _) as [ha dec]. destruct D as (R3 & R4 & D). replace (58.03597 + d + r) with (58.03597 + (d + r)) in D by ring. rewrite <- meridian_up, horizon_map_involutive in D.
  assert (Ed : dec = d + r) by (apply (unit_vector_lat ha dec 0 (d + r)); [lra|lra|exact D]). subst dec.
  assert (S : same_angle ha 0) by (apply (unit_vector_lon ha (d + r) 0 (d + r)); [lra|lra|exact D]). destruct S as [k S]. assert (K : (-1 < k < 1)%Z) by (split; apply lt_IZR; lra). assert (k = 0%Z) as -> by lia. do 2 f_equal. lra.
Qed.
Lemma seen_on_meridian d mjd : -45 <= d <= 30 -> radec2tan plain_options 0 d 0 0 mjd 0 0 = Ok (0, sindeg (d + rc * cotd (58.03597 + d) - rc * cotd (58.03597 + 0))).
Proof.
  intros H. unfold radec2tan, to_mount. cbn [precession aberration polar_misalignment plain_options]. replace (0 - 0) with 0 by ring. rewrite !refract_meridian by lra. cbn [rbind]. rewrite hadec2xy_components, <- !getXYZ_unit.
  unfold getXYZ, inner. replace (0 + 90) with 90 by ring. rewrite !Rplus_0_l. set (a := d + _). set (b := rc * cotd _). rewrite cosd0, sind0. rewrite (Rplus_comm b 90), (cosd_plus 90), (sind_plus 90), cosd90, sind90. unfold Rminus. rewrite sind_plus, cosd_neg, sind_neg. do 2 f_equal; ring.
Qed.
Lemma seen_west mjd : exists x y, radec2tan plain_options (1 / 3600) 0 0 0 mjd 0 0 = Ok (x, y) /\ x <> 0.
Proof.
  unfold radec2tan, to_mount. cbn [precession aberration polar_misalignment plain_options]. replace (0 - 0) with 0 by ring.
  destruct (Radec2tan.refract_lifted (0 - 1 / 3600) 0) as (ha & d & E & Rd & alt & az & alt' & Ra & Hu & Rf & Hv). { unfold inner, unit_vector. interval. }
  rewrite E, refract_meridian by lra. cbn [rbind]. rewrite hadec2xy_components. eexists _, _. split; [rewrite cosd0, sind0; f_equal; f_equal; ring|].
  replace (0 + 90) with 90 by ring. unfold horizontal in Hu, Hv. rewrite <- !getXYZ_unit in *. unfold getXYZ, inner in *. injection Hu as _ Hu Hs. injection Hv as _ Hv _. change (-90) with (Ropp 90) in *. rewrite ?cosd_neg, ?sind_neg, ?cosd90, ?sind90, ?cosd0, ?sind0 in *.
  assert (P : 0 < sindeg az * cosdeg alt). { rewrite <- Hu. unfold sindeg, cosdeg, D2R. interval. }
  assert (L : alt < 90). { destruct Ra as [_ [L|L]]; [exact L|]. subst alt. rewrite cosd90 in P. lra. }
  intros Z. assert (Q : sindeg az * cosdeg alt' = 0) by lra. apply Rmult_integral in Q as [Q|Q]; [rewrite Q in P; lra|].
  assert (1 <= alt). { destruct (Rle_lt_dec 1 alt) as [|X]; [assumption|]. exfalso. assert (sindeg alt <= sindeg 1) by (apply sind_ge; lra). rewrite <- Hs in *. cut (sindeg 1 < 0.5 /\ 0.5 < cosdeg (0 - 1 / 3600) * 1 * (1 * cosdeg 31.96403) + sindeg (0 - 1 / 3600) * 1 * (0 * cosdeg 31.96403) + 0 * sindeg 31.96403); [lra|]. unfold sindeg, cosdeg, D2R. split; interval. }
  rewrite apply_refraction_Ok in Rf by lra. injection Rf as <-. destruct (refracted_range alt ltac:(lra)) as (_ & G & _). specialize (G L). pose proof (cosd_pos (alt + rc * cotd alt) ltac:(lra)). lra.
Qed.

Example C106_example mjd platemaker : exists y, 10 < y /\ forall f,
  fiberassign_radec2xy_cs5 isort_argsort knot_interp plain_table platemaker plain_options [0] [1] 0 0 mjd 0 f (Some 0) (Some 0) false =
  Ok [Some (- sin (PI * f / 180) * y, cos (PI * f / 180) * y)].
Proof.
  assert (Sh : forall s t, radec2tan plain_options (fst s) (snd s) 0 0 mjd 0 0 = Ok t -> shown isort_argsort knot_interp plain_table plain_options mjd (0 + 0) 0 0 (0, 0) s (420 * (fst t / 0.027), 420 * (snd t / 0.027))).
  { intros s t E. exists t. cbn [fst snd]. rewrite Rplus_0_l. split; [exact E|apply plain_tan2fp]. }
  set (c0 := rc * cotd (58.03597 + 0)).
  assert (Z : forall d, 0 < d <= 1 -> 0.9 * d < d + rc * cotd (58.03597 + d) - c0 < 10).
  { intros d H. unfold c0. destruct (cotd_slope 30 (58.03597 + 0) (58.03597 + d) ltac:(lra) ltac:(lra) ltac:(lra) ltac:(lra)) as [[L1 L2] _]. pose proof rc_bounds. pose proof K_bound.
    assert (S30 : sindeg 30 ^ 2 = 1 / 4) by (unfold sindeg; replace (D2R * 30) with (PI / 6) by (unfold D2R; lra); rewrite sin_PI6; lra). rewrite S30 in L2.
    assert (0 <= rc * (cotd (58.03597 + 0) - cotd (58.03597 + d))) by (apply Rmult_le_pos; lra).
    assert (rc * (cotd (58.03597 + 0) - cotd (58.03597 + d)) <= rc * (D2R / (1 / 4) * (58.03597 + d - (58.03597 + 0)))) by (apply Rmult_le_compat_l; lra).
    assert (rc * (D2R / (1 / 4) * (58.03597 + d - (58.03597 + 0))) = 4 * (rc * D2R) * d) by (field_simplify; lra).
    assert (4 * (rc * D2R) * d <= 4 * 0.000222 * d) by (apply Rmult_le_compat_r; lra). lra. }
  pose proof (Sh (0, 0) _ (seen_on_meridian 0 mjd ltac:(lra))) as S0. pose proof (Sh (0, 1) _ (seen_on_meridian 1 mjd ltac:(lra))) as S1.
  pose proof (Sh (0, 0 + 1 / 3600) _ (seen_on_meridian (0 + 1 / 3600) mjd ltac:(lra))) as S2. destruct (seen_west mjd) as (xw & yw & Ew & Nw).
  assert (Ew' : radec2tan plain_options (fst (0 + 1 / 3600, 0)) (snd (0 + 1 / 3600, 0)) 0 0 mjd 0 0 = Ok (xw, yw)) by (cbn [fst snd]; rewrite Rplus_0_l; exact Ew). apply Sh in Ew'. cbn [fst snd] in *.
  fold c0 in S0, S1, S2. replace (0 + c0 - c0) with 0 in S0 by ring. rewrite sind0 in S0.
  assert (N : newton_step (shown isort_argsort knot_interp plain_table plain_options mjd (0 + fst (0, 0)) 0 0) (0, 0) (0, 0) (0, 0)).
  { eexists _, _, _. split; [exact S0|]. split; [exact Ew'|]. split; [exact S2|]. cbn [fst snd]. split.
    - pose proof (Z (0 + 1 / 3600) ltac:(lra)) as Hz. set (z := 0 + 1 / 3600 + rc * cotd (58.03597 + (0 + 1 / 3600)) - c0) in *. pose proof (sind_pos z ltac:(lra)) as P. set (w := sindeg z) in *. clearbody w.
      assert (xw * w <> 0) by (apply Rmult_integral_contrapositive_currified; lra). nra.
    - f_equal; lra. }
  pose proof (Z 1 ltac:(lra)) as Hz. set (y := 420 * (sindeg (1 + rc * cotd (58.03597 + 1) - c0) / 0.027)) in S1.
  assert (Y : 10 < y). { pose proof (sind_ge 0.5 (1 + rc * cotd (58.03597 + 1) - c0) ltac:(lra) ltac:(lra)) as G. assert (0.008 < sindeg 0.5) by (unfold sindeg, D2R; interval). unfold y. lra. }
  exists y. split; [exact Y|]. clearbody y c0.
  destruct (C106_positions isort_argsort knot_interp plain_table platemaker plain_options [0] [1] (0, 0) mjd 0 0 0 false (0, 0) (0, 0) [Some (420 * (0 / 0.027), y)] eq_refl N N) as [_ P].
  { constructor; [|constructor]. unfold placed_at. destruct S1 as (t & E & T). cbn [fst snd] in *. rewrite E. eexists. split; [exact T|]. eexists. split; reflexivity. }
  replace (420 * (0 / 0.027)) with 0 in P by lra. cbn [combine map outer_targets fst snd] in P. destruct (Rlt_dec (10 * 10) (0 * 0 + y * y)) as [_|B]; [|exfalso; apply B; nra].
  assert (O : sky_offset (0, 0) (0, 1) = (0, sindeg 1)).
  { unfold sky_offset. cbn [fst snd]. replace (-0) with 0 by ring. replace (0 + 90) with 90 by ring. rewrite <- !getXYZ_unit. unfold getXYZ, inner. rewrite cosd0, sind0, cosd90, sind90. f_equal; ring. }
  pose proof sin1 as S1'. destruct P as (m & Pos & An).
  - discriminate.
  - intros s p [E|[]]. injection E as <- <-. rewrite O. intros E. injection E as E. lra.
  - intros f. rewrite Pos. destruct (An [0]) as [M _].
    + constructor; [|constructor]. rewrite O. exists (y / sindeg 1). split; [apply Rdiv_lt_0_compat; lra|]. cbn [fst snd]. rewrite cos_0, sin_0. f_equal; [field|field]; lra.
    + rewrite M. cbn [map]. unfold average, turned_back. cbn [fold_right length INR option_map map fst snd]. rewrite sin_0. replace (f - 180 / PI * ((0 + 0) / 1)) with f by (field; apply PI_neq0). do 3 f_equal; f_equal; ring.
Qed.
