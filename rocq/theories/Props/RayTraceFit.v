(** ADC angles and the ray trace transform between tangent plane and focal plane (C43, C73). *)
From Verif.Model Require Import RayTraceFit.
From Verif.Spec Require Import Trig ZhaoBurge Fvc2fp Numpy Adc.
From Verif.Proofs Require Import Prelude RealNum Trig Numpy Sphere Radec2tan ZhaoBurge Stats Sorting Fvc2fp RayTraceFit.
From Verif.Props Require Import Fvc2fp.
From Coq Require Import Lra Lia.
From Interval Require Import Tactic.
From Verif.Spec Require Import Sphere.
Local Open Scope R_scope.

(** *** C43: ADC angles *)
Theorem C43_delta adc1 adc2 : 0 <= delta_angles_adc adc1 adc2 < 360 /\ same_angle (delta_angles_adc adc1 adc2) (adc2 - adc1).
Proof. split; [apply put360_range|apply put360_same]. Qed.
Print Assumptions C43_delta.
(** Going from adc1 to adc2 by increasing angles, the average is half way. *)
Theorem C43_average adc1 adc2 : 0 <= average_angles_adc adc1 adc2 < 360 /\ same_angle (average_angles_adc adc1 adc2) (adc1 + delta_angles_adc adc1 adc2 / 2).
Proof. rewrite average_adc. split; [apply put360_range|apply put360_same]. Qed.
Print Assumptions C43_average.
(** Both move with the ADCs, and see no whole turns of one of them. *)
Theorem C43_turns adc1 adc2 adc1' adc2' a : same_angle adc1' (adc1 + a) -> same_angle adc2' (adc2 + a) ->
  delta_angles_adc adc1' adc2' = delta_angles_adc adc1 adc2 /\ same_angle (average_angles_adc adc1' adc2') (average_angles_adc adc1 adc2 + a).
Proof.
  intros S1 S2. assert (D : delta_angles_adc adc1' adc2' = delta_angles_adc adc1 adc2).
  { unfold delta_angles_adc. apply put360_congr. destruct S1 as [k ->], S2 as [j ->]. exists (j - k)%Z. rewrite minus_IZR. lra. }
  split; [exact D|]. eapply same_trans; [apply C43_average|]. rewrite D. eapply same_trans; [apply same_add; exact S1|].
  apply same_sym. eapply same_trans; [apply same_add, C43_average|]. exists 0%Z. lra.
Qed.
Print Assumptions C43_turns.
Example C43_average_example : average_angles_adc 350 30 = 10 /\ delta_angles_adc 350 30 = 40 /\ average_angles_adc 30 350 = 190.
Proof.
  rewrite !average_adc. unfold delta_angles_adc.
  assert (A : put360 (30 - 350) = 40). { unfold put360. replace (30 - 350) with (40 + 360 * IZR (-1)) by lra. rewrite pymod_add by lra. apply pymod_id. lra. }
  assert (B : put360 (350 - 30) = 320) by (unfold put360; replace (350 - 30) with 320 by lra; apply pymod_id; lra). rewrite A, B. split; [|split; [reflexivity|]].
  - unfold put360. replace (350 + 40 / 2) with (10 + 360 * IZR 1) by lra. rewrite pymod_add by lra. apply pymod_id. lra.
  - unfold put360. replace (30 + 320 / 2) with 190 by lra. apply pymod_id. lra.
Qed.

(** The zenith distance is the angle between the target and the zenith, the parallactic angle tells in which
    direction from the target the zenith is: psi is counted from the north towards decreasing hour angles. *)
Theorem C43_zenith ha dec lat : let z := unit_vector 0 lat in let u := unit_vector ha dec in
  0 <= pm_zd ha dec lat <= 180 /\ cos (PI * pm_zd ha dec lat / 180) = inner u z /\
  -180 < pm_psi ha dec lat <= 180 /\ points_to (pm_psi ha dec lat) (inner z (unit_vector ha (dec + 90))) (- inner z (unit_vector (ha + 90) 0)).
Proof.
  cbv zeta. assert (C : cos (D2R * ha) * cos (D2R * dec) * cos (D2R * lat) + sin (D2R * dec) * sin (D2R * lat) = inner (unit_vector ha dec) (unit_vector 0 lat)).
  { rewrite <- !getXYZ_unit. unfold getXYZ. rewrite cosd0, sind0. unfold cosdeg, sindeg. cbn. ring. }
  pose proof (unit_norm ha dec) as N1. pose proof (basis_norm 0 lat (unit_vector ha dec)) as N2. rewrite N1 in N2.
  assert (B : -1 <= inner (unit_vector ha dec) (unit_vector 0 lat) <= 1). { set (w := inner _ (unit_vector 0 lat)) in *. pose proof (pow2_ge_0 (inner (unit_vector ha dec) (unit_vector (0 + 90) 0))). pose proof (pow2_ge_0 (inner (unit_vector ha dec) (unit_vector 0 (lat + 90)))). nra. }
  pose proof PI_RGT_0 as PP. pose proof (acos_bound (inner (unit_vector ha dec) (unit_vector 0 lat))) as AB.
  unfold pm_zd. rewrite C. split; [|split; [|split]].
  - assert (K : R2D = 180 / PI) by (unfold R2D, D2R; field; lra). split.
    + apply Rmult_le_pos; [rewrite K; apply Rlt_le, Rdiv_lt_0_compat; lra|lra].
    + rewrite K. apply Rle_trans with (180 / PI * PI); [apply Rmult_le_compat_l; [apply Rlt_le, Rdiv_lt_0_compat; lra|lra]|right; field; lra].
  - replace (PI * (R2D * acos (inner (unit_vector ha dec) (unit_vector 0 lat))) / 180) with (acos (inner (unit_vector ha dec) (unit_vector 0 lat))) by (unfold R2D, D2R; field; lra). now apply cos_acos.
  - unfold pm_psi. set (y := sin _ * _). set (x := _ - _). pose proof (atan2_range y x) as Rg. replace R2D with (180 / PI) by (unfold R2D, D2R; field; lra).
    assert (Q : 0 < 180 / PI) by (apply Rdiv_lt_0_compat; lra). assert (E : 180 / PI * PI = 180) by (field; lra). split.
    + apply Rlt_le_trans with (180 / PI * atan2 y x); [|lra]. replace (-180) with (180 / PI * - PI) by lra. apply Rmult_lt_compat_l; lra.
    + apply Rle_trans with (180 / PI * PI); [apply Rmult_le_compat_l; lra|lra].
  - assert (X : inner (unit_vector 0 lat) (unit_vector ha (dec + 90)) = cos (D2R * dec) * sin (D2R * lat) - sin (D2R * dec) * cos (D2R * lat) * cos (D2R * ha)).
    { rewrite north, <- getXYZ_unit. unfold getXYZ. rewrite cosd0, sind0. unfold cosdeg, sindeg. cbn. ring. }
    assert (Y : - inner (unit_vector 0 lat) (unit_vector (ha + 90) 0) = sin (D2R * ha) * cos (D2R * lat)).
    { rewrite east, <- getXYZ_unit. unfold getXYZ. rewrite cosd0, sind0. unfold cosdeg, sindeg. cbn. ring. }
    rewrite X, Y. unfold pm_psi. set (y := sin _ * _). set (x := _ - _). unfold points_to. replace (PI * (R2D * atan2 y x) / 180) with (atan2 y x) by (unfold R2D, D2R; field; lra). apply atan2_polar.
Qed.
Print Assumptions C43_zenith.
Lemma tan_mono_60 a b : 0 <= a -> a <= b -> b <= 60 -> tan (D2R * a) <= tan (D2R * b).
Proof.
  intros Ha Hab Hb. pose proof PI_RGT_0 as PP. unfold D2R. destruct (Req_dec a b) as [->|N]; [lra|]. left. apply tan_increasing; [nra|nra|]. assert (PI / 180 * b <= PI / 180 * 60) by (apply Rmult_le_compat_l; lra). lra.
Qed.
(** The separation of the two ADC angles: saturated at a zenith distance of 60 degrees, growing with it. *)
Theorem C43_deltaadc zd : 
  (60 <= zd -> pm_zd2deltaadc zd = pm_zd2deltaadc 60) /\
  (zd <= 60 -> let t := tan (PI * zd / 180) in pm_zd2deltaadc zd = - (360 / PI) * (0.0183 + 0.3795 * t + 0.1939 * t ^ 2)) /\
  (forall zd', 0 <= zd <= zd' -> pm_zd2deltaadc zd' <= pm_zd2deltaadc zd) /\
  (0 <= zd -> -145 < pm_zd2deltaadc zd < -2).
Proof.
  pose proof PI_RGT_0 as PP.
  assert (V : forall z, pm_zd2deltaadc z = - (360 / PI) * (0.0183 + 0.3795 * tan (D2R * Rmin z 60) + 0.1939 * tan (D2R * Rmin z 60) ^ 2)) by (intros z; unfold pm_zd2deltaadc; cbv zeta; set (t := tan _); replace R2D with (180 / PI) by (unfold R2D, D2R; field; lra); set (k := / PI); lra).
  assert (Q : 0 < 360 / PI) by (apply Rdiv_lt_0_compat; lra).
  assert (T0 : tan (D2R * 0) = 0) by (rewrite Rmult_0_r; apply tan_0).
  assert (M : forall z z', 0 <= z <= z' -> 0 <= tan (D2R * Rmin z 60) <= tan (D2R * Rmin z' 60)).
  { intros z z' H. assert (0 <= Rmin z 60 <= 60 /\ Rmin z 60 <= Rmin z' 60 <= 60) by (unfold Rmin; repeat destruct (Rle_dec _ _); lra). split; [rewrite <- T0|]; apply tan_mono_60; lra. }
  assert (Mono : forall z z', 0 <= z <= z' -> pm_zd2deltaadc z' <= pm_zd2deltaadc z).
  { intros z z' H. destruct (M z z' H) as [A B]. rewrite !V. set (a := tan (D2R * Rmin z 60)) in *. set (b := tan (D2R * Rmin z' 60)) in *. apply Rminus_le.
    replace (_ - _) with (- (360 / PI) * (0.3795 * (b - a) + 0.1939 * (b ^ 2 - a ^ 2))) by ring. assert (0 <= b ^ 2 - a ^ 2) by nra. nra. }
  split; [|split; [|split]].
  - intros H. rewrite !V. rewrite !Rmin_right by lra. reflexivity.
  - intros H t. rewrite V, Rmin_left by lra. unfold t. rewrite deg_rad. reflexivity.
  - intros zd' H. now apply Mono.
  - intros H. assert (T60 : tan (D2R * 60) = sqrt 3) by (unfold D2R; replace (PI / 180 * 60) with (PI / 3) by field; apply tan_PI3).
    pose proof (M zd zd ltac:(lra)) as [A _]. assert (B : tan (D2R * Rmin zd 60) <= sqrt 3) by (rewrite <- T60; apply tan_mono_60; unfold Rmin; destruct (Rle_dec zd 60); lra).
    rewrite V. revert A B. generalize (tan (D2R * Rmin zd 60)). clear - PP Q. intros a A B. assert (P1 : 114.5 < 360 / PI < 114.6) by (split; interval). assert (S3 : a <= 1.7321) by (apply Rle_trans with (1 := B); interval).
    set (k := 360 / PI) in *. clearbody k. assert (0.0183 <= 0.0183 + 0.3795 * a + 0.1939 * a ^ 2 <= 1.258) by nra. nra.
Qed.
Print Assumptions C43_deltaadc.
(** The angles set for a target: separated by this amount around the parallactic angle, so that the mean ADC angle
    used by the transforms is the parallactic angle. *)
Theorem C43_adc_angles ha dec : let '(adc1, adc2) := pm_get_adc_angles ha dec in
  let zd := pm_zd ha dec 31.9634 in let psi := pm_psi ha dec 31.9634 in
  adc1 - adc2 = pm_zd2deltaadc zd /\ (adc1 + adc2) / 2 = psi /\ delta_angles_adc adc1 adc2 = - pm_zd2deltaadc zd /\ same_angle (average_angles_adc adc1 adc2) psi.
Proof.
  unfold pm_get_adc_angles. cbv zeta. set (zd := pm_zd _ _ _). set (psi := pm_psi _ _ _). destruct (C43_zenith ha dec 31.9634) as ((Z & _) & _). fold zd in Z. pose proof (proj2 (proj2 (proj2 (C43_deltaadc zd))) Z) as B.
  set (d := pm_zd2deltaadc zd) in *. split; [lra|]. split; [lra|]. assert (E : delta_angles_adc (psi + d / 2) (psi - d / 2) = - d) by (unfold delta_angles_adc, put360; replace (_ - _) with (- d) by lra; apply pymod_id; lra).
  split; [exact E|]. eapply same_trans; [apply C43_average|]. rewrite E. exists 0%Z. lra.
Qed.
Print Assumptions C43_adc_angles.
Example C43_zenith_example : pm_zd 0 31.9634 31.9634 = 0 /\ pm_psi 0 20 31.9634 = 0 /\ pm_zd2deltaadc 0 = - 360 / PI * 0.0183.
Proof.
  pose proof PI_RGT_0 as PP. split; [|split].
  - unfold pm_zd. rewrite Rmult_0_r, cos_0. replace (1 * cos (D2R * 31.9634) * cos (D2R * 31.9634) + sin (D2R * 31.9634) * sin (D2R * 31.9634)) with 1 by (pose proof (sincos1 (D2R * 31.9634)); lra). rewrite acos_1. ring.
  - unfold pm_psi. rewrite Rmult_0_r, sin_0, cos_0, Rmult_0_l, Rmult_1_r. unfold atan2.
    assert (P : 0 < cos (D2R * 20) * sin (D2R * 31.9634) - sin (D2R * 20) * cos (D2R * 31.9634)).
    { replace (_ - _) with (sin (D2R * 31.9634 - D2R * 20)) by (rewrite sin_minus; ring). apply sin_gt_0; unfold D2R; lra. }
    set (x := _ - _) in *. assert (Rltb 0 x = true) as -> by now apply Rltb_true. unfold Rdiv. rewrite Rmult_0_l, atan_0. ring.
  - destruct (C43_deltaadc 0) as (_ & V & _). rewrite V by lra. replace (PI * 0 / 180) with 0 by field. rewrite tan_0. field. lra.
Qed.

(** *** C73: the ray trace transform *)
(** For an ADC configuration of the table (not beyond a turn) the parameters are those of the table. *)
Theorem C73_knots argsort interp1d t i : is_argsort argsort -> interpolates interp1d ->
  let n := length (r_adc1 t) in (4 <= n)%nat -> (i < n)%nat ->
  Forall (fun col => length col = n) [r_adc2 t; r_scale t; r_rotation t; r_offset_x t; r_offset_y t] ->
  length (r_coeffs t) = n -> Forall (fun row => length row = length (r_polids t)) (r_coeffs t) ->
  NoDup (map (fun '(a1, a2) => a2 - a1) (combine (r_adc1 t) (r_adc2 t))) ->
  let a1 := nth i (r_adc1 t) 0 in let a2 := nth i (r_adc2 t) 0 in 0 <= a2 - a1 < 360 ->
  interpolate_coeffs argsort interp1d t a1 a2 =
    Ok {| p_scale := nth i (r_scale t) 0; p_rotation := nth i (r_rotation t) 0; p_offset_x := nth i (r_offset_x t) 0; p_offset_y := nth i (r_offset_y t) 0; p_coeffs := nth i (r_coeffs t) [] |}.
Proof.
  intros AO IO n L4 Hi Lc Lr Lk ND a1 a2 Hd. inversion_clear Lc as [|? ? La2 Lc1]. inversion_clear Lc1 as [|? ? Ls Lc2]. inversion_clear Lc2 as [|? ? Lro Lc3]. inversion_clear Lc3 as [|? ? Lox Lc4]. inversion_clear Lc4 as [|? ? Loy _].
  set (dadc := sub_arrays (r_adc2 t) (r_adc1 t)).
  assert (Ed : dadc = map (fun '(a1, a2) => a2 - a1) (combine (r_adc1 t) (r_adc2 t))).
  { unfold dadc, sub_arrays. generalize (r_adc1 t), (r_adc2 t). clear. induction l as [|x l IH]; intros [|y l']; cbn; try reflexivity. now rewrite IH. }
  assert (Ld : length dadc = n) by (unfold dadc, sub_arrays; rewrite map_length, combine_length, La2; apply Nat.min_id).
  assert (Ei : nth i dadc 0 = a2 - a1).
  { apply sub_arrays_nth; [exact La2|unfold n in *; lia]. }
  assert (Da : delta_angles_adc a1 a2 = nth i dadc 0) by (rewrite Ei; unfold delta_angles_adc, put360; apply pymod_id; exact Hd).
  rewrite <- Ed in ND.
  assert (Kn : forall col, length col = n -> exists xs ys, take dadc (argsort R Rltb dadc) = Ok xs /\ take col (argsort R Rltb dadc) = Ok ys /\ interp1d xs ys (nth i dadc 0) = Ok (nth i col 0)).
  { intros col Hc. apply knot; try assumption; try lia. }
  unfold interpolate_coeffs. cbv zeta. fold dadc. rewrite Da. destruct (Kn dadc Ld) as (xs & _ & Ex & _). rewrite Ex. cbn [rbind].
  assert (Kc : forall col, length col = n -> rbind (take col (argsort R Rltb dadc)) (fun ys => interp1d xs ys (nth i dadc 0)) = Ok (nth i col 0)).
  { intros col Hc. destruct (Kn col Hc) as (xs' & ys & Ex' & Ey & E). rewrite Ey. cbn [rbind]. congruence. }
  rewrite !Kc by assumption. cbn [rbind].
  rewrite (rmapM_total _ (fun j => nth j (nth i (r_coeffs t) []) 0)).
  2:{ intros j _. rewrite Kc by (rewrite map_length; exact Lr). f_equal. rewrite (nth_indep _ 0 (nth j (@nil R) 0)) by (rewrite map_length; lia). apply (map_nth (fun row => nth j row 0)). }
  cbn [rbind]. f_equal. f_equal. rewrite Forall_forall in Lk. assert (L1 : length (nth i (r_coeffs t) []) = length (r_polids t)) by (apply Lk, nth_In; lia).
  assert (L2 : length (hd [] (r_coeffs t)) = length (r_polids t)). { destruct (r_coeffs t) as [|row rows]; [cbn in Lr; lia|]. apply Lk. now left. }
  rewrite L2, <- L1. generalize (nth i (r_coeffs t) []). clear. intros l. apply nth_ext with (d := 0) (d' := 0); [now rewrite map_length, seq_length|]. intros j Hj. rewrite map_length, seq_length in Hj.
  rewrite (nth_indep _ 0 (nth 0%nat l 0)) by (rewrite map_length, seq_length; exact Hj). rewrite (map_nth (fun j => nth j l 0)). now rewrite seq_nth.
Qed.
Print Assumptions C73_knots.

(** The transforms see ADC angles up to whole turns, and turn with them. *)
Theorem C73_turns argsort interp1d t a pts adc1 adc2 adc1' adc2' : Forall (fun z => 0 <= z <= 32)%Z (r_polids t) -> same_angle adc1' (adc1 + a) -> same_angle adc2' (adc2 + a) ->
  tan2fp argsort interp1d t (map (turned_back a) pts) adc1' adc2' = rmap (map (turned_back a)) (tan2fp argsort interp1d t pts adc1 adc2) /\
  fp2tan argsort interp1d t (map (turned_back a) pts) adc1' adc2' = rmap (map (turned_back a)) (fp2tan argsort interp1d t pts adc1 adc2).
Proof.
  intros V S1 S2. destruct (C43_turns _ _ _ _ _ S1 S2) as [D A].
  assert (I : interpolate_coeffs argsort interp1d t adc1' adc2' = interpolate_coeffs argsort interp1d t adc1 adc2) by (unfold interpolate_coeffs; now rewrite D).
  destruct (interpolate_coeffs argsort interp1d t adc1 adc2) as [k|e] eqn:K.
  2:{ unfold tan2fp, fp2tan. rewrite I, K. split; reflexivity. }
  set (m := average_angles_adc adc1 adc2) in *. set (m' := average_angles_adc adc1' adc2') in *.
  assert (Tb : forall p, turned_back m' p = turned_back a (turned_back m p)).
  { intros p. unfold turned_back. rewrite <- !deg_rad. fold (cosdeg m') (sindeg m') (cosdeg m) (sindeg m) (cosdeg a) (sindeg a). rewrite (cosd_same _ _ A), (sind_same _ _ A), cosd_plus, sind_plus. cbn [fst snd]. f_equal; ring. }
  assert (Tt : forall p, turned m' (turned_back a p) = turned m p). { intros p. rewrite <- (back_turn m p) at 1. rewrite <- Tb. apply turn_back. }
  rewrite (tan2fp_turned _ _ t _ _ k I V), (fp2tan_turned _ _ t _ _ k I), (tan2fp_turned _ _ t _ _ k K V), (fp2tan_turned _ _ t _ _ k K). fold m m'.
  assert (E : map (turned m') (map (turned_back a) pts) = map (turned m) pts) by (rewrite map_map; apply map_ext; exact Tt). rewrite E.
  split; (destruct (fvc2fp _ _) as [l|] || idtac); (destruct (fp2fvc _ _) as [l'|] || idtac); cbn [rmap]; try reflexivity; rewrite map_map; f_equal; apply map_ext; exact Tb.
Qed.
Print Assumptions C73_turns.

(** The value of the transform: reduced by 0.027, axes turned by the mean ADC angle, similarity, displacement, axes turned back, and 420 mm. *)
Theorem C73_forward argsort interp1d t k adc1 adc2 pts : interpolate_coeffs argsort interp1d t adc1 adc2 = Ok k ->
  Forall (fun z => 0 <= z <= 32)%Z (r_polids t) -> p_scale k <> 0 ->
  let D := field (getZhaoBurgeXY (r_polids t) (p_coeffs k)) in let m := average_angles_adc adc1 adc2 in
  tan2fp argsort interp1d t pts adc1 adc2 =
    Ok (map (fun p => let r := turned m (fst p / 0.027, snd p / 0.027) in
                      let u := similarity (p_scale k) (p_rotation k) (fst r + p_offset_x k, snd r + p_offset_y k) in
                      turned_back m (420 * (fst u + fst (D u)), 420 * (snd u + snd (D u)))) pts).
Proof.
  intros K V S D m. set (T := zb_params t k). assert (U : usable T) by (split; [exact V|split; [exact S|split; cbn; lra]]).
  rewrite (tan2fp_turned _ _ t _ _ k K V). fold m T. rewrite (C30_forward T _ U). cbn [rmap rbind]. rewrite map_map, map_map. f_equal. apply map_ext. intros p. cbv zeta. fold D.
  assert (Eu : undisplaced T (turned m p) = (let r := turned m (fst p / 0.027, snd p / 0.027) in similarity (p_scale k) (p_rotation k) (fst r + p_offset_x k, snd r + p_offset_y k))).
  { unfold undisplaced. cbn [T zb_params tx_scale tx_rotation tx_offset_x tx_offset_y xfvc_scale yfvc_scale xfvc_offset yfvc_offset]. change (fst p / 0.027, snd p / 0.027) with (reduced_by 0.027 p). rewrite turn_linear. unfold reduced_by. cbn [fst snd]. now rewrite !Rminus_0_r. }
  rewrite Eu. reflexivity.
Qed.
Print Assumptions C73_forward.
(** Focal plane (mm) -> tangent plane -> focal plane, where the displacement D contracts by q around each point. *)
Theorem C73_focal_plane_round_trip argsort interp1d t k adc1 adc2 q fp : interpolate_coeffs argsort interp1d t adc1 adc2 = Ok k ->
  Forall (fun z => 0 <= z <= 32)%Z (r_polids t) -> p_scale k <> 0 -> 0 <= q < 1 -> fp <> [] ->
  let D := field (getZhaoBurgeXY (r_polids t) (p_coeffs k)) in let m := average_angles_adc adc1 adc2 in
  (forall P, In P fp -> let r := turned m (reduced_by 420 P) in exists rho, contracts D q r rho /\ sup_norm (D r) <= (1 - q) * rho) ->
  exists xy, fp2tan argsort interp1d t fp adc1 adc2 = Ok xy /\ exists fp', tan2fp argsort interp1d t xy adc1 adc2 = Ok fp' /\
    Forall2 (fun P P' => sup_dist P' P <= sqrt 2 * 420 * Rmax (q * 1e-12) (q ^ 20 * sup_norm (D (turned m (reduced_by 420 P))))) fp fp'.
Proof.
  intros K V S Hq NE D m C. set (T := zb_params t k). assert (U : usable T) by (split; [exact V|split; [exact S|split; cbn; lra]]).
  destruct (C30_focal_plane_round_trip T q (map (turned m) fp) U Hq) as (pix & E1 & fp' & E2 & F).
  - intros E. apply NE. now destruct fp.
  - intros P HP. apply in_map_iff in HP as (P0 & <- & HP). destruct (C P0 HP) as (rho & C1 & C2). exists rho. rewrite turn_linear in C1, C2. split; assumption.
  - exists (map (turned_back m) pix). rewrite (fp2tan_turned _ _ t _ _ k K). fold m T. rewrite E1. split; [reflexivity|]. rewrite (tan2fp_turned _ _ t _ _ k K V). fold m T.
    assert (E : map (turned m) (map (turned_back m) pix) = pix) by (rewrite map_map; rewrite <- (map_id pix) at 2; apply map_ext; intros p; apply turn_back). rewrite E, E2. exists (map (turned_back m) fp'). split; [reflexivity|].
    clear - F. remember (map (turned m) fp) as l eqn:El. revert fp El. induction F as [|Q Q' l l' H F IH]; intros [|P fp] El; try discriminate; cbn [map]; [constructor|]. injection El as -> ->. constructor; [|now apply IH].
    rewrite <- (back_turn m P) at 1. eapply Rle_trans; [apply turn_sup|]. rewrite Rmult_assoc. apply Rmult_le_compat_l; [apply sqrt_pos|]. rewrite turn_linear. exact H.
Qed.
Print Assumptions C73_focal_plane_round_trip.

(** Tangent plane -> focal plane -> tangent plane (radians). *)
Theorem C73_tangent_plane_round_trip argsort interp1d t k adc1 adc2 q pts : interpolate_coeffs argsort interp1d t adc1 adc2 = Ok k ->
  Forall (fun z => 0 <= z <= 32)%Z (r_polids t) -> p_scale k <> 0 -> 0 <= q < 1 -> pts <> [] ->
  let D := field (getZhaoBurgeXY (r_polids t) (p_coeffs k)) in let m := average_angles_adc adc1 adc2 in
  let u p := let r := turned m (reduced_by 0.027 p) in similarity (p_scale k) (p_rotation k) (fst r + p_offset_x k, snd r + p_offset_y k) in
  (forall p, In p pts -> contracts D q (u p) (sup_norm (D (u p)))) ->
  exists fp, tan2fp argsort interp1d t pts adc1 adc2 = Ok fp /\ exists pts', fp2tan argsort interp1d t fp adc1 adc2 = Ok pts' /\
    Forall2 (fun p p' => sup_dist p' p <= sqrt 2 * 0.027 * (2 / Rabs (p_scale k) * Rmax (q / (1 - q) * 1e-12) (q ^ 20 * sup_norm (D (u p))))) pts pts'.
Proof.
  intros K V S Hq NE D m u C. set (T := zb_params t k). assert (U : usable T) by (split; [exact V|split; [exact S|split; cbn; lra]]).
  assert (Eu : forall p, undisplaced T (turned m p) = u p). { intros p. unfold undisplaced, u. cbn [T zb_params tx_scale tx_rotation tx_offset_x tx_offset_y xfvc_scale yfvc_scale xfvc_offset yfvc_offset]. rewrite turn_linear. unfold reduced_by. cbn [fst snd]. now rewrite !Rminus_0_r. }
  destruct (C30_pixel_round_trip T q (map (turned m) pts) U Hq) as (fp & E1 & pix' & E2 & F).
  - intros E. apply NE. now destruct pts.
  - intros p Hp. apply in_map_iff in Hp as (p0 & <- & Hp). rewrite Eu. now apply C.
  - exists (map (turned_back m) fp). rewrite (tan2fp_turned _ _ t _ _ k K V). fold m T. rewrite E1. split; [reflexivity|]. rewrite (fp2tan_turned _ _ t _ _ k K). fold m T.
    assert (E : map (turned m) (map (turned_back m) fp) = fp) by (rewrite map_map; rewrite <- (map_id fp) at 2; apply map_ext; intros p; apply turn_back). rewrite E, E2. exists (map (turned_back m) pix'). split; [reflexivity|].
    clear - F Eu. remember (map (turned m) pts) as l eqn:El. revert pts El. induction F as [|Q Q' l l' H F IH]; intros [|p pts] El; try discriminate; cbn [map]; [constructor|]. injection El as -> ->. constructor; [|now apply IH].
    rewrite <- (back_turn m p) at 1. eapply Rle_trans; [apply turn_sup|]. rewrite Rmult_assoc. apply Rmult_le_compat_l; [apply sqrt_pos|]. cbv zeta in H. rewrite Eu in H. cbn [T zb_params xfvc_scale yfvc_scale tx_scale tx_polids tx_coeffs] in H. fold D in H.
    rewrite (Rabs_right 0.027) in H by lra. unfold sup_dist. apply Rmax_lub; apply H.
Qed.
Print Assumptions C73_tangent_plane_round_trip.
(** A table of four configurations with a magnification by 1/10, and an interpolation defined at the knots only. *)
Fixpoint knot_interp (xs ys : list R) (a : R) : res R :=
  match xs, ys with x :: xs', y :: ys' => if Reqb x a then Ok y else knot_interp xs' ys' a | _, _ => Err ValueError end.
Lemma knot_interpolates : interpolates knot_interp.
Proof.
  intros xs ys j _ L S. revert ys j L. induction S as [|x xs S IH F]; intros [|y ys] [|j] L Hj; cbn in *; try lia.
  - assert (Reqb x x = true) as -> by now apply Reqb_true. reflexivity.
  - rewrite Forall_forall in F. assert (Reqb x (nth j xs 0) = false) as ->. { apply Reqb_false. pose proof (F (nth j xs 0) ltac:(apply nth_In; lia)). lra. } apply IH; lia.
Qed.
Definition tabulated : rtf := {| r_adc1 := [0; 0; 0; 0]; r_adc2 := [270; 90; 180; 0]; r_scale := [1; 2; 3; 4]; r_rotation := [0; 0; 0; 0]; r_offset_x := [0; 0; 0; 0]; r_offset_y := [0; 0; 0; 0];
  r_polids := [2%Z]; r_coeffs := [[0]; [sqrt 2 / 20]; [0]; [0]] |}.
Example C73_example P : exists k, interpolate_coeffs isort_argsort knot_interp tabulated 0 90 = Ok k /\ p_scale k = 2 /\
  Forall (fun z => 0 <= z <= 32)%Z (r_polids tabulated) /\
  let D := field (getZhaoBurgeXY (r_polids tabulated) (p_coeffs k)) in let r := turned 45 (reduced_by 420 P) in
  exists rho, contracts D (1 / 10) r rho /\ sup_norm (D r) <= (1 - 1 / 10) * rho.
Proof.
  assert (K : interpolate_coeffs isort_argsort knot_interp tabulated 0 90 = Ok {| p_scale := 2; p_rotation := 0; p_offset_x := 0; p_offset_y := 0; p_coeffs := [sqrt 2 / 20] |}).
  { apply (C73_knots isort_argsort knot_interp tabulated 1).
    - apply isort_is_argsort.
    - apply knot_interpolates.
    - cbn; lia.
    - cbn; lia.
    - repeat constructor.
    - reflexivity.
    - repeat constructor.
    - cbn. repeat (constructor; [cbn; intuition lra|]). constructor.
    - cbn. lra. }
  eexists. split; [exact K|]. split; [reflexivity|]. split; [repeat constructor; lia|]. cbv zeta. cbn [p_coeffs r_polids tabulated].
  set (Q := turned 45 (reduced_by 420 P)). destruct (C30_focal_plane_example (fst Q * 420, snd Q * 420)) as [_ H]. cbv zeta in H. cbn [fst snd] in H. replace (fst Q * 420 / 420, snd Q * 420 / 420) with Q in H by (destruct Q; cbn; f_equal; field). exact H.
Qed.
