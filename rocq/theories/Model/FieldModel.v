(** Model of /repo/py/desimeter/fieldmodel.py: TanCorr (JSON in Json.v), the tangent plane corrections of
    FieldModel, and the empirical field rotation rate. Reading a catalogue of guide stars, fit_tancorr,
    compute_fieldrot and the functions that need them are in Model/GuideStars.v. *)
From Verif.Model Require Export Radec2tan SimpleCorr Stats.
Local Open Scope R_scope.

(** fieldmodel.py:313-321 *)
Record tancorr := { t_dha : R; t_ddec : R; t_sxx : R; t_syy : R; t_sxy : R; t_rot_deg : R; t_nstars : nat; t_rms_arcsec : R }.

(** fieldmodel.py:434-440, for one point *)
Definition tan_apply (t : tancorr) (p : point) : res point :=
  rbind (xy2hadec (fst p) (snd p) 0 0) (fun '(ha, dec) =>
  Ok (mat2 (t_sxx t) (t_sxy t) (t_sxy t) (t_syy t) (rot2deg (t_rot_deg t) (hadec2xy ha dec (t_dha t) (t_ddec t))))).
(** fieldmodel.py:442-449; a zero determinant gives inf or nan. *)
Definition tan_apply_inverse (t : tancorr) (p : point) : res point :=
  let det := t_sxx t * t_syy t - t_sxy t ^ 2 in
  if Reqb det 0 then Err NonFinite else
  rbind (xy2hadec (fst p) (snd p) 0 0) (fun '(ha, dec) =>
  Ok (rot2deg (- t_rot_deg t) (mat2 (t_syy t / det) (- t_sxy t / det) (- t_sxy t / det) (t_sxx t / det) (hadec2xy ha dec (t_dha t) (t_ddec t))))).

(** [np.rad2deg] *)
Definition rad2deg (x : R) : R := x * (180 / PI).
Definition project (hd : list (R * R)) (dha ddec : R) : list (R * R) := map (fun '(ha, dec) => hadec2xy ha dec dha ddec) hd.
(** fieldmodel.py:376-382, [n] passes *)
Fixpoint fit_pointing (n : nat) (hd : list (R * R)) (x2 y2 : list R) (dha ddec : R) : res (R * R) :=
  match n with
  | O => Ok (dha, ddec)
  | S n' =>
      let t := project hd dha ddec in
      rbind (mean (sub_arrays x2 (map fst t))) (fun dx =>
      rbind (mean (sub_arrays y2 (map snd t))) (fun dy =>
      fit_pointing n' hd x2 y2 (dha - rad2deg dx) (ddec - rad2deg dy)))
  end.
(** fieldmodel.py:420-432. Unlike SimpleCorr.fit, a zero sa is not treated apart: syy is then 0/0 or x/0. *)
Definition tan_decompose (ax1 ax2 ay1 ay2 : R) : res (R * R * R * R) :=
  let sxx_p_syy := sqrt ((ax1 + ay2) ^ 2 + (ay1 - ax2) ^ 2) in
  if Reqb sxx_p_syy 0 then Err NonFinite
  else
    let sa := (ay1 - ax2) / sxx_p_syy in
    let ca := (ax1 + ay2) / sxx_p_syy in
    if (Reqb ca 0 || Reqb sa 0)%bool then Err NonFinite
    else
      let sxy := sa * ax1 + ca * ay1 - sxx_p_syy * ca * sa in
      let sxx := (ax1 - sxy * sa) / ca in
      let syy := (ay1 - sxy * ca) / sa in
      Ok (sxx, syy, sxy, arctan2d sa ca).
(** fieldmodel.py:353-432. [Err NonFinite] stands for attributes set to nan or inf; if a point is outside the unit
    disk its nan spreads to the means, and so to everything. Without points the means are nan too, but the matrix of
    line 389 is zero and line 390 raises. *)
Definition tan_fit (x1 y1 x2 y2 : list R) : res tancorr :=
  if negb (same_shapes x1 y1 x2 y2) then Err AssertionError
  else if Nat.eqb (length x1) 0 then Err LinAlgError
  else
    rbind (rmapM (fun '(x, y) => xy2hadec x y 0 0) (combine x1 y1)) (fun hd =>
    rbind (fit_pointing 4 hd x2 y2 0 0) (fun '(dha, ddec) =>
    let t := project hd dha ddec in
    let x1t := map fst t in let y1t := map snd t in
    let nstars := length x1t in
    let H := [repeat 1 nstars; x1t; y1t] in
    rbind (linalg_solve (gram H) (matvec H x2)) (fun ax =>
    rbind (linalg_solve (gram H) (matvec H y2)) (fun ay =>
    rbind (tan_decompose (nth 1 ax 0) (nth 2 ax 0) (nth 1 ay 0) (nth 2 ay 0)) (fun '(sxx, syy, sxy, rot) =>
    Ok {| t_dha := dha + - rad2deg (nth 0 ax 0); t_ddec := ddec + - rad2deg (nth 0 ay 0); t_sxx := sxx; t_syy := syy; t_sxy := sxy;
          t_rot_deg := rot; t_nstars := nstars; t_rms_arcsec := rad2deg (fit_rms ax ay x1t y1t x2 y2) * 3600 |}))))).

(** The parameters of a FieldModel used below (fieldmodel.py:33-36). *)
Record field_params := { f_sxx : R; f_syy : R; f_sxy : R; f_fieldrot_zp_deg : R }.
(** fieldmodel.py:255-279 *)
Definition field_corr (f : field_params) : tancorr :=
  {| t_dha := 0; t_ddec := 0; t_sxx := f_sxx f; t_syy := f_syy f; t_sxy := f_sxy f; t_rot_deg := f_fieldrot_zp_deg f; t_nstars := 0; t_rms_arcsec := 0 |}.
Definition tancorr_inst2sky (f : field_params) (p : point) : res point := tan_apply (field_corr f) p.
Definition tancorr_sky2inst (f : field_params) (p : point) : res point := tan_apply_inverse (field_corr f) p.

(** fieldmodel.py:514-543, for one pointing (arrays are treated elementwise, except that one bad declination
    refuses them all). *)
Definition dfieldrotdt_empirical_model (ra dec lst_deg : R) : res R :=
  if Rltb 90 (Rabs dec) then Err ValueError
  else
    let ha := pymod (lst_deg - ra) 360 in
    let ha := if Rltb 180 ha then ha - 360 else ha in
    let x := ha / 60 in
    let y := (dec - 30) / 30 in
    let rate := -0.447 + 0.065 * x - 0.067 * y + 0.382 * x ^ 2 + 0.021 * x * y - 0.121 * y ^ 2 - 0.031 * x ^ 3 + 0.196 * x ^ 2 * y + 0.096 * x * y ^ 2 - 0.043 * y ^ 3 in
    let rate := if Rltb rate (-1.5) then -1.5 else rate in
    let rate := if Rltb 1.5 rate then 1.5 else rate in
    Ok rate.
