(** Model of /repo/py/desimeter/transform/radec2tan.py, for one target (arrays are mapped elementwise).
    Not modelled: use_astropy=True (astropy's coordinates), logging. *)
From Verif.Model Require Export Trig.
Local Open Scope R_scope.

Notation vec := (R * R * R)%type (only parsing).
Notation mat := (vec * vec * vec)%type (only parsing).
Definition vdot (u v : vec) : R := let '(a, b, c) := u in let '(x, y, z) := v in a * x + b * y + c * z.
(** [M.dot(v)], [np.dot(M, v)] *)
Definition mv (m : mat) (v : vec) : vec := let '(r1, r2, r3) := m in (vdot r1 v, vdot r2 v, vdot r3 v).
(** [np.cross] *)
Definition cross (u v : vec) : vec :=
  let '(a, b, c) := u in let '(x, y, z) := v in (b * z - c * y, c * x - a * z, a * y - b * x).

(** radec2tan.py:41-51 *)
Definition OBLIQ : R := 23.439279444444445.
Definition DAYS_PER_YEAR : R := 365.256363004.
Definition PRECESSION_PERIOD_IN_YEARS : R := 25771.5753382206.
Definition ICRS_MJD : R := 51544.5.
Definition LATITUDE : R := 31.96403.
Definition REFRACTION_AT_30DEG_ELEVATION : R := 79.
Definition MA_ARCSEC : R := -2.
Definition ME_ARCSEC : R := -120.

(** radec2tan.py:53-95 *)
Definition get_hardcoded_polmis_rotmat (inverse : bool) : mat :=
  if inverse then
    ((0.999999830768117, -2.3937526308217525e-09, 0.000581776363551133),
     (-2.393752630820745e-09, 0.9999999999661409, 8.229115440922047e-06),
     (-0.000581776363551133, -8.229115440922047e-06, 0.9999998307342579))
  else
    ((0.9999998307680928, -2.39201543887982e-09, -0.0005817764052553344),
     (-2.392015438880827e-09, 0.9999999999661899, -8.223142825420777e-06),
     (0.0005817764052553344, 8.223142825420777e-06, 0.9999998307342828)).

(** radec2tan.py:97-100. Simplified: for the zero vector Python gives nan. *)
Definition getLONLAT (v : vec) : R * R :=
  let '(x, y, z) := getNormalized v in (arctan2d y x, arcsind z).
(** radec2tan.py:102-122 *)
Definition vecX (d : R) : mat := ((1, 0, 0), (0, cosdeg d, - sindeg d), (0, sindeg d, cosdeg d)).
Definition vecY (d : R) : mat := ((cosdeg d, 0, sindeg d), (0, 1, 0), (- sindeg d, 0, cosdeg d)).
Definition vecZ (d : R) : mat := ((cosdeg d, - sindeg d, 0), (sindeg d, cosdeg d, 0), (0, 0, 1)).
Definition refX (d : R) : mat := vecX (- d).
Definition refY (d : R) : mat := vecY d.
Definition refZ (d : R) : mat := vecZ (- d).
(** radec2tan.py:124-132 *)
Definition radec2eclip (ra dec : R) : R * R := getLONLAT (mv (refX OBLIQ) (getXYZ ra dec)).
Definition eclip2radec (lon lat : R) : R * R := getLONLAT (mv (refX (- OBLIQ)) (getXYZ lon lat)).
(** radec2tan.py:134-149 *)
Definition apply_precession (ra dec years : R) : R * R :=
  let deltaELON := 360 * (years / PRECESSION_PERIOD_IN_YEARS) in
  let '(lon, lat) := radec2eclip ra dec in
  let '(lon, lat) := getLONLAT (mv (vecZ deltaELON) (getXYZ lon lat)) in
  eclip2radec lon lat.
(** radec2tan.py:151-174 and 176-207, use_astropy=False *)
Definition apply_precession_from_icrs (ra dec mjd : R) : R * R := apply_precession ra dec ((mjd - ICRS_MJD) / DAYS_PER_YEAR).
Definition undo_precession_from_icrs (ra dec mjd : R) : R * R := apply_precession ra dec ((ICRS_MJD - mjd) / DAYS_PER_YEAR).
(** radec2tan.py:209-216 *)
Definition getSunLon (mjd : R) : R :=
  let days := mjd - 51544.5 in
  let mean := 280.460 + 0.9856474 * days in
  let anom := 357.528 + 0.9856003 * days in
  put360 (mean + 1.915 * sindeg anom + 0.020 * sindeg (2 * anom)).
(** radec2tan.py:218-239 *)
Definition compute_aberration (lon lat mjd magnif : R) : R * R :=
  let speed := 0.99365e-4 in
  let apexXYZ := getXYZ (getSunLon mjd - 90) 0 in
  let '(t1, t2, t3) := getXYZ lon lat in
  let '(a1, a2, a3) := cross (t1, t2, t3) (cross apexXYZ (t1, t2, t3)) in
  getLONLAT (getNormalized (t1 + magnif * (speed * a1), t2 + magnif * (speed * a2), t3 + magnif * (speed * a3))).
(** radec2tan.py:241-285, use_astropy=False *)
Definition apply_aberration (ra dec mjd : R) : R * R :=
  let '(lon, lat) := radec2eclip ra dec in
  let '(lon, lat) := compute_aberration lon lat mjd 1 in
  eclip2radec lon lat.
Definition undo_aberration (ra dec mjd : R) : R * R :=
  let '(ra2, dec2) := apply_aberration ra dec mjd in (2 * ra - ra2, 2 * dec - dec2).
(** radec2tan.py:287-297. 1/tand(alt) is inf at whole multiples of 180 degrees and 0 (rounded: 6e-17) at 90. *)
Definition apply_refraction (alt : R) : res R :=
  if Reqb (sindeg alt) 0 then Err NonFinite
  else Ok (alt + REFRACTION_AT_30DEG_ELEVATION / 3600 * (sindeg 30 / cosdeg 30) * (cosdeg alt / sindeg alt)).
(** radec2tan.py:299-316, for a float (an array argument is also modified in place). *)
Definition undo_refraction (alt : R) : res R :=
  rbind (apply_refraction alt) (fun r => let da := r - alt in
  let alt := alt - (da - 0) in
  rbind (apply_refraction alt) (fun r => let da2 := r - alt in
  Ok (alt - (da2 - da)))).
(** radec2tan.py:337-358 *)
Definition hadec2altaz (ha dec : R) : R * R :=
  let x := - cosdeg ha * cosdeg dec * sindeg LATITUDE + sindeg dec * cosdeg LATITUDE in
  let y := - sindeg ha * cosdeg dec in
  let z := cosdeg ha * cosdeg dec * cosdeg LATITUDE + sindeg dec * sindeg LATITUDE in
  let r := sqrt (x ^ 2 + y ^ 2) in
  (arctan2d z r, arctan2d y x).
(** radec2tan.py:360-377 *)
Definition altaz2hadec (alt az : R) : R * R :=
  let ha := arctan2d (- sindeg az * cosdeg alt) (- cosdeg az * sindeg LATITUDE * cosdeg alt + sindeg alt * cosdeg LATITUDE) in
  let dec := arcsind (sindeg LATITUDE * sindeg alt + cosdeg LATITUDE * cosdeg alt * cosdeg az) in
  (ha, dec).
(** radec2tan.py:380-400 *)
Definition hadec2xy (ha dec tel_ha tel_dec : R) : R * R :=
  let xyz := getXYZ ha dec in
  let rh := ((cosdeg tel_ha, sindeg tel_ha, 0), (- sindeg tel_ha, cosdeg tel_ha, 0), (0, 0, 1)) in
  let rd := ((sindeg tel_dec, 0, - cosdeg tel_dec), (0, 1, 0), (cosdeg tel_dec, 0, sindeg tel_dec)) in
  let '(t0, t1, _) := mv rd (mv rh xyz) in (t1, - t0).
(** radec2tan.py:403-421. The square root of a negative number is nan. *)
Definition xy2hadec (x y tel_ha tel_dec : R) : res (R * R) :=
  let rh := ((cosdeg tel_ha, - sindeg tel_ha, 0), (sindeg tel_ha, cosdeg tel_ha, 0), (0, 0, 1)) in
  let rd := ((sindeg tel_dec, 0, cosdeg tel_dec), (0, 1, 0), (- cosdeg tel_dec, 0, sindeg tel_dec)) in
  if Rltb (1 - x ^ 2 - y ^ 2) 0 then Err NonFinite
  else Ok (getLONLAT (mv rh (mv rd (- y, x, sqrt (1 - x ^ 2 - y ^ 2))))).
(** radec2tan.py:423-430 *)
Definition rotation_matrix (axis : vec) (theta : R) : mat :=
  let '(u0, u1, u2) := axis in let ct := cos theta in let st := sin theta in
  ((ct + (1 - ct) * (u0 * u0), st * - u2 + (1 - ct) * (u0 * u1), st * u1 + (1 - ct) * (u0 * u2)),
   (st * u2 + (1 - ct) * (u1 * u0), ct + (1 - ct) * (u1 * u1), st * - u0 + (1 - ct) * (u1 * u2)),
   (st * - u1 + (1 - ct) * (u2 * u0), st * u0 + (1 - ct) * (u2 * u1), ct + (1 - ct) * (u2 * u2))).
(** radec2tan.py:318-335 *)
Definition compute_polar_misalignment_rotation_matrix (me_arcsec ma_arcsec : R) : mat :=
  let '(ha1, dec1) := altaz2hadec (LATITUDE - me_arcsec / 3600) (ma_arcsec / 3600) in
  let '(ha2, dec2) := altaz2hadec LATITUDE 0 in
  let '(c0, c1, c2) := cross (getXYZ ha1 dec1) (getXYZ ha2 dec2) in
  let norme := sqrt (c0 ^ 2 + c1 ^ 2 + c2 ^ 2) in
  if Rltb 0 norme then rotation_matrix (c0 / norme, c1 / norme, c2 / norme) (asin norme)
  else ((1, 0, 0), (0, 1, 0), (0, 0, 1)).

Record options := { precession : bool; aberration : bool; polar_misalignment : bool; hardcoded_polmis : bool }.
(** radec2tan.py:459-488, 533-551: from ICRS to the hour angle and declination of the telescope mount. *)
Definition to_mount (o : options) (ra dec mjd lst : R) : R * R :=
  let '(ra, dec) := if precession o then apply_precession_from_icrs ra dec mjd else (ra, dec) in
  let '(ra, dec) := if aberration o then apply_aberration ra dec mjd else (ra, dec) in
  let ha := lst - ra in
  if polar_misalignment o then
    getLONLAT (mv (if hardcoded_polmis o then get_hardcoded_polmis_rotmat false else compute_polar_misalignment_rotation_matrix ME_ARCSEC MA_ARCSEC) (getXYZ ha dec))
  else (ha, dec).
(** radec2tan.py:486-496, 553-558 *)
Definition refract (ha dec : R) : res (R * R) :=
  let '(alt, az) := hadec2altaz ha dec in
  rbind (apply_refraction alt) (fun alt => Ok (altaz2hadec alt az)).
(** radec2tan.py:432-504 *)
Definition radec2tan (o : options) (ra dec tel_ra tel_dec mjd lst hexrot : R) : res (R * R) :=
  let '(ha, dec) := to_mount o ra dec mjd lst in
  let '(tel_ha, tel_dec) := to_mount o tel_ra tel_dec mjd lst in
  rbind (refract ha dec) (fun '(ha, dec) =>
  rbind (refract tel_ha tel_dec) (fun '(tel_ha, tel_dec) =>
  let '(x, y) := hadec2xy ha dec tel_ha tel_dec in
  Ok (cosdeg hexrot * x - sindeg hexrot * y, sindeg hexrot * x + cosdeg hexrot * y))).
(** radec2tan.py:506-594 *)
Definition tan2radec (o : options) (x_tan y_tan tel_ra tel_dec mjd lst hexrot : R) : res (R * R) :=
  let x := cosdeg hexrot * x_tan + sindeg hexrot * y_tan in
  let y := - sindeg hexrot * x_tan + cosdeg hexrot * y_tan in
  let '(tel_ha, tel_dec) := to_mount o tel_ra tel_dec mjd lst in
  rbind (refract tel_ha tel_dec) (fun '(refracted_tel_ha, refracted_tel_dec) =>
  rbind (xy2hadec x y refracted_tel_ha refracted_tel_dec) (fun '(refracted_ha, refracted_dec) =>
  let '(alt, az) := hadec2altaz refracted_ha refracted_dec in
  rbind (undo_refraction alt) (fun alt =>
  let '(ha, dec) := altaz2hadec alt az in
  let '(ha, dec) := if polar_misalignment o then
      getLONLAT (mv (if hardcoded_polmis o then get_hardcoded_polmis_rotmat true else compute_polar_misalignment_rotation_matrix (- ME_ARCSEC) (- MA_ARCSEC)) (getXYZ ha dec))
    else (ha, dec) in
  let ra := lst - ha in
  let '(ra, dec) := if aberration o then undo_aberration ra dec mjd else (ra, dec) in
  let '(ra, dec) := if precession o then undo_precession_from_icrs ra dec mjd else (ra, dec) in
  Ok (ra, dec)))).
