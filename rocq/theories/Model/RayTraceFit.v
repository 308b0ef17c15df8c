(** Model of /repo/py/desimeter/transform/tan2fp/raytracefit.py and of the ADC angles of
    /repo/py/desimeter/fiberassign.py. The method [fit], which makes the data file, and the JSON functions are in RayTraceTable.v. *)
From Verif.Model Require Export Fvc2fp.
Local Open Scope R_scope.

(** raytracefit.py:14-28 *)
Definition average_angles_adc (adc1 adc2 : R) : R :=
  if Reqb (pymod (adc1 - adc2) 360) 0 then pymod adc1 360 else average_angles_deg (adc1 + 90) (adc2 - 90).
(** raytracefit.py:31-36 *)
Definition delta_angles_adc (adc1 adc2 : R) : R := put360 (adc2 - adc1).

(** raytracefit.py:54-66 *)
Definition reduce_xytan (p : point) : point := (fst p / 0.027, snd p / 0.027).
Definition expand_xytan (p : point) : point := (fst p * 0.027, snd p * 0.027).

(** raytracefit.py:92-99; one row of [r_coeffs] per ADC configuration. *)
Record rtf := { r_adc1 : list R; r_adc2 : list R; r_scale : list R; r_rotation : list R; r_offset_x : list R; r_offset_y : list R;
  r_polids : list Z; r_coeffs : list (list R) }.
Record params := { p_scale : R; p_rotation : R; p_offset_x : R; p_offset_y : R; p_coeffs : list R }.

Section RayTrace.
Variable argsort : forall K, (K -> K -> bool) -> list K -> list nat.
(** [scipy.interpolate.interp1d(x, y, 'cubic')(a)]; raises for too few points or outside the range of [x]. *)
Variable interp1d : list R -> list R -> R -> res R.

(** raytracefit.py:168-187 *)
Definition interpolate_coeffs (t : rtf) (adc1 adc2 : R) : res params :=
  let dadc := sub_arrays (r_adc2 t) (r_adc1 t) in
  let idx := argsort R Rltb dadc in
  rbind (take dadc idx) (fun xs =>
  let a := delta_angles_adc adc1 adc2 in
  let interp (col : list R) := rbind (take col idx) (fun ys => interp1d xs ys a) in
  rbind (interp (r_scale t)) (fun scale =>
  rbind (interp (r_rotation t)) (fun rotation =>
  rbind (interp (r_offset_x t)) (fun offset_x =>
  rbind (interp (r_offset_y t)) (fun offset_y =>
  rbind (rmapM (fun i => interp (map (fun row => nth i row 0) (r_coeffs t))) (seq 0 (length (hd [] (r_coeffs t))))) (fun coeffs =>
  Ok {| p_scale := scale; p_rotation := rotation; p_offset_x := offset_x; p_offset_y := offset_y; p_coeffs := coeffs |})))))).

(** raytracefit.py:189-212 *)
Definition tan2fp (t : rtf) (pts : list point) (adc1 adc2 : R) : res (list point) :=
  rbind (interpolate_coeffs t adc1 adc2) (fun k =>
  let mean_adc_rad := D2R * average_angles_adc adc1 adc2 in
  let ca := cos mean_adc_rad in
  let sa := sin mean_adc_rad in
  rmapM (fun p =>
    let r := reduce_xytan p in
    let rrx := ca * fst r + sa * snd r in
    let rry := - sa * fst r + ca * snd r in
    rbind (transform rrx rry (p_scale k) (p_rotation k) (p_offset_x k) (p_offset_y k) (Some (r_polids t)) (Some (p_coeffs k))) (fun f =>
    Ok (expand_xyfp (ca * fst f - sa * snd f, sa * fst f + ca * snd f)))) pts).

(** The parameters seen as those of the same polynomials in fvc2fp.py, to share the loop [undo_zb]: the loop of
    raytracefit.py:235-241 is that of fvc2fp.py:250-255. *)
Definition zb_params (t : rtf) (k : params) : tx :=
  {| xfvc_scale := 0.027; yfvc_scale := 0.027; xfvc_offset := 0; yfvc_offset := 0; tx_scale := p_scale k; tx_rotation := p_rotation k;
     tx_offset_x := p_offset_x k; tx_offset_y := p_offset_y k; tx_polids := r_polids t; tx_coeffs := p_coeffs k |}.
(** raytracefit.py:214-262 *)
Definition fp2tan (t : rtf) (pts : list point) (adc1 adc2 : R) : res (list point) :=
  rbind (interpolate_coeffs t adc1 adc2) (fun k =>
  let mean_adc_rad := D2R * average_angles_adc adc1 adc2 in
  let ca := cos mean_adc_rad in
  let sa := sin mean_adc_rad in
  let rr := map (fun p => let r := reduce_xyfp p in (ca * fst r + sa * snd r, - sa * fst r + ca * snd r)) pts in
  rbind (undo_zb (zb_params t k) 20 rr (map (fun _ => (0, 0)) rr)) (fun d =>
  if Reqb (p_scale k) 0 then Err NonFinite
  else Ok (map (fun '(r, e) =>
    let u := minus2 r e in
    let u := (fst u / p_scale k, snd u / p_scale k) in
    let rxx := fst u * cos (- p_rotation k) - snd u * sin (- p_rotation k) in
    let ryy := fst u * sin (- p_rotation k) + snd u * cos (- p_rotation k) in
    let rxx := rxx - p_offset_x k in
    let ryy := ryy - p_offset_y k in
    expand_xytan (ca * rxx - sa * ryy, sa * rxx + ca * ryy)) (combine rr d)))).
End RayTrace.

(** fiberassign.py:46-52; the argument of arccos is the cosine of an angle. *)
Definition pm_zd (ha dec lat : R) : R :=
  R2D * acos (cos (D2R * ha) * cos (D2R * dec) * cos (D2R * lat) + sin (D2R * dec) * sin (D2R * lat)).
(** fiberassign.py:54-59 *)
Definition pm_psi (ha dec latitude : R) : R :=
  R2D * atan2 (sin (D2R * ha) * cos (D2R * latitude)) (cos (D2R * dec) * sin (D2R * latitude) - sin (D2R * dec) * cos (D2R * latitude) * cos (D2R * ha)).
(** fiberassign.py:61-66 *)
Definition pm_zd2deltaadc (zd : R) : R :=
  let zd := Rmin zd 60 in
  let t := tan (D2R * zd) in
  let A := -0.0183 + -0.3795 * t + -0.1939 * t ^ 2 in
  2 * (R2D * A).
(** fiberassign.py:68-81 *)
Definition pm_get_adc_angles (ha dec : R) : R * R :=
  let pm_latitude := 31.9634 in
  let zd := pm_zd ha dec pm_latitude in
  let psi := pm_psi ha dec pm_latitude in
  let dadc := pm_zd2deltaadc zd in
  (psi + dadc / 2, psi - dadc / 2).
