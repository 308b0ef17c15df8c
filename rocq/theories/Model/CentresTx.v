(** Model of /repo/bin/desi_fit_fvc2fp_using_posparams: a new transformation from pixels to the focal plane, which takes the fitted centres of
    the positioners to their places in the metrology. Table values are finite; messages and plots are left out. *)
From Verif.Model Require Export Fvc2fp.
Local Open Scope R_scope.
Local Open Scope list_scope.

(** A row of a table of positioner parameters, and a table with its columns; the values of columns that are not there are not read *)
Record posrow := { q_id : string; q_flags : Z; q_error : R; q_offset : point; q_static : point }.
Record postable := { has_flags : bool; has_error : bool; has_offset : bool; has_static : bool; q_rows : list posrow }.
Record device := { d_id : string; d_petal : Z; d_fp : point }.
(** line 43 *)
Definition posid2index (metrology : list device) : dict string nat :=
  fold_left (fun (d : dict string nat) '(i, v) => dict_set String.eqb d (d_id v) i) (enum metrology) [].
(** lines 56-62 *)
Definition good_rows (max_rms : R) (t : postable) : list posrow :=
  let rows := q_rows t in
  let rows := if has_flags t then filter (fun r => (q_flags r =? 0)%Z) rows else rows in
  if (has_error t && Rltb 0 max_rms)%bool then filter (fun r => Rltb (q_error r) max_rms) rows else rows.
(** lines 64-72 *)
Definition offset_of (t : postable) : option (posrow -> point) :=
  if has_offset t then Some q_offset else if has_static t then Some q_static else None.

Section Fit.
(** flat2ptl, then ptl2fp of the petal without its third coordinate: KeyError for a petal that is not in the alignments *)
Variable flat2fp : Z -> point -> res point.
(** lines 74-89, for one row: the centre in the focal plane and the place in the metrology *)
Definition place (metrology : list device) (off : posrow -> point) (r : posrow) : res (point * point) :=
  rbind (dict_getE String.eqb (posid2index metrology) (q_id r)) (fun i =>
  rbind (geti metrology i) (fun v => rmap (fun p => (p, d_fp v)) (flat2fp (d_petal v) (off r)))).
(** lines 51-95: a file that is not there is None; [np.hstack] of an empty list is a ValueError *)
Definition gather (max_rms : R) (metrology : list device) (files : list (option postable)) : res (list (point * point)) :=
  let used := flat_map (fun f => match f with Some t => match offset_of t with Some off => [(off, good_rows max_rms t)] | None => [] end | None => [] end) files in
  rbind (rmapM (fun '(off, rows) => rmapM (place metrology off) rows) used) (fun parts =>
  match parts with [] => Err ValueError | _ => Ok (concat parts) end).

Variable minimize : (R * R * R * R -> res R) -> R * R * R * R -> res (R * R * R * R).
(** lines 127-137 and 145-151: the fit from reduced pixels to reduced positions, put into the transformation *)
Definition refit (t : tx) (rpix rfp : list point) : res tx :=
  rbind (fit_scale_rotation_offset minimize (Some (tx_polids t)) (Some (tx_coeffs t)) None None rpix rfp true) (fun '(prm, zb) =>
  let '(scale, rotation, offset_x, offset_y) := prm in
  let '(polids, coeffs) := match zb with Some pc => pc | None => (tx_polids t, tx_coeffs t) end in
  Ok {| xfvc_scale := xfvc_scale t; yfvc_scale := yfvc_scale t; xfvc_offset := xfvc_offset t; yfvc_offset := yfvc_offset t;
    tx_scale := scale; tx_rotation := rotation; tx_offset_x := offset_x; tx_offset_y := offset_y; tx_polids := polids; tx_coeffs := coeffs |}).
(** line 124: the coefficients stay those of the terms before *)
Definition set_polids (t : tx) (polids : list Z) : tx :=
  {| xfvc_scale := xfvc_scale t; yfvc_scale := yfvc_scale t; xfvc_offset := xfvc_offset t; yfvc_offset := yfvc_offset t;
     tx_scale := tx_scale t; tx_rotation := tx_rotation t; tx_offset_x := tx_offset_x t; tx_offset_y := tx_offset_y t; tx_polids := polids; tx_coeffs := tx_coeffs t |}.
(** lines 139-143: the distance after the first fit *)
Definition close (q : point * point) : bool := Rltb (sqrt ((fst (fst q) - fst (snd q)) ^ 2 + (snd (fst q) - snd (snd q)) ^ 2)) 0.08.
Definition select {A} (mask : list bool) (l : list A) : list A := map snd (filter fst (combine mask l)).
(** lines 106-153 and 158: [init] is the transformation read on line 108, [patch] the positions of the metrology patch, if one is to be written.
    Returns the transformation written and the new positions of the patch. *)
Definition fit_centres (init : tx) (zbpolids : list Z) (data : list (point * point)) (patch : option (list point)) : res (tx * option (list point)) :=
  rbind (fp2fvc init (map fst data)) (fun pix =>
  rbind (match patch with Some l => rmap (@Some (list point)) (fp2fvc init l) | None => Ok None end) (fun pix_patch =>
  let t := set_polids init zbpolids in
  rbind (rmapM (reduce_xyfvc t) pix) (fun rpix =>
  let rfp := map reduce_xyfp (map snd data) in
  rbind (refit t rpix rfp) (fun t =>
  rbind (fvc2fp t pix) (fun x1b =>
  let ok := map close (combine x1b (map snd data)) in
  rbind (refit t (select ok rpix) (select ok rfp)) (fun t =>
  rbind (match pix_patch with Some l => rmap (@Some (list point)) (fvc2fp t l) | None => Ok None end) (fun new_patch =>
  Ok (t, new_patch)))))))).
(** the whole script; line 33: the mandatory terms *)
Definition fit_using_posparams (init : tx) (zbpolids : list Z) (max_rms : R) (metrology : list device) (files : list (option postable)) (patch : option (list point)) :
    res (tx * option (list point)) :=
  if forallb (fun z => existsb (Z.eqb z) zbpolids) [0; 1; 2; 27]%Z then
    rbind (gather max_rms metrology files) (fun data => fit_centres init zbpolids data patch)
  else Err (SysExit 12).
End Fit.
