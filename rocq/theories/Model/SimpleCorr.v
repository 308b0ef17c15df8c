(** Model of the fits and maps of /repo/py/desimeter/simplecorr.py. *)
From Verif.Model Require Export LinAlg Trig.
Local Open Scope R_scope.

(** simplecorr.py:11-19, the attributes of a SimpleCorr. *)
Record simplecorr := {
  c_dx : R; c_dy : R; c_sxx : R; c_syy : R; c_sxy : R; c_rot_deg : R; c_nmatch : nat; c_rms : R }.
Definition simplecorr_init : simplecorr :=
  {| c_dx := 0; c_dy := 0; c_sxx := 1; c_syy := 1; c_sxy := 0; c_rot_deg := 0; c_nmatch := 0; c_rms := 0 |}.

(** [M.dot(v)] for a 2x2 matrix (a b; c d) *)
Definition mat2 (a b c d : R) (v : point) : point := (a * fst v + b * snd v, c * fst v + d * snd v).

(** simplecorr.py:152-156 *)
Definition corr_apply (c : simplecorr) (xy : point) : point :=
  let xy := mat2 (c_sxx c) (c_sxy c) (c_sxy c) (c_syy c) (rot2deg (c_rot_deg c) xy) in
  (fst xy + c_dx c, snd xy + c_dy c).
(** simplecorr.py:158-163; a zero determinant gives inf or nan. *)
Definition corr_apply_inverse (c : simplecorr) (xy : point) : res point :=
  let det := c_sxx c * c_syy c - c_sxy c ^ 2 in
  if Reqb det 0 then Err NonFinite
  else
    let v := mat2 (c_syy c / det) (- c_sxy c / det) (- c_sxy c / det) (c_sxx c / det) (fst xy - c_dx c, snd xy - c_dy c) in
    Ok (rot2deg (- c_rot_deg c) v).

(** simplecorr.py:62, 104: equal lengths of the four arrays. *)
Definition same_shapes (x1 y1 x2 y2 : list R) : bool :=
  (Nat.eqb (length x1) (length y1) && Nat.eqb (length x2) (length y2) && Nat.eqb (length x1) (length x2))%bool.

(** simplecorr.py:54-84; the four columns of A. *)
Definition rotoff_columns (x1 y1 : list R) : list (list R) :=
  let n := length x1 in
  [x1 ++ y1; map Ropp y1 ++ x1; repeat 1 n ++ repeat 0 n; repeat 0 n ++ repeat 1 n].
Definition fit_rotoff (c : simplecorr) (x1 y1 x2 y2 : list R) : res simplecorr :=
  if negb (same_shapes x1 y1 x2 y2) then Err AssertionError
  else
    let v := x2 ++ y2 in
    let A := rotoff_columns x1 y1 in
    rbind (linalg_solve (gram A) (matvec A v)) (fun p =>
    Ok {| c_dx := nth 2 p 0; c_dy := nth 3 p 0; c_sxx := 1; c_syy := 1; c_sxy := 0;
          c_rot_deg := arctan2d (nth 1 p 0) (nth 0 p 0); c_nmatch := c_nmatch c; c_rms := c_rms c |}).

(** simplecorr.py:115, 117: value of the fitted affine function. *)
Definition predict (a : list R) (x y : R) : R := nth 0 a 0 + nth 1 a 0 * x + nth 2 a 0 * y.
(** simplecorr.py:120 *)
Definition fit_rms (ax ay x1 y1 x2 y2 : list R) : R :=
  let d2 := map (fun q => let '((x, y), (u, v)) := q in (u - predict ax x y) ^ 2 + (v - predict ay x y) ^ 2)
                (combine (combine x1 y1) (combine x2 y2)) in
  sqrt (Rsum d2 / INR (length d2)).
(** simplecorr.py:134-150: scales and, if it is set, rotation, from the linear part. A zero
    [sxx_p_syy] makes sa nan (and nan != 0), a zero ca divides by zero on line 142. *)
Definition decompose (ax1 ax2 ay1 ay2 : R) : res (R * R * R * option R) :=
  let sxx_p_syy := sqrt ((ax1 + ay2) ^ 2 + (ay1 - ax2) ^ 2) in
  if Reqb sxx_p_syy 0 then Err NonFinite
  else
    let sa := (ay1 - ax2) / sxx_p_syy in
    let ca := (ax1 + ay2) / sxx_p_syy in
    if Reqb sa 0 then Ok (ax1, ay2, ax2, None)
    else if Reqb ca 0 then Err NonFinite
    else
      let sxy := sa * ax1 + ca * ay1 - sxx_p_syy * ca * sa in
      let sxx := (ax1 - sxy * sa) / ca in
      let syy := (ay1 - sxy * ca) / sa in
      Ok (sxx, syy, sxy, Some (arctan2d sa ca)).
(** simplecorr.py:86-150 with solid=False. [Err NonFinite] stands for attributes set to nan. *)
Definition fit_affine (c : simplecorr) (x1 y1 x2 y2 : list R) : res simplecorr :=
  if negb (same_shapes x1 y1 x2 y2) then Err AssertionError
  else
    let n := length x1 in
    let H := [repeat 1 n; x1; y1] in
    rbind (linalg_solve (gram H) (matvec H x2)) (fun ax =>
    rbind (linalg_solve (gram H) (matvec H y2)) (fun ay =>
    rbind (decompose (nth 1 ax 0) (nth 2 ax 0) (nth 1 ay 0) (nth 2 ay 0)) (fun s =>
    let '(sxx, syy, sxy, rot) := s in
    Ok {| c_dx := nth 0 ax 0; c_dy := nth 0 ay 0; c_sxx := sxx; c_syy := syy; c_sxy := sxy;
          c_rot_deg := match rot with Some r => r | None => c_rot_deg c end;
          c_nmatch := n; c_rms := fit_rms ax ay x1 y1 x2 y2 |}))).
(** simplecorr.py:86-102 *)
Definition corr_fit (c : simplecorr) (x1 y1 x2 y2 : list R) (solid : bool) : res simplecorr :=
  if solid then fit_rotoff c x1 y1 x2 y2 else fit_affine c x1 y1 x2 y2.
