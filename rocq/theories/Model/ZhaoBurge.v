(** Model of /repo/py/desimeter/transform/zhaoburge.py (not zernFormulaText, a text representation).
    Real arithmetic, decimal literals exact; one point, as numpy treats the entries of x, y separately. *)
From Verif.Model Require Export Trig LinAlg.
Local Open Scope R_scope.

(** Python's [int] of a float: rounds towards 0. *)
Definition trunc (x : R) : Z := if Rltb x 0 then (- Rfloor (- x))%Z else Rfloor x.
(** zhaoburge.py:11-15, for n >= 0 (smaller arguments, which do not occur, give 1). *)
Definition factorial (n : Z) : Z := Z.of_nat (fact (Z.to_nat n)).

(** zhaoburge.py:17-29, for noll >= 1 (for smaller ones int(nan) raises ValueError). *)
Definition convertNolltoBW (noll : Z) : Z * Z :=
  let n := trunc (-0.5 + sqrt (2 * IZR noll - 1.75)) in
  let base := trunc (0.5 * IZR n ^ 2 + 0.5 * IZR n + 1) in
  let diff := (noll - base)%Z in
  let m := if (n mod 2 =? 0)%Z then (2 * trunc (0.5 * IZR diff + 0.7))%Z
           else (2 * trunc (0.5 * IZR diff + 1.2) - 1)%Z in
  let m := if (0 <? noll mod 2)%Z then (- m)%Z else m in
  (n, m).
(** zhaoburge.py:31-40, for wyant >= 0. *)
Definition convertWyanttoBW (wyant : Z) : Z * Z :=
  let halfsum := trunc (sqrt (IZR wyant)) in
  let idif := (wyant - halfsum ^ 2)%Z in
  let halfdif := trunc (IZR idif / 2) in
  let n := (halfsum + halfdif)%Z in
  let m := (halfsum - halfdif)%Z in
  (n, if (0 <? idif mod 2)%Z then (- m)%Z else m).

(** zhaoburge.py:48-66, for n - m even and |m| <= n (so that halfsum is a whole number). *)
Definition radial_term (n halfsum halfdif : Z) (rnorm : R) (i : Z) : R :=
  let expon := (n - 2 * i)%Z in
  let sign := if (i mod 2 =? 0)%Z then 1%Z else (-1)%Z in
  let numer := (sign * factorial (n - i))%Z in
  let denom := (factorial i * factorial (halfsum - i) * factorial (halfdif - i))%Z in
  let coef := IZR numer / IZR denom in
  coef * rnorm ^ Z.to_nat expon.
Definition getZernRadial (nm : Z * Z) (rnorm : R) : R :=
  let n := fst nm in
  let m := Z.abs (snd nm) in
  let halfsum := ((n + m) / 2)%Z in
  let idif := (n - m)%Z in
  let halfdif := Z.quot idif 2 in
  fold_left (fun result i => result + radial_term n halfsum halfdif rnorm (Z.of_nat i)) (seq 0 (Z.to_nat (halfdif + 1))) 0.
(** zhaoburge.py:68-75 *)
Definition getZernAngular (nm : Z * Z) (theta : R) : R :=
  let m := snd nm in
  if (m =? 0)%Z then 1
  else if (0 <? m)%Z then cos (IZR m * theta)
  else sin (IZR (Z.abs m) * theta).
(** zhaoburge.py:42-46 *)
Definition getZernFuncXY (nm : Z * Z) (xnorm ynorm : R) : R :=
  let rnorm := sqrt (xnorm * xnorm + ynorm * ynorm) in
  let angle := atan2 ynorm xnorm in
  getZernRadial nm rnorm * getZernAngular nm angle.

(** zhaoburge.py:131-132 *)
Definition rh : R := sqrt 0.5.
Definition rt : R := sqrt 2.
(** zhaoburge.py:138 *)
Definition squares : list Z :=
  [0; 1; 4; 4; 3; 6; 6; 8; 8; 8; 8; 5; 10; 10; 10; 10; 12; 12; 12; 12; 12; 12; 7; 14; 14; 14; 14; 14; 14;
   16; 16; 16; 16; 16; 16; 16; 16; 9]%Z.
(** zhaoburge.py:141-143, for 0 <= noll <= 37 (IndexError above). *)
Definition normalizeArea (noll : Z) : R := sqrt (IZR (nth (Z.to_nat noll) squares 0%Z)).
(** zhaoburge.py:145-146 *)
Definition getZ (noll : Z) (x y : R) : R := normalizeArea noll * getZernFuncXY (convertNolltoBW noll) x y.

(** zhaoburge.py:165-238; [quit()] raises SystemExit. *)
Definition getZhaoBurgeTerm (polid : Z) (x y : R) : res (R * R * string) :=
  match polid with
  | 0%Z => Ok (getZ 1 x y, 0, "S2"%string)
  | 1%Z => Ok (0, getZ 1 x y, "S3"%string)
  | 2%Z => Ok (rh * getZ 2 x y, rh * getZ 3 x y, "S4"%string)
  | 3%Z => Ok (rh * getZ 3 x y, rh * getZ 2 x y, "S5"%string)
  | 4%Z => Ok (rh * getZ 2 x y, - rh * getZ 3 x y, "S6"%string)
  | 5%Z => Ok (0.5 * getZ 5 x y, rh * getZ 4 x y - 0.5 * getZ 6 x y, "S7"%string)
  | 6%Z => Ok (rh * getZ 4 x y + 0.5 * getZ 6 x y, 0.5 * getZ 5 x y, "S8"%string)
  | 7%Z => Ok (rh * getZ 5 x y, rh * getZ 6 x y, "S9"%string)
  | 8%Z => Ok (rh * getZ 6 x y, - rh * getZ 5 x y, "S10"%string)
  | 9%Z => Ok (rh * getZ 8 x y, rh * getZ 7 x y, "S11"%string)
  | 10%Z => Ok (0.5 * getZ 8 x y + 0.5 * getZ 10 x y, - 0.5 * getZ 7 x y + 0.5 * getZ 9 x y, "S12"%string)
  | 11%Z => Ok (0.5 * getZ 7 x y + 0.5 * getZ 9 x y, 0.5 * getZ 8 x y - 0.5 * getZ 10 x y, "S13"%string)
  | 12%Z => Ok (rh * getZ 10 x y, - rh * getZ 9 x y, "S14"%string)
  | 13%Z => Ok (rh * getZ 9 x y, rh * getZ 10 x y, "S15"%string)
  | 14%Z => Ok (rh * getZ 11 x y + 0.5 * getZ 12 x y, 0.5 * getZ 13 x y, "S16"%string)
  | 15%Z => Ok (0.5 * getZ 13 x y, rh * getZ 11 x y - 0.5 * getZ 12 x y, "S17"%string)
  | 16%Z => Ok (0.5 * getZ 12 x y + 0.5 * getZ 14 x y, 0.5 * getZ 15 x y - 0.5 * getZ 13 x y, "S18"%string)
  | 17%Z => Ok (0.5 * getZ 13 x y + 0.5 * getZ 15 x y, 0.5 * getZ 12 x y - 0.5 * getZ 14 x y, "S19"%string)
  | 18%Z => Ok (rh * getZ 14 x y, - rh * getZ 15 x y, "S20"%string)
  | 19%Z => Ok (rh * getZ 15 x y, rh * getZ 14 x y, "S21"%string)
  | 20%Z => Ok (rh * getZ 16 x y, rh * getZ 17 x y, "S22"%string)
  | 21%Z => Ok (0.5 * getZ 17 x y + 0.5 * getZ 19 x y, 0.5 * getZ 16 x y - 0.5 * getZ 18 x y, "S23"%string)
  | 22%Z => Ok (0.5 * getZ 16 x y + 0.5 * getZ 18 x y, - 0.5 * getZ 17 x y + 0.5 * getZ 19 x y, "S24"%string)
  | 23%Z => Ok (0.5 * getZ 19 x y + 0.5 * getZ 21 x y, 0.5 * getZ 18 x y - 0.5 * getZ 20 x y, "S25"%string)
  | 24%Z => Ok (0.5 * getZ 18 x y + 0.5 * getZ 20 x y, - 0.5 * getZ 19 x y + 0.5 * getZ 21 x y, "S26"%string)
  | 25%Z => Ok (rh * getZ 21 x y, rh * getZ 20 x y, "S27"%string)
  | 26%Z => Ok (rh * getZ 20 x y, - rh * getZ 21 x y, "S28"%string)
  | 27%Z => Ok (rh * getZ 3 x y, - rh * getZ 2 x y, "T4"%string)
  | 28%Z => Ok (rh * getZ 4 x y - 0.5 * getZ 6 x y, - 0.5 * getZ 5 x y, "T7"%string)
  | 29%Z => Ok (0.5 * getZ 5 x y, - rh * getZ 4 x y - 0.5 * getZ 6 x y, "T8"%string)
  | 30%Z => Ok (rh * getZ 7 x y, - rh * getZ 8 x y, "T11"%string)
  | 31%Z => Ok (- 0.5 * getZ 7 x y + 0.5 * getZ 9 x y, - 0.5 * getZ 8 x y - 0.5 * getZ 10 x y, "T12"%string)
  | 32%Z => Ok (0.5 * getZ 8 x y - 0.5 * getZ 10 x y, - 0.5 * getZ 7 x y - 0.5 * getZ 9 x y, "T13"%string)
  | _ => Err (SysExit 0)
  end.

(** zhaoburge.py:148-163 at one point; [zip] stops at the shorter list. *)
Fixpoint add_terms (terms : list (Z * R)) (x y : R) (acc : R * R) : res (R * R) :=
  match terms with
  | [] => Ok acc
  | (polid, coeff) :: rest =>
      rbind (getZhaoBurgeTerm polid x y) (fun '(zbx, zby, _) =>
      add_terms rest x y (fst acc + coeff * zbx, snd acc + coeff * zby))
  end.
Definition getZhaoBurgeXY (polids : list Z) (coeffs : list R) (x y : R) : res (R * R) :=
  add_terms (combine polids coeffs) x y (0, 0).

(** zhaoburge.py:248-264 *)
Definition transform (x y scale rotation offset_x offset_y : R) (zbpolids : option (list Z)) (zbcoeffs : option (list R)) : res (R * R) :=
  let x := x + offset_x in
  let y := y + offset_y in
  let xx := (x * cos rotation - y * sin rotation) * scale in
  let yy := (x * sin rotation + y * cos rotation) * scale in
  match zbpolids with
  | None => Ok (xx, yy)
  | Some polids =>
      match zbcoeffs with
      | None => Err RuntimeError
      | Some coeffs => rbind (getZhaoBurgeXY polids coeffs xx yy) (fun '(dx, dy) => Ok (xx + dx, yy + dy))
      end
  end.

(** zhaoburge.py:322-323 *)
Definition default_polids : list Z := [0; 1; 2; 3; 4; 5; 6; 9; 20; 27; 28; 29; 30]%Z.
(** zhaoburge.py:326-330: column i of H, for the points (x, y). *)
Definition zb_column (pts : list point) (polid : Z) : res (list R) :=
  rbind (rmapM (fun p => getZhaoBurgeTerm polid (fst p) (snd p)) pts) (fun ts =>
  Ok (map (fun t => fst (fst t)) ts ++ map (fun t => snd (fst t)) ts)).
(** zhaoburge.py:310-336, for the points (x, y) and (xp, yp); the rows of H.T are the columns of H. *)
Definition fitZhaoBurge (pts ptsp : list point) (polids : option (list Z)) : res (list Z * list R) :=
  let dx := map (fun '(p, q) => fst q - fst p) (combine pts ptsp) in
  let dy := map (fun '(p, q) => snd q - snd p) (combine pts ptsp) in
  let polids := match polids with Some l => l | None => default_polids end in
  rbind (rmapM (zb_column pts) polids) (fun HT =>
  rbind (linalg_solve (gram HT) (matvec HT (dx ++ dy))) (fun coeffs => Ok (polids, coeffs))).

(** zhaoburge.py:266-308. [minimize] is scipy.optimize.minimize: it is given the objective function and
    the start (1, 0, 0, 0), and returns the field x of its result; the parameters are (scale, rotation, offset_x, offset_y). *)
Notation params4 := (R * R * R * R)%type (only parsing).
Section FitScaleRotationOffset.
Variable minimize : (params4 -> res R) -> params4 -> res params4.
Variables (zbpolids : option (list Z)) (zbcoeffs : option (list R)) (fixed_scale fixed_rotation : option R).
Definition or_fixed (fixed : option R) (v : R) : R := match fixed with Some f => f | None => v end.
Definition fit_func (pts ptsp : list point) (params : params4) : res R :=
  let '(scale, rotation, offset_x, offset_y) := params in
  let scale := or_fixed fixed_scale scale in
  let rotation := or_fixed fixed_rotation rotation in
  rbind (rmapM (fun p => transform (fst p) (snd p) scale rotation offset_x offset_y zbpolids zbcoeffs) pts) (fun qs =>
  let dr2 := Rsum (map (fun '(q, p) => (fst q - fst p) ^ 2 + (snd q - snd p) ^ 2) (combine qs ptsp)) in
  let dr2 := match fixed_scale with Some f => dr2 + 1e6 * (scale - f) ^ 2 | None => dr2 end in
  let dr2 := match fixed_rotation with Some f => dr2 + 1e6 * (rotation - f) ^ 2 | None => dr2 end in
  Ok dr2).
Definition fit_scale_rotation_offset (pts ptsp : list point) (fitzb : bool) : res (params4 * option (list Z * list R)) :=
  rbind (minimize (fit_func pts ptsp) (1, 0, 0, 0)) (fun '(scale, rotation, offset_x, offset_y) =>
  let scale := or_fixed fixed_scale scale in
  let rotation := or_fixed fixed_rotation rotation in
  if fitzb then
    rbind (rmapM (fun p => transform (fst p) (snd p) scale rotation offset_x offset_y None None) pts) (fun qs =>
    rbind (fitZhaoBurge qs ptsp zbpolids) (fun zb => Ok ((scale, rotation, offset_x, offset_y), Some zb)))
  else Ok ((scale, rotation, offset_x, offset_y), None)).
End FitScaleRotationOffset.
