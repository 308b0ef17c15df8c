(** Model of /repo/py/desimeter/trig.py and /repo/py/desimeter/time.py. Angles in degrees unless
    said otherwise; real arithmetic, so that [x % 360] is never rounded up to 360. *)
From Verif.Model Require Export RealNum.
Local Open Scope R_scope.

(** [math.floor] *)
Definition Rfloor (x : R) : Z := Int_part x.
(** Python's [%] with a positive right operand. *)
Definition pymod (x m : R) : R := x - m * IZR (Rfloor (x / m)).

(** [math.atan2] / [np.arctan2] without signed zeros (atan2(0,0) = 0). *)
Definition atan2 (y x : R) : R :=
  if Rltb 0 x then atan (y / x)
  else if Rltb x 0 then (if Rltb y 0 then atan (y / x) - PI else atan (y / x) + PI)
  else if Rltb 0 y then PI / 2 else if Rltb y 0 then - (PI / 2) else 0.

(** trig.py:3-4 *)
Definition D2R : R := PI / 180.
Definition R2D : R := 1 / D2R.
(** math.radians, math.degrees *)
Definition radians (d : R) : R := D2R * d.
Definition degrees (r : R) : R := r * R2D.
(** trig.py:7-15 [sind], [cosd] (names taken by the standard library). *)
Definition sindeg (d : R) : R := sin (D2R * d).
Definition cosdeg (d : R) : R := cos (D2R * d).
(** trig.py:17-20 [rot2deg], as its action on a column vector. *)
Definition rot2deg (deg : R) (v : point) : point :=
  (cosdeg deg * fst v - sindeg deg * snd v, sindeg deg * fst v + cosdeg deg * snd v).
(** trig.py:25-29 *)
Definition put360 (d : R) : R := pymod d 360.
Definition arctan2d (y x : R) : R := put360 (atan2 y x * R2D).
(** trig.py:31-32, for arguments in [-1,1]. *)
Definition arcsind (x : R) : R := asin x * R2D.
(** trig.py:34-41 *)
Definition getXYZ (lon lat : R) : R * R * R := (cosdeg lon * cosdeg lat, sindeg lon * cosdeg lat, sindeg lat).
Definition getNorm (v : R * R * R) : R := let '(x, y, z) := v in sqrt (x ^ 2 + y ^ 2 + z ^ 2).
Definition getNormalized (v : R * R * R) : R * R * R :=
  let '(x, y, z) := v in (x / getNorm v, y / getNorm v, z / getNorm v).
(** trig.py:43-49 *)
Definition average_angles_deg (a1 a2 : R) : R :=
  let x := cosdeg a1 + cosdeg a2 in let y := sindeg a1 + sindeg a2 in arctan2d y x.

(** time.py:27-36 [mjd2lst] *)
Definition sidereal_theta (mjd : R) : R :=
  let jd := mjd + 24000005 / 10 in
  let t0 := jd - 2451545 in
  let t := t0 / 36525 in
  28046061837 / 100000000 + 36098564736629 / 100000000000 * t0
  + t ^ 2 * (387933 / 1000000000 - t / 38710000).
Definition mjd2lst (mjd : R) : R :=
  pymod (sidereal_theta mjd + - (11159989 / 100000) - 16035388 / 100000000) 360.
