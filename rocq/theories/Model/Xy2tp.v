(** Model of /repo/py/desimeter/transform/xy2tp.py. *)
From Verif.Model Require Export Trig.
Local Open Scope R_scope.

(** xy2tp.py:25-36 *)
Definition tp2xy (tp r : point) : point :=
  let t := radians (fst tp) in
  let t_plus_p := t + radians (snd tp) in
  (fst r * cos t + snd r * cos t_plus_p, fst r * sin t + snd r * sin t_plus_p).

(** xy2tp.py:152-175 *)
Definition wrap_into_range (angle range_min range_max : R) : R * bool :=
  if Rltb angle range_min then
    let new := angle + IZR (Rfloor ((range_max - angle) / 360)) * 360 in
    if Rltb new range_min then (range_min, true) else (new, false)
  else if Rltb range_max angle then
    let new := angle - IZR (Rfloor ((angle - range_min) / 360)) * 360 in
    if Rltb range_max new then (range_max, true) else (new, false)
  else (angle, false).

(** xy2tp.py:135-150; [ranges] = ((theta0, theta1), (phi0, phi1)), each pair in any order. *)
Definition wrap_TP_into_ranges (tp : point) (ranges : point * point) : point * bool :=
  let '(t, ft) := wrap_into_range (fst tp) (Rmin (fst (fst ranges)) (snd (fst ranges))) (Rmax (fst (fst ranges)) (snd (fst ranges))) in
  let '(p, fp) := wrap_into_range (snd tp) (Rmin (fst (snd ranges)) (snd (snd ranges))) (Rmax (fst (snd ranges)) (snd (snd ranges))) in
  ((t, p), ft || fp)%bool.

(** xy2tp.py:22, 59: ten times sys.float_info.epsilon = 2^-52 *)
Definition numeric_contraction : R := 10 / 4503599627370496.

(** xy2tp.py:64-76: radius of the target moved into the contracted annulus, and whether it was
    outside of the annulus. *)
Definition clamp_radius (hypot r1 r2 : R) : R * bool :=
  let outer := r1 + r2 in
  let inner := Rabs (r1 - r2) in
  let unreachable := (Rltb outer hypot || Rltb hypot inner)%bool in
  let inner' := inner + numeric_contraction in
  let outer' := outer - numeric_contraction in
  (if Rleb outer' hypot then outer' else if Rleb hypot inner' then inner' else hypot, unreachable).

(** xy2tp.py:80-85: angles in radians of the configuration with phi in [0, pi], for a target at
    polar coordinates (HYPOT, angle). *)
Definition primary_angles (HYPOT angle r1 r2 : R) : R * R :=
  let X := HYPOT * cos angle in
  let Y := HYPOT * sin angle in
  let arccos_arg := Rmin (Rmax ((X ^ 2 + Y ^ 2 - (r1 ^ 2 + r2 ^ 2)) / (2 * r1 * r2)) (-1)) 1 in
  let P := acos arccos_arg in
  (angle - atan2 (r2 * sin P) (r1 + r2 * cos P), P).

(** xy2tp.py:95-105: the configuration reflected across (X,Y), X <> 0. *)
Definition reflected_angles (X Y T r1 : R) : R * R :=
  let tx := r1 * cos T in
  let ty := r1 * sin T in
  let m := Y / X in
  let tx_alt := ((1 - m ^ 2) * tx + 2 * m * ty) / (m ^ 2 + 1) in
  let ty_alt := ((m ^ 2 - 1) * ty + 2 * m * tx) / (m ^ 2 + 1) in
  let px_alt := X - tx_alt in
  let py_alt := Y - ty_alt in
  let T_alt := atan2 ty_alt tx_alt in
  (T_alt, atan2 py_alt px_alt - T_alt).

(** A configuration of the arms and its range_fail flag. *)
Notation option_tp := (R * R * bool)%type (only parsing).

(** xy2tp.py:109-117 *)
Definition rotated_options (ranges : point * point) (opt : option_tp) : list option_tp :=
  let '(tp, range_fail) := opt in
  if range_fail then []
  else map (fun wrap => wrap_TP_into_ranges (fst tp + wrap, snd tp) ranges) [-360; 360].

(** Python's stable [list.sort] with a key: insertion of each element before the first one
    which is not smaller. *)
Fixpoint insert_by {A} (before : A -> A -> bool) (x : A) (l : list A) : list A :=
  match l with
  | [] => [x]
  | y :: r => if before y x then y :: insert_by before x r else x :: l
  end.
Definition sort_by {A} (before : A -> A -> bool) (l : list A) : list A := fold_right (insert_by before) [] l.

(** xy2tp.py:120-130 *)
Definition closeness (t_guess : R) (o : option_tp) : R := Rabs (fst (fst o) - t_guess).
Definition closeness_fail (t_guess tol : R) (o : option_tp) : bool := Rltb tol (closeness t_guess o).
Definition select_option (t_guess tol : R) (default : option_tp) (options : list option_tp) : option_tp :=
  let all_fail := (forallb (closeness_fail t_guess tol) options || forallb snd options)%bool in
  if all_fail then default
  else
    let o1 := sort_by (fun a b => Rltb (closeness t_guess a) (closeness t_guess b)) options in
    let o2 := sort_by (fun a b => negb (closeness_fail t_guess tol a) && closeness_fail t_guess tol b)%bool o1 in
    let o3 := sort_by (fun a b => negb (snd a) && snd b)%bool o2 in
    match o3 with o :: _ => o | [] => default end.

(** xy2tp.py:38-133. Python raises ZeroDivisionError for a zero arm (line 81) and, with a guess,
    for X = 0 (line 98). Simplified: rounding makes cos(pi/2) non zero in floating point, so line
    98 fails there only when HYPOT = 0, while here it also does for targets on the y axis. *)
Definition xy2tp (xy r : point) (ranges : point * point) (t_guess : option R) (t_guess_tol : R) : res (point * bool) :=
  let '(x, y) := xy in
  let '(r1, r2) := r in
  let hypot := sqrt (x ^ 2 + y ^ 2) in
  let angle := atan2 y x in
  let '(HYPOT, unreachable) := clamp_radius hypot r1 r2 in
  if Reqb (2 * r1 * r2) 0 then Err ZeroDivision
  else
    let X := HYPOT * cos angle in
    let Y := HYPOT * sin angle in
    let '(T, P) := primary_angles HYPOT angle r1 r2 in
    let first := wrap_TP_into_ranges (degrees T, degrees P) ranges in
    match t_guess with
    | None => Ok (fst first, unreachable || snd first)%bool
    | Some g =>
        if Reqb X 0 then Err ZeroDivision
        else
          let '(T_alt, P_alt) := reflected_angles X Y T r1 in
          let second := wrap_TP_into_ranges (degrees T_alt, degrees P_alt) ranges in
          let options := [first; second] ++ rotated_options ranges first ++ rotated_options ranges second in
          let best := select_option g t_guess_tol first options in
          Ok (fst best, unreachable || snd best)%bool
    end.
(** xy2tp.py:21 *)
Definition default_t_guess_tol : R := 30.
