(** Model of the ray tracer /repo/py/desimeter/transform/tan2fp/raytrace/RT185v2.py, which makes the table that
    RayTraceFit is fitted to. The global arrays are values: [Oarray], [OglassNames] and [OhasPoly] a list of
    surfaces, row [j] of [Rarray] for one ray a [row], [MglassNames], [MwaveNames] and [Marray] a [media] table.
    The CSV readers and the spot diagrams are not modelled; [quit()] is [SysExit 0]; real arithmetic, so that the
    "-0.0" standing for an absent number is 0. *)
From Verif.Model Require Export Stats Trig.
Local Open Scope R_scope.

Notation vec := (R * R * R)%type (only parsing).
Notation mat := ((R * R * R) * (R * R * R) * (R * R * R))%type (only parsing).

(** RT185v2.py:126-133, the codes [getActionType] (274-294) can return. *)
Inductive action := ALens | AMirror | ARetro | AIris | ACBin | ACBout.
(** RT185v2.py:163-173; EDGE is never returned and UNKNOWN only for an action code out of the above. *)
Inductive code := COk | CBack | CMiss | COdiam | CIdiam | CSpi | CTir.
(** An entry of [OglassNames]: empty, a number, or a name to be looked up. *)
Inductive glass := GBlank | GNumber (n : R) | GName (name : string).

(** One row of [Oarray] (78-125). [s_coefs] are OA1 to OA14, [s_poly] is [OhasPoly], [s_nspider] is [int(Oarray[j, ONSPIDER])],
    [s_euler] the nine elements OE11 to OE33. *)
Record surface := {
  s_glass : glass; s_action : action; s_odiam : R; s_idiam : R; s_curve : R; s_asph : R; s_vertex : vec;
  s_tilt : R; s_pitch : R; s_roll : R; s_coefs : list R; s_poly : bool; s_nspider : Z; s_wspider : R; s_euler : mat }.

(** Columns RX RY RZ, RU RV RW or their lower case (vertex frame) versions (144-159). *)
Record ray := { r_pos : vec; r_dir : vec }.
Record row := { r_lab : ray; r_loc : ray }.
(** [MglassNames], [MwaveNames], [Marray] *)
Definition media := list (string * list (string * R)).

Definition is_ok (c : code) : bool := match c with COk => true | _ => false end.
Definition is_cbout (s : surface) : bool := match s_action s with ACBout => true | _ => false end.

(** 244-252 [fixup] *)
Definition fixup (u v w : R) : res R :=
  let arg := 1 - u * u - v * v in
  if Rltb arg 0 then Err (SysExit 0) else if Rleb 0 w then Ok (sqrt arg) else Ok (- sqrt arg).

(** 408-430 [findGlassRow], [findWaveColumn] and 432-459 [findRefraction] *)
Definition find_refraction (m : media) (wave : string) (g : glass) : res R :=
  match g with
  | GBlank => Ok 1
  | GNumber n => Ok n
  | GName name =>
      match dict_get String.eqb m name with
      | None => Err (SysExit 0)
      | Some waves => match dict_get String.eqb waves wave with None => Err (SysExit 0) | Some n => Ok n end
      end
  end.

(** 472-489 [getBothRoots] *)
Definition np_sign (x : R) : R := if Rltb 0 x then 1 else if Rltb x 0 then -1 else 0.
Definition both_roots (A B C : R) : R * R :=
  if (Reqb A 0 && negb (Reqb B 0))%bool then (- C / B, 0)
  else if (Reqb B 0 && negb (Reqb A 0))%bool then
    (if Rltb 0 (C / A) then (sqrt (C / A), - sqrt (C / A)) else (0, 0))
  else if (Reqb C 0 && negb (Reqb A 0))%bool then (- B / A, 0)
  else
    let D := B * B - 4 * A * C in
    if Rleb D 0 then (0, 0)
    else let Q := - (1 / 2) * (B + np_sign B * sqrt D) in (Q / A, C / Q).

(** 491-507 [setEulers], for one surface *)
Definition euler (tilt pitch roll : R) : mat :=
  let ct := cos (radians tilt) in let st := sin (radians tilt) in
  let cp := cos (radians pitch) in let sp := sin (radians pitch) in
  let cr := cos (radians roll) in let sr := sin (radians roll) in
  ((cr * cp, - sr * cp, sp),
   (cr * sp * st + sr * ct, cr * ct - sr * sp * st, - cp * st),
   (- cr * sp * ct + sr * st, sr * sp * ct + cr * st, cp * ct)).
Definition with_euler (s : surface) (roll : R) (e : mat) : surface :=
  {| s_glass := s_glass s; s_action := s_action s; s_odiam := s_odiam s; s_idiam := s_idiam s; s_curve := s_curve s; s_asph := s_asph s;
     s_vertex := s_vertex s; s_tilt := s_tilt s; s_pitch := s_pitch s; s_roll := roll; s_coefs := s_coefs s; s_poly := s_poly s;
     s_nspider := s_nspider s; s_wspider := s_wspider s; s_euler := e |}.
Definition set_euler (s : surface) : surface := with_euler s (s_roll s) (euler (s_tilt s) (s_pitch s) (s_roll s)).

(** 509-519 *)
Definition dotproduct (a b : vec) : R := let '(a0, a1, a2) := a in let '(b0, b1, b2) := b in a0 * b0 + a1 * b1 + a2 * b2.
Definition crossproduct (a b : vec) : vec :=
  let '(a0, a1, a2) := a in let '(b0, b1, b2) := b in (a1 * b2 - a2 * b1, a2 * b0 - a0 * b2, a0 * b1 - a1 * b0).
(** 522-530 [normalize]; a zero vector is left as it is *)
Definition normalize (v : vec) : vec :=
  let '(x, y, z) := v in let l := sqrt (x ^ 2 + y ^ 2 + z ^ 2) in
  if Reqb l 0 then v else (x / l, y / l, z / l).
Definition vscale (k : R) (v : vec) : vec := let '(x, y, z) := v in (k * x, k * y, k * z).
Definition vadd (a b : vec) : vec := let '(a0, a1, a2) := a in let '(b0, b1, b2) := b in (a0 + b0, a1 + b1, a2 + b2).
(** Moving a ray along itself, in place (688-690, 745-747). *)
Definition advance (d : R) (r : ray) : ray :=
  let '(x, y, z) := r_pos r in let '(u, v, w) := r_dir r in {| r_pos := (x + d * u, y + d * v, z + d * w); r_dir := r_dir r |}.

(** 559-574 [getZconic] *)
Definition zconic (s : surface) (r : ray) (d : R) : R * code :=
  let '(x, y, _) := r_pos (advance d r) in
  let r2 := x * x + y * y in let k := s_asph s + 1 in let c := s_curve s in
  let numer := c * r2 in let arg := 1 - k * c * c * r2 in
  if Rltb arg 0 then (0, CMiss) else (numer / (1 + sqrt arg), COk).

(** 576-587 [getZpoly] *)
Fixpoint poly_loop (coefs : list R) (r product sum : R) : R :=
  match coefs with [] => sum | a :: t => let product := product * r in poly_loop t r product (sum + a * product) end.
Definition zpoly (s : surface) (r : ray) (d : R) : R :=
  let '(x, y, _) := r_pos (advance d r) in poly_loop (s_coefs s) (sqrt (x * x + y * y)) 1 0.

(** 607-621 [gradConic] *)
Definition grad_conic (s : surface) (r : ray) : R * R :=
  let k := s_asph s + 1 in let c := s_curve s in
  if Reqb c 0 then (0, 0)
  else
    let '(x, y, _) := r_pos r in let r2 := x * x + y * y in let arg := 1 - k * c ^ 2 * r2 in
    if Rleb arg 0 then (0, 0) else let coef := c / sqrt arg in (x * coef, y * coef).
(** 623-644 [gradPoly]; [i] is [index - OA1] *)
Fixpoint dpoly_loop (i : nat) (coefs : list R) (r product dzdr : R) : R :=
  match coefs with [] => dzdr | a :: t => dpoly_loop (S i) t r (product * r) (dzdr + (1 + INR i) * a * product) end.
Definition grad_poly (s : surface) (r : ray) : R * R :=
  let '(x, y, _) := r_pos r in let rr := sqrt (x * x + y * y) in
  if Reqb rr 0 then (0, 0) else let dzdr := dpoly_loop 0 (s_coefs s) rr 1 0 in (x / rr * dzdr, y / rr * dzdr).
(** 598-605 [gradTotal] *)
Definition grad_total (s : surface) (r : ray) : R * R :=
  let '(gx, gy) := grad_conic s r in
  if s_poly s then let '(px, py) := grad_poly s r in (gx + px, gy + py) else (gx, gy).
(** 591-597 [getNormal] *)
Definition get_normal (s : surface) (r : ray) : vec := let '(gx, gy) := grad_total s r in normalize (- gx, - gy, 1).

(** 703-748 [conicIntercept] *)
Definition conic_intercept (s : surface) (r : ray) : code * ray :=
  let k := s_asph s + 1 in let c := s_curve s in
  let '(x, y, z) := r_pos r in let '(u, v, w) := r_dir r in
  let A := c * (u * u + v * v + k * w * w) in
  let B := 2 * c * (x * u + y * v + k * z * w) - 2 * w in
  let C := c * (x * x + y * y + k * z * z) - 2 * z in
  let '(r1, r2) := both_roots A B C in
  let less := Rmin r1 r2 in let more := Rmax r1 r2 in
  if (Rleb more 0 && Rltb less 0)%bool then (CBack, r)
  else
    let sheet_less := k * c * (z + w * less) in let sheet_more := k * c * (z + w * more) in
    let d := if (Rltb sheet_less 1 && Rltb 0 less)%bool then less
             else if (Rltb sheet_more 1 && Rltb 0 more)%bool then more else 0 in
    if Rleb d 0 then (CMiss, r) else (COk, advance d r).

(** 655-669 [func] *)
Definition surface_gap (s : surface) (r : ray) (d : R) : R * code :=
  let '(zc, c) := zconic s r d in
  if is_ok c then
    let '(_, _, z0) := r_pos r in let '(_, _, w) := r_dir r in (zc + zpoly s r d - (z0 + w * d), COk)
  else (0, c).
(** 671-676 [deriv] *)
Definition gap_slope (s : surface) (r : ray) (d : R) : R :=
  let delta := 0.00001 in (fst (surface_gap s r (d + delta)) - fst (surface_gap s r (d - delta))) / (2 * delta).
(** 686-699, the Newton iterations of [higherIntercept]; [n] more iterations are allowed after this one. Dividing by a
    zero slope makes the coordinates infinite or nan. *)
Fixpoint newton (s : surface) (r : ray) (n : nat) (d : R) : res (code * R) :=
  let '(f, c) := surface_gap s r d in
  if is_ok c then
    let slope := gap_slope s r d in
    if Reqb slope 0 then Err NonFinite
    else
      let d := d - f / slope in
      if Rltb (Rabs f) 1e-12 then Ok (COk, d)
      else match n with O => Ok (COk, d) | S n => newton s r n d end
  else Ok (c, d).
(** 678-701 [higherIntercept] *)
Definition higher_intercept (s : surface) (r : ray) : res (code * ray) :=
  let '(c, r1) := conic_intercept s r in
  if is_ok c then rmap (fun '(c, d) => if is_ok c then (c, advance d r1) else (c, r1)) (newton s r1 8 0)
  else Ok (c, r1).
(** 646-653 [intercept] *)
Definition intercept (s : surface) (r : ray) : res (code * ray) :=
  if s_poly s then higher_intercept s r else Ok (conic_intercept s r).

(** 756-790 [validate] *)
Definition spider_hit (halfwidth rolldeg raydeg r : R) (nlegs : Z) (ileg : nat) : bool :=
  let diff := INR ileg * 360 / IZR nlegs + rolldeg - raydeg in
  let xtemp := Rabs (r * sin (radians diff)) in let ytemp := r * cos (radians diff) in
  (Rltb xtemp halfwidth && Rltb 0 ytemp)%bool.
Definition validate (s : surface) (p : ray) : code :=
  let '(x, y, _) := r_pos p in
  let r := sqrt (x * x + y * y) in
  if (Rltb 0 (s_odiam s) && Rltb (1 / 2 * s_odiam s) r)%bool then COdiam
  else if Rltb r (1 / 2 * s_idiam s) then CIdiam
  else
    let halfwidth := 1 / 2 * s_wspider s in
    if (Z.ltb (s_nspider s) 1 || Rleb halfwidth 0)%bool then COk
    else if existsb (spider_hit halfwidth (s_roll s) (degrees (atan2 y x)) r (s_nspider s)) (seq 0 (Z.to_nat (s_nspider s))) then CSpi
    else COk.

(** 796-856 [redirect]; [next] is the glass of the following surface, [None] for the last surface. *)
Definition or_one (n : R) : R := if Reqb n 0 then 1 else n.
Definition redirect (m : media) (wave : string) (s : surface) (next : option glass) (r : ray) : res (code * ray) :=
  match next with
  | None => Ok (COk, r)
  | Some g =>
      match s_action s with
      | AIris => Ok (COk, r)
      | AMirror =>
          let n := get_normal s r in
          let dotp := dotproduct (r_dir r) n in
          Ok (COk, {| r_pos := r_pos r; r_dir := vadd (r_dir r) (vscale (- (2 * dotp)) n) |})
      | ALens =>
          rbind (find_refraction m wave (s_glass s)) (fun numer =>
          rbind (find_refraction m wave g) (fun denom =>
          let mu := or_one numer / or_one denom in
          let n := get_normal s r in
          let kpar := vscale mu (crossproduct n (crossproduct (r_dir r) n)) in
          let kperp2 := 1 - dotproduct kpar kpar in
          if Rleb kperp2 0 then Ok (CTir, r)
          else
            let kperp := vscale (np_sign (dotproduct n (r_dir r)) * sqrt kperp2) n in
            Ok (COk, {| r_pos := r_pos r; r_dir := vadd kpar kperp |})))
      | ARetro => Ok (COk, {| r_pos := r_pos r; r_dir := vscale (-1) (r_dir r) |})
      | ACBin | ACBout => Ok (COk, r)
      end
  end.

(** 864-890 [labtovx]: the transposed matrix *)
Definition to_local (s : surface) (r : ray) : ray :=
  let '((e11, e12, e13), (e21, e22, e23), (e31, e32, e33)) := s_euler s in
  let '(ox, oy, oz) := s_vertex s in
  let '(X, Y, Z) := r_pos r in let '(U, V, W) := r_dir r in
  let x := X - ox in let y := Y - oy in let z := Z - oz in
  {| r_pos := (x * e11 + y * e21 + z * e31, x * e12 + y * e22 + z * e32, x * e13 + y * e23 + z * e33);
     r_dir := (U * e11 + V * e21 + W * e31, U * e12 + V * e22 + W * e32, U * e13 + V * e23 + W * e33) |}.
(** 901-926 [vxtolab] *)
Definition to_lab (s : surface) (r : ray) : ray :=
  let '((e11, e12, e13), (e21, e22, e23), (e31, e32, e33)) := s_euler s in
  let '(ox, oy, oz) := s_vertex s in
  let '(x, y, z) := r_pos r in let '(u, v, w) := r_dir r in
  {| r_pos := (x * e11 + y * e12 + z * e13 + ox, x * e21 + y * e22 + z * e23 + oy, x * e31 + y * e32 + z * e33 + oz);
     r_dir := (u * e11 + v * e12 + w * e13, u * e21 + v * e22 + w * e23, u * e31 + v * e32 + w * e33) |}.

(** 1423-1430: intercept, validate, redirect *)
Definition encounter (m : media) (wave : string) (s : surface) (next : option glass) (r : ray) : res (code * ray) :=
  rbind (intercept s r) (fun '(c, r1) =>
  if is_ok c then
    let c := validate s r1 in
    if is_ok c then redirect m wave s next r1 else Ok (c, r1)
  else Ok (c, r1)).

(** 1410-1435 [runOneRay] from the surface after [prev] on: the rows written for the surfaces passed (as many as [howfar]),
    and the code that ended the loop. A CBout copies the vertex coordinates of the previous row ([vxtovx], 892-899). *)
Fixpoint run_ray (m : media) (wave : string) (surfs : list surface) (prev : row) : res (list row * code) :=
  match surfs with
  | [] => Ok ([], COk)
  | s :: rest =>
      if is_cbout s then
        let here := {| r_lab := to_lab s (r_loc prev); r_loc := r_loc prev |} in
        rmap (fun '(rows, c) => (here :: rows, c)) (run_ray m wave rest here)
      else
        rbind (encounter m wave s (option_map s_glass (hd_error rest)) (to_local s (r_lab prev))) (fun '(c, r1) =>
        if is_ok c then
          let here := {| r_lab := to_lab s r1; r_loc := r1 |} in
          rmap (fun '(rows, c) => (here :: rows, c)) (run_ray m wave rest here)
        else Ok ([], c))
  end.
(** Row 0: the start in the lab frame, the vertex frame columns never being set. *)
Definition start_row (r : ray) : row := {| r_lab := r; r_loc := {| r_pos := (0, 0, 0); r_dir := (0, 0, 0) |} |}.

(** 1438-1465 [runAllTableRays]: final positions of the rays that pass every surface. *)
Fixpoint run_all (m : media) (wave : string) (surfs : list surface) (starts : list ray) : res (list vec) :=
  match starts with
  | [] => Ok []
  | r :: t =>
      rbind (run_ray m wave surfs (start_row r)) (fun '(rows, _) =>
      rbind (run_all m wave surfs t) (fun finals =>
      Ok (if Nat.eqb (length rows) (length surfs) then r_pos (r_lab (last rows (start_row r))) :: finals else finals)))
  end.
Definition run_all_table_rays (m : media) (wave : string) (surfs : list surface) (starts : list ray) : res (list vec) :=
  rbind (run_all m wave surfs starts) (fun l => if Nat.ltb (length l) 2 then Err (SysExit 0) else Ok l).

(** 1394-1408 [prepForcedRayGroup]: every start gets the direction (u, v). *)
Definition steer (u v : R) (r : ray) : res ray :=
  let '(_, _, w) := r_dir r in rmap (fun w' => {| r_pos := r_pos r; r_dir := (u, v, w') |}) (fixup u v w).

(** 1369-1384 [modifyADC]; rows are numbered from 1. *)
Definition set_roll (s : surface) (roll : R) : surface := with_euler s roll (s_euler s).
Definition modify_adc (adc1 adc2 : R) (surfs : list surface) : res (list surface) :=
  if Nat.ltb (length surfs) 21 then Err IndexError
  else
    Ok (map set_euler
         (map (fun '(j, s) => if Nat.eqb j 11 then set_roll s (- adc1) else if Nat.eqb j 15 then set_roll s adc1
                              else if Nat.eqb j 17 then set_roll s (- adc2) else if Nat.eqb j 21 then set_roll s adc2 else s)
              (combine (seq 1 (length surfs)) surfs))).

(** 1030-1031 *)
Definition fraunhofer : list string := ["i"; "g"; "F"; "d"; "R"; "C"; "s"; "t"]%string.
(** [np.std] of a non-empty array *)
Definition std (l : list R) : R :=
  let n := INR (length l) in let m := Rsum l / n in sqrt (Rsum (map (fun x => (x - m) ^ 2) l) / n).

(** 1656-1668, the loop of [getNine] over the wavelengths; the directions of the starts are kept from one to the next. *)
Fixpoint trace_waves (m : media) (surfs : list surface) (starts : list ray) (wuv : list (nat * R * R)) : res (list (list vec)) :=
  match wuv with
  | [] => Ok []
  | (w, u, v) :: t =>
      match nth_error fraunhofer w with
      | None => Err IndexError
      | Some wave =>
          rbind (rmapM (steer u v) starts) (fun starts =>
          rbind (run_all_table_rays m wave surfs starts) (fun pts =>
          rbind (trace_waves m surfs starts t) (fun l => Ok (pts :: l))))
      end
  end.
(** 1609-1676 [getNine], after the three tables are read: ADC angles, number of good rays, averages and standard deviations.
    The averages of a list of arrays of different lengths raise ValueError. *)
Record nine := { n_adc1 : R; n_adc2 : R; n_good : nat; n_ave : vec; n_rms : vec }.
Definition get_nine (m : media) (surfs : list surface) (starts : list ray) (adc1 adc2 : R) (wuv : list (nat * R * R)) : res nine :=
  match wuv with
  | [] => Err (SysExit 0)
  | _ =>
      rbind (modify_adc adc1 adc2 surfs) (fun surfs =>
      rbind (trace_waves m surfs starts wuv) (fun l =>
      let n0 := length (hd [] l) in
      if forallb (fun pts => Nat.eqb (length pts) n0) l then
        let all := concat l in
        let xs := map (fun '(x, _, _) => x) all in let ys := map (fun '(_, y, _) => y) all in let zs := map (fun '(_, _, z) => z) all in
        let ave l := Rsum l / INR (length l) in
        Ok {| n_adc1 := adc1; n_adc2 := adc2; n_good := length all;
              n_ave := (ave xs, ave ys, ave zs); n_rms := (std xs, std ys, std zs) |}
      else Err ValueError))
  end.
