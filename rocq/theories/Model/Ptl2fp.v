(** Model of /repo/py/desimeter/transform/ptl2fp.py. Real arithmetic; one point for ptl2fp and
    fp2ptl (numpy treats the columns of the 3 x n arrays separately), whole tables for
    apply_ptl2fp. [None] is NaN. *)
From Verif.Model Require Export RsznLookups Numpy.
Local Open Scope R_scope.

Notation vec3 := (R * R * R)%type (only parsing).
Notation mat3 := (vec3 * vec3 * vec3)%type (only parsing).
Definition dot3 (a b : vec3) : R := let '(a1, a2, a3) := a in let '(b1, b2, b3) := b in a1 * b1 + a2 * b2 + a3 * b3.
Definition add3 (a b : vec3) : vec3 := let '(a1, a2, a3) := a in let '(b1, b2, b3) := b in (a1 + b1, a2 + b2, a3 + b3).
Definition sub3 (a b : vec3) : vec3 := let '(a1, a2, a3) := a in let '(b1, b2, b3) := b in (a1 - b1, a2 - b2, a3 - b3).
Definition transpose (m : mat3) : mat3 :=
  let '((a1, a2, a3), (b1, b2, b3), (c1, c2, c3)) := m in ((a1, b1, c1), (a2, b2, c2), (a3, b3, c3)).
(** [m.dot(v)] *)
Definition mdot (m : mat3) (v : vec3) : vec3 := let '(r1, r2, r3) := m in (dot3 r1 v, dot3 r2 v, dot3 r3 v).
(** [m @ n] *)
Definition mmul (m n : mat3) : mat3 :=
  let '(r1, r2, r3) := m in let t := transpose n in (mdot t r1, mdot t r2, mdot t r3).

(** ptl2fp.py:14-20 *)
Definition Rx (angle : R) : mat3 := ((1, 0, 0), (0, cos angle, - sin angle), (0, sin angle, cos angle)).
(** ptl2fp.py:22-28 *)
Definition Ry (angle : R) : mat3 := ((cos angle, 0, sin angle), (0, 1, 0), (- sin angle, 0, cos angle)).
(** ptl2fp.py:30-36 *)
Definition Rz (angle : R) : mat3 := ((cos angle, - sin angle, 0), (sin angle, cos angle, 0), (0, 0, 1)).
(** ptl2fp.py:38-39 *)
Definition Rxyz (alpha beta gamma : R) : mat3 := mmul (mmul (Rz gamma) (Ry beta)) (Rx alpha).

Record alignment := { alpha : R; beta : R; gamma : R; Tx : R; Ty : R; Tz : R }.
Notation alignments := (dict Z alignment) (only parsing).
Definition rotation (p : alignment) : mat3 := Rxyz (alpha p) (beta p) (gamma p).
Definition translation (p : alignment) : vec3 := (Tx p, Ty p, Tz p).

(** The nominal height used when z is omitted: ptl2fp.py:75-77 and 105-107. *)
Definition nominal_z (x y : R) (z : option R) : option R :=
  match z with Some z => Some z | None => r2z (sqrt (x ^ 2 + y ^ 2)) end.

(** ptl2fp.py:74-86; a NaN height makes the three coordinates NaN. *)
Definition ptl2fp (d : alignments) (petal_loc : Z) (x y : R) (z : option R) : res (option vec3) :=
  rbind (dict_getE Z.eqb d petal_loc) (fun p =>
  Ok (option_map (fun z => add3 (mdot (rotation p) (x, y, z)) (translation p)) (nominal_z x y z))).
(** ptl2fp.py:88-113 *)
Definition fp2ptl (d : alignments) (petal_loc : Z) (x y : R) (z : option R) : res (option vec3) :=
  rbind (dict_getE Z.eqb d petal_loc) (fun p =>
  Ok (option_map (fun z => mdot (transpose (rotation p)) (sub3 (x, y, z) (translation p))) (nominal_z x y z))).

(** ptl2fp.py:61-66, the body of the loop over the petals. *)
Definition apply_petal (d : alignments) (petal_loc : list Z) (xyzptl : list vec3) (xyzfp : list vec3) (petal : Z) : res (list vec3) :=
  let ii := where_ (Z.eqb petal) petal_loc in
  rbind (dict_getE Z.eqb d petal) (fun p =>
  rbind (take xyzptl ii) (fun pts =>
  set_each xyzfp (combine ii (map (fun v => add3 (mdot (rotation p) v) (translation p)) pts)))).
Fixpoint apply_petals (d : alignments) (petal_loc : list Z) (xyzptl : list vec3) (xyzfp : list vec3) (petals : list Z) : res (list vec3) :=
  match petals with
  | [] => Ok xyzfp
  | petal :: r => rbind (apply_petal d petal_loc xyzptl xyzfp petal) (fun xyzfp' => apply_petals d petal_loc xyzptl xyzfp' r)
  end.
(** ptl2fp.py:47-72: the columns PETAL_LOC and (X_PTL, Y_PTL, Z_PTL) of a table, as lists of the same
    length; the result is the new columns (X_FP, Y_FP, Z_FP). *)
Definition apply_ptl2fp (d : alignments) (petal_loc : list Z) (xyzptl : list vec3) : res (list vec3) :=
  apply_petals d petal_loc xyzptl (repeat (0, 0, 0) (length petal_loc)) (unique petal_loc).

(** /repo/py/desimeter/data/petal-alignments.yaml:2-71 *)
Definition petal_alignments : alignments := [
  (0%Z, {| alpha := 0.0; beta := 0.0; gamma := -1.885372167; Tx := 0.1175; Ty := 0.0397; Tz := 0.0 |});
  (1%Z, {| alpha := 0.0; beta := 0.0; gamma := -1.256503195; Tx := 0.0158; Ty := -0.0133; Tz := 0.0 |});
  (2%Z, {| alpha := 0.0; beta := 0.0; gamma := -0.628304778; Tx := -0.0125; Ty := 0.0111; Tz := 0.0 |});
  (3%Z, {| alpha := 0.0; beta := 0.0; gamma := 0.000211098; Tx := -0.0133; Ty := -0.0258; Tz := 0.0 |});
  (4%Z, {| alpha := 0.0; beta := 0.0; gamma := 0.628135812; Tx := -0.0104; Ty := 0.0815; Tz := 0.0 |});
  (5%Z, {| alpha := 0.0; beta := 0.0; gamma := 1.256690922; Tx := -0.0643; Ty := 0.012; Tz := 0.0 |});
  (6%Z, {| alpha := 0.0; beta := 0.0; gamma := 1.885428; Tx := 0.0106; Ty := 0.0638; Tz := 0.0 |});
  (7%Z, {| alpha := 0.0; beta := 0.0; gamma := 2.513129889; Tx := 0.0476; Ty := -0.1252; Tz := 0.0 |});
  (8%Z, {| alpha := 0.0; beta := 0.0; gamma := 3.141578953; Tx := -0.057; Ty := -0.035; Tz := 0.0 |});
  (9%Z, {| alpha := 0.0; beta := 0.0; gamma := 3.769783444; Tx := -0.034; Ty := -0.0089; Tz := 0.0 |})].
