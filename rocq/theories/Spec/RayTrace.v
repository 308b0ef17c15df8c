(** Geometrical optics: surfaces of revolution, reflection, refraction, apertures. *)
From Coq Require Import List Reals.
From Coquelicot Require Import Coquelicot.
From Verif.Spec Require Import Sphere.
Import ListNotations.
Local Open Scope R_scope.

Notation vec := (R * R * R)%type (only parsing).
(** Distance to the z axis, squared. *)
Definition axis2 (p : vec) : R := let '(x, y, _) := p in x ^ 2 + y ^ 2.
Definition height (p : vec) : R := let '(_, _, z) := p in z.

(** Conic surface of curvature [c] and asphericity [k] (0 for a sphere, -1 for a paraboloid): the sheet through the
    origin, below its rim. *)
Definition conic_z (c k r2 : R) : R := c * r2 / (1 + sqrt (1 - (1 + k) * c ^ 2 * r2)).
Definition on_conic (c k : R) (p : vec) : Prop := 0 < 1 - (1 + k) * c ^ 2 * axis2 p /\ height p = conic_z c k (axis2 p).
(** The direction [u] is orthogonal at [p] to the gradient of the quadratic form whose zeros are the conic. *)
Definition tangential (c k : R) (p u : vec) : Prop :=
  let '(x, y, z) := p in inner u (c * x, c * y, c * (1 + k) * z - 1) = 0.
(** Point at the (signed) distance [d] along a ray. *)
Definition along (p u : vec) (d : R) : vec := plus p (times d u).

(** a1 r + a2 r^2 + ... *)
Fixpoint radial_z (coefs : list R) (r : R) : R := match coefs with [] => 0 | a :: t => r * (a + radial_z t r) end.
Definition sag (c k : R) (coefs : list R) (x y : R) : R := conic_z c k (x ^ 2 + y ^ 2) + radial_z coefs (sqrt (x ^ 2 + y ^ 2)).
(** Height of the surface above the point at [d] of a ray, and 0 beyond the rim of the conic. *)
Definition above (c k : R) (coefs : list R) (p u : vec) (d : R) : R :=
  let '(x, y, z) := along p u d in if Rle_dec 0 (1 - (1 + k) * c ^ 2 * (x ^ 2 + y ^ 2)) then sag c k coefs x y - z else 0.
(** Iterations of Newton's method for a zero of [f], from 0, with the slope taken over [2 h]. *)
Fixpoint newton_point (f : R -> R) (h : R) (n : nat) : R :=
  match n with O => 0 | S n => let d := newton_point f h n in d - f d / ((f (d + h) - f (d - h)) / (2 * h)) end.
(** [n] is the unit normal, pointing to larger z, of the graph of [f] above (x, y). *)
Definition unit_normal (f : R -> R -> R) (x y : R) (n : vec) : Prop :=
  exists gx gy l, is_derive (fun t => f t y) x gx /\ is_derive (fun t => f x t) y gy /\
    0 < l /\ n = times l (- gx, - gy, 1) /\ inner n n = 1.

(** Reflection: the component along the normal changes sign, the components in the tangent plane are kept. *)
Definition reflected (n u u' : vec) : Prop := inner u' n = - inner u n /\ forall t, inner t n = 0 -> inner u' t = inner u t.
(** Refraction from index [n1] to [n2] (Snell): [u'] is a unit vector on the same side; the components in the tangent plane are
    multiplied by n1/n2. *)
Definition refracted (n1 n2 : R) (n u u' : vec) : Prop :=
  inner u' u' = 1 /\ 0 < inner u n * inner u' n /\ forall t, inner t n = 0 -> n2 * inner u' t = n1 * inner u t.

(** Spider leg of width [w] starting on the axis in the direction [phi] (degrees): the point is on the leg. *)
Definition under_leg (w phi : R) (p : vec) : Prop :=
  let '(x, y, _) := p in let c := cos (PI * phi / 180) in let s := sin (PI * phi / 180) in
  Rabs (x * s - y * c) < w / 2 /\ 0 < x * c + y * s.
(** Outer diameter [od] (none if not positive), inner diameter [id], [legs] legs of width [w], the first at the angle [roll]. *)
Definition open_at (od id : R) (legs : Z) (w roll : R) (p : vec) : Prop :=
  (0 < od -> sqrt (axis2 p) <= od / 2) /\ id / 2 <= sqrt (axis2 p) /\
  forall j, (0 <= j < legs)%Z -> ~ under_leg w (roll + IZR j * 360 / IZR legs) p.

(** Rotation around the z axis by [a] degrees. *)
Definition turned (a : R) (p : vec) : vec :=
  let '(x, y, z) := p in let c := cos (PI * a / 180) in let s := sin (PI * a / 180) in (c * x - s * y, s * x + c * y, z).

(** The surface has a tangent plane at [p]: below the rim of the conic, and not on a cusp at its vertex. *)
Definition smooth_at (c k : R) (coefs : list R) (p : vec) : Prop :=
  0 < 1 - (1 + k) * c ^ 2 * axis2 p /\ (0 < axis2 p \/ hd 0 coefs = 0).
