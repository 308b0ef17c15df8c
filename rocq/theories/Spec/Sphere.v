(** Directions on the sphere and rotations, for angles in degrees. *)
From Coq Require Import Reals.
Local Open Scope R_scope.

(** Unit vector with longitude [lon] and latitude [lat]. *)
Definition unit_vector (lon lat : R) : R * R * R :=
  (cos (PI * lon / 180) * cos (PI * lat / 180), sin (PI * lon / 180) * cos (PI * lat / 180), sin (PI * lat / 180)).
Definition inner (u v : R * R * R) : R := let '(a, b, c) := u in let '(x, y, z) := v in a * x + b * y + c * z.
Definition times (k : R) (v : R * R * R) : R * R * R := let '(x, y, z) := v in (k * x, k * y, k * z).
Definition plus (u v : R * R * R) : R * R * R := let '(a, b, c) := u in let '(x, y, z) := v in (a + x, b + y, c + z).
(** Rows of a 3x3 matrix, and its action. *)
Definition act (m : (R * R * R) * (R * R * R) * (R * R * R)) (v : R * R * R) : R * R * R :=
  let '(r1, r2, r3) := m in (inner r1 v, inner r2 v, inner r3 v).
Definition transposed (m : (R * R * R) * (R * R * R) * (R * R * R)) : (R * R * R) * (R * R * R) * (R * R * R) :=
  let '((a, b, c), (d, e, f), (g, h, i)) := m in ((a, d, g), (b, e, h), (c, f, i)).
(** The rows are unit vectors orthogonal to each other, with determinant 1. *)
Definition is_rotation (m : (R * R * R) * (R * R * R) * (R * R * R)) : Prop :=
  let '((a, b, c), (d, e, f), (g, h, i)) := m in
  let r1 := (a, b, c) in let r2 := (d, e, f) in let r3 := (g, h, i) in
  inner r1 r1 = 1 /\ inner r2 r2 = 1 /\ inner r3 r3 = 1 /\ inner r1 r2 = 0 /\ inner r1 r3 = 0 /\ inner r2 r3 = 0 /\
  a * (e * i - f * h) - b * (d * i - f * g) + c * (d * h - e * g) = 1.
(** Equatorial coordinates of a vector given in ecliptic coordinates: a rotation by the obliquity [e] around the x axis. *)
Definition from_ecliptic (e : R) (v : R * R * R) : R * R * R :=
  let '(x, y, z) := v in let c := cos (PI * e / 180) in let s := sin (PI * e / 180) in (x, c * y - s * z, s * y + c * z).
(** Mirror image of [v] through the plane orthogonal to the unit vector [n]. *)
Definition mirrored (n v : R * R * R) : R * R * R := plus v (times (- 2 * inner v n) n).
(** Every component differs by at most [eps]. *)
Definition close3 (eps : R) (u v : R * R * R) : Prop := let '(a, b, c) := u in let '(x, y, z) := v in Rabs (a - x) <= eps /\ Rabs (b - y) <= eps /\ Rabs (c - z) <= eps.
Definition close9 (eps : R) (m n : (R * R * R) * (R * R * R) * (R * R * R)) : Prop :=
  let '(a, b, c) := m in let '(x, y, z) := n in close3 eps a x /\ close3 eps b y /\ close3 eps c z.
(** Components towards the north, the east and the zenith, for a place at latitude [lat], of a vector given in hour angle and declination. *)
Definition horizontal (lat : R) (u : R * R * R) : R * R * R :=
  (inner u (unit_vector 180 (90 - lat)), inner u (unit_vector (-90) 0), inner u (unit_vector 0 lat)).
