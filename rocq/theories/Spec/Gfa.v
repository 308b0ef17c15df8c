(** The map from the pixels of a guide camera to the focal plane that fits best the four corners of its sensor. *)
From Coq Require Import List Reals.
Local Open Scope R_scope.

(** Corner pixels (0,0), (2047,0), (2047,1031), (0,1031) measured at v0..v3: the sides are averaged. *)
Definition corner_fit (v0 v1 v2 v3 : R) (p : R * R) : R :=
  (3 * v0 + v1 - v2 + v3) / 4 + (v1 - v0 + v2 - v3) / (2 * 2047) * fst p + (v3 - v0 + v2 - v1) / (2 * 1031) * snd p.
(** Normal of the plane through three points. *)
Definition normal_of (a b c : R * R * R) : R * R * R :=
  let '(x0, y0, z0) := a in let '(x1, y1, z1) := b in let '(x2, y2, z2) := c in
  let '(u, v, w) := (x1 - x0, y1 - y0, z1 - z0) in let '(u', v', w') := (x2 - x1, y2 - y1, z2 - z1) in
  (v * w' - w * v', w * u' - u * w', u * v' - v * u').
