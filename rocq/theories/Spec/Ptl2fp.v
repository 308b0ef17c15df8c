(** Points of space. *)
From Coq Require Import Reals.
Local Open Scope R_scope.

Definition distance3 (p q : R * R * R) : R :=
  let '(x, y, z) := p in let '(x', y', z') := q in sqrt ((x - x') ^ 2 + (y - y') ^ 2 + (z - z') ^ 2).
(** Six times the signed volume of the tetrahedron with these vertices: positive or negative
    with its handedness. *)
Definition volume6 (o p q r : R * R * R) : R :=
  let '(ox, oy, oz) := o in let '(px, py, pz) := p in let '(qx, qy, qz) := q in let '(rx, ry, rz) := r in
  let ax := px - ox in let ay := py - oy in let az := pz - oz in
  let bx := qx - ox in let by_ := qy - oy in let bz := qz - oz in
  let cx := rx - ox in let cy := ry - oy in let cz := rz - oz in
  ax * (by_ * cz - bz * cy) - ay * (bx * cz - bz * cx) + az * (bx * cy - by_ * cx).
(** Right handed rotations by an angle (radians) about the axes. *)
Definition about_x (a : R) (p : R * R * R) : R * R * R :=
  let '(x, y, z) := p in (x, y * cos a - z * sin a, y * sin a + z * cos a).
Definition about_y (a : R) (p : R * R * R) : R * R * R :=
  let '(x, y, z) := p in (z * sin a + x * cos a, y, z * cos a - x * sin a).
Definition about_z (a : R) (p : R * R * R) : R * R * R :=
  let '(x, y, z) := p in (x * cos a - y * sin a, x * sin a + y * cos a, z).
