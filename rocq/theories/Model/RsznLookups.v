(** Model of /repo/py/desimeter/transform/rszn_lookups.py. Real arithmetic; [None] is NaN.
    One value; numpy applies np.interp entry by entry. *)
From Verif.Model Require Export RealNum FocalSurfaceTable.
Local Open Scope R_scope.

(** The bisection of numpy's interp (binary_search_with_guess in compiled_base.c, whose guess from
    the previous entry only saves time). Returns 1 + the index of the last entry not above x. *)
Fixpoint bisect (fuel : nat) (arr : list R) (x : R) (imin imax : nat) : nat :=
  match fuel with
  | O => imin
  | S fuel =>
    if Nat.ltb imin imax then
      let imid := (imin + (imax - imin) / 2)%nat in
      if Rleb (nth imid arr 0) x then bisect fuel arr x (S imid) imax else bisect fuel arr x imin imid
    else imin
  end.
(** [np.interp(x, xp, fp, left=nan, right=nan)] for finite x and non-empty xp: numpy first looks
    right of the last entry, then left of the first one, then searches. *)
Definition interp (xp fp : list R) (x : R) : option R :=
  let n := length xp in
  if Rltb (nth (n - 1) xp 0) x then None
  else if Rltb x (nth 0 xp 0) then None
  else
    let j := (bisect n xp x 0 n - 1)%nat in
    if Nat.eqb j (n - 1) then Some (nth j fp 0)
    else if Reqb (nth j xp 0) x then Some (nth j fp 0)
    else
      let slope := (nth (S j) fp 0 - nth j fp 0) / (nth (S j) xp 0 - nth j xp 0) in
      Some (slope * (x - nth j xp 0) + nth j fp 0).
(** np.interp of NaN is NaN. *)
Definition or_nan (f : R -> option R) (x : option R) : option R := match x with Some x => f x | None => None end.

(** rszn_lookups.py:27-32 *)
Definition col_R : list R := map (fun '(r, _, _, _) => IZR r) focal_surface_lookup.
Definition col_Z : list R := map (fun '(_, z, _, _) => IZR z / 10 ^ 9) focal_surface_lookup.
Definition col_S : list R := map (fun '(_, _, s, _) => IZR s / 10 ^ 9) focal_surface_lookup.
Definition col_N : list R := map (fun '(_, _, _, n) => IZR n / 10 ^ 9) focal_surface_lookup.

(** rszn_lookups.py:36-58 *)
Definition r2s (r : R) : option R := interp col_R col_S r.
Definition s2r (s : R) : option R := interp col_S col_R s.
Definition r2z (r : R) : option R := interp col_R col_Z r.
Definition z2r (z : R) : option R := interp col_Z col_R z.
Definition r2n (r : R) : option R := interp col_R col_N r.
Definition n2r (n : R) : option R := interp col_N col_R n.
(** rszn_lookups.py:60-78 *)
Definition s2n (s : R) : option R := or_nan r2n (s2r s).
Definition s2z (s : R) : option R := or_nan r2z (s2r s).
Definition z2s (z : R) : option R := or_nan r2s (z2r z).
Definition n2s (n : R) : option R := or_nan r2s (n2r n).
