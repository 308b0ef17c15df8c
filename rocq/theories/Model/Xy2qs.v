(** Model of /repo/py/desimeter/transform/xy2qs.py and of ptl2flat, flat2ptl in
    /repo/py/desimeter/transform/pos2ptl.py. One point; numpy applies the functions entry by
    entry. Real arithmetic, decimal literals exact. *)
From Verif.Model Require Export Trig.
Local Open Scope R_scope.

(** [np.poly1d(c)(x)]: coefficients with the highest degree first, evaluated by Horner's rule. *)
Definition poly1d (c : list R) (x : R) : R := fold_left (fun y a => y * x + a) c 0.
(** [np.hypot] *)
Definition hypot (x y : R) : R := sqrt (x ^ 2 + y ^ 2).

(** xy2qs.py:51 *)
Definition r2s_coefs : list R :=
  [-3.01232440e-03; 1.45324708e-02; -2.55244612e-02; 2.15885180e-02; -8.05287872e-03;
   2.05529419e-03; 9.99773920e-01; 9.12275165e-06].
(** xy2qs.py:61 *)
Definition s2r_coefs : list R :=
  [-2.60833797e-03; 6.40671681e-03; -5.64913181e-03; 6.99354170e-04; -2.13171265e-04;
   1.00000009e+00; 9.75790364e-07].
(** xy2qs.py:43-54 *)
Definition r2s (r : R) : R := 400 * poly1d r2s_coefs (r / 400).
(** xy2qs.py:56-64 *)
Definition s2r (s : R) : R := 400 * poly1d s2r_coefs (s / 400).

(** xy2qs.py:4-21 *)
Definition xy2qs (x y : R) : R * R :=
  let r := hypot x y in let s := r2s r in let q := arctan2d y x in (q, s).
(** xy2qs.py:23-41 *)
Definition qs2xy (q s : R) : R * R :=
  let r := s2r s in (r * cosdeg q, r * sindeg q).
(** xy2qs.py:67-72 *)
Definition xy2uv (x y : R) : R * R :=
  let '(q, s) := xy2qs x y in let qrad := radians q in (s * cos qrad, s * sin qrad).
(** xy2qs.py:74-78 *)
Definition uv2xy (u v : R) : R * R :=
  let s := hypot u v in let q := arctan2d v u in qs2xy q s.

(** pos2ptl.py:80-87 *)
Definition ptl2flat (x_ptl y_ptl : R) : R * R :=
  let q := atan2 y_ptl x_ptl in let r := hypot x_ptl y_ptl in let s := r2s r in (s * cos q, s * sin q).
(** pos2ptl.py:89-96 *)
Definition flat2ptl (x_flat y_flat : R) : R * R :=
  let q := atan2 y_flat x_flat in let s := hypot x_flat y_flat in let r := s2r s in (r * cos q, r * sin q).
