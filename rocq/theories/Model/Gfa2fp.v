(** Model of /repo/py/desimeter/transform/gfa2fp.py, for a given metrology table; the module level cache of the
    fitted transforms is not modelled. *)
From Verif.Model Require Export SimpleCorr Fvc2fp.
Local Open Scope R_scope.

(** A row of the metrology table. *)
Record gfa_row := { g_is_gfa : bool; g_petal : Z; g_pinhole : Z; g_x : R; g_y : R; g_z : R }.
(** gfa2fp.py:66, 76-77 *)
Definition xgfa : list R := [0; 2047; 2047; 0].
Definition ygfa : list R := [0; 0; 1031; 1031].

Definition cross (u v : R * R * R) : R * R * R :=
  let '(a, b, c) := u in let '(x, y, z) := v in (b * z - c * y, c * x - a * z, a * y - b * x).
Definition sub3 (u v : R * R * R) : R * R * R := let '(a, b, c) := u in let '(x, y, z) := v in (a - x, b - y, c - z).
(** [v /= np.sqrt(np.sum(v**2))] *)
Definition normalize3 (v : R * R * R) : res (R * R * R) :=
  let '(x, y, z) := v in let n := sqrt (x ^ 2 + y ^ 2 + z ^ 2) in
  if Reqb n 0 then Err NonFinite else Ok (x / n, y / n, z / n).
Definition g_xyz (g : gfa_row) : R * R * R := (g_x g, g_y g, g_z g).
(** gfa2fp.py:92-114: the shift of the offsets *)
Definition gfa_shift (rows : list gfa_row) : res (R * R) :=
  rbind (geti rows 0) (fun r0 => rbind (geti rows 1) (fun r1 => rbind (geti rows 2) (fun r2 =>
  rbind (normalize3 (sub3 (g_xyz r1) (g_xyz r0))) (fun x01 =>
  rbind (normalize3 (sub3 (g_xyz r2) (g_xyz r1))) (fun x12 =>
  let '(n0, n1, n2) := cross x01 x12 in
  if Reqb n2 0 then Err NonFinite else Ok (2.23 * n0 / n2, 2.23 * n1 / n2)))))).
Definition shift_corr (c : simplecorr) (d : R * R) : simplecorr :=
  {| c_dx := c_dx c + fst d; c_dy := c_dy c + snd d; c_sxx := c_sxx c; c_syy := c_syy c; c_sxy := c_sxy c; c_rot_deg := c_rot_deg c; c_nmatch := c_nmatch c; c_rms := c_rms c |}.
(** gfa2fp.py:84-115 for the rows of one petal. *)
Definition fit_petal (rows : list gfa_row) : res simplecorr :=
  rbind (corr_fit simplecorr_init xgfa ygfa (map g_x rows) (map g_y rows) false) (fun c =>
  rbind (gfa_shift rows) (fun d => Ok (shift_corr c d))).
(** Values that are not numbers do not raise: they are stored and show when the transform is used. *)
Definition store (r : res simplecorr) : res (res simplecorr) := match r with Err NonFinite => Ok (Err NonFinite) | Err e => Err e | Ok c => Ok (Ok c) end.

Section Gfa.
Variable argsort : forall K, (K -> K -> bool) -> list K -> list nat.
Definition gfa_key (g : gfa_row) : Z * Z := (g_petal g, g_pinhole g).
(** gfa2fp.py:59-117 *)
Definition fit_gfa2fp (metrology : list gfa_row) : res (list (Z * res simplecorr)) :=
  rbind (sort_rows argsort gfa_key (filter g_is_gfa metrology)) (fun rows =>
  rmap (fun l => List.concat l) (rmapM (fun p =>
    match filter (fun g => Z.eqb (g_petal g) p) rows with
    | [] => Ok []
    | sel => rmap (fun c => [(p, c)]) (store (fit_petal sel))
    end) [0; 1; 2; 3; 4; 5; 6; 7; 8; 9]%Z)).
(** [_gfa_transforms[petal_loc]] *)
Definition gfa_transform (metrology : list gfa_row) (petal_loc : Z) : res simplecorr :=
  rbind (fit_gfa2fp metrology) (fun d =>
  match find (fun e => Z.eqb (fst e) petal_loc) d with Some (_, c) => c | None => Err KeyError end).
(** gfa2fp.py:13-57 *)
Definition gfa2fp (metrology : list gfa_row) (petal_loc : Z) (p : point) : res point :=
  rbind (gfa_transform metrology petal_loc) (fun c => Ok (corr_apply c p)).
Definition fp2gfa (metrology : list gfa_row) (petal_loc : Z) (p : point) : res point :=
  rbind (gfa_transform metrology petal_loc) (fun c => corr_apply_inverse c p).
End Gfa.
