(** Model of the Gaussian process part of /repo/py/desimeter/turbulence.py (lines 145-605). Arrays are lists, matrices lists of rows, arithmetic exact (the
    matrix of [make_covar_gradwavefront_nonoise] is stored in single precision in the code). A result which numpy would give as NaN or infinity is [Err NonFinite]. *)
From Verif.Model Require Export Stats KeyMatch.
From Coq Require Import Reals.
Local Open Scope R_scope.

Notation pos := (R * R)%type (only parsing).
(** a row of [data]: position (x, y), offset (dx, dy) *)
Record datum := { d_pos : R * R; d_dx : R; d_dy : R }.

(** *** linear algebra *)
Definition unit_vec (n j : nat) : list R := map (fun i => if Nat.eqb i j then 1 else 0) (seq 0 n).
Definition transpose (n : nat) (cols : list (list R)) : list (list R) := map (fun i => map (fun c => nth i c 0) cols) (seq 0 n).
(** [np.linalg.inv] *)
Definition linalg_inv (A : list (list R)) : res (list (list R)) := rmap (transpose (length A)) (rmapM (fun j => linalg_solve A (unit_vec (length A) j)) (seq 0 (length A))).
(** [scipy.linalg.cho_factor]: the squares of the diagonal of the factor; LinAlgError if the matrix is not positive definite *)
Fixpoint pivots (n : nat) (A : list (list R)) : option (list R) :=
  match n with
  | O => Some []
  | S m => match A with
           | (a :: b) :: rows => if Rltb 0 a then match pivots m (map (fun r => axpy (tl r) (- (hd 0 r / a)) b) rows) with Some l => Some (a :: l) | None => None end else None
           | _ => None
           end
  end.
Definition cho_factor (A : list (list R)) : res (list R) := match pivots (length A) A with Some l => Ok (map sqrt l) | None => Err LinAlgError end.
(** [scipy.linalg.cho_solve] for that matrix: the solution of [A x = b] *)
Definition cho_solve (A : list (list R)) (b : list R) : res (list R) := rbind (cho_factor A) (fun _ => linalg_solve A b).
(** [A + c * np.eye(n)] *)
Definition add_diag (c : R) (A : list (list R)) : list (list R) :=
  map (fun ir => map (fun jv => if Nat.eqb (fst ir) (fst jv) then snd jv + c else snd jv) (combine (seq 0 (length (snd ir))) (snd ir))) (combine (seq 0 (length A)) A).
Definition mat_scale (c : R) (A : list (list R)) : list (list R) := map (map (fun v => v * c)) A.

(** *** independent x and y *)
Definition clip (lo hi x : R) : R := Rmin (Rmax x lo) hi.
Definition dist2 (p q : pos) : R := (fst p - fst q) ^ 2 + (snd p - snd q) ^ 2.
(** lines 203-215, one element; [param] is (sigma, aa, ll) or, in rq mode, (sigma, aa, ll, alpha) *)
Definition kernel (rq : bool) (param : list R) : res (pos -> pos -> R) :=
  match rq, param with
  | false, [_; aa; ll] => if Reqb ll 0 then Err NonFinite else Ok (fun p q => aa ^ 2 * exp (- (dist2 p q / ll ^ 2) / 2))
  | true, [_; aa; ll; alpha] => if Reqb ll 0 then Err NonFinite else let al := clip 0.1 1000 alpha in Ok (fun p q => aa ^ 2 * Rpower (1 + dist2 p q / ll ^ 2 / (2 * al)) (- al))
  | _, _ => Err ValueError
  end.
Definition cov_matrix (k : pos -> pos -> R) (ps qs : list pos) : list (list R) := map (fun q => map (fun p => k p q) ps) qs.
(** lines 218-234 *)
Definition make_covar_independent (rq : bool) (data : list datum) (param : list R) : res (list (list R)) :=
  rmap (fun k => add_diag (hd 0 param ^ 2) (cov_matrix k (map d_pos data) (map d_pos data))) (kernel rq param).
(** lines 237-261 *)
Definition loss_independent (rq : bool) (data : list datum) (param : list R) : res R :=
  rbind (make_covar_independent rq data param) (fun covar =>
  rbind (cho_factor covar) (fun diag =>
  rbind (linalg_solve covar (map d_dx data)) (fun cx => rbind (linalg_solve covar (map d_dy data)) (fun cy =>
  Ok (/ 2 * (dot (map d_dx data) cx + dot (map d_dy data) cy + 2 * 2 * Rsum (map ln diag))))))).

(** *** gradient of a wavefront: lines 145-177 *)
Definition grad_entries (aa ll : R) (p q : pos) : R * R * R :=
  let xd := (fst p - fst q) / ll in let yd := (snd p - snd q) / ll in let g := aa ^ 2 * exp (- (xd ^ 2 + yd ^ 2) / 2) in
  ((1 - xd * xd) * g, - xd * yd * g, (1 - yd * yd) * g).
Definition make_covar_gradwavefront_nonoise (rq : bool) (param : list R) (ps qs : list pos) : res (list (list R)) :=
  if rq then Err ValueError else
  match param with
  | [_; aa; ll] =>
      if Reqb ll 0 then Err NonFinite else
      let e p q := grad_entries aa ll p q in
      Ok (map (fun q => map (fun p => fst (fst (e p q))) ps ++ map (fun p => snd (fst (e p q))) ps) qs ++ map (fun q => map (fun p => snd (fst (e p q))) ps ++ map (fun p => snd (e p q)) ps) qs)
  | _ => Err ValueError
  end.
Definition make_covar_gradwavefront (rq : bool) (data : list datum) (param : list R) : res (list (list R)) :=
  rmap (add_diag (hd 0 param ^ 2)) (make_covar_gradwavefront_nonoise rq param (map d_pos data) (map d_pos data)).
(** lines 180-200 *)
Definition loss_gradwavefront (rq : bool) (data : list datum) (param : list R) : res R :=
  let dvec := map d_dx data ++ map d_dy data in
  rbind (make_covar_gradwavefront rq data param) (fun covar =>
  rbind (cho_factor covar) (fun diag => rbind (linalg_solve covar dvec) (fun c => Ok (/ 2 * (dot dvec c + 2 * Rsum (map ln diag)))))).

(** *** fitted covariance: lines 289-321. [minimize loss guess] is [res.x] of scipy.optimize.minimize, or an exception raised by [loss]. *)
Section Solve.
Variable argsort : forall K, (K -> K -> bool) -> list K -> list nat.
Variable minimize : (list R -> res R) -> list R -> res (list R).
Definition central (nuse : Z) (data : list datum) : res (list datum) :=
  if (0 <? nuse)%Z then rmapM (geti data) (firstn (Z.to_nat nuse) (argsort R Rltb (map (fun d => fst (d_pos d) ^ 2 + snd (d_pos d) ^ 2) data))) else Ok data.
Definition fit_param (lossfun : bool -> list datum -> list R -> res R) (rq : bool) (nuse : Z) (data : list datum) : res (list R) :=
  rbind (central nuse data) (fun datause => minimize (lossfun rq datause) ([0.01; 0.01; 10] ++ if rq then [2] else [])).

(** lines 513-533 and 580-599, 535-538 and 601-604, for the matrix [covar] and the vector(s) of offsets *)
Definition predict_other (covar covarpred : list (list R)) (d : list R) : res (list R) := rmap (matvec covarpred) (cho_solve covar d).
Definition predict_smooth (sigma : R) (covar : list (list R)) (d : list R) : res (list R) :=
  if Reqb sigma 0 then Err NonFinite else
  let cp := add_diag (- sigma ^ 2) covar in
  let cpcninv := mat_scale (/ sigma ^ 2) cp in
  linalg_solve (add_diag 1 cpcninv) (matvec cpcninv d).
Definition predict_exclude (covar : list (list R)) (d : list R) : res (list R) :=
  rbind (linalg_inv covar) (fun kinv =>
  rmapM (fun ir => let '(di, ki, i) := ir in let kii := nth i ki 0 in if Reqb kii 0 then Err NonFinite else Ok (di - dot ki d / kii)) (combine (combine d kinv) (seq 0 (length d)))).

(** lines 509-539 for parameters [param] of the covariance *)
Definition independent_at (rq : bool) (param : list R) (data : list datum) (excludeself : bool) (predict_at : option (list pos)) : res (list R * list R) :=
  rbind (make_covar_independent rq data param) (fun covar =>
  let both (f : list R -> res (list R)) := rbind (f (map d_dx data)) (fun x => rbind (f (map d_dy data)) (fun y => Ok (x, y))) in
  match excludeself, predict_at with
  | true, Some _ => Err ValueError
  | true, None => both (predict_exclude covar)
  | false, Some ps => rbind (kernel rq param) (fun k => both (predict_other covar (cov_matrix k (map d_pos data) ps)))
  | false, None => both (predict_smooth (hd 0 param) covar)
  end).
Definition fixed_param (rq : bool) (scale_covar : R) : list R := [0.005 * scale_covar; 0.005 * scale_covar; 50 * scale_covar] ++ if rq then [2] else [].
(** lines 475-539 *)
Definition solve_independent (rq : bool) (nuse : Z) (data : list datum) (excludeself : bool) (predict_at : option (list pos)) (fix_covar : bool) (scale_covar : R) : res (list R * list R * list R) :=
  rbind (if fix_covar then Ok (fixed_param rq scale_covar) else fit_param loss_independent rq nuse data) (fun param =>
  rmap (fun xy => (xy, param)) (independent_at rq param data excludeself predict_at)).

(** lines 579-605 *)
Definition halves (n : nat) (v : list R) : list R * list R := (firstn n v, skipn n v).
Definition gradwavefront_at (rq : bool) (param : list R) (data : list datum) (excludeself : bool) (predict_at : option (list pos)) : res (list R * list R) :=
  rbind (make_covar_gradwavefront rq data param) (fun covar =>
  let dvec := map d_dx data ++ map d_dy data in
  match excludeself, predict_at with
  | true, _ => rmap (halves (length data)) (predict_exclude covar dvec)
  | false, Some ps => rbind (make_covar_gradwavefront_nonoise rq param (map d_pos data) ps) (fun cp => rmap (halves (length ps)) (predict_other covar cp dvec))
  | false, None => rmap (halves (length data)) (predict_smooth (hd 0 param) covar dvec)
  end).
(** lines 542-605 *)
Definition solve_gradwavefront (rq : bool) (nuse : Z) (data : list datum) (excludeself : bool) (predict_at : option (list pos)) (fix_covar : bool) : res (list R * list R * list R) :=
  match excludeself, predict_at with
  | true, Some _ => Err ValueError
  | _, _ => rbind (if fix_covar then Ok ([0.005; 0.005; 100] ++ if rq then [2] else []) else fit_param loss_gradwavefront rq nuse data) (fun param =>
            rmap (fun xy => (xy, param)) (gradwavefront_at rq param data excludeself predict_at))
  end.

(** lines 433-472 [correct], for arrays of the same length: rows (x, y, x0, y0) *)
Definition make_datum (xy xy0 : pos) : datum := {| d_pos := xy; d_dx := fst xy - fst xy0; d_dy := snd xy - snd xy0 |}.
Definition correct (rows : list (pos * pos)) : res (list R * list R) :=
  rmap (fun r => let '(xt, yt, _) := r in (sub_arrays (map (fun r => fst (fst r)) rows) xt, sub_arrays (map (fun r => snd (fst r)) rows) yt))
       (solve_independent false 500 (map (fun r => make_datum (fst r) (snd r)) rows) true None false 1).

(** lines 363-430 [correct_using_stationary]. A row (xs, ys, x0s, y0s) holds [None] for what is not finite. *)
Notation srow := (option R * option R * option R * option R)%type (only parsing).
Definition finite_row (r : srow) : option datum :=
  match r with (Some x, Some y, Some x0, Some y0) => Some (make_datum (x, y) (x0, y0)) | _ => None end.
(** a boolean array used as index: lengths must agree *)
Definition select {A} (mask : list bool) (l : list A) : res (list A) := if Nat.eqb (length mask) (length l) then Ok (map snd (filter fst (combine mask l))) else Err IndexError.
(** [a &= b], with the broadcasting of numpy *)
Definition and_into (a b : list bool) : res (list bool) :=
  if Nat.eqb (length a) (length b) then Ok (map (fun ab => fst ab && snd ab)%bool (combine a b))
  else match b with [v] => Ok (map (fun x => x && v)%bool a) | _ => Err ValueError end.
(** [mask[mask] &= t] *)
Fixpoint put_masked (mask t : list bool) : list bool :=
  match mask with [] => [] | false :: m => false :: put_masked m t | true :: m => match t with v :: t' => v :: put_masked m t' | [] => true :: put_masked m [] end end.
Definition and_masked (mask t : list bool) : res (list bool) := rmap (put_masked mask) (and_into (filter (fun b => b) mask) t).
(** astropy.stats.mad_std *)
Definition mad_std (l : list R) : res R := rbind (median l) (fun m => rmap (fun d => d * 1.482602218505602) (median (map (fun x => Rabs (x - m)) l))).
(** lines 403-405: [c > med - 5*sd] and [c < med + 5*sd]; of no element there is nothing to compare *)
Definition within5 (c : list R) : list bool :=
  match median c, mad_std c with Ok med, Ok sd => map (fun v => Rltb (med - 5 * sd) v && Rltb v (med + 5 * sd))%bool c | _, _ => [] end.
Definition correct_using_stationary (rows : list srow) (at_ : list pos) (scale_covar clip_resid : R) : res (list R * list R * list bool) :=
  let mask := map (fun r => match finite_row r with Some _ => true | None => false end) rows in
  let data := flat_map (fun r => match finite_row r with Some d => [d] | None => [] end) rows in
  let predict data mask := rmap (fun r => let '(xt, yt, _) := r in (xt, yt, mask)) (solve_independent false 500 data false (Some at_) true scale_covar) in
  if Rltb 0 clip_resid then
    rbind (and_into mask (within5 (map d_dx data))) (fun t1 => rbind (and_into t1 (within5 (map d_dy data))) (fun tmask =>
    rbind (if existsb (fun b => b) tmask then rbind (select tmask data) (fun data => rmap (fun m => (data, m)) (and_into mask tmask)) else Ok (data, mask)) (fun dm =>
    let '(data, mask) := dm in
    rbind (solve_independent false 500 data false None true scale_covar) (fun r => let '(xt, yt, _) := r in
    let tmask := map (fun dxy => let '(d, xy) := dxy in Rltb (sqrt ((d_dx d - fst xy) ^ 2 + (d_dy d - snd xy) ^ 2)) 0.01) (combine data (combine xt yt)) in
    rbind (select tmask data) (fun data => rbind (and_masked mask tmask) (fun mask => predict data mask))))))
  else predict data mask.
End Solve.
