(** Model of /repo/py/desimeter/posparams/flags.py and fitter.py. The parallel lists of the arguments are one list of moves: the
    assertions on lengths, types and finiteness (flags.py:22-23, fitter.py:126-128) hold. What is printed is left out. *)
From Verif.Model Require Export Stats Pos2ptl Xy2qs Circles Bitmask.
From Coq Require Import String DecimalString.
Local Open Scope R_scope.
Local Open Scope string_scope.
Local Open Scope list_scope.

Record move := { mv_t : R; mv_p : R; mv_x : R; mv_y : R; mv_gt : R; mv_gp : R; mv_rehome : bool; mv_seq : Z }.

(** [np.unique] of real numbers *)
Fixpoint insert_unique_R (x : R) (l : list R) : list R :=
  match l with [] => [x] | y :: r => if Rltb x y then x :: l else if Reqb x y then l else y :: insert_unique_R x r end.
Definition unique_R (l : list R) : list R := fold_right insert_unique_R [] l.
(** [np.max], [np.min]; ValueError for an empty array *)
Definition max_R (l : list R) : res R := match l with [] => Err ValueError | x :: r => Ok (fold_left Rmax r x) end.
Definition min_R (l : list R) : res R := match l with [] => Err ValueError | x :: r => Ok (fold_left Rmin r x) end.
(** [np.std(l)**2] *)
Definition variance (l : list R) : res R := rbind (mean l) (fun m => mean (map (fun x => (x - m) ^ 2) l)).

(** flags.py:37-52: (tested, moving) *)
Fixpoint theta_loop (moves : list move) (vals : list R) (s : bool * bool) : res (bool * bool) :=
  match vals with
  | [] => Ok s
  | val :: rest =>
      let sel := filter (fun m => Reqb (mv_p m) val) moves in
      if (List.length sel <? 4)%nat then theta_loop moves rest s
      else if Rltb 160 val then theta_loop moves rest s
      else rbind (max_R (map mv_t sel)) (fun hi => rbind (min_R (map mv_t sel)) (fun lo =>
        if Rltb (hi - lo) 20 then theta_loop moves rest s
        else rbind (variance (map mv_x sel)) (fun vx => rbind (variance (map mv_y sel)) (fun vy =>
          theta_loop moves rest (true, (snd s || Rltb 0.1 (sqrt (vx + vy)))%bool)))))
  end.
Definition movemask : bits := mk_bitmask movemask_defs.
(** [movemask[name]], an integer *)
Definition bit (name : string) : res Z := rmap mb_mask (getitem movemask (KS name)).
(** flags.py:5-59 *)
Definition eval_move_flags (moves : list move) : res Z :=
  rbind (theta_loop moves (unique_R (map mv_p moves)) (false, false)) (fun s =>
  if (fst s && negb (snd s))%bool then bit "THETA_STUCK" else Ok 0%Z).

(** fitter.py:17-35, 59-61 *)
Definition default_values : dict string R :=
  [("LENGTH_R1", 3); ("LENGTH_R2", 3); ("OFFSET_T", 0); ("OFFSET_P", 0); ("OFFSET_X", 0); ("OFFSET_Y", 0); ("SCALE_T", 1); ("SCALE_P", 1)].
Definition default_bounds : dict string (R * R) :=
  [("LENGTH_R1", (2.5, 3.5)); ("LENGTH_R2", (2.5, 3.5)); ("OFFSET_T", (-200, 200)); ("OFFSET_P", (-30, 30)); ("OFFSET_X", (-500, 500)); ("OFFSET_Y", (-500, 500)); ("SCALE_T", (0, 1)); ("SCALE_P", (0, 1))].
Definition static_keys : list string := ["LENGTH_R1"; "LENGTH_R2"; "OFFSET_T"; "OFFSET_P"; "OFFSET_X"; "OFFSET_Y"].
Definition dynamic_keys : list string := ["SCALE_T"; "SCALE_P"].
Definition all_keys : list string := static_keys ++ dynamic_keys.
Inductive fit_mode := Static | Dynamic.
(** fitter.py:204; str of a numpy integer *)
Definition str_of_Z (z : Z) : string := NilZero.string_of_int (Z.to_int z).
Definition eps_t (s : Z) : string := ("EPSILON_T_" ++ str_of_Z s)%string.
Definition eps_p (s : Z) : string := ("EPSILON_P_" ++ str_of_Z s)%string.
Definition mem_str (k : string) (l : list string) : bool := existsb (String.eqb k) l.
(** [k.find("EPSILON") >= 0] *)
Definition has_epsilon (k : string) : bool := match index 0 "EPSILON" k with Some _ => true | None => false end.
(** [sorted] *)
Fixpoint insert_str (k : string) (l : list string) : list string :=
  match l with [] => [k] | j :: r => if String.leb k j then k :: l else j :: insert_str k r end.
Definition sort_str (l : list string) : list string := fold_right insert_str [] l.
(** fitter.py:427-431 *)
Definition wrap_at_180 (angle : R) : R := let a := pymod angle 360 in if Rltb 180 a then a - 360 else a.
(** [list.index] *)
Fixpoint index_of (k : string) (l : list string) : res nat :=
  match l with [] => Err ValueError | j :: r => if String.eqb k j then Ok 0%nat else rmap S (index_of k r) end.
(** [np.delete] *)
Fixpoint delete_at {A} (l : list A) (i : nat) : list A :=
  match l, i with [] , _ => [] | _ :: r, O => r | a :: r, S j => a :: delete_at r j end.

(** pos2ptl.int2loc and loc2int for one point *)
Definition int2loc1 (t p r1 r2 t_off p_off : R) : R * R :=
  let t := radians (t + t_off) in let tp := t + radians (p + p_off) in (r1 * cos t + r2 * cos tp, r1 * sin t + r2 * sin tp).
Definition loc2int1 (x y r1 r2 t_off p_off : R) : res (R * R) :=
  rmap (fun o => (fst (fst o) - t_off, snd (fst o) - p_off)) (loc2ext_point x y r1 r2 t_off p_off None 30).

(** A point of the fit: measured position and errors, internal angles, sequence; in dynamic mode the angles measured before
    the move and the move itself *)
Record fpoint := { f_x : R; f_y : R; f_xerr : R; f_yerr : R; f_t : R; f_p : R; f_seq : Z; f_mt : R; f_mp : R; f_dt : R; f_dp : R }.

Definition lookup {V} (d : dict string V) (k : string) : res V := dict_getE String.eqb d k.
Definition dset {V} (d : dict string V) (k : string) (v : V) : dict string V := dict_set String.eqb d k v.

(** fitter.py:176-196 *)
Definition position_errors (given : option (list R)) (n : nat) : list R := match given with Some l => l | None => repeat 1 n end.
Definition flat_point (m : move) (errs : R * R) : R * R * (R * R) :=
  let eps := 0.001 in
  let '(xf, yf) := ptl2flat (mv_x m) (mv_y m) in
  let xf2 := fst (ptl2flat (mv_x m + eps) (mv_y m)) in let yf2 := snd (ptl2flat (mv_x m) (mv_y m + eps)) in
  (xf, yf, (Rabs ((xf2 - xf) / eps) * fst errs, Rabs ((yf2 - yf) / eps) * snd errs)).
(** fitter.py:201 *)
Definition sequences_without_rehome (moves : list move) : list Z := unique (map mv_seq (filter (fun m => negb (mv_rehome m)) moves)).

(** fitter.py:202-206 *)
Definition add_epsilons {V} (v : V) (seqs : list Z) (d : dict string V) : dict string V :=
  fold_left (fun d s => dset (dset d (eps_t s) v) (eps_p s) v) seqs d.

Definition static_point (m : move) (fp : R * R * (R * R)) : fpoint :=
  let '(x, y, (ex, ey)) := fp in
  {| f_x := x; f_y := y; f_xerr := ex; f_yerr := ey; f_t := mv_t m; f_p := mv_p m; f_seq := mv_seq m; f_mt := 0; f_mp := 0; f_dt := 0; f_dp := 0 |}.
(** fitter.py:215-227: the internal angles measured at a point *)
Definition measured_int (nominals : dict string R) (seqs : list Z) (m : move) : res (R * R) :=
  let '(xf, yf) := ptl2flat (mv_x m) (mv_y m) in
  rbind (lookup nominals "OFFSET_X") (fun ox => rbind (lookup nominals "OFFSET_Y") (fun oy =>
  rbind (lookup nominals "LENGTH_R1") (fun r1 => rbind (lookup nominals "LENGTH_R2") (fun r2 =>
  rbind (lookup nominals "OFFSET_T") (fun ot => rbind (lookup nominals "OFFSET_P") (fun op =>
  rbind (loc2int1 (xf - ox) (yf - oy) r1 r2 ot op) (fun tp =>
  if existsb (Z.eqb (mv_seq m)) seqs
  then rbind (lookup nominals (eps_t (mv_seq m))) (fun et => rbind (lookup nominals (eps_p (mv_seq m))) (fun ep => Ok (fst tp - et, snd tp - ep)))
  else Ok tp))))))).
(** [a / b] of floats, for numbers *)
Definition fdiv (a b : R) : res R := if Reqb b 0 then Err NonFinite else Ok (a / b).
(** fitter.py:208-253: one point per pair of consecutive moves *)
Definition dynamic_point (nominals : dict string R) (seqs : list Z) (m0 m : move) (fp : R * R * (R * R)) : res fpoint :=
  let '(x, y, (ex, ey)) := fp in
  rbind (measured_int nominals seqs m0) (fun tp =>
  rbind (fdiv (delta_angle1 (mv_t m - mv_t m0) 0) (mv_gt m)) (fun dt => rbind (fdiv (delta_angle1 (mv_p m - mv_p m0) 0) (mv_gp m)) (fun dp =>
  Ok {| f_x := x; f_y := y; f_xerr := ex; f_yerr := ey; f_t := mv_t m; f_p := mv_p m; f_seq := mv_seq m; f_mt := fst tp; f_mp := snd tp; f_dt := dt; f_dp := dp |}))).
Fixpoint dynamic_points (nominals : dict string R) (seqs : list Z) (l : list (move * (R * R * (R * R)))) : res (list fpoint) :=
  match l with
  | a :: ((b :: _) as r) => rbind (dynamic_point nominals seqs (fst a) (fst b) (snd b)) (fun q => rbind (dynamic_points nominals seqs r) (fun qs => Ok (q :: qs)))
  | _ => Ok []
  end.

(** fitter.py:283-284 *)
Definition set_params (p0 : dict string R) (params_to_fit : list string) (params : list R) : dict string R :=
  fold_left (fun d kv => dset d (fst kv) (snd kv)) (combine params_to_fit params) p0.
(** fitter.py:271-305 for one point. In dynamic mode the scales are read from the parameters being fit: KeyError if one is
    kept fixed. *)
Definition expected_point (mode : fit_mode) (seqs : list Z) (params_to_fit : list string) (p : dict string R) (q : fpoint) : res (R * R) :=
  rbind (match mode with
    | Static => Ok (f_t q, f_p q)
    | Dynamic =>
        if (mem_str "SCALE_T" params_to_fit && mem_str "SCALE_P" params_to_fit)%bool
        then rbind (lookup p "SCALE_T") (fun st => rbind (lookup p "SCALE_P") (fun sp => Ok (f_mt q + f_dt q * st, f_mp q + f_dp q * sp)))
        else Err KeyError
    end) (fun tp =>
  rbind (lookup p "OFFSET_T") (fun ot => rbind (lookup p "OFFSET_P") (fun op =>
  rbind (if existsb (Z.eqb (f_seq q)) seqs then rbind (lookup p (eps_t (f_seq q))) (fun et => rbind (lookup p (eps_p (f_seq q))) (fun ep => Ok (ot + et, op + ep))) else Ok (ot, op)) (fun off =>
  rbind (lookup p "LENGTH_R1") (fun r1 => rbind (lookup p "LENGTH_R2") (fun r2 =>
  rbind (lookup p "OFFSET_X") (fun ox => rbind (lookup p "OFFSET_Y") (fun oy =>
  let xy := int2loc1 (fst tp) (snd tp) r1 r2 (fst off) (snd off) in Ok (fst xy + ox, snd xy + oy))))))))).
Definition residuals (mode : fit_mode) (seqs : list Z) (ptf : list string) (p0 : dict string R) (pts : list fpoint) (params : list R) : res (list (R * R)) :=
  let p := set_params p0 ptf params in rmapM (fun q => rmap (fun e => (fst e - f_x q, snd e - f_y q)) (expected_point mode seqs ptf p q)) pts.
(** fitter.py:308-313 *)
Definition sum_sq (l : list (R * R)) : R := Rsum (map (fun e => fst e ^ 2 + snd e ^ 2) l).
Definition compute_rms (mode : fit_mode) (seqs : list Z) (ptf : list string) (p0 : dict string R) (pts : list fpoint) (n_pts : nat) (params : list R) : res R :=
  rbind (residuals mode seqs ptf p0 pts params) (fun r => rmap sqrt (fdiv (sum_sq r) (INR n_pts))).
(** fitter.py:315-317 *)
Definition compute_chi2 (mode : fit_mode) (seqs : list Z) (ptf : list string) (p0 : dict string R) (pts : list fpoint) (params : list R) : res R :=
  rbind (residuals mode seqs ptf p0 pts params) (fun r =>
  rbind (rmapM (fun eq => rbind (fdiv (fst (fst eq)) (f_xerr (snd eq))) (fun u => rmap (fun v => u ^ 2 + v ^ 2) (fdiv (snd (fst eq)) (f_yerr (snd eq))))) (combine r pts)) (fun l =>
  Ok (Rsum l))).

Section Fit.
Variable leastsq : (R * R -> list R) -> R * R -> R * R.
(** [scipy.optimize.minimize]: the optimum and the inverse Hessian. What the objective raises at the starting point is raised. *)
Variable minimize : (list R -> res R) -> list R -> list (R * R) -> list R * list (list R).
Definition run_minimize (f : list R -> res R) (x0 : list R) (b : list (R * R)) : res (list R * list (list R)) := rbind (f x0) (fun _ => Ok (minimize f x0 b)).

(** fitter.py:322-333 *)
Fixpoint circle_centers (pts : list fpoint) (vals : list R) : res (list (R * R)) :=
  match vals with
  | [] => Ok []
  | v :: rest =>
      let sel := filter (fun q => Reqb (f_p q) v) pts in
      if (List.length sel <? 3)%nat then circle_centers pts rest
      else match robust_fit_circle leastsq 4 0.1 (map (fun q => (f_x q, f_y q)) sel) with
      | Ok (c, _, _) => rbind (circle_centers pts rest) (fun cs => Ok (c :: cs))
      | Err ValueError => circle_centers pts rest
      | Err e => Err e
      end
  end.
(** fitter.py:335-339 *)
Definition init_offsets (pts : list fpoint) (keep_fixed : list string) (nominals : dict string R) : res (dict string R) :=
  rbind (circle_centers pts (unique_R (map f_p pts))) (fun cs =>
  match cs with
  | [] => Ok nominals
  | _ => rbind (median (map fst cs)) (fun ox => rbind (median (map snd cs)) (fun oy =>
      let d := if mem_str "OFFSET_X" keep_fixed then nominals else dset nominals "OFFSET_X" ox in
      Ok (if mem_str "OFFSET_Y" keep_fixed then d else dset d "OFFSET_Y" oy)))
  end).

Record fit_out := { o_params : dict string R; o_flags : Z; o_cov : dict string R; o_rms : R; o_npts : nat }.
Definition failed (flags : Z) (n : nat) : fit_out := {| o_params := []; o_flags := flags; o_cov := []; o_rms := 0; o_npts := n |}.

(** fitter.py:345-390: the last optimum and the points left. There is no bit FIT_FAILED: line 386 raises KeyError. *)
Fixpoint fit_loop (k : nat) (mode : fit_mode) (seqs : list Z) (ptf : list string) (p0 : dict string R) (x0 : list R) (b : list (R * R)) (outlier_rejection : bool)
    (cur : option (list R * list (list R))) (pts : list fpoint) : res ((list R * list (list R)) * list fpoint) :=
  match k with
  | O => match cur with Some o => Ok (o, pts) | None => Err NameError end
  | S k' =>
      rbind (run_minimize (compute_chi2 mode seqs ptf p0 pts) x0 b) (fun o =>
      rbind (residuals mode seqs ptf p0 pts (fst o)) (fun r =>
      let dist := map (fun e => sqrt (fst e ^ 2 + snd e ^ 2)) r in
      rbind (argmax dist) (fun worst =>
      if negb outlier_rejection then Ok (o, pts)
      else rbind (median dist) (fun meddist => rbind (geti dist worst) (fun w =>
        if (Rltb w 0.2 || Rltb w (2.1 * meddist))%bool then Ok (o, pts)
        else
          let pts' := delete_at pts worst in
          if (List.length pts' <? List.length x0)%nat then rbind (bit "FIT_FAILED") (fun _ => Err RuntimeError)
          else fit_loop k' mode seqs ptf p0 x0 b outlier_rejection (Some o) pts')))))
  end.

(** fitter.py:399-420 *)
Definition covariance_dict (ptf keep_fixed : list string) (h : list (list R)) (scale : R) : res (dict string R) :=
  let n := List.length ptf in
  let pairs := flat_map (fun i => map (fun j => (i, j)) (seq i (n - i))) (seq 0 n) in
  rbind (rmapM (fun ij => rbind (geti h (fst ij)) (fun row => rbind (geti row (snd ij)) (fun v => Ok ("COV." ++ nth (fst ij) ptf "" ++ "." ++ nth (snd ij) ptf "", v * 2 * scale)%string))) pairs) (fun l =>
  Ok (fold_left (fun d k => dset d ("COV." ++ k ++ "." ++ k)%string 0) keep_fixed (fold_left (fun d kv => dset d (fst kv) (snd kv)) l []))).

(** fitter.py:163-166 and 257-262: the set of the parameters kept fixed, without order *)
Definition fixed_keys (mode : fit_mode) (keep_fixed : list string) (nominals : dict string R) : list string :=
  nodup string_dec (match mode with
    | Static => keep_fixed ++ dynamic_keys
    | Dynamic => keep_fixed ++ static_keys ++ filter has_epsilon (map fst nominals)
    end).
(** fitter.py:264-265 *)
Definition params_to_fit (fixed : list string) (nominals : dict string R) : list string := sort_str (filter (fun k => negb (mem_str k fixed)) (map fst nominals)).

(** fitter.py:342-425, with the nominal values before (p0) and after the circle fits *)
Definition fit_rest (mode : fit_mode) (seqs : list Z) (fixed : list string) (nom1 nom2 : dict string R) (bounds : dict string (R * R)) (pts : list fpoint) (n_pts : nat) (unit_errors outlier_rejection : bool) (flags : Z) : res fit_out :=
  let ptf := params_to_fit fixed nom1 in
  rbind (rmapM (lookup nom2) ptf) (fun x0 => rbind (rmapM (lookup bounds) ptf) (fun b =>
  rbind (fit_loop 20 mode seqs ptf nom1 x0 b outlier_rejection None pts) (fun or =>
  let '((x, h), pts') := or in
  rbind (rmapM (fun k => rmap (pair k) (lookup nom2 k)) fixed) (fun fx =>
  let best := fold_left (fun d kv => dset d (fst kv) (snd kv)) fx (fold_left (fun d kv => dset d (fst kv) (snd kv)) (combine ptf x) []) in
  rbind (lookup best "OFFSET_T") (fun ot =>
  let best := dset best "OFFSET_T" (wrap_at_180 ot) in
  rbind (compute_rms mode seqs ptf nom1 pts' n_pts x) (fun rms =>
  rbind (covariance_dict ptf fixed h (if unit_errors then rms ^ 2 / 2 else 1)) (fun cov =>
  Ok {| o_params := best; o_flags := flags; o_cov := cov; o_rms := rms; o_npts := List.length pts' |}))))))).

(** fitter.py:63-425. The dictionaries of nominal values and bounds are changed in place: they are returned with the result. *)
Definition fit_params (moves : list move) (mode : fit_mode) (nominals : dict string R) (bounds : dict string (R * R)) (keep_fixed : list string)
    (xerr yerr : option (list R)) (outlier_rejection : bool) : res fit_out * (dict string R * dict string (R * R)) :=
  let same r := (r, (nominals, bounds)) in
  let err_ok e := match e with Some l => (List.length l =? List.length moves)%nat | None => true end in
  if negb (forallb (fun k => dict_mem String.eqb nominals k) all_keys && forallb (fun k => dict_mem String.eqb bounds k) all_keys && forallb (fun k => mem_str k all_keys) keep_fixed && err_ok xerr && err_ok yerr)
  then same (Err AssertionError)
  else match eval_move_flags moves, rbind (bit "THETA_STUCK") (fun a => rmap (Z.lor a) (bit "PHI_STUCK")), bit "FAILED_FIT" with
  | Err e, _, _ | _, Err e, _ | _, _, Err e => same (Err e)
  | Ok flags, Ok stuck, Ok failed_fit =>
    if (0 <? Z.land flags stuck)%Z then same (Ok (failed (Z.lor flags failed_fit) 0))
    else if negb (existsb mv_rehome moves) then same (Ok (failed (Z.lor flags failed_fit) 0))
    else
      let seqs := sequences_without_rehome moves in
      let n := List.length moves in
      let fps := map (fun me => flat_point (fst me) (snd me)) (combine moves (combine (position_errors xerr n) (position_errors yerr n))) in
      let unit_errors := match xerr, yerr with Some _, Some _ => false | _, _ => true end in
      match mode with
      | Static =>
          let nom1 := add_epsilons 0 seqs nominals in
          let bnd1 := add_epsilons (-200, 200) seqs bounds in
          let fixed := fixed_keys Static keep_fixed nom1 in
          let pts := map (fun mf => static_point (fst mf) (snd mf)) (combine moves fps) in
          match init_offsets pts fixed nom1 with
          | Err e => (Err e, (nom1, bnd1))
          | Ok nom2 => (fit_rest Static seqs fixed nom1 nom2 bnd1 pts n unit_errors outlier_rejection flags, (nom2, bnd1))
          end
      | Dynamic =>
          let fixed := fixed_keys Dynamic keep_fixed nominals in
          same (rbind (dynamic_points nominals seqs (combine moves fps)) (fun pts => fit_rest Dynamic seqs fixed nominals nominals bounds pts (n - 1) unit_errors outlier_rejection flags))
      end
  end.

(** fitter.py:119-122: a call which gives no dictionary works on, and changes, the module's own. A call; the module's dictionaries
    before and after. *)
Record call := { c_moves : list move; c_mode : fit_mode; c_nominals : option (dict string R); c_bounds : option (dict string (R * R)); c_keep : list string; c_xerr : option (list R); c_yerr : option (list R); c_reject : bool }.
Definition module_state := (dict string R * dict string (R * R))%type.
Definition fresh : module_state := (default_values, default_bounds).
Definition do_call (st : module_state) (c : call) : res fit_out * module_state :=
  let '(r, (n, b)) := fit_params (c_moves c) (c_mode c) (match c_nominals c with Some d => d | None => fst st end) (match c_bounds c with Some d => d | None => snd st end) (c_keep c) (c_xerr c) (c_yerr c) (c_reject c) in
  (r, (match c_nominals c with Some _ => fst st | None => n end, match c_bounds c with Some _ => snd st | None => b end)).
Definition after (calls : list call) : module_state := fold_left (fun st c => snd (do_call st c)) calls fresh.
End Fit.
