(** Model of /repo/bin/desi_fit_fvc2fp_using_theta_centers: a new transformation from pixels to the focal plane, which takes the centres of fitted circles
    to their places in the metrology of the table or in another one. Table values are finite, X_FP_METRO and Y_FP_METRO hold floating point numbers; messages and plots
    are left out, and with them pinholeid and deviceloc (lines 37-38, 72-77, 83-90). The fit is that of desi_fit_fvc2fp_using_posparams (lines 95-128 here). *)
From Verif.Model Require Export CentresTx.
Local Open Scope R_scope.
Local Open Scope list_scope.

(** A row of a table of circles: X_FP, Y_FP is the centre; a table with the columns it has; the values of columns that are not there are not read *)
Record circle := { c_loc : Z; c_pin : Z; c_fp : point; c_metro : point }.
Record circles := { has_loc : bool; has_pin : bool; has_metro : bool; c_rows : list circle }.
Record pinhole := { h_loc : Z; h_pin : Z; h_fp : point }.
(** lines 55-57: the number of the last row for every key *)
Definition l2i (other : list pinhole) : dict Z nat := fold_left (fun (d : dict Z nat) '(i, h) => dict_set Z.eqb d (h_loc h * 10 + h_pin h)%Z i) (enum other) [].
(** lines 58-65, for one row *)
Definition other_place (other : list pinhole) (r : circle) : res point :=
  match dict_get Z.eqb (l2i other) (c_loc r * 10 + c_pin r)%Z with
  | Some i => rmap h_fp (geti other i)
  | None => Ok (0, 0)
  end.
(** lines 46-69, for one file *)
Definition read_circles (other : option (list pinhole)) (t : circles) : res (list (point * point)) :=
  match other with
  | Some o => if negb (has_loc t && has_pin t)%bool then Err (SysExit 12) else if negb (has_metro t) then Err KeyError
              else rmapM (fun r => rmap (fun q => (c_fp r, q)) (other_place o r)) (c_rows t)
  | None => if negb (has_metro t) then Err KeyError else Ok (map (fun r => (c_fp r, c_metro r)) (c_rows t))
  end.
(** lines 43-81: a file that is not there is None *)
Definition gather_circles (other : option (list pinhole)) (files : list (option circles)) : res (list (point * point)) :=
  rbind (rmapM (read_circles other) (flat_map (fun f => match f with Some t => [t] | None => [] end) files)) (fun parts =>
  match parts with [] => Err ValueError | _ => Ok (concat parts) end).
(** the whole script; lines 27-29: the mandatory terms *)
Definition fit_using_theta_centres (minimize : (R * R * R * R -> res R) -> R * R * R * R -> res (R * R * R * R)) (init : tx) (zbpolids : list Z)
    (other : option (list pinhole)) (files : list (option circles)) : res tx :=
  if forallb (fun z => existsb (Z.eqb z) zbpolids) [0; 1; 2; 27]%Z then
    rbind (gather_circles other files) (fun data => rmap fst (fit_centres minimize init zbpolids data None))
  else Err (SysExit 12).
