(** Model of /repo/py/desimeter/posparams/fithandler.py: the reading of the table of moves of a positioner ([_read]), its preparation
    and [run_best_fits] from the file on. Messages are left out. Simplified: values are finite, RECENT_REHOME is a truth value, POS_ID
    and DATE are text, the columns PETAL_ID and DEVICE_LOC are there; columns filled in (lines 183-188, 195, 200, 215) are fields of the
    rows from the start, and the checks come in the order of the code. *)
From Verif.Model Require Export FitTable PosMoveSelection.
From Verif.Model Require Ptl2fp.
Local Open Scope R_scope.
Local Open Scope string_scope.
Local Open Scope list_scope.

(** An entry of the column CTRL_ENABLED *)
Inductive entry := EText (s : string) | ENumber (r : R) | EBool (b : bool).
(** A row of the file; the values of columns that are not there are not read *)
Record raw := { r_date : string; r_pos_t : R; r_pos_p : R; r_x : R; r_y : R; r_ctrl : entry; r_total : Z; r_posid : string; r_petal_id : Z; r_petal_loc : Z;
                r_device_loc : Z; r_exposure : Z; r_rehome : bool; r_note : string; r_gear_t : R; r_gear_p : R }.
Record mtable := { t_columns : list string; t_rows : list raw }.
(** A row of the table returned *)
Record mrow := { m_raw : raw; m_gear_t : R; m_gear_p : R; m_seq : Z; m_rehome : bool; m_on : bool }.

(** fithandler.py:543-545 *)
Definition str2bool (e : entry) : bool :=
  match e with
  | EText s => mem_str s ["True"; "true"; "TRUE"; "Yes"; "yes"; "YES"]
  | ENumber r => Reqb r 1
  | EBool b => b
  end.
(** fithandler.py:493-504; the inverse of [np.unique] is the place of each value in the list of different values *)
Fixpoint index_of (z : Z) (l : list Z) : Z := match l with [] => 0%Z | y :: r => if (z =? y)%Z then 0%Z else (1 + index_of z r)%Z end.
Definition sequences (exposures : list Z) : list Z := map (fun e => index_of e (unique exposures)) exposures.
(** fithandler.py:547-553, compared with posid *)
Definition is_posid (posid : string) (l : list raw) : bool := match nodup string_dec (map r_posid l) with [p] => String.eqb posid p | _ => false end.
(** fithandler.py:177-179 *)
Definition required_keys : list string := ["DATE"; "POS_P"; "POS_T"; "X_FP"; "Y_FP"; "CTRL_ENABLED"; "TOTAL_MOVE_SEQUENCES"; "POS_ID"; "PETAL_LOC"].
Definition str_ltb (a b : string) : bool := negb (String.leb b a).

Section Read.
Variable argsort : forall K, (K -> K -> bool) -> list K -> list nat.
(** [table.sort(column)] *)
Definition sort_rows {A K} (ltb : K -> K -> bool) (key : A -> K) (l : list A) : res (list A) := take l (argsort K ltb (map key l)).
(** fithandler.py:166-219; None is an invalid table *)
Definition read (posid : string) (t : mtable) (selection : option string) (force : bool) : res (option (list mrow)) :=
  let has k := mem_str k (t_columns t) in
  if negb (has "GEAR_CALIB_T" || has "POS_T") then Err KeyError
  else if negb (has "GEAR_CALIB_P" || has "POS_P") then Err KeyError
  else if (match selection with Some _ => negb (has "LOG_NOTE") | None => false end) then Err KeyError
  else
    let rows := posmove_selection raw r_note (t_rows t) selection in
    if negb (has "EXPOSURE_ID") then Err KeyError
    else
      let table := map (fun '(r, s) => {| m_raw := r; m_gear_t := if has "GEAR_CALIB_T" then r_gear_t r else 1; m_gear_p := if has "GEAR_CALIB_P" then r_gear_p r else 1;
                                          m_seq := s; m_rehome := if force then true else r_rehome r; m_on := str2bool (r_ctrl r) |})
                       (combine rows (sequences (map r_exposure rows))) in
      if negb (force || has "RECENT_REHOME") then Err KeyError
      else if negb (existsb m_rehome table) then Err RuntimeError
      else if negb (has "DATE") then Err KeyError
      else rbind (sort_rows str_ltb (fun m => r_date (m_raw m)) table) (fun table =>
        if (forallb has required_keys && is_posid posid (map m_raw table))%bool then Ok (Some table) else Ok None).

(** [fp2ptl] without a height, its third coordinate dropped *)
Variable fp2ptl : Z -> R * R -> res (R * R).
(** [dateutil.parser.parse(d).timestamp()] *)
Variable parse_date : string -> res R.
(** fithandler.py:221-230: the petal is that of the first row *)
Definition make_petal_xy (l : list mrow) : res (list (mrow * (R * R))) :=
  match l with
  | [] => Err IndexError
  | m0 :: _ => rmapM (fun m => rmap (pair m) (fp2ptl (r_petal_loc (m_raw m0)) (r_x (m_raw m), r_y (m_raw m)))) l
  end.
(** fithandler.py:234-268 *)
Definition filter_rows (l : list (mrow * (R * R))) : res (list (mrow * (R * R))) :=
  let l := remove_rows l (map (fun m => negb (m_on (fst m))) l) in
  let total m := r_total (m_raw (fst m)) in
  match l with
  | [] => Ok []
  | _ => rbind (sort_rows Z.ltb total l) (fun l =>
         match l with [] => Err IndexError | m0 :: _ => Ok (remove_rows l (map (Z.eqb 0) (diff_with_prepend (total m0 - 1) (map total l)))) end)
  end.
(** The columns used by the fits (fithandler.py:506-518) *)
Definition fit_row (m : mrow * (R * R)) (sec : R) : row :=
  let '(m, (x, y)) := m in
  {| w_date := r_date (m_raw m); w_sec := sec;
     w_move := {| mv_t := r_pos_t (m_raw m); mv_p := r_pos_p (m_raw m); mv_x := x; mv_y := y; mv_gt := m_gear_t m; mv_gp := m_gear_p m; mv_rehome := m_rehome m; mv_seq := m_seq m |};
     w_petal_id := r_petal_id (m_raw m); w_petal_loc := r_petal_loc (m_raw m); w_device_loc := r_device_loc (m_raw m) |}.
(** fithandler.py:270-275, then the sort of line 293 *)
Definition with_seconds (l : list (mrow * (R * R))) : res (list row) :=
  rbind (rmapM (fun m => rmap (fit_row m) (parse_date (r_date (m_raw (fst m))))) l) (sort_rows Rltb w_sec).

Variable fit : list move -> fit_mode -> dict string R -> dict string (R * R) -> bool -> res fit_out * (dict string R * dict string (R * R)).
Variable clock : fit_mode -> nat -> string.
(** fithandler.py:50-164; [write_failed_fit] on line 73 *)
Definition run_file (posid : string) (t : mtable) (selection : option string) (force : bool) (period_days : R) (data_window : nat) (static_quantile : R) (min_window : nat)
    (reject : bool) (g : module_vars) : res (outcome * module_vars) :=
  rbind (read posid t selection force) (fun table =>
  match table with
  | None => rbind (bit "INVALID_TABLE") (fun b => Ok (OnlyFlags b, g))
  | Some l =>
      rbind (make_petal_xy l) (fun l => rbind (filter_rows l) (fun l =>
      if ((List.length l =? 0) || (List.length l <? min_window))%nat%bool then rbind (bit "INVALID_AFTER_FILTER") (fun b => Ok (OnlyFlags b, g))
      else rbind (with_seconds l) (fun rows =>
           run_best_fits fit clock (argsort R Rltb) posid rows period_days data_window static_quantile min_window reject g)))
  end).
End Read.
(** the transformation of the package *)
Definition package_fp2ptl (d : Ptl2fp.alignments) (petal_loc : Z) (p : R * R) : res (R * R) :=
  rbind (Ptl2fp.fp2ptl d petal_loc (fst p) (snd p) None) (fun v => match v with Some (x, y, _) => Ok (x, y) | None => Err NonFinite end).
