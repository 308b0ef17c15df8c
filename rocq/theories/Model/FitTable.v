(** Model of /repo/py/desimeter/posparams/fithandler.py: the table of the fits of all windows ([_process_cases]) and
    [run_best_fits] from the filtered table on. Messages are left out. Simplified: the dates of the rows differ and ascend, so that
    the sorts by DATE_SEC (lines 293, 358) leave the table as it is; a column is a list of cells, zeros appended as integers to a
    column of numbers are numbers; the module variables after a call that raises are not returned (the theorems hold for all states). *)
From Verif.Model Require Export Fitter Fithandler PyString.
Local Open Scope R_scope.
Local Open Scope string_scope.
Local Open Scope list_scope.

Inductive cell := CStr (s : string) | CNum (r : R) | CInt (z : Z) | CNan.
(** An astropy table: columns with their names, in order. *)
Notation columns := (dict string (list cell)).
(** The columns of a row of the input table that are used. *)
Record row := { w_date : string; w_sec : R; w_move : move; w_petal_id : Z; w_petal_loc : Z; w_device_loc : Z }.

(** fithandler.py:24-35 *)
Definition output_keys0 : dict string bool :=
  [("POS_ID", false); ("NUM_POINTS", false); ("DATA_START_DATE", false); ("DATA_END_DATE", false); ("DATA_START_DATE_SEC", false); ("DATA_END_DATE_SEC", false);
   ("ANALYSIS_DATE", true); ("FIT_ERROR", true); ("FLAGS", false); ("NUM_POINTS_IN_FIT", true)] ++ map (fun k => (k, true)) all_keys.
(** fithandler.py:538-541 *)
Definition mode_suffix (mode : fit_mode) : string := match mode with Static => "_STATIC" | Dynamic => "_DYNAMIC" end.
Definition cov_key (a b : string) : string := ("COV." ++ a ++ "." ++ b)%string.

(** [output[k].append(v)] *)
Definition push (k : string) (v : cell) (out : columns) : res columns := rmap (fun l => dset out k (l ++ [v])) (lookup out k).
Fixpoint pushes (l : list (string * cell)) (out : columns) : res columns :=
  match l with [] => Ok out | kv :: r => rbind (push (fst kv) (snd kv) out) (pushes r) end.

(** fithandler.py:363-366: the pairs of keys with i2 >= i1 *)
Fixpoint upper_pairs (l : list string) : list (string * string) := match l with [] => [] | k :: r => map (pair k) (k :: r) ++ upper_pairs r end.
(** fithandler.py:360-366 *)
Definition empty_output (okeys : dict string bool) : columns :=
  fold_left (fun d p => dset d (cov_key (fst p) (snd p)) []) (upper_pairs all_keys) (map (fun kb => (fst kb, [])) okeys).

(** fithandler.py:402-408: the list of fitted keys, the output, the module variable output_keys *)
Definition register1 (key : string) (s : list string * columns * dict string bool) : list string * columns * dict string bool :=
  let '(fkeys, out, okeys) := s in
  if (negb (mem_str key fkeys) && has_epsilon key)%bool
  then if dict_mem String.eqb out key then (fkeys ++ [key], out, okeys) else (fkeys ++ [key], dset out key [], dset okeys key true)
  else s.
Definition register (keys : list string) (s : list string * columns * dict string bool) := fold_left (fun s k => register1 k s) keys s.

(** fithandler.py:429-434 *)
Definition covariance_cell (cov : dict string R) (k1 k2 : string) : cell :=
  match dict_get String.eqb cov (cov_key k1 k2) with
  | Some v => CNum v
  | None => match dict_get String.eqb cov (cov_key k2 k1) with Some v => CNum v | None => CNum 0 end
  end.
(** fithandler.py:418-434 *)
Fixpoint push_cov (cov : dict string R) (k1 : string) (keys : list string) (out : columns) : res columns :=
  match keys with
  | [] => Ok out
  | k2 :: rest =>
      if has_epsilon k2 then push_cov cov k1 rest out
      else let okey := if dict_mem String.eqb out (cov_key k1 k2) then cov_key k1 k2 else cov_key k2 k1 in
           rbind (push okey (covariance_cell cov k1 k2) out) (push_cov cov k1 rest)
  end.
(** fithandler.py:410-434 *)
Fixpoint push_fitted (o : fit_out) (keys : list string) (out : columns) : res columns :=
  match keys with
  | [] => Ok out
  | k1 :: rest =>
      rbind (push k1 (CNum (match dict_get String.eqb (o_params o) k1 with Some v => v | None => 0 end)) out) (fun out =>
      rbind (if has_epsilon k1 then Ok out else push_cov (o_cov o) k1 (k1 :: rest) out) (push_fitted o rest))
  end.

(** fithandler.py:439-448 *)
Definition make_table (out : columns) : res columns :=
  let cols := filter (fun kc => negb (List.length (snd kc) =? 0)%nat) out in
  match cols with
  | [] => Ok []
  | (_, c) :: _ => if forallb (fun kc => (List.length (snd kc) =? List.length c)%nat) cols then Ok cols else Err (SysExit 12)
  end.
Definition remove_column (t : columns) (k : string) : columns := filter (fun kc => negb (String.eqb (fst kc) k)) t.
(** [table.rename_column(a, b)] *)
Definition rename_column (t : columns) (a b : string) : res columns :=
  if negb (dict_mem String.eqb t a) then Err KeyError
  else if (dict_mem String.eqb t b && negb (String.eqb a b))%bool then Err KeyError
  else Ok (map (fun kc => (if String.eqb (fst kc) a then b else fst kc, snd kc)) t).
(** fithandler.py:450-458 *)
Definition null_column (c : list cell) : bool := forallb (fun v => match v with CNum r => Reqb r 0 | CInt z => Z.eqb z 0 | _ => false end) c.
Definition drop_null (fkeys : list string) (t : columns) : columns :=
  fold_left (fun t p =>
    if String.eqb (fst p) (snd p) then t
    else let k := cov_key (fst p) (snd p) in
         match dict_get String.eqb t k with Some c => if null_column c then remove_column t k else t | None => t end) (list_prod fkeys fkeys) t.
(** [np.sqrt]: nan for a negative number *)
Definition sqrt_cell (v : cell) : cell := match v with CNum r => if Rltb r 0 then CNan else CNum (sqrt r) | _ => CNan end.
(** fithandler.py:460-466 *)
Fixpoint variances_to_errors (fkeys : list string) (t : columns) : res columns :=
  match fkeys with
  | [] => Ok t
  | k :: rest =>
      let ckey := cov_key k k in let ekey := ("ERR." ++ k)%string in
      if dict_mem String.eqb t ckey
      then rbind (rename_column t ckey ekey) (fun t' =>
           rbind (lookup t' ekey) (fun c => variances_to_errors rest (dset t' ekey (map sqrt_cell c))))
      else variances_to_errors rest t
  end.
(** fithandler.py:468-474 *)
Fixpoint rename_names (key new : string) (names : list string) (t : columns) : res columns :=
  match names with
  | [] => Ok t
  | key2 :: rest => if (0 <=? find key key2)%Z then rbind (rename_column t key2 (replace key new key2)) (rename_names key new rest) else rename_names key new rest t
  end.
Fixpoint add_suffixes (mode : fit_mode) (okeys : dict string bool) (t : columns) : res columns :=
  match okeys with
  | [] => Ok t
  | (key, variable) :: rest =>
      if variable then rbind (rename_names key (key ++ mode_suffix mode)%string (map fst t) t) (add_suffixes mode rest)
      else add_suffixes mode rest t
  end.

Section Handler.
(** [fitter.fit_params] with keep_fixed=[] and no errors given: the result, and the dictionaries of nominal values and bounds,
    changed in place *)
Variable fit : list move -> fit_mode -> dict string R -> dict string (R * R) -> bool -> res fit_out * (dict string R * dict string (R * R)).
(** [Time.now().iso] *)
Variable clock : fit_mode -> nat -> string.
(** the row order given by sorting by a column of numbers *)
Variable argsort : list R -> list nat.

Record loop_state := { l_out : columns; l_fitted : list string; l_okeys : dict string bool; l_nominals : dict string R; l_bounds : dict string (R * R) }.
Definition window_of (rows : list row) (c : nat * nat) : list row := firstn (snd c + 1 - fst c) (skipn (fst c) rows).
(** fithandler.py:368-437, the window number i *)
Definition one_case (posid : string) (rows : list row) (mode : fit_mode) (reject : bool) (i : nat) (c : nat * nat) (s : loop_state) : res loop_state :=
  let '(r, (nominals, bounds)) := fit (map w_move (window_of rows c)) mode (l_nominals s) (l_bounds s) reject in
  rbind r (fun o =>
  rbind (geti rows (fst c)) (fun first => rbind (geti rows (snd c)) (fun final =>
  rbind (pushes [("ANALYSIS_DATE", CStr (clock mode i)); ("POS_ID", CStr posid);
                 ("DATA_START_DATE", CStr (w_date first)); ("DATA_END_DATE", CStr (w_date final));
                 ("DATA_START_DATE_SEC", CNum (w_sec first)); ("DATA_END_DATE_SEC", CNum (w_sec final));
                 ("NUM_POINTS", CInt (Z.of_nat (snd c) - Z.of_nat (fst c) + 1)); ("NUM_POINTS_IN_FIT", CInt (Z.of_nat (o_npts o)));
                 ("FIT_ERROR", CNum (o_rms o)); ("FLAGS", CInt (o_flags o))] (l_out s)) (fun out =>
  let '(fkeys, out, okeys) := register (map fst (o_params o)) (l_fitted s, out, l_okeys s) in
  rbind (push_fitted o fkeys out) (fun out =>
  Ok {| l_out := out; l_fitted := fkeys; l_okeys := okeys; l_nominals := nominals; l_bounds := bounds |}))))).
Fixpoint case_fits (posid : string) (rows : list row) (mode : fit_mode) (reject : bool) (i : nat) (cases : list (nat * nat)) (s : loop_state) : res loop_state :=
  match cases with [] => Ok s | c :: rest => rbind (one_case posid rows mode reject i c s) (case_fits posid rows mode reject (S i) rest) end.

(** The module variables changed: fithandler.output_keys and fitter.default_bounds *)
Record module_vars := { v_okeys : dict string bool; v_bounds : dict string (R * R) }.
(** fithandler.py:343-476 *)
Definition process_cases (posid : string) (rows : list row) (cases : list (nat * nat)) (mode : fit_mode) (nominals : dict string R) (reject : bool) (g : module_vars)
    : res (columns * module_vars) :=
  rbind (case_fits posid rows mode reject 0 cases {| l_out := empty_output (v_okeys g); l_fitted := all_keys; l_okeys := v_okeys g; l_nominals := nominals; l_bounds := v_bounds g |}) (fun s =>
  rbind (make_table (l_out s)) (fun t =>
  rbind (variances_to_errors (l_fitted s) (drop_null (l_fitted s) t)) (fun t =>
  rbind (add_suffixes mode (l_okeys s) t) (fun t =>
  Ok (t, {| v_okeys := l_okeys s; v_bounds := l_bounds s |}))))).

(** A file written: a table, or (fithandler.py:40-48) a failed fit with only its flags *)
Inductive outcome := Written (t : columns) | OnlyFlags (flags : Z).
Definition number (c : cell) : res R := match c with CNum r => Ok r | _ => Err TypeError end.
Definition integer (c : cell) : res Z := match c with CInt z => Ok z | _ => Err TypeError end.
(** fithandler.py:99-104, 125-130: the flags of all windows, if one failed *)
Definition failed_flags (t : columns) : res (option Z) :=
  rbind (lookup t "FLAGS") (fun col => rbind (rmapM integer col) (fun flags => rbind (bit "FAILED_FIT") (fun failed_fit =>
  Ok (if existsb (fun f => (0 <? Z.land f failed_fit)%Z) flags then Some (fold_left Z.lor flags 0%Z) else None)))).
(** fithandler.py:107-113, 138-143: for the keys of [initial], the median over the windows selected by their error *)
Definition best_params (t : columns) (static_quantile : R) (initial : list string) : res (dict string R) :=
  rbind (lookup t "FIT_ERROR_STATIC") (fun col => rbind (rmapM number col) (fun errors =>
  rbind (percentile errors static_quantile) (fun quantile =>
  rmapM (fun k => rbind (lookup t (k ++ "_STATIC")%string) (fun c => rbind (rmapM number c) (fun values =>
    rbind (median (map snd (filter (fun ev => Rleb (fst ev) quantile) (combine errors values)))) (fun m => Ok (k, m))))) initial))).
(** fithandler.py:133-137: the keys of the best static parameters *)
Definition static_names (t : columns) : list string :=
  map fst (fold_left (fun d k => if has_epsilon k then dset d (replace "_STATIC" "" k) 0 else d) (map fst t) default_values).

Definition cell_eqb (a b : cell) : bool :=
  match a, b with
  | CStr s, CStr s' => String.eqb s s' | CNum r, CNum r' => Reqb r r' | CInt z, CInt z' => Z.eqb z z' | _, _ => false
  end.
Definition cell_at (t : columns) (k : string) (i : nat) : option cell := match dict_get String.eqb t k with Some c => nth_error c i | None => None end.
Definition height (t : columns) : nat := match t with [] => 0%nat | (_, c) :: _ => List.length c end.
Definition gather (c : list cell) (is : list nat) : list cell := map (fun i => nth i c CNan) is.
(** [join(left, right, keys)]: an inner join; the columns that are no keys have different names (the conflicting names of
    astropy are left out). KeyError if a key is missing. *)
Definition inner_join (left right : columns) (keys : list string) : res columns :=
  rbind (rmapM (lookup left) keys) (fun _ => rbind (rmapM (lookup right) keys) (fun _ =>
  let same i j := forallb (fun k => match cell_at left k i, cell_at right k j with Some a, Some b => cell_eqb a b | _, _ => false end) keys in
  let pairs := filter (fun ij => same (fst ij) (snd ij)) (list_prod (seq 0 (height left)) (seq 0 (height right))) in
  Ok (map (fun kc => (fst kc, gather (snd kc) (map fst pairs))) left ++
      map (fun kc => (fst kc, gather (snd kc) (map snd pairs))) (filter (fun kc => negb (mem_str (fst kc) keys)) right)))).
(** fithandler.py:155-158 *)
Definition all_equal (l : list Z) : res Z := match l with [] => Err AssertionError | z :: r => if forallb (Z.eqb z) r then Ok z else Err AssertionError end.
Definition pass_through (rows : list row) (t : columns) : res columns :=
  rbind (all_equal (map w_petal_id rows)) (fun a => rbind (all_equal (map w_petal_loc rows)) (fun b => rbind (all_equal (map w_device_loc rows)) (fun c =>
  let fill z := repeat (CInt z) (height t) in
  Ok (dset (dset (dset t "PETAL_ID" (fill a)) "PETAL_LOC" (fill b)) "DEVICE_LOC" (fill c))))).
(** fithandler.py:159; there is one POS_ID *)
Definition sort_table (t : columns) : res columns :=
  rbind (lookup t "DATA_END_DATE_SEC") (fun col => rbind (rmapM number col) (fun ends =>
  Ok (map (fun kc => (fst kc, gather (snd kc) (argsort ends))) t))).

(** fithandler.py:87-117: the static parameters the fit starts with *)
Definition start_params (posid : string) (rows : list row) (dates : list R) (data_window : nat) (static_quantile : R) (reject : bool) (g : module_vars)
    : res ((dict string R + Z) * module_vars) :=
  if forallb (fun w => mv_rehome (w_move w)) rows then Ok (inl default_values, g)
  else
    let tmp := filter (fun w => mv_rehome (w_move w)) rows in
    if (List.length tmp <? 10)%nat then rbind (bit "INVALID_AFTER_FILTER") (fun b => Ok (inr b, g))
    else
      rbind (define_cases (map w_sec tmp) dates data_window) (fun cases =>
      rbind (process_cases posid tmp cases Static default_values reject g) (fun tg =>
      rbind (failed_flags (fst tg)) (fun f =>
      match f with
      | Some flags => Ok (inr flags, snd tg)
      | None => rbind (best_params (fst tg) static_quantile (map fst default_values)) (fun p => Ok (inl p, snd tg))
      end))).

(** fithandler.py:50-164, from the filtered table on (line 77) *)
Definition run_best_fits (posid : string) (rows : list row) (period_days : R) (data_window : nat) (static_quantile : R) (min_window : nat) (reject : bool) (g : module_vars)
    : res (outcome * module_vars) :=
  if (List.length rows <? min_window)%nat then rbind (bit "INVALID_AFTER_FILTER") (fun b => Ok (OnlyFlags b, g))
  else
    let times := map w_sec rows in
    let dates := datum_dates times period_days in
    rbind (define_cases times dates data_window) (fun cases =>
    rbind (start_params posid rows dates data_window static_quantile reject g) (fun pg =>
    match fst pg with
    | inr flags => Ok (OnlyFlags flags, snd pg)
    | inl start =>
        rbind (process_cases posid rows cases Static start reject (snd pg)) (fun sg =>
        rbind (failed_flags (fst sg)) (fun f =>
        match f with
        | Some flags => Ok (OnlyFlags flags, snd sg)
        | None =>
            rbind (best_params (fst sg) static_quantile (static_names (fst sg))) (fun best =>
            rbind (process_cases posid rows cases Dynamic best reject (snd sg)) (fun dg =>
            rbind (inner_join (fst sg) (fst dg) (map fst (filter (fun kb => negb (snd kb)) (v_okeys (snd dg))))) (fun merged =>
            rbind (pass_through rows merged) (fun merged =>
            rbind (sort_table merged) (fun merged => Ok (Written merged, snd dg))))))
        end))
    end)).
End Handler.
(** the instance of the package *)
Definition posparams_fit leastsq minimize (moves : list move) (mode : fit_mode) (nominals : dict string R) (bounds : dict string (R * R)) (reject : bool) :=
  fit_params leastsq minimize moves mode nominals bounds [] None None reject.
Definition start_vars : module_vars := {| v_okeys := output_keys0; v_bounds := default_bounds |}.
