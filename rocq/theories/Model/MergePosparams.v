(** Model of /repo/bin/merge_posparams. *)
From Verif.Model Require Export Prelude.
From Coq Require Import String Reals.
Local Open Scope Z_scope.
Local Open Scope string_scope.
Local Open Scope list_scope.

Inductive value := VInt (z : Z) | VNum (x : R) | VStr (s : string) | VMask.
(** A table: the names of its columns, and its rows. A row gives a value for every column; what it gives for other names has no meaning. *)
Record mtable := { m_cols : list string; m_rows : list (string -> value) }.
Definition has_col (t : mtable) (k : string) : bool := existsb (String.eqb k) (m_cols t).
Definition add_col (cols : list string) (k : string) : list string := if existsb (String.eqb k) cols then cols else cols ++ [k].
(** [t[k] = f(row)] *)
Definition set_cell (k : string) (v : value) (row : string -> value) : string -> value := fun j => if String.eqb j k then v else row j.
Definition set_col (t : mtable) (k : string) (f : (string -> value) -> value) : mtable :=
  {| m_cols := add_col (m_cols t) k; m_rows := map (fun r => set_cell k (f r) r) (m_rows t) |}.

(** lines 47-53: dtype int64: a column of integers, or one without any value *)
Definition int_col (t : mtable) (k : string) : bool := forallb (fun r => match r k with VInt _ | VMask => true | _ => false end) (m_rows t).
Definition fix_move (t : mtable) (k : string) : mtable := if (has_col t k && int_col t k)%bool then set_col t k (fun _ => VStr "none") else t.
Definition fix_moves (t : mtable) : mtable := fold_left fix_move ["MOVE_CMD"; "MOVE_VAL1"; "MOVE_VAL2"] t.

(** line 71 [vstack(tables)]: all columns, a missing value is masked. Columns of types which cannot be merged (TableMergeError) are left out. *)
Definition vstack (ts : list mtable) : res mtable :=
  match ts with
  | [] => Err ValueError
  | _ => Ok {| m_cols := fold_left (fun cols t => fold_left add_col (m_cols t) cols) ts [];
               m_rows := flat_map (fun t => map (fun r k => if has_col t k then r k else VMask) (m_rows t)) ts |}
  end.

(** line 74: [np.array(list(column)).astype(int)], one element. [of_mask] is what a masked value gives (it becomes NaN, and then some integer);
    a float is truncated, a text raises ValueError if it is not a number (all texts do here). *)
Definition to_int (of_mask : Z) (trunc : R -> Z) (v : value) : res Z :=
  match v with VInt z => Ok z | VNum x => Ok (trunc x) | VMask => Ok of_mask | VStr _ => Err ValueError end.

(** A row of the metrology table. *)
Record mrow := { q_id : string; q_val : string -> Z }.
(** lines 88, 102 [pid2ind], as a function to the row: the last row with that DEVICE_ID *)
Definition pid2row (m : list mrow) (v : value) : option mrow :=
  match v with VStr s => find (fun q => String.eqb (q_id q) s) (rev m) | _ => None end.

Record margs := { no_check : bool; no_metrology : bool }.
(** lines 72-74 *)
Definition add_location (of_mask : Z) (trunc : R -> Z) (t : mtable) : res mtable :=
  if has_col t "LOCATION" then Ok t
  else if (has_col t "PETAL_LOC" && has_col t "DEVICE_LOC")%bool then
    rbind (rmapM (fun r => rbind (to_int of_mask trunc (r "PETAL_LOC")) (fun p => rmap (fun d => set_cell "LOCATION" (VInt (1000 * p + d)) r) (to_int of_mask trunc (r "DEVICE_LOC")))) (m_rows t)) (fun rows =>
    Ok {| m_cols := m_cols t ++ ["LOCATION"]; m_rows := rows |})
  else Ok t.
(** lines 76-81 *)
Definition id_key (t : mtable) : res string := if has_col t "DEVICE_ID" then Ok "DEVICE_ID" else if has_col t "POS_ID" then Ok "POS_ID" else Err (SysExit 12).
(** lines 84-97 *)
Definition merge_metrology (m : list mrow) (idk : string) (t : mtable) : mtable :=
  fold_left (fun t k => set_col t k (fun r => match pid2row m (r idk) with Some q => VInt (q_val q k) | None => VInt (-1) end)) ["LOCATION"; "DEVICE_LOC"; "PETAL_LOC"; "PETAL_ID"] t.
(** [a != b] of line 111 *)
Definition differs (v : value) (z : Z) : bool := match v with VInt y => negb (y =? z)%Z | VNum _ => true | VStr _ => true | VMask => false end.
(** lines 104-115: the names of the keys which are not columns raise KeyError; what is found is recorded in [has_errors], line 114 tests [has_error] *)
Fixpoint check_keys (t : mtable) (r : string -> value) (q : mrow) (keys : list string) (has_errors : bool) : res bool :=
  match keys with
  | [] => Ok has_errors
  | k :: rest => if has_col t k then check_keys t r q rest (has_errors || differs (r k) (q_val q k))%bool else Err KeyError
  end.
Fixpoint check_rows (m : list mrow) (idk : string) (t : mtable) (rows : list (string -> value)) (has_errors : bool) : res bool :=
  match rows with
  | [] => Ok has_errors
  | r :: rest => match pid2row m (r idk) with
                 | None => check_rows m idk t rest has_errors
                 | Some q => rbind (check_keys t r q ["DEVICE_LOC"; "LOCATION"; "PETAL_LOC"; "PETAL_ID"] has_errors) (check_rows m idk t rest)
                 end
  end.
Definition check_metrology (m : list mrow) (idk : string) (t : mtable) : res unit :=
  rbind (check_rows m idk t (m_rows t) false) (fun has_errors => let has_error := false in if has_error then Err (SysExit 12) else Ok tt).

(** lines 41-118: the table written *)
Definition merge_posparams (of_mask : Z) (trunc : R -> Z) (m : list mrow) (a : margs) (inputs : list mtable) : res mtable :=
  rbind (vstack (map fix_moves (filter (fun t => negb (List.length (m_rows t) =? 0)%nat) inputs))) (fun t0 =>
  rbind (add_location of_mask trunc t0) (fun t1 =>
  rbind (id_key t1) (fun idk =>
  let t2 := if (negb (has_col t1 "DEVICE_LOC") && negb (no_metrology a))%bool then merge_metrology m idk t1 else t1 in
  rbind (if (negb (no_check a) && negb (no_metrology a))%bool then check_metrology m idk t2 else Ok tt) (fun _ => Ok t2)))).
