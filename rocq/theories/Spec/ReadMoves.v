(** The table read from a file of moves. *)
From Coq Require Import Reals ZArith Permutation Sorted.
From Verif.Model Require Import ReadMoves.
Local Open Scope string_scope.
Local Open Scope list_scope.

(** A word, number or truth value for an enabled positioner *)
Definition means_enabled (e : entry) : Prop :=
  match e with
  | EText s => In s ["True"; "true"; "TRUE"; "Yes"; "yes"; "YES"]
  | ENumber r => r = 1%R
  | EBool b => b = true
  end.
(** The number of different values smaller than this one *)
Definition rank (values : list Z) (v n : Z) : Prop :=
  exists smaller, NoDup smaller /\ (forall e, In e smaller <-> In e values /\ (e < v)%Z) /\ n = Z.of_nat (List.length smaller).
Definition has_column (t : mtable) (k : string) : Prop := In k (t_columns t).
(** What a row of the file becomes, [rows] being the rows selected *)
Definition becomes (t : mtable) (force : bool) (rows : list raw) (r : raw) (m : mrow) : Prop :=
  m_raw m = r /\
  (has_column t "GEAR_CALIB_T" -> m_gear_t m = r_gear_t r) /\ (~ has_column t "GEAR_CALIB_T" -> m_gear_t m = 1%R) /\
  (has_column t "GEAR_CALIB_P" -> m_gear_p m = r_gear_p r) /\ (~ has_column t "GEAR_CALIB_P" -> m_gear_p m = 1%R) /\
  rank (map r_exposure rows) (r_exposure r) (m_seq m) /\
  (m_rehome m = true <-> force = true \/ r_rehome r = true) /\
  (m_on m = true <-> means_enabled (r_ctrl r)).
(** The columns without which the reading stops, beside DATE *)
Definition readable (t : mtable) (selection : option string) (force : bool) : Prop :=
  has_column t "EXPOSURE_ID" /\ (has_column t "GEAR_CALIB_T" \/ has_column t "POS_T") /\ (has_column t "GEAR_CALIB_P" \/ has_column t "POS_P") /\
  (selection <> None -> has_column t "LOG_NOTE") /\ (force = false -> has_column t "RECENT_REHOME").
(** The columns without which the table is invalid *)
Definition complete (t : mtable) : Prop :=
  Forall (has_column t) ["POS_P"; "POS_T"; "X_FP"; "Y_FP"; "CTRL_ENABLED"; "TOTAL_MOVE_SEQUENCES"; "POS_ID"; "PETAL_LOC"].
Definition text_le (a b : string) : Prop := String.leb a b = true.
(** Some row selected was made after a rehoming, or is to be taken so *)
Definition some_rehomed (rows : list raw) (force : bool) : Prop := exists r, In r rows /\ (force = true \/ r_rehome r = true).
(** A row of the fits made of a row of the table, with the petal of another one *)
Definition fit_row_of (fp2ptl : Z -> R * R -> res (R * R)) (parse_date : string -> res R) (petal : Z) (m : mrow) (w : row) : Prop :=
  let r := m_raw m in
  w_date w = r_date r /\ parse_date (r_date r) = Ok (w_sec w) /\ mv_t (w_move w) = r_pos_t r /\ mv_p (w_move w) = r_pos_p r /\
  fp2ptl petal (r_x r, r_y r) = Ok (mv_x (w_move w), mv_y (w_move w)) /\ mv_gt (w_move w) = m_gear_t m /\ mv_gp (w_move w) = m_gear_p m /\
  mv_rehome (w_move w) = m_rehome m /\ mv_seq (w_move w) = m_seq m /\ w_petal_id w = r_petal_id r /\ w_petal_loc w = r_petal_loc r /\ w_device_loc w = r_device_loc r.
(** Enabled rows of a table, one for each move sequence number *)
Definition one_of_each (l kept : list mrow) : Prop :=
  NoDup (map (fun m => r_total (m_raw m)) kept) /\ (forall m, In m kept -> In m l /\ m_on m = true) /\
  (forall m, In m l -> m_on m = true -> exists m', In m' kept /\ r_total (m_raw m') = r_total (m_raw m)).
