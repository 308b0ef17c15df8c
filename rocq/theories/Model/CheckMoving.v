(** Model of /repo/bin/check_moving and of get_petal_loc of /repo/py/desimeter/dbutil.py: which of the moves of the positioners moved them. The rows that the queries give are
    a function of the petal (lines 60-66); the numbers of the petals are given (lines 39-42); printing and the output file are the list of lines. *)
From Verif.Model Require Export ReadMoves.
Local Open Scope R_scope.
Local Open Scope list_scope.

(** dbutil.py:46-63 *)
Definition petal_locs : list (Z * Z) := [(2, 7); (3, 3); (4, 0); (5, 1); (6, 2); (7, 8); (8, 4); (9, 9); (10, 5); (11, 6); (1, 0); (0, 0)]%Z.
Definition get_petal_loc (petal_id : Z) : res Z := match dict_get Z.eqb petal_locs petal_id with Some l => Ok l | None => Err KeyError end.
(** A row of the table of moves; None in ptl_x and ptl_y is a missing value *)
Record dbmove := { v_pos : string; v_index : Z; v_bus : Z; v_x : option R; v_y : option R }.
Record moving_line := { l_pos : string; l_petal : Z; l_bus : Z; l_moving : list bool }.
(** [np.unique] of texts *)
Fixpoint insert_name (s : string) (l : list string) : list string :=
  match l with [] => [s] | t :: r => if str_ltb s t then s :: l else if String.eqb s t then l else t :: insert_name s r end.
Definition unique_names (l : list string) : list string := fold_right insert_name [] l.

Section Check.
Variable argsort : forall K, (K -> K -> bool) -> list K -> list nat.
Variable query : Z -> list dbmove.
(** check_moving:78-80: rows with a ptl_x; a missing ptl_y becomes nan *)
Definition places (l : list dbmove) : list (R * option R) := flat_map (fun v => match v_x v with Some x => [(x, v_y v)] | None => [] end) l.
(** check_moving:82-85; no comparison with nan holds *)
Definition moved (p q : R * option R) : bool :=
  match snd p, snd q with Some y1, Some y2 => Rltb 0.05 (sqrt ((fst q - fst p) ^ 2 + (y2 - y1) ^ 2)) | _, _ => false end.
Fixpoint steps (l : list (R * option R)) : list bool := match l with p :: ((q :: _) as r) => moved p q :: steps r | _ => [] end.
(** check_moving:70-89, for one positioner *)
Definition check_positioner (petal_loc : Z) (rows : list dbmove) (posid : string) : res (list moving_line) :=
  let l := filter (fun v => String.eqb (v_pos v) posid) rows in
  rbind (geti l 0) (fun first =>
  rbind (sort_rows argsort Z.ltb v_index l) (fun s =>
  let xy := places s in
  if (length xy <? 2)%nat then Ok [] else Ok [{| l_pos := posid; l_petal := petal_loc; l_bus := v_bus first; l_moving := steps xy |}])).
(** check_moving:57-89, for one petal *)
Definition check_petal (petalid : Z) : res (list moving_line) :=
  let rows := query petalid in
  rbind (get_petal_loc petalid) (fun loc => rmap (@concat _) (rmapM (check_positioner loc rows) (unique_names (map v_pos rows)))).
(** check_moving:49-89 *)
Definition check_moving (petalids : list Z) : res (list moving_line) :=
  rbind (rmapM get_petal_loc petalids) (fun locs =>
  rbind (take petalids (argsort Z Z.ltb locs)) (fun sorted => rmap (@concat _) (rmapM check_petal sorted))).
End Check.
