(** Model of /repo/py/desimeter/averagecoord.py. *)
From Verif.Model Require Export Match SimpleCorr.
Local Open Scope R_scope.

Section Average.
Variable argsort : forall K, (K -> K -> bool) -> list K -> list nat.
Variable query2 : list point -> point -> edist * nat.

(** averagecoord.py:33 *)
Definition matched_entry (id : Z * edist) : bool :=
  ((0 <=? fst id)%Z && match snd id with Some d => Rltb d 5 | None => false end)%bool.

(** averagecoord.py:30-52, one further table. State: x1,y1; indices; the rows of xx,yy. *)
Definition add_table (st : list point * list nat * list (list point)) (xy2 : list point)
  : res (list point * list nat * list (list point)) :=
  let '(xy1, indices, xxyy) := st in
  rbind (match_same_system argsort query2 xy1 xy2 true) (fun md =>
  let '(indices_2, distances) := md in
  let ok := where_ matched_entry (combine indices_2 distances) in
  rbind (take indices_2 ok) (fun indices_2 =>
  rbind (take xy1 ok) (fun xy1 =>
  rbind (take indices ok) (fun indices =>
  rbind (take xy2 (map Z.to_nat indices_2)) (fun xy2 =>
  rbind (rmapM (fun row => take row ok) xxyy) (fun xxyy =>
  rbind (corr_fit simplecorr_init (map fst xy2) (map snd xy2) (map fst xy1) (map snd xy1) false) (fun corr =>
  Ok (xy1, indices, xxyy ++ [map (corr_apply corr) xy2])))))))).

Fixpoint add_tables (st : list point * list nat * list (list point)) (tables : list (list point)) :=
  match tables with
  | [] => Ok st
  | t :: r => rbind (add_table st t) (fun st' => add_tables st' r)
  end.

(** [np.mean(xx,axis=0)], [np.mean(yy,axis=0)] of [n] columns. *)
Definition mean_points (l : list point) : point := (Rsum (map fst l) / INR (length l), Rsum (map snd l) / INR (length l)).
Definition column_means (n : nat) (xxyy : list (list point)) : list point :=
  map (fun j => mean_points (map (fun row => nth j row (0, 0)) xxyy)) (seq 0 n).

(** averagecoord.py:5-67 without the statistics printed. A table is the list of its rows, each
    with its x,y columns and the rest [A]; the first table is modified in place and returned.
    np.vstack of an empty list raises ValueError. *)
Definition average_coordinates {A} (tables : list (list (A * point))) : res (list (A * point)) :=
  match tables with
  | [] => Err ValueError
  | table1 :: others =>
      let xy1 := map snd table1 in
      rbind (add_tables (xy1, seq 0 (length xy1), [xy1]) (map (map snd) others)) (fun st =>
      let '(_, indices, xxyy) := st in
      rbind (set_each xy1 (combine indices (column_means (length indices) xxyy))) (fun xy =>
      Ok (combine (map fst table1) xy)))
  end.
End Average.
