(** Model of /repo/bin/select_groups_of_positioners: four groups of positioners that can be moved one at a time, from the metrology table.
    The files are given as their contents; messages and the plot are left out. *)
From Verif.Model Require Export RealNum PyString.
Local Open Scope R_scope.
Local Open Scope list_scope.

Record device := { d_type : string; d_id : string; d_x : R; d_y : R }.
Definition mem_nat (i : nat) (l : list nat) : bool := existsb (Nat.eqb i) l.

(** lines 29-38: [todo] are the positioners left, [near] is running_list_of_neighbors *)
Fixpoint one_group (neighbors : nat -> list nat) (allgroups near todo : list nat) : list nat :=
  match todo with
  | [] => []
  | i :: r =>
      if mem_nat i near then one_group neighbors allgroups near r
      else if mem_nat i allgroups then one_group neighbors allgroups near r
      else i :: one_group neighbors allgroups (near ++ neighbors i) r
  end.
(** lines 22-41, with [n] groups left *)
Fixpoint make_groups (neighbors : nat -> list nat) (npos : nat) (n : nat) (groups : list (list nat)) : list (list nat) :=
  match n with
  | O => groups
  | S n' => make_groups neighbors npos n' (groups ++ [one_group neighbors (concat groups) [] (seq 0 npos)])
  end.
(** lines 49-55 *)
Fixpoint add_ids (first : bool) (line : string) (ids : list string) : string :=
  match ids with [] => line | did :: r => add_ids false ((if first then line else line ++ ",") ++ ("'" ++ did ++ "'"))%string r end.

Section Groups.
(** KDTree(xy).query(p, k=7): distances (None for inf) and indices *)
Variable query7 : list (R * R) -> R * R -> list (option R * nat).
(** line 36 *)
Definition close_ones (xy : list (R * R)) (i : nat) : list nat :=
  match nth_error xy i with
  | None => []
  | Some p => flat_map (fun '(d, j) => match d with Some d => if (Rltb 0 d && Rltb d 12)%bool then [j] else [] | None => [] end) (query7 xy p)
  end.
(** lines 11-13 *)
Definition positioners (metrology : list device) : list device := filter (fun s => String.eqb (d_type s) "POS") metrology.
(** lines 14-41 *)
Definition select_groups (metrology : list device) : list (list nat) :=
  let spots := positioners metrology in
  make_groups (close_ones (map (fun s => (d_x s, d_y s)) spots)) (length spots) 4 [].
(** lines 44-58: the column of group-k.csv and the contents of group-k.list *)
Definition group_files (metrology : list device) : list (list string * string) :=
  map (fun g => let ids := flat_map (fun i => match nth_error (positioners metrology) i with Some s => [d_id s] | None => [] end) g in
                (ids, (add_ids true "[" ids ++ "]" ++ String "010" EmptyString)%string)) (select_groups metrology).
End Groups.
