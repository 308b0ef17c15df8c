(** A concrete search for the four nearest neighbours, used to show that the promise assumed of scipy's KD-tree can be met. *)
From Verif.Model Require Export Numpy KDTree.

Definition near_scan (dist : R * R -> R * R -> R) (cat : list (R * R)) (bound : R) (p : R * R) : list (option R * nat) :=
  let d := map (dist p) cat in
  let order := isort_argsort R Rltb d in
  let near := firstn 4 (flat_map (fun j => match nth_error d j with Some x => if Rltb x bound then [(Some x, j)] else [] | None => [] end) order) in
  near ++ repeat (None, length cat) (4 - length near).
