(** Model of /repo/bin/compute_distance_from_center, from the processed spots on. Values are finite; the lines with the distance of each
    positioner are the entries of the dictionary. *)
From Verif.Model Require Export Numpy RealNum.
Local Open Scope R_scope.
Local Open Scope list_scope.

(** A row of the spots: LOCATION, X_FP, Y_FP *)
Record spot := { s_loc : Z; s_x : R; s_y : R }.
(** A row of the metrology *)
Record device := { d_loc : Z; d_id : string; d_x : R; d_y : R }.
Definition distances := list (string * R).
(** lines 42-45 *)
Definition start (posids : option (list string)) : distances :=
  match posids with Some l => fold_left (fun (d : distances) p => dict_set String.eqb d p (-1)) l [] | None => [] end.
(** line 57 *)
Definition wanted (posids : option (list string)) (p : string) : bool := match posids with Some l => existsb (String.eqb p) l | None => true end.
(** lines 47-62 *)
Definition step (m : list device) (posids : option (list string)) (d : distances) (s : spot) : distances :=
  if (s_loc s <? 0)%Z then d else
  match filter (fun v => (d_loc v =? s_loc s)%Z) m with
  | [] => d
  | v :: _ => if wanted posids (d_id v) then dict_set String.eqb d (d_id v) (sqrt ((s_x s - d_x v) ^ 2 + (s_y s - d_y v) ^ 2)) else d
  end.
Definition measure (t : list spot) (m : list device) (posids : option (list string)) : distances := fold_left (step m posids) t (start posids).
(** Lines 70-75 and 78-85: the counts, and the names of the lists that are printed (the others are empty) *)
Record summary := { matched : Z; below3 : Z; below4 : Z; below5 : Z; below6 : Z; unmatched : Z;
  over6 : list string; from5to6 : list string; from4to5 : list string; from3to4 : list string }.
Definition summarize (d : distances) : summary :=
  let number f := count (fun e : string * R => f (snd e)) d in
  let names f := map fst (filter (fun e : string * R => f (snd e)) d) in
  {| matched := number (Rltb 0); below3 := number (fun x => Rltb 0 x && Rltb x 3)%bool; below4 := number (fun x => Rltb 0 x && Rltb x 4)%bool;
     below5 := number (fun x => Rltb 0 x && Rltb x 5)%bool; below6 := number (fun x => Rltb 0 x && Rltb x 6)%bool; unmatched := number (fun x => Rltb x 0);
     over6 := names (Rltb 6); from5to6 := names (fun x => Rltb 5 x && Rleb x 6)%bool; from4to5 := names (fun x => Rltb 4 x && Rleb x 5)%bool;
     from3to4 := names (fun x => Rltb 3 x && Rleb x 4)%bool |}.
