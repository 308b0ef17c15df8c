(** Model of /repo/bin/update_focal_plane_metrology_patch: new positions of the rows of the metrology patch from fitted metrology files.
    Table values are present and finite; messages are left out. *)
From Verif.Model Require Export Stats.
Local Open Scope R_scope.
Local Open Scope list_scope.

(** A row of fp-metrology-patch.csv; [p_rest] stands for the other columns *)
Record patch_row := { p_petal : Z; p_device : Z; p_pinhole : Z; p_xy : R * R; p_rest : string }.
(** A table of spots, with a column LOCATION or without *)
Inductive spot_table :=
| WithLocation (rows : list (Z * Z * (R * R)))
| WithPetal (rows : list (Z * Z * Z * (R * R))).
(** line 27 *)
Definition ploc (r : patch_row) : Z := (p_petal r * 10000 + p_device r * 10 + p_pinhole r)%Z.
(** lines 40-43: sloc and the positions *)
Definition sloc (t : spot_table) : list (Z * (R * R)) :=
  match t with
  | WithLocation rows => map (fun '(l, p, xy) => ((l * 10 + p)%Z, xy)) rows
  | WithPetal rows => map (fun '(c, d, p, xy) => ((c * 10000 + d * 10 + p)%Z, xy)) rows
  end.
(** xfp and yfp *)
Definition positions := list (Z * list (R * R)).
Definition found_at (d : positions) (k : Z) : list (R * R) := match dict_get Z.eqb d k with Some l => l | None => [] end.
(** lines 33-35 *)
Definition empty_positions (locs : list Z) : positions := fold_left (fun (d : positions) k => dict_set Z.eqb d k []) locs [].
(** lines 47-51 *)
Definition add_spot (t : spot_table) (d : positions) (k : Z) : positions :=
  match filter (fun s => (fst s =? k)%Z) (sloc t) with [s] => dict_set Z.eqb d k (found_at d k ++ [snd s]) | _ => d end.
(** lines 37-51 *)
Definition all_positions (locs : list Z) (files : list spot_table) : positions :=
  fold_left (fun d t => fold_left (add_spot t) locs d) files (empty_positions locs).
Definition set_xy (r : patch_row) (xy : R * R) : patch_row := {| p_petal := p_petal r; p_device := p_device r; p_pinhole := p_pinhole r; p_xy := xy; p_rest := p_rest r |}.
(** lines 54-60 *)
Definition update_loc (d : positions) (patch : list patch_row) (k : Z) : res (list patch_row) :=
  match found_at d k with
  | [] => Ok patch
  | l => rbind (median (map fst l)) (fun mx => rbind (median (map snd l)) (fun my =>
         Ok (map (fun r => if (ploc r =? k)%Z then set_xy r (mx, my) else r) patch)))
  end.
(** lines 27-61 *)
Definition update_patch (patch : list patch_row) (files : list spot_table) : res (list patch_row) :=
  let locs := map ploc patch in
  let d := all_positions locs files in
  fold_left (fun p k => rbind p (fun p => update_loc d p k)) locs (Ok patch).
