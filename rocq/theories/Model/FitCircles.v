(** Model of /repo/bin/desi_fit_circles: centres of the positioners from the spots of several exposures. Table values are finite. Messages and
    plots are left out. *)
From Verif.Model Require Export Circles.
Local Open Scope R_scope.
Local Open Scope list_scope.

Record spot_row := { r_location : Z; r_pinhole : Z; r_xy : R * R; r_exp : R * R }.
(** line 34 *)
Definition code (r : spot_row) : Z := (r_location r * 10 + r_pinhole r)%Z.
(** location_and_pinhole[selection] (lines 33-34) *)
Definition codes (t : list spot_row) : list Z := map code (filter (fun r => (0 <? r_location r)%Z) t).
(** The rows with a code; X_FP_EXP and Y_FP_EXP of the first of them *)
Definition with_code (k : Z) (t : list spot_row) : list spot_row := filter (fun r => (code r =? k)%Z) t.
Definition first_exp (k : Z) (t : list spot_row) : R * R := match with_code k t with r :: _ => r_exp r | [] => (0, 0) end.
(** The dictionaries x, y, xexp and yexp, which have the same keys *)
Definition gathered := list (Z * (list (R * R) * (R * R))).
(** lines 35-42 *)
Definition start (t : list spot_row) : gathered := fold_left (fun d k => dict_set Z.eqb d k ([], first_exp k t)) (codes t) [].
(** lines 44-57 *)
Definition gather_one (t : list spot_row) (d : gathered) (k : Z) : gathered :=
  match with_code k t with
  | [r] => let '(l, e) := match dict_get Z.eqb d k with Some v => v | None => ([], first_exp k t) end in dict_set Z.eqb d k (l ++ [r_xy r], e)
  | _ => d
  end.
Definition gather_file (d : gathered) (t : list spot_row) : gathered := fold_left (gather_one t) (codes t) d.
(** lines 29-57 *)
Definition gather (files : list (list spot_row)) : gathered :=
  match files with [] => [] | t :: _ => fold_left gather_file files (start t) end.

(** [np.std] of a non-empty array *)
Definition std_of (l : list R) : R := let m := Rsum l / INR (length l) in sqrt (Rsum (map (fun u => (u - m) ^ 2) l) / INR (length l)).
Record centre := { c_location : Z; c_pinhole : Z; c_metro : R * R; c_meas : R * R }.

Section Fit.
Variable leastsq : (R * R -> list R) -> R * R -> R * R.
(** lines 78-127: the measured position of one code; None where the loop goes on to the next one, or the position is nan *)
Definition measured (k : Z) (l : list (R * R)) : res (option (R * R)) :=
  if (length l <? 6)%nat then Ok None
  else
    let l := filter (fun p => negb (Reqb (fst p) 0)) l in
    let positioner := (k mod 10 =? 0)%Z in
    if (positioner && (0 <? length l)%nat && Rltb (std_of (map fst l)) 1)%bool then Ok None
    else if positioner then
      match fit_circle leastsq (map (fun p => xy2uv (fst p) (snd p)) l) with
      | Err ValueError => Ok None
      | Err e => Err e
      | Ok (c, r) => if Rltb r 0.1 then Ok None else Ok (Some (uv2xy (fst c) (snd c)))
      end
    else match median (map fst l), median (map snd l) with Ok x, Ok y => Ok (Some (x, y)) | _, _ => Ok None end.
(** lines 129-138 *)
Definition row_of_code (k : Z) (e : R * R) (m : option (R * R)) : list centre :=
  match m with
  | None => []
  | Some p => if (negb (Reqb (fst e) 0) && Rltb (sqrt ((fst p - fst e) ^ 2 + (snd p - snd e) ^ 2)) 3)%bool
              then [{| c_location := k / 10; c_pinhole := k mod 10; c_metro := e; c_meas := p |}] else []
  end.
(** lines 59-141 *)
Definition fit_circles (files : list (list spot_row)) : res (list centre) :=
  rmap (@concat centre) (rmapM (fun '(k, (l, e)) => rmap (row_of_code k e) (measured k l)) (gather files)).
End Fit.
