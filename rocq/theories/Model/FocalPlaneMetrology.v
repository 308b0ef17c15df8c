(** Model of /repo/bin/write_focal_plane_metrology: the petal metrology, its patches and the numbers of the devices as one table. The tables have the same columns in the same order (rows are
    copied by position), numbers are real; None is a masked device or location; [int] of a text is an argument; the columns that are only copied are left out, DEVICE_ID, BUS_ID and CAN_ID are one
    value; log messages are left out. *)
From Verif.Model Require Export Ptl2fp.
Local Open Scope R_scope.
Local Open Scope list_scope.

(** A row of data/UMT-DESI-5421.csv *)
Record umt := { u_petal : Z; u_device : option Z; u_type : string; u_pinhole : string; u_ptl : R * R * R }.
(** A row of the table *)
Record spot := { s_petal : Z; s_device : option Z; s_type : string; s_pinhole : Z; s_ptl : R * R * R; s_fp : R * R * R; s_location : option Z }.
(** A row of the table of devices *)
Record device := { d_petal : Z; d_loc : Z; d_ids : string * Z * Z; d_petal_id : Z }.
(** A row of the output *)
Record orow := { o_spot : spot; o_ids : string * Z * Z; o_petal_id : Z }.

Section Write.
Variable parse_int : string -> res Z.
Variable d : dict Z alignment.
(** lines 40-48 *)
Definition pinhole_number (pid : string) : res Z :=
  match pid with
  | EmptyString => Err IndexError
  | String c r =>
      if Ascii.eqb c "M" then match r with EmptyString => Err IndexError | String c' _ => parse_int (String c' EmptyString) end
      else match parse_int pid with Err ValueError => Ok 0%Z | x => x end
  end.
Definition radius (v : R * R * R) : R := let '(x, y, _) := v in sqrt (x ^ 2 + y ^ 2).
(** line 60 *)
Definition location_of (petal : Z) (dev : option Z) : option Z := option_map (fun k => petal * 1000 + k)%Z dev.
(** lines 34-60 *)
Definition petal_spots (t : list umt) : res (list spot) :=
  let t := filter (fun u => (u_petal u <? 10)%Z) t in
  rbind (rmapM (fun u => rmap (fun n => (u, n)) (pinhole_number (u_pinhole u))) t) (fun t =>
  let t := filter (fun '(u, _) => Rltb 1 (radius (u_ptl u))) t in
  rbind (apply_ptl2fp d (map (fun '(u, _) => u_petal u) t) (map (fun '(u, _) => u_ptl u) t)) (fun fp =>
  Ok (map (fun '((u, n), v) => {| s_petal := u_petal u; s_device := u_device u; s_type := u_type u; s_pinhole := n; s_ptl := u_ptl u; s_fp := v; s_location := location_of (u_petal u) (u_device u) |}) (combine t fp)))).
(** line 67; nothing is equal to a masked location *)
Definition same_place (p s : spot) : bool :=
  match s_location s, s_location p with Some a, Some b => (a =? b)%Z && (s_pinhole s =? s_pinhole p)%Z | _, _ => false end.
(** lines 66-76 *)
Definition patch_one (no_replacement : bool) (spots : list spot) (p : spot) : list spot :=
  if existsb (same_place p) spots
  then if no_replacement then spots else map (fun s => if same_place p s then p else s) spots
  else spots ++ [p].
Definition apply_patch (no_replacement : bool) (patch : list spot) (spots : list spot) : list spot := fold_left (patch_one no_replacement) patch spots.
(** lines 83-92; the flag tells that X_PTL of the row is nan *)
Definition camera_of (p : Z) (s : spot) : bool := (String.eqb (s_type s) "GFA" && (s_petal s =? p)%Z)%bool.
Definition tweak (g : spot * bool) : res spot :=
  let '(s, isnan) := g in
  if isnan then
    let '(x, y, z) := s_fp s in
    rbind (fp2ptl d (s_petal s) x y (Some z)) (fun v => match v with
    | Some (xp, yp, _) => Ok {| s_petal := s_petal s; s_device := s_device s; s_type := s_type s; s_pinhole := s_pinhole s; s_ptl := (xp, yp, z); s_fp := s_fp s; s_location := s_location s |}
    | None => Err NonFinite end)
  else Ok s.
Definition apply_gfa_patch (gfa_patch : list (spot * bool)) (spots : list spot) : res (list spot) :=
  let kept := fold_left (fun l (g : spot * bool) => if snd g then filter (fun s => negb (camera_of (s_petal (fst g)) s)) l else l) gfa_patch spots in
  rmap (fun rows => kept ++ rows) (rmapM tweak gfa_patch).
(** lines 99-108; of a row of the cheat patch the type, pinhole, petal and the new x, y are used *)
Definition same_corner (c s : spot) : bool := (String.eqb (s_type s) (s_type c) && (s_pinhole s =? s_pinhole c)%Z && (s_petal s =? s_petal c)%Z)%bool.
Definition moved_to (c s : spot) : spot :=
  let '(x, y, _) := s_fp c in let '(_, _, z) := s_fp s in
  {| s_petal := s_petal s; s_device := s_device s; s_type := s_type s; s_pinhole := s_pinhole s; s_ptl := s_ptl s; s_fp := (x, y, z); s_location := s_location s |}.
Definition cheat_one (spots : list spot) (c : spot) : res (list spot) :=
  let ind := where_ (same_corner c) spots in
  if Nat.ltb 1 (length ind) then Err ValueError
  else rbind (geti ind 0) (fun j => Ok (map (fun '(k, s) => if Nat.eqb k j then moved_to c s else s) (combine (seq 0 (length spots)) spots))).
Fixpoint apply_cheats (cheats : list spot) (spots : list spot) : res (list spot) :=
  match cheats with [] => Ok spots | c :: r => rbind (cheat_one spots c) (apply_cheats r) end.
(** lines 115-128: the last row of a location, the first one of a petal *)
Definition device_at (t : list device) (loc : Z) : res device :=
  match find (fun k => (d_petal k * 1000 + d_loc k =? loc)%Z) (rev t) with Some k => Ok k | None => Err KeyError end.
Definition numbered (s : spot) : bool := (String.eqb (s_type s) "POS" || String.eqb (s_type s) "FIF" || String.eqb (s_type s) "GIF")%bool.
Definition ids_of (t : list device) (s : spot) : res (string * Z * Z) :=
  if numbered s then match s_location s with Some loc => rmap d_ids (device_at t loc) | None => Err TypeError end else Ok ("unknown    "%string, (-1)%Z, (-1)%Z).
Definition petal_id_of (t : list device) (s : spot) : res Z :=
  match find (fun k => (d_petal k =? s_petal s)%Z) t with Some k => Ok (d_petal_id k) | None => Err KeyError end.
(** lines 130-133 *)
Definition placed (s : spot) : spot :=
  match s_device s with
  | Some k => if (0 <=? k)%Z then s else {| s_petal := s_petal s; s_device := Some (-1)%Z; s_type := s_type s; s_pinhole := s_pinhole s; s_ptl := s_ptl s; s_fp := s_fp s; s_location := Some (-1)%Z |}
  | None => {| s_petal := s_petal s; s_device := Some (-1)%Z; s_type := s_type s; s_pinhole := s_pinhole s; s_ptl := s_ptl s; s_fp := s_fp s; s_location := Some (-1)%Z |}
  end.
(** lines 111-133; all devices are looked up before the petals *)
Definition add_ids (t : list device) (spots : list spot) : res (list orow) :=
  rbind (rmapM (ids_of t) spots) (fun ids => rbind (rmapM (petal_id_of t) spots) (fun pids =>
  Ok (map (fun '((s, i), p) => {| o_spot := placed s; o_ids := i; o_petal_id := p |}) (combine (combine spots ids) pids)))).
(** lines 22-135 *)
Definition write_metrology (no_replacement : bool) (t : list umt) (patch : list spot) (gfa_patch : list (spot * bool)) (cheats : list spot) (devices : list device) : res (list orow) :=
  rbind (petal_spots t) (fun spots =>
  rbind (apply_gfa_patch gfa_patch (apply_patch no_replacement patch spots)) (fun spots =>
  rbind (apply_cheats cheats spots) (add_ids devices))).
End Write.
