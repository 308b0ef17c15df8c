(** Model of /repo/py/desimeter/spotmatch.py. The program match_positions and the files are not modelled: its input files are
    lists of lines (unformatted numbers) and its output is a list of lines, each a list of words. *)
From Verif.Model Require Export Stats LinAlg.
From Coq Require Import String.
Local Open Scope R_scope.
Local Open Scope string_scope.
Local Open Scope list_scope.

(** The metrology columns used. *)
Record metro_dev := { d_location : Z; d_type : string; d_loc : Z; d_id : string; d_petal_loc : Z; d_petal_id : Z; d_bus : string; d_pinhole : Z; d_x : R; d_y : R }.
Definition is_fiducial (d : metro_dev) : bool := (d_type d =? "FIF") || (d_type d =? "GIF").

(** A map of the plane: fvc2fp or fp2fvc for one point. *)
Definition plane_map := R * R -> R * R.
(** spotmatch.py:18-38 *)
Definition compute_pixel_scale (fvc2fp : plane_map) : R :=
  let eps := 0.1 in
  let p0 := fvc2fp (3000, 3000) in let p1 := fvc2fp (3000 + eps, 3000) in let p2 := fvc2fp (3000, 3000 + eps) in
  let j00 := (fst p1 - fst p0) / eps in let j01 := (fst p2 - fst p0) / eps in
  let j10 := (snd p1 - snd p0) / eps in let j11 := (snd p2 - snd p0) / eps in
  sqrt (Rabs (j00 * j11 - j01 * j10)).

(** location, x, y, flag *)
Definition in_line := (Z * (R * R) * Z)%type.
(** spotmatch.py:107-118, 151-161 *)
Definition fiducial_centers (metrology : list metro_dev) : res (list (Z * (R * R))) :=
  rmapM (fun loc =>
    let sel := filter (fun d => (d_location d =? loc)%Z) metrology in
    rbind (mean (map d_x sel)) (fun mx => rbind (mean (map d_y sel)) (fun my => Ok (loc, (mx, my)))))
    (unique (map d_location (filter is_fiducial metrology))).
(** spotmatch.py:98-125. [fp2fvc] is the given or the default transform. *)
Definition targets_lines (metrology : list metro_dev) (fp2fvc : plane_map) (targets : list (Z * (R * R))) : res (list in_line) :=
  rbind (fiducial_centers metrology) (fun centers =>
  Ok (map (fun t => (fst t, fp2fvc (snd t), 4%Z)) targets ++ map (fun t => (fst t, fp2fvc (snd t), 8%Z)) centers)).
(** spotmatch.py:140-167 *)
Definition device_centers_lines (metrology : list metro_dev) (fp2fvc : plane_map) : res (list in_line) :=
  targets_lines metrology fp2fvc (map (fun d => (d_location d, (d_x d, d_y d))) (filter (fun d => d_type d =? "POS") metrology)).
(** spotmatch.py:220-234 *)
Definition reference_number (pinhole : Z) : option Z :=
  if (pinhole =? 1)%Z then Some 515%Z else if (pinhole =? 2)%Z then Some 1027%Z else if (pinhole =? 3)%Z then Some 259%Z else if (pinhole =? 4)%Z then Some 771%Z else None.
Definition reference_lines (metrology : list metro_dev) (fp2fvc : plane_map) : list in_line :=
  flat_map (fun d => match reference_number (d_pinhole d) with Some n => [(d_location d, fp2fvc (d_x d, d_y d), n)] | None => [] end) (filter is_fiducial metrology).
(** spotmatch.py:283-310: targets, references and device centers. The last two are called with fvc2fp=None. *)
Definition spotmatch_inputs (metrology : list metro_dev) (default : plane_map) (given : option plane_map) (expected : option (list (Z * (R * R)))) : res (list in_line * list in_line * list in_line) :=
  let fp2fvc := match given with Some f => f | None => default end in
  let targets := match expected with Some e => e | None => map (fun d => (d_location d, (d_x d, d_y d))) (filter (fun d => d_type d =? "POS") metrology) end in
  rbind (targets_lines metrology fp2fvc targets) (fun t => rbind (device_centers_lines metrology default) (fun c => Ok (t, reference_lines metrology default, c))).

Section Parse.
(** [int] and [float] of a word *)
Variables (parse_int : string -> res Z) (parse_float : string -> res R).
Record center := { c_location : Z; c_xpix : R; c_ypix : R; c_flag : R; c_err : R; c_type : string }.
(** spotmatch.py:368-378 *)
Definition read_center (vals : list string) : res center :=
  match vals with
  | [v0; v1; v2; v3; v4; v5; v6] =>
      rbind (parse_int v0) (fun loc => rbind (parse_float v1) (fun x => rbind (parse_float v2) (fun y => rbind (parse_float v3) (fun _ => rbind (parse_float v4) (fun flag => rbind (parse_float v5) (fun err =>
      Ok {| c_location := loc; c_xpix := x; c_ypix := y; c_flag := flag; c_err := err; c_type := v6 |}))))))
  | _ => Err ValueError
  end.
Definition read_centers (lines : list (list string)) : res (list center) := rmapM read_center (filter (fun vals => (List.length vals =? 7)%nat) lines).
End Parse.

Record device_info := { i_type : string; i_loc : Z; i_id : string; i_petal_loc : Z; i_petal_id : Z; i_bus : string }.
Definition unknown_info : device_info := {| i_type := "unknown"; i_loc := -1; i_id := "unknown"; i_petal_loc := -1; i_petal_id := -1; i_bus := "unknown" |}.
(** The text columns are created as arrays of "unknown", seven characters wide: longer values are cut. *)
Definition cut7 (s : string) : string := substring 0 7 s.
(** spotmatch.py:397-406. The dictionary keeps the last row of a location. *)
Definition lookup_info (metrology : list metro_dev) (loc : Z) : res device_info :=
  if (loc <? 0)%Z then Ok unknown_info
  else match find (fun d => (d_location d =? loc)%Z) (rev metrology) with
  | None => Err KeyError
  | Some d => Ok {| i_type := cut7 (d_type d); i_loc := d_loc d; i_id := cut7 (d_id d); i_petal_loc := d_petal_loc d; i_petal_id := d_petal_id d; i_bus := cut7 (d_bus d) |}
  end.
(** spotmatch.py:415-416: the turn of one location, from the number k on *)
Fixpoint number_pinholes (loc k : Z) (cs : list center) (ids : list Z) : list Z :=
  match cs, ids with
  | c :: cs', id :: ids' => if ((c_location c =? loc)%Z && (c_type c =? "pinhole"))%bool then k :: number_pinholes loc (k + 1) cs' ids' else id :: number_pinholes loc k cs' ids'
  | _, _ => ids
  end.
(** spotmatch.py:409-416 *)
Definition pinhole_ids (cs : list center) : list Z :=
  let ids0 := map (fun c => if c_type c =? "fiducial" then 99%Z else 0%Z) cs in
  fold_left (fun ids loc => number_pinholes loc 10 cs ids) (unique (map c_location (filter (fun c => c_type c =? "fiducial") cs))) ids0.
(** spotmatch.py:381-418 *)
Definition spotmatch_output (metrology : list metro_dev) (cs : list center) : res (list (center * device_info * Z)) :=
  rbind (rmapM (fun c => lookup_info metrology (c_location c)) cs) (fun infos => Ok (combine (combine cs infos) (pinhole_ids cs))).
