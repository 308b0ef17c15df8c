(** Model of /repo/bin/write_gfa_patch: the corners of the guide cameras that a plane fitted to stars gives. [avg_table] is data/fp-metrology.csv of the package (line 124), [metrology] the
    table of io.load_metrology (line 176), both with numbers in all columns; [d] is the table of petal alignments; the output is the list of rows (columns that are constant and the
    texts of PROVENANCE and NOTES left out; the number in NOTES is [p_device]). [None] is NaN. *)
From Verif.Model Require Import Ptl2fp.
From Verif.Model Require Export Gfa2fp Stats.
Local Open Scope R_scope.
Local Open Scope list_scope.

Record mrow := { m_petal : Z; m_pinhole : Z; m_gfa : bool; m_ptl : R * R * R; m_fp : R * R * R }.
Record prow := { p_id : Z; p_loc : Z; p_pinhole : Z; p_ptl : option R * option R * option R; p_x : option R; p_y : option R; p_z : R; p_device : Z }.
(** write_gfa_patch:11 *)
Definition pinhole_ids : list Z := [1; 2; 3; 4]%Z.
Definition one_of (l : list Z) (p : Z) : bool := existsb (Z.eqb p) l.
(** write_gfa_patch:13-28 *)
Definition has_real_metrology (petal_loc : Z) : res bool :=
  if one_of [0; 1; 2; 3; 4; 5; 6; 7; 8; 9]%Z petal_loc then Ok (one_of [0; 1; 2; 4; 5; 6; 8; 9]%Z petal_loc) else Err AssertionError.
(** write_gfa_patch:30-53 *)
Definition get_pinhole_gfa_coords (pinhole_id : Z) : res point :=
  if one_of pinhole_ids pinhole_id
  then dict_getE Z.eqb [(1%Z, (0, 0)); (2%Z, (2048 - 1, 0)); (3%Z, (2048 - 1, 1032 - 1)); (4%Z, (0, 1032 - 1))] pinhole_id
  else Err AssertionError.
(** write_gfa_patch:55-86; [is_x] is [coord == 'X'], the only other value used is 'Y' *)
Definition coeff_x_fp : list (Z * (R * R * R)) := [
  (0%Z, (91.8290008897, 0.0142564754, -0.0046540723)); (2%Z, (405.7272754413, 0.0000436514, -0.0149327409)); (3%Z, (348.8824487879, -0.0088595464, -0.0120471442));
  (5%Z, (-91.8627781345, -0.0142609354, 0.0046420089)); (7%Z, (-405.7801509760, -0.0000106187, 0.0149351226)); (8%Z, (-349.3793836387, 0.0087573071, 0.0121231345))].
Definition coeff_y_fp : list (Z * (R * R * R)) := [
  (0%Z, (-396.9957752088, 0.0046691204, 0.0141891317)); (2%Z, (-35.2976124185, 0.0150007008, 0.0000343108)); (3%Z, (210.2297400065, 0.0121055754, -0.0088252019));
  (5%Z, (396.8617645949, -0.0046561284, -0.0141934371)); (7%Z, (35.4811212256, -0.0150023601, -0.0000019735)); (8%Z, (-209.8801602520, -0.0121796381, 0.0087240329))].
Definition get_plane_coeff (petal_loc : Z) (is_x : bool) : res (R * R * R) :=
  if one_of [0; 2; 3; 5; 7; 8]%Z petal_loc then dict_getE Z.eqb (if is_x then coeff_x_fp else coeff_y_fp) petal_loc else Err AssertionError.
(** write_gfa_patch:88-108 *)
Definition get_pinhole_xy_fp (petal_loc pinhole_id : Z) : res point :=
  rbind (get_pinhole_gfa_coords pinhole_id) (fun g =>
  rbind (get_plane_coeff petal_loc true) (fun '(a0, a1, a2) =>
  rbind (get_plane_coeff petal_loc false) (fun '(b0, b1, b2) =>
  Ok (a0 + a1 * fst g + a2 * snd g, b0 + b1 * fst g + b2 * snd g)))).
(** write_gfa_patch:110-136 *)
Definition get_ptl_avg (avg_table : list mrow) (pinhole_id : Z) (coord : R * R * R -> R) : res R :=
  rbind (rmapM (fun t => has_real_metrology (m_petal t)) avg_table) (fun real =>
  let tab := map fst (filter (fun '(t, r) => Z.eqb (m_pinhole t) pinhole_id && m_gfa t && r)%bool (combine avg_table real)) in
  if Nat.eqb (length tab) 8 then mean (map (fun t => coord (m_ptl t)) tab) else Err AssertionError).
Definition cx (v : R * R * R) : R := fst (fst v).
Definition cy (v : R * R * R) : R := snd (fst v).
Definition cz (v : R * R * R) : R := snd v.
(** write_gfa_patch:138-159: x and y, and z *)
Definition get_fp_avg_guess (d : dict Z alignment) (avg_table : list mrow) (petal_loc pinhole_id : Z) : res (option point * R) :=
  if one_of pinhole_ids pinhole_id then
    rbind (get_ptl_avg avg_table pinhole_id cx) (fun x => rbind (get_ptl_avg avg_table pinhole_id cy) (fun y => rbind (get_ptl_avg avg_table pinhole_id cz) (fun z =>
    rbind (ptl2fp d petal_loc x y None) (fun v => Ok (option_map (fun v => (cx v, cy v)) v, z)))))
  else Err AssertionError.
(** write_gfa_patch:161-186 *)
Definition get_real_metrology (metrology : list mrow) (petal_loc pinhole_id : Z) : res (R * R * R) :=
  rbind (has_real_metrology petal_loc) (fun real =>
  if (real && one_of pinhole_ids pinhole_id)%bool then
    match filter (fun t => Z.eqb (m_pinhole t) pinhole_id && m_gfa t && Z.eqb (m_petal t) petal_loc)%bool metrology with
    | [t] => Ok (m_fp t)
    | _ => Err AssertionError
    end
  else Err AssertionError).
(** write_gfa_patch:188-201 *)
Definition ccd_to_fs_offs (xyz : list (R * R * R)) : res (R * R) :=
  match xyz with
  | a :: b :: c :: _ =>
      rbind (normalize3 (Gfa2fp.sub3 b a)) (fun x01 => rbind (normalize3 (Gfa2fp.sub3 c b)) (fun x12 =>
      let '(n0, n1, n2) := cross x01 x12 in
      if Reqb n2 0 then Err NonFinite else Ok (2.23 * n0 / n2, 2.23 * n1 / n2)))
  | _ => Err IndexError
  end.
(** The points of the guess at the heights; a NaN in the first three makes the offsets NaN, the fourth is not used *)
Fixpoint with_z (guess : list (option point)) (z : list R) : res (list (R * R * R)) :=
  match guess, z with
  | g :: guess, h :: z => match g with Some p => rmap (fun l => (fst p, snd p, h) :: l) (with_z guess z) | None => Err NonFinite end
  | _, _ => Ok []
  end.
(** write_gfa_patch:233-242: one turn and all of them *)
Definition turn (planar : list point) (z : list R) (guess : list (option point)) : res (list (option point)) :=
  rbind (with_z (firstn 3 guess) z) (fun l => rbind (ccd_to_fs_offs l) (fun '(dx, dy) => Ok (map (fun q => Some (fst q - dx, snd q - dy)) planar))).
Fixpoint turns (n : nat) (planar : list point) (z : list R) (guess : list (option point)) : res (list (option point)) :=
  match n with O => Ok guess | S n => rbind (turn planar z guess) (turns n planar z) end.
(** write_gfa_patch:203-244. When the offsets of one turn are not finite the differences of the next are NaN and stay so, so that all numbers are NaN after the ten turns. *)
Definition derive_ccd_fp_coords (d : dict Z alignment) (avg_table metrology : list mrow) (petal_loc : Z) : res (list (option point)) :=
  rbind (has_real_metrology petal_loc) (fun real =>
  rbind (rmapM (fun h => if real then rmap (fun v => (Some (cx v, cy v), cz v)) (get_real_metrology metrology petal_loc h) else get_fp_avg_guess d avg_table petal_loc h) pinhole_ids) (fun guess =>
  rbind (rmapM (get_pinhole_xy_fp petal_loc) pinhole_ids) (fun planar =>
  match turns 10 planar (map snd guess) (map fst guess) with
  | Err NonFinite => Ok (map (fun _ => None) planar)
  | r => r
  end))).
(** write_gfa_patch:246-260 *)
Definition get_petal_id (petal_loc : Z) : res Z := dict_getE Z.eqb [(0, 4); (1, 5); (2, 6); (3, 3); (4, 8); (5, 10); (6, 11); (7, 2); (8, 7); (9, 9)]%Z petal_loc.
(** write_gfa_patch:262-276 *)
Definition get_gfa_device (petal_loc : Z) : res Z := dict_getE Z.eqb [(0, 10); (1, 5); (2, 6); (3, 2); (4, 7); (5, 8); (6, 13); (7, 1); (8, 4); (9, 3)]%Z petal_loc.
(** write_gfa_patch:283: one point of the array *)
Definition ptl_of (d : dict Z alignment) (petal_loc : Z) (p : option point) : res (option point) :=
  match p with
  | Some (x, y) => rmap (option_map (fun v => (cx v, cy v))) (fp2ptl d petal_loc x y None)
  | None => rbind (dict_getE Z.eqb d petal_loc) (fun _ => Ok None)
  end.
(** write_gfa_patch:284-298 and 300-317, for one pinhole; the points are picked by [pinhole_id-1] *)
Definition patch_row (d : dict Z alignment) (avg_table metrology : list mrow) (petal_loc : Z) (fp ptl : list (option point)) (pinhole_id : Z) : res prow :=
  rbind (has_real_metrology petal_loc) (fun real =>
  rbind (if real then rmap cz (get_real_metrology metrology petal_loc pinhole_id) else get_ptl_avg avg_table pinhole_id cz) (fun z =>
  rbind (get_petal_id petal_loc) (fun pid => rbind (get_gfa_device petal_loc) (fun dev =>
  rbind (geti fp (Z.to_nat (pinhole_id - 1))) (fun f => rbind (geti ptl (Z.to_nat (pinhole_id - 1))) (fun q =>
  Ok {| p_id := pid; p_loc := petal_loc; p_pinhole := pinhole_id;
        p_ptl := if real then (None, None, None) else (option_map fst q, option_map snd q, Some z);
        p_x := option_map fst f; p_y := option_map snd f; p_z := z; p_device := dev |})))))).
(** write_gfa_patch:279-298 for one petal *)
Definition patch_petal (d : dict Z alignment) (avg_table metrology : list mrow) (petal_loc : Z) : res (list prow) :=
  rbind (derive_ccd_fp_coords d avg_table metrology petal_loc) (fun fp =>
  rbind (rmapM (ptl_of d petal_loc) fp) (fun ptl =>
  rmapM (patch_row d avg_table metrology petal_loc fp ptl) pinhole_ids)).
(** write_gfa_patch:278-320 *)
Definition write_gfa_patch (d : dict Z alignment) (avg_table metrology : list mrow) : res (list prow) :=
  rmap (fun l => List.concat l) (rmapM (patch_petal d avg_table metrology) [0; 2; 3; 5; 7; 8]%Z).
