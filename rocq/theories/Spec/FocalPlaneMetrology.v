(** The table of the focal plane metrology and its patches. *)
From Verif.Model Require Import FocalPlaneMetrology.
Local Open Scope R_scope.
Local Open Scope list_scope.

(** The number of a pinhole: the digit after M, or the number, or 0 if it is none *)
Definition pinhole_text (parse_int : string -> res Z) (pid : string) (n : Z) : Prop :=
  (exists c r, pid = String "M" (String c r) /\ parse_int (String c EmptyString) = Ok n) \/
  (pid <> EmptyString /\ (forall r, pid <> String "M" r) /\ (parse_int pid = Ok n \/ (parse_int pid = Err ValueError /\ n = 0%Z))).
(** Rows of the petal metrology that are used, and as rows of the table *)
Definition off_axis (u : umt) : Prop := let '(x, y, _) := u_ptl u in 1 < x ^ 2 + y ^ 2.
Definition from_petal (parse_int : string -> res Z) (d : list (Z * alignment)) (u : umt) (s : spot) : Prop :=
  (u_petal u < 10)%Z /\ off_axis u /\ s_petal s = u_petal u /\ s_device s = u_device u /\ s_type s = u_type u /\ s_ptl s = u_ptl u /\ pinhole_text parse_int (u_pinhole u) (s_pinhole s) /\
  s_location s = match u_device u with Some k => Some (u_petal u * 1000 + k)%Z | None => None end /\
  (let '(x, y, z) := u_ptl u in ptl2fp d (u_petal u) x y (Some z) = Ok (Some (s_fp s))).
(** [a] are the elements of [l] with P, in order *)
Inductive sublist {A} (P : A -> Prop) : list A -> list A -> Prop :=
| sub_nil : sublist P [] []
| sub_keep x l a : P x -> sublist P l a -> sublist P (x :: l) (x :: a)
| sub_drop x l a : ~ P x -> sublist P l a -> sublist P (x :: l) a.
(** Rows at a location with a pinhole *)
Definition at_place (loc pin : Z) (s : spot) : bool := match s_location s with Some l => (l =? loc)%Z && (s_pinhole s =? pin)%Z | None => false end.
Definition unplaced (s : spot) : bool := match s_location s with Some _ => false | None => true end.
(** The same row with new petal coordinates, or with new x and y in the focal plane *)
Definition with_ptl (s : spot) (v : R * R * R) : spot :=
  {| s_petal := s_petal s; s_device := s_device s; s_type := s_type s; s_pinhole := s_pinhole s; s_ptl := v; s_fp := s_fp s; s_location := s_location s |}.
Definition with_xy (s : spot) (x y : R) : spot :=
  {| s_petal := s_petal s; s_device := s_device s; s_type := s_type s; s_pinhole := s_pinhole s; s_ptl := s_ptl s; s_fp := (x, y, snd (s_fp s)); s_location := s_location s |}.
(** A row of the patch of guide cameras, and whether its petal coordinates are missing, as it is added *)
Definition added (d : list (Z * alignment)) (g : spot * bool) (s : spot) : Prop :=
  if snd g then exists xp yp zp, fp2ptl d (s_petal (fst g)) (fst (fst (s_fp (fst g)))) (snd (fst (s_fp (fst g)))) (Some (snd (s_fp (fst g)))) = Ok (Some (xp, yp, zp)) /\ s = with_ptl (fst g) (xp, yp, snd (s_fp (fst g)))
  else s = fst g.
(** It is replaced by the patch *)
Definition replaced (gfa_patch : list (spot * bool)) (s : spot) : Prop := s_type s = "GFA"%string /\ exists g, In (g, true) gfa_patch /\ s_petal g = s_petal s.
Definition corner_of (c s : spot) : Prop := s_type s = s_type c /\ s_pinhole s = s_pinhole c /\ s_petal s = s_petal c.
(** The row after the last patch: x and y of the last row for its corner *)
Inductive cheated (s : spot) : list spot -> spot -> Prop :=
| cheat_none cheats : (forall c, In c cheats -> ~ corner_of c s) -> cheated s cheats s
| cheat_last a c b : corner_of c s -> (forall c', In c' b -> ~ corner_of c' s) -> cheated s (a ++ c :: b) (with_xy s (fst (fst (s_fp c))) (snd (fst (s_fp c)))).
(** The numbers of the device: those of the last row at its location for positioners and fiducials; the petal number of the first row of the petal; -1 for no device *)
Definition with_ids (devices : list device) (s : spot) (o : orow) : Prop :=
  (s_type s = "POS"%string \/ s_type s = "FIF"%string \/ s_type s = "GIF"%string ->
    exists a k b, devices = a ++ k :: b /\ s_location s = Some (d_petal k * 1000 + d_loc k)%Z /\ o_ids o = d_ids k /\ forall k', In k' b -> s_location s <> Some (d_petal k' * 1000 + d_loc k')%Z) /\
  (s_type s <> "POS"%string -> s_type s <> "FIF"%string -> s_type s <> "GIF"%string -> o_ids o = ("unknown    "%string, (-1)%Z, (-1)%Z)) /\
  (exists a k b, devices = a ++ k :: b /\ d_petal k = s_petal s /\ o_petal_id o = d_petal_id k /\ forall k', In k' a -> d_petal k' <> s_petal s) /\
  s_petal (o_spot o) = s_petal s /\ s_type (o_spot o) = s_type s /\ s_pinhole (o_spot o) = s_pinhole s /\ s_ptl (o_spot o) = s_ptl s /\ s_fp (o_spot o) = s_fp s /\
  match s_device s with
  | Some k => ((0 <= k)%Z -> s_device (o_spot o) = Some k /\ s_location (o_spot o) = s_location s) /\ ((k < 0)%Z -> s_device (o_spot o) = Some (-1)%Z /\ s_location (o_spot o) = Some (-1)%Z)
  | None => s_device (o_spot o) = Some (-1)%Z /\ s_location (o_spot o) = Some (-1)%Z
  end.
