(** Model of /repo/py/desimeter/findfiducials.py. The columns of the spots table other than XPIX, YPIX and the four that are
    set are left out, and so is logging. *)
From Verif.Model Require Export Match SimpleCorr Stats Fvc2fp.
From Coq Require Import String.
Local Open Scope R_scope.
Local Open Scope string_scope.
Local Open Scope list_scope.

(** A row of the metrology table. *)
Record device := { v_type : string; v_location : Z; v_pinhole : Z; v_fp : point }.
(** A row of [metrology_pinholes_table], lines 44-50. *)
Record pinhole := { p_location : Z; p_id : Z; p_pix : point }.

(** [np.argmin]: index of the first smallest entry. *)
Fixpoint argmin_from (k best : nat) (m : R) (l : list R) : nat :=
  match l with [] => best | x :: r => if Rltb x m then argmin_from (S k) k x r else argmin_from (S k) best m r end.
Definition argmin (l : list R) : res nat := match l with [] => Err ValueError | x :: r => Ok (argmin_from 1 0 x r) end.

(** lines 55-59, for one location *)
Definition central_pinhole (pinholes : list pinhole) (loc : Z) : res nat :=
  let ii := where_ (fun p => Z.eqb (p_location p) loc) pinholes in
  rbind (take (map p_pix pinholes) ii) (fun xy =>
  rbind (mean (map fst xy)) (fun mx => rbind (mean (map snd xy)) (fun my =>
  rbind (argmin (map (fun p => (fst p - mx) ^ 2 + (snd p - my) ^ 2) xy)) (fun k => geti ii k)))).

(** The module variables metrology_pinholes_table and metrology_fiducials_table, [None] before the first call (lines 15-16);
    they are set together (lines 40-60), from the metrology and the transform of that call. If a later line of this block
    fails the first table stays set without the second; here both stay unset. *)
Definition tables := option (list pinhole * list pinhole).
Definition make_tables (input_tx : tx) (metrology : list device) : res (list pinhole * list pinhole) :=
  let fid := filter (fun v => (v_type v =? "FIF") || (v_type v =? "GIF"))%bool metrology in
  rbind (fp2fvc input_tx (map v_fp fid)) (fun pix =>
  let pinholes := map (fun '(v, p) => {| p_location := v_location v; p_id := v_pinhole v; p_pix := p |}) (combine fid pix) in
  rbind (rmapM (central_pinhole pinholes) (unique (map p_location pinholes))) (fun central =>
  rbind (take pinholes central) (fun fiducials => Ok (pinholes, fiducials)))).

(** lines 32-35; a zero size of a pixel makes the separation inf or nan *)
Definition max_separation (input_tx : tx) (mm : R) : res R :=
  rbind (fvc2fp input_tx [(2000, 0)]) (fun fp1 =>
  rbind (fvc2fp input_tx [(2000 + 1, 0)]) (fun fp2 =>
  rbind (geti fp1 0) (fun a => rbind (geti fp2 0) (fun b =>
  let pixel2fp := dist2d b a in
  if Reqb pixel2fp 0 then Err NonFinite else Ok (mm / pixel2fp))))).

Definition below (d : edist) (m : R) : bool := match d with Some d => Rltb d m | None => false end.

Section Find.
Variable argsort : forall K, (K -> K -> bool) -> list K -> list nat.
(** cKDTree(cat).query(p, k=1); the same for triangles; .query(p, k=4, distance_upper_bound=bound) *)
Variable query2 : list point -> point -> edist * nat.
Variable query3 : list descr -> descr -> edist * nat.
Variable query4 : list point -> R -> point -> list (edist * nat).

(** line 84 [np.median(distances[indices_2>=0])]; [None] for nan (no candidates). Some candidate is always matched at a finite
    distance, as the metrology table is not empty (fp2fvc fails on an empty table). *)
Definition median_distance (ind : list Z) (dis : list edist) : option R :=
  match median (flat_map (fun '(z, d) => if (0 <=? z)%Z then match d with Some d => [d] | None => [] end else []) (combine ind dis)) with
  | Ok m => Some m | Err _ => None end.

(** lines 82-97, with [n] iterations left *)
Fixpoint refine (n : nat) (xy1 xy2 : list point) (saved : R) : res (list point) :=
  match n with
  | O => Ok xy2
  | S n' =>
      rbind (match_same_system argsort query2 xy1 xy2 true) (fun '(ind, dis) =>
      let mdist := median_distance ind dis in
      let maxdistance := match n', mdist with S _, Some m => Rmax 10 (3 * 1.4 * m) | _, _ => 10 end in
      let selection := where_ (fun '(z, d) => ((0 <=? z)%Z && below d maxdistance)%bool) (combine ind dis) in
      rbind (take ind selection) (fun ind2 =>
      rbind (take xy2 (map Z.to_nat ind2)) (fun a =>
      rbind (take xy1 selection) (fun b =>
      rbind (corr_fit simplecorr_init (map fst a) (map snd a) (map fst b) (map snd b) false) (fun corr =>
      let xy2' := map (corr_apply corr) xy2 in
      match mdist with
      | Some m => if Rltb (Rabs (saved - m)) 0.0001 then Ok xy2' else refine n' xy1 xy2' m
      | None => refine n' xy1 xy2' saved
      end)))))
  end.

(** LOCATION and PINHOLE_ID of a spot *)
Notation label := (Z * Z)%type (only parsing).
(** lines 155-158 *)
Definition clear_id (location duplicate : Z) (l : label) : label :=
  if ((fst l =? location) && (snd l =? duplicate))%bool%Z then (fst l, 0%Z) else l.
(** lines 123-158, one matched fiducial *)
Definition label_one (sep : R) (xy : list point) (measured : list (list (edist * nat))) (pinholes fiducials : list pinhole) (labels : list label) (ij : nat * nat) : res (list label) :=
  rbind (geti fiducials (snd ij)) (fun f =>
  let location := p_location f in
  rbind (geti measured (fst ij)) (fun near =>
  let pi1 := map snd (filter (fun q => below (fst q) sep) near) in
  let pi2 := where_ (fun p => Z.eqb (p_location p) location) pinholes in
  rbind (take xy pi1) (fun xy1 =>
  rbind (take pinholes pi2) (fun ph =>
  rbind (match_arbitrary argsort query3 xy1 (map p_pix ph)) (fun '(ind, _) =>
  rbind (rmapM (fun z => if (0 <=? z)%Z then rmap p_id (geti ph (Z.to_nat z)) else Ok 0%Z) ind) (fun ids =>
  let matched := filter (fun q => (0 <=? snd q)%Z) (combine (combine pi1 ids) ind) in
  rbind (set_each labels (map (fun '((k, id), _) => (k, (location, id))) matched)) (fun labels =>
  let positive := filter (Z.ltb 0) ids in
  let duplicates := filter (fun d => (1 <? count (Z.eqb d) positive)%Z) (unique positive) in
  Ok (fold_left (fun ls d => map (clear_id location d) ls) duplicates labels)))))))).
Fixpoint label_all (sep : R) (xy : list point) measured pinholes fiducials (labels : list label) (l : list (nat * nat)) : res (list label) :=
  match l with [] => Ok labels | ij :: r => rbind (label_one sep xy measured pinholes fiducials labels ij) (fun labels => label_all sep xy measured pinholes fiducials labels r) end.

(** The four columns of a spot. *)
Record marks := { k_location : Z; k_petal_loc : Z; k_device_loc : Z; k_pinhole : Z }.
(** lines 161-163 *)
Definition marks_of (l : label) : marks :=
  if (0 <=? fst l)%Z then {| k_location := fst l; k_petal_loc := fst l / 1000; k_device_loc := fst l mod 1000; k_pinhole := snd l |}
  else {| k_location := fst l; k_petal_loc := -1; k_device_loc := -1; k_pinhole := snd l |}.

(** lines 62-169, with the tables *)
Definition find_with (sep : R) (pinholes fiducials : list pinhole) (xy : list point) : res (list marks) :=
  let measured := map (query4 xy sep) xy in
  let candidates := where_ (fun near => (4 <=? count (fun q => below (fst q) sep) near)%Z) measured in
  rbind (take xy candidates) (fun xy1 =>
  rbind (refine 20 xy1 (map p_pix fiducials) 0) (fun xy2 =>
  rbind (match_same_system argsort query2 xy2 xy1 true) (fun '(ind, dis) =>
  let selection := where_ (fun '(z, d) => ((0 <=? z)%Z && below d 10)%bool) (combine ind dis) in
  rbind (take ind selection) (fun ind1 =>
  rbind (take candidates (map Z.to_nat ind1)) (fun indices1 =>
  rbind (label_all sep xy measured pinholes fiducials (map (fun _ => (-1, 0)%Z) xy) (combine indices1 selection)) (fun labels =>
  Ok (map marks_of labels))))))).

(** lines 18-171: the marks of the spots, and the module variables afterwards *)
Definition findfiducials (cache : tables) (metrology : list device) (input_tx : tx) (mm : R) (xy : list point) : res (list marks) * tables :=
  match max_separation input_tx mm with
  | Err e => (Err e, cache)
  | Ok sep =>
      match (match cache with Some t => Ok t | None => make_tables input_tx metrology end) with
      | Err e => (Err e, None)
      | Ok (pinholes, fiducials) => (find_with sep pinholes fiducials xy, Some (pinholes, fiducials))
      end
  end.

(** Arguments of a call; the module variables after a sequence of calls in one process. *)
Record call := { a_metrology : list device; a_tx : tx; a_mm : R; a_xy : list point }.
Definition call_with (cache : tables) (c : call) : res (list marks) * tables := findfiducials cache (a_metrology c) (a_tx c) (a_mm c) (a_xy c).
Definition after (calls : list call) : tables := fold_left (fun cache c => snd (call_with cache c)) calls None.
End Find.
