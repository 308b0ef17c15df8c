(** Model of /repo/bin/detect_and_match_moving_positioners, from the averaged spots of the images on. Plots and messages are left out, and so
    are the columns copied from the metrology that are not read later. *)
From Verif.Model Require Export Match SimpleCorr Xy2qs.
Local Open Scope R_scope.
Local Open Scope list_scope.

(** A row of the metrology *)
Record device := { d_id : string; d_petal : Z; d_xy : point }.
(** A row of the output *)
Record detection := { r_device : device; r_pix : point; r_fp : point; r_ptl : point; r_qs : R * R; r_flags : Z }.
(** Options: --max-match-radius-mm, --min-move-mm, --max-move-mm, --min-dist-from-center-mm *)
Record limits := { max_radius : R; min_move : R; max_move : R; min_dist : R }.
(** [distances < r], where a missing neighbour is at infinite distance *)
Definition nearer (d : edist) (r : R) : bool := match d with Some x => Rltb x r | None => false end.
Definition separation (p q : point) : R := sqrt ((fst q - fst p) ^ 2 + (snd q - snd p) ^ 2).

Section Detect.
Variable argsort : forall K, (K -> K -> bool) -> list K -> list nat.
(** cKDTree(cat).query(p, k=1) *)
Variable query2 : list point -> point -> edist * nat.
(** The transformation read on line 99; [fp2ptl], with its third coordinate dropped, of a petal in the alignment *)
Variable fvc2fp : point -> point.
Variable fp2ptl : Z -> point -> point.

(** lines 79-97: pixels after the moves, and corrected pixels before the moves *)
Definition pair_spots (xy1 xy2 : list point) : res (list (point * point)) :=
  rbind (match_same_system argsort query2 xy1 xy2 true) (fun '(indices_2, _) =>
  let ok := where_ (Z.leb 0) indices_2 in
  rbind (take xy1 ok) (fun p1 =>
  rbind (take indices_2 ok) (fun i2 =>
  rbind (take xy2 (map Z.to_nat i2)) (fun p2 =>
  rbind (corr_fit simplecorr_init (map fst p2) (map snd p2) (map fst p1) (map snd p1) false) (fun corr =>
  Ok (combine p1 (map (corr_apply corr) p2))))))).
(** lines 100-108 *)
Definition detected (o : limits) (pairs : list (point * point)) : list point :=
  map fst (filter (fun '(a, b) => let d := separation (fvc2fp a) (fvc2fp b) in Rltb (min_move o) d && Rltb d (max_move o))%bool pairs).
(** lines 118-130: index of the centre matched to each detected spot, and the distance *)
Definition match_centres (centres fps : list point) : res (list (Z * edist)) :=
  let q := map (query2 centres) fps in
  let distances := map fst q in
  let indices := map (fun di => Z.of_nat (snd di)) q in
  rbind (if (0 <? count (Z.leb 0) indices - count (Z.leb 0) (unique indices))%Z then drop_loop argsort distances indices (unique indices) else Ok indices)
    (fun ind => Ok (combine ind distances)).
(** lines 154-177 *)
Definition row_of (d : device) (pix : point) : detection :=
  let fp := fvc2fp pix in let ptl := fp2ptl (d_petal d) fp in
  {| r_device := d; r_pix := pix; r_fp := fp; r_ptl := ptl; r_qs := xy2qs (fst ptl) (snd ptl); r_flags := 4 |}.
(** lines 103-194: the rows of the output; None when no file is written *)
Definition report (o : limits) (metrology : list device) (moved : list string) (pairs : list (point * point)) : res (option (list detection)) :=
  let pix := detected o pairs in
  let spots := filter (fun d => existsb (String.eqb (d_id d)) moved) metrology in
  rbind (match_centres (map d_xy spots) (map fvc2fp pix)) (fun matched =>
  let good := where_ (fun '(z, d) => ((0 <=? z)%Z && nearer d (max_radius o))%bool) matched in
  rbind (take (map fst matched) good) (fun indices =>
  rbind (take pix good) (fun pix =>
  rbind (take spots (map Z.to_nat indices)) (fun spots =>
  let rows := map (fun '(d, p) => row_of d p) (combine spots pix) in
  let selected := filter (fun r => Rltb (min_dist o) (separation (d_xy (r_device r)) (r_fp r))) rows in
  Ok (match selected with [] => None | _ => Some selected end))))).
(** the whole script *)
Definition detect_moving (o : limits) (metrology : list device) (moved : list string) (after before : list point) : res (option (list detection)) :=
  rbind (pair_spots after before) (report o metrology moved).
End Detect.
