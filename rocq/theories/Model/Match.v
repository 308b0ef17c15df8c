(** Model of /repo/py/desimeter/match.py. *)
From Verif.Model Require Export Numpy RealNum.

(** Triangle properties, triangle vertices. *)
Notation descr := (R * R * R)%type (only parsing).
Notation tri := (nat * nat * nat)%type (only parsing).

Section Match.
(** [np.argsort]: any sorting function. *)
Variable argsort : forall K, (K -> K -> bool) -> list K -> list nat.
(** scipy's cKDTree(pts).query(p, k=1) in the plane: distance and index. *)
Variable query2 : list point -> point -> edist * nat.

(** *** match_same_system *)

(** match.py:129-132, the body of the loop for one matched index [i2]. *)
Definition drop_others (distances : list edist) (indices : list Z) (i2 : Z) : res (list Z) :=
  let jj := where_ (Z.eqb i2) indices in
  if Nat.ltb 1 (length jj) then
    rbind (take distances jj) (fun djj =>
    let kk := argsort edist edist_ltb djj in
    rbind (take jj (skipn 1 kk)) (fun others => set_all indices others (-1)))
  else Ok indices.

(** match.py:128-132, the loop. *)
Fixpoint drop_loop (distances : list edist) (indices : list Z) (us : list Z) : res (list Z) :=
  match us with
  | [] => Ok indices
  | i2 :: r => rbind (drop_others distances indices i2) (fun ind => drop_loop distances ind r)
  end.

(** match.py:102-135 [match_same_system] *)
Definition match_same_system (xy1 xy2 : list point) (remove_duplicates : bool) : res (list Z * list edist) :=
  let q := map (query2 xy2) xy1 in
  let distances := map fst q in
  let indices := map (fun di => Z.of_nat (snd di)) q in
  rbind (if remove_duplicates then
           let us := unique indices in
           let n_duplicates := count (Z.leb 0) indices - count (Z.leb 0) us in
           if 0 <? n_duplicates then drop_loop distances indices us else Ok indices
         else Ok indices)
    (fun ind => Ok (ind, map (fun p => if fst p <? 0 then None else snd p) (combine ind distances))).

(** *** Triangles *)

Definition sqr (x : R) : R := (x * x)%R.
(** match.py:93-98, properties of the triangle with vertices a, b, c (in this order). *)
Definition describe (a b c : point) : descr :=
  let '(x0, y0) := a in let '(x1, y1) := b in let '(x2, y2) := c in
  let l0 := (sqr (x1 - x0) + sqr (y1 - y0))%R in
  let l1 := (sqr (x2 - x1) + sqr (y2 - y1))%R in
  let l2 := (sqr (x0 - x2) + sqr (y0 - y2))%R in
  (sqrt (Rmax (Rmax l0 l1) l2 / Rmin (Rmin l0 l1) l2),
   ((x1 - x0) * (x2 - x0) + (y1 - y0) * (y2 - y0)) /
     sqrt ((sqr (x1 - x0) + sqr (y1 - y0)) * (sqr (x2 - x0) + sqr (y2 - y0))),
   (x1 - x0) / sqrt (sqr (x1 - x0) + sqr (y1 - y0)))%R.

(** match.py:83-89: [for i in range(nn): for j in range(i+1,nn): for k in range(j+1,nn)],
    as the list of all choices of three entries in this order. *)
Fixpoint pairs_of {A} (l : list A) : list (A * A) :=
  match l with [] => [] | a :: r => map (pair a) r ++ pairs_of r end.
Fixpoint triples_of {A} (l : list A) : list (A * A * A) :=
  match l with [] => [] | a :: r => map (fun bc => (a, fst bc, snd bc)) (pairs_of r) ++ triples_of r end.

(** match.py:62-100 [compute_triangles_with_fixed_orientation]: catalogue indices and
    properties of all triangles. *)
Definition compute_triangles (xy : list point) : res (list tri * list descr) :=
  let ordering := argsort R Rltb (map fst xy) in
  rbind (take xy ordering) (fun sxy =>
  let t := triples_of (combine ordering sxy) in
  Ok (map (fun abc => let '(a, b, c) := abc in (fst a, fst b, fst c)) t,
      map (fun abc => let '(a, b, c) := abc in describe (snd a) (snd b) (snd c)) t)).

(** cKDTree(tri2).query(t, k=1) in the space of triangle properties. *)
Variable query3 : list descr -> descr -> edist * nat.

(** match.py:185: some vertex already matched to another entry. *)
Definition conflict (o : Z) (k2 : nat) : bool := (0 <=? o) && negb (o =? Z.of_nat k2).

(** match.py:179-189 for one pair of triangles; the distances array is updated together. *)
Definition use_pair (st : list Z * list edist) (k1 k2 : tri) (d : edist) : res (list Z * list edist) :=
  let '(i, j, k) := k1 in let '(i', j', k') := k2 in
  let '(indices, distances) := st in
  rbind (geti indices i) (fun a => rbind (geti indices j) (fun b => rbind (geti indices k) (fun c =>
  if conflict a i' || conflict b j' || conflict c k' then Ok st
  else
    rbind (set_each indices [(i, Z.of_nat i'); (j, Z.of_nat j'); (k, Z.of_nat k')]) (fun ind =>
    rbind (set_all distances [i; j; k] d) (fun dis => Ok (ind, dis)))))).

(** match.py:179-193, the loop over ranked pairs. The skipped pair does not evaluate
    [all_matched]; as nothing changed then, testing it again gives the same answer unless
    the catalogue was full before, which would have ended the loop. *)
Fixpoint match_loop (tk1 : list tri) (tk2 : list tri) (q : list (edist * nat))
         (ranked : list nat) (st : list Z * list edist) : res (list Z * list edist) :=
  match ranked with
  | [] => Ok st
  | p :: r =>
      rbind (geti tk1 p) (fun k1 => rbind (geti q p) (fun dq => rbind (geti tk2 (snd dq)) (fun k2 =>
      rbind (use_pair st k1 k2 (fst dq)) (fun st' =>
      if count (Z.leb 0) (fst st') =? Z.of_nat (length (fst st')) then Ok st'
      else match_loop tk1 tk2 q r st'))))
  end.

(** match.py:196-200, the duplicate purge. *)
Fixpoint purge (indices : list Z) (us : list Z) : list Z :=
  match us with
  | [] => indices
  | i2 :: r =>
      purge (if 1 <? count (Z.eqb i2) indices
             then map (fun z => if i2 =? z then -1 else z) indices else indices) r
  end.

(** match.py:137-202 [match_arbitrary_translation_dilatation] *)
Definition match_arbitrary (xy1 xy2 : list point) : res (list Z * list edist) :=
  rbind (compute_triangles xy1) (fun t1 =>
  rbind (compute_triangles xy2) (fun t2 =>
  let q := map (query3 (snd t2)) (snd t1) in
  let ranked := argsort edist edist_ltb (map fst q) in
  rbind (match_loop (fst t1) (fst t2) q ranked
           (map (fun _ => -1) xy1, map (fun _ => Some 0%R) xy1)) (fun st =>
  let indices := fst st in
  Ok (purge indices (unique (filter (Z.leb 0) indices)), snd st)))).
End Match.
