(** Model of /repo/bin/ok2move. The plots are left out. *)
From Verif.Model Require Export RealNum Numpy.
From Coq Require Import String Reals.
Local Open Scope R_scope.
Local Open Scope string_scope.
Local Open Scope list_scope.

Record spot := { s_id : string; s_pinhole : Z; s_x : R; s_y : R }.

Section Neighbors.
Variable argsort : forall K, (K -> K -> bool) -> list K -> list nat.
(** lines 35-45: indices and distances of the two nearest neighbors of a spot, and the opening angle in degrees, [None] for NaN *)
Definition hypot (x y : R) : R := sqrt (x ^ 2 + y ^ 2).
Definition neighbors_of (spots : list spot) (s : spot) : res ((nat * nat) * (R * R) * option R) :=
  let dx := map (fun q => s_x q - s_x s) spots in
  let dy := map (fun q => s_y q - s_y s) spots in
  let d := map (fun xy => hypot (fst xy) (snd xy)) (combine dx dy) in
  match firstn 2 (skipn 1 (argsort R Rltb d)) with
  | [j; k] =>
      rbind (geti d j) (fun dj => rbind (geti d k) (fun dk => rbind (geti dx j) (fun xj => rbind (geti dy j) (fun yj => rbind (geti dx k) (fun xk => rbind (geti dy k) (fun yk =>
      let n := hypot xj yj * hypot xk yk in
      let angle := if Reqb n 0 then None else Some (acos ((xj * xk + yj * yk) / n) * (180 / PI)) in
      Ok ((j, k), (dj, dk), angle)))))))
  | _ => Err ValueError
  end.
(** lines 16-47 *)
Definition find_neighbors (spots : list spot) := rmapM (neighbors_of spots) spots.
(** lines 49-67; the sum over [dist < tooclose] is less than 2 unless both distances are small *)
Definition is_ok (tooclose maxangle : R) (n : (nat * nat) * (R * R) * option R) : bool :=
  let '(_, (dj, dk), angle) := n in
  (negb (Rltb dj tooclose && Rltb dk tooclose) || match angle with Some a => Rltb a maxangle | None => false end)%bool.
Definition ok2move (tooclose maxangle : R) (spots : list spot) : res (list bool) := rmap (map (is_ok tooclose maxangle)) (find_neighbors spots).

(** [l[i*g:(i+1)*g]] for i, g >= 0 *)
Definition slice {A} (l : list A) (i g : nat) : list A := firstn g (skipn (i * g) l).
(** lines 156-160: the groups written, in order; [groupsize] is any integer. For a negative one the number of groups is not positive. *)
Definition text_groups (ids : list string) (groupsize : Z) : res (list (nat * list string)) :=
  if (groupsize =? 0)%Z then Err ZeroDivision
  else let n := Z.to_nat (Z.of_nat (List.length ids) / groupsize + 1) in
       Ok (filter (fun g => (0 <? List.length (snd g))%nat) (map (fun i => (i, slice ids i (Z.to_nat groupsize))) (seq 0 n))).
(** lines 174-177: the groups for which an HTML file is written *)
Definition html_groups (ids : list string) (groupsize : Z) : res (list (nat * list string)) :=
  if (groupsize =? 0)%Z then Err ZeroDivision
  else let n := Z.to_nat (Z.of_nat (List.length ids) / groupsize) in Ok (map (fun i => (i, slice ids i (Z.to_nat groupsize))) (seq 0 n)).

(** lines 137-180: the groups in the text output, those with an HTML page, and the positioners of the page dontmove.html *)
Definition main (table : list spot) (groupsize : Z) : res (list (nat * list string) * list (nat * list string) * list string) :=
  let spots := filter (fun s => Z.eqb (s_pinhole s) 0) table in
  rbind (ok2move 3.5 90 spots) (fun ok =>
  let okids := map (fun so => s_id (fst so)) (filter snd (combine spots ok)) in
  let bad := map (fun so => s_id (fst so)) (filter (fun so => negb (snd so)) (combine spots ok)) in
  rbind (text_groups okids groupsize) (fun t => rbind (html_groups okids groupsize) (fun h => Ok (t, h, bad)))).
End Neighbors.
