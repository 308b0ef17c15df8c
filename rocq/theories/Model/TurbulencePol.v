(** Model of the local polynomial part of /repo/py/desimeter/turbulence.py (lines 24-136). *)
From Verif.Model Require Export Prelude Numpy LinAlg.
From Coq Require Import Reals.
Local Open Scope R_scope.

Notation pos := (R * R)%type (only parsing).
(** lines 30, 46: number of rows *)
Definition npoly (ndeg : nat) : nat := ((ndeg + 1) * (ndeg + 2)) / 2 - 1.
(** lines 32-34 *)
Definition exponents (ndeg : nat) : list (nat * nat) := flat_map (fun deg => map (fun j => (j, deg - j)%nat) (seq 0 (deg + 1))) (seq 1 ndeg).
(** lines 37-38 *)
Definition lowered (i : nat) : nat := (i + (if Nat.eqb i 0 then 1 else 0) - 1)%nat.
Definition poly_row (pts : list pos) (i : nat * nat) : list R :=
  let '(i1, i2) := i in
  map (fun p => INR i1 * fst p ^ lowered i1 * snd p ^ i2) pts ++ map (fun p => INR i2 * fst p ^ i1 * snd p ^ lowered i2) pts.
(** lines 24-40: the rows are written into a table of zeros of [npoly ndeg] rows *)
Definition getpoly (pts : list pos) (ndeg : nat) : res (list (list R)) :=
  let rows := map (poly_row pts) (exponents ndeg) in
  if (length rows <=? npoly ndeg)%nat then Ok (rows ++ repeat (repeat 0 (2 * length pts)) (npoly ndeg - length rows)) else Err IndexError.

Section Fit.
(** [scipy.linalg.lstsq]: number of columns, samples (row, datum) *)
Variable lstsq : nat -> list (list R * R) -> res (list R).
(** [cKDTree(X0).query_ball_point(p, win)] *)
Variable ball : list pos -> pos -> R -> list nat.

Definition column (polys : list (list R)) (s : nat) : list R := map (fun r => nth s r 0) polys.
(** lines 43-66. [pts], [dxy] (both offsets, concatenated), [tofit]: the neighbours *)
Definition predictor (pts : list pos) (dxy : list R) (tofit : list bool) (ndeg : nat) (polys : option (list (list R))) : res (R * R * R * list (list R)) :=
  rbind (match polys with None => getpoly pts ndeg | Some P => Ok (firstn (npoly ndeg) P) end) (fun P =>
  let tofit2 := tofit ++ tofit in
  let all := seq 0 (2 * length pts) in
  let sub (f : nat -> bool) := filter (fun s => nth s tofit2 false && f s)%bool all in
  let samples ss := map (fun s => (column P s, nth s dxy 0)) ss in
  let fold i := rmap (fun c => Rsum (map (fun s => (dot (column P s) c - nth s dxy 0) ^ 2) (sub (fun s => Nat.eqb (s mod 3) i))))
                     (lstsq (length P) (samples (sub (fun s => negb (Nat.eqb (s mod 3) i))))) in
  rbind (fold 0%nat) (fun n0 => rbind (fold 1%nat) (fun n1 => rbind (fold 2%nat) (fun n2 =>
  rbind (lstsq (length P) (samples (sub (fun _ => true)))) (fun c =>
  match map (fun s => dot (column P s) c) (filter (fun s => negb (nth s tofit2 false)) all) with
  | [xpred; ypred] => Ok (xpred, ypred, 0 + n0 + n1 + n2, P)
  | _ => Err ValueError
  end))))).

(** lines 117-130: state (bestnorm, (lastx, lasty), polys) *)
Definition try_degree (pts : list pos) (dxy : list R) (tofit : list bool) (st : R * option (R * R) * option (list (list R))) (ndeg : nat) : res (R * option (R * R) * option (list (list R))) :=
  let '(best, last, polys) := st in
  rmap (fun r => let '(xp, yp, norm, P) := r in if Rltb norm best then (norm, Some (xp, yp), Some P) else (best, last, Some P)) (predictor pts dxy tofit ndeg polys).
Fixpoint rfold {A B} (f : A -> B -> res A) (l : list B) (a : A) : res A := match l with [] => Ok a | b :: l => rbind (f a b) (rfold f l) end.
(** lines 100-134: one spot; [last] is left by the previous one *)
Definition correct_one (rows : list (pos * pos)) (win : R) (last : option (R * R)) (i : nat) : res (R * R) :=
  rbind (geti rows i) (fun me =>
  let xids := ball (map snd rows) (fst me) win in
  match xids with
  | [] => Err IndexError
  | _ =>
    rbind (rmapM (geti rows) xids) (fun near =>
    let pts := map (fun r => (fst (fst r) - fst (fst me), snd (fst r) - snd (fst me))) near in
    let dxy := map (fun r => fst (fst r) - fst (snd r)) near ++ map (fun r => snd (fst r) - snd (snd r)) near in
    let tofit := map (fun k => negb (Nat.eqb k i)) xids in
    rbind (rfold (try_degree pts dxy tofit) [4; 3; 2; 1]%nat (1000000000, last, None)) (fun st =>
    match snd (fst st) with Some xy => Ok xy | None => Err NameError end))
  end).
(** lines 69-136: rows (measured, expected) *)
Definition correct_with_pol (rows : list (pos * pos)) (win : R) : res (list (R * R)) :=
  rmap (fun st => map (fun rp => let '(r, p) := rp in (fst (fst r) - fst p, snd (fst r) - snd p)) (combine rows (fst st)))
       (rfold (fun st i => rmap (fun xy => (fst st ++ [xy], Some xy)) (correct_one rows win (snd st) i)) (seq 0 (length rows)) ([], None)).
End Fit.
