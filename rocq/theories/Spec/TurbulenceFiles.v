(** Vocabulary for the turbulence solution of two tables and for the empirical covariance. *)
From Verif.Model Require Import TurbulenceFiles.
From Coq Require Import Reals List.
Import ListNotations.
Local Open Scope R_scope.

(** the expected row of a location *)
Definition expected_at (expect : list spot) (m : spot) : option spot := find (fun e => Z.eqb (s_loc e) (s_loc m)) expect.
(** the measured rows whose location is expected, in order *)
Definition common (expect measure : list spot) : list spot := filter (fun m => match expected_at expect m with Some _ => true | None => false end) measure.
(** at the expected position of every such row, its offset measured minus expected *)
Definition offset_from (e m : spot) : datum := {| d_pos := s_pos e; d_dx := fst (s_pos m) - fst (s_pos e); d_dy := snd (s_pos m) - snd (s_pos e) |}.
Definition offsets (expect measure : list spot) : list datum := flat_map (fun m => match expected_at expect m with Some e => [offset_from e m] | None => [] end) measure.
(** the measured rows with their turbulence, one entry of [turb] for each row whose location is expected *)
Fixpoint filled (expect measure : list spot) (turb : list (R * R)) : list (spot * option (R * R * R * R)) :=
  match measure with
  | [] => []
  | m :: r => match expected_at expect m, turb with
              | Some _, (x, y) :: t => (m, Some (fst (s_pos m) - x, snd (s_pos m) - y, x, y)) :: filled expect r t
              | _, _ => (m, None) :: filled expect r turb
              end
  end.

(** the elements whose separation is in the k-th bin, and the mean of [f] over them, 0 if there is none *)
Definition in_bin {A} (edges : list R) (k : nat) (sep : A -> R) (l : list A) : list A := filter (fun x => andb (Rleb (nth k edges 0) (sep x)) (Rltb (sep x) (nth (S k) edges 0))) l.
Definition bin_mean {A} (edges : list R) (k : nat) (sep f : A -> R) (l : list A) : R :=
  match in_bin edges k sep l with [] => 0 | m => Rsum (map f m) / INR (length m) end.
(** of two spots: how far they are apart, and the products of their offsets *)
Definition apart (ab : datum * datum) : R := sqrt ((fst (d_pos (fst ab)) - fst (d_pos (snd ab))) ^ 2 + (snd (d_pos (fst ab)) - snd (d_pos (snd ab))) ^ 2).
Definition dxdx (ab : datum * datum) : R := d_dx (fst ab) * d_dx (snd ab).
Definition dydy (ab : datum * datum) : R := d_dy (fst ab) * d_dy (snd ab).
