(** Real numbers stand for floating point numbers; comparisons as booleans.
    Simplified everywhere: no rounding, no NaN unless a definition says so. *)
From Verif.Model Require Export Prelude.
From Coq Require Export Reals.

Definition Rltb (x y : R) : bool := if Rlt_dec x y then true else false.
Definition Rleb (x y : R) : bool := if Rle_dec x y then true else false.
Definition Reqb (x y : R) : bool := if Req_EM_T x y then true else false.

Notation point := (R * R)%type (only parsing).
Definition sq_dist (p q : point) : R := ((fst p - fst q) * (fst p - fst q) + (snd p - snd q) * (snd p - snd q))%R.
(** Euclidean distance. *)
Definition dist2d (p q : point) : R := sqrt (sq_dist p q).

(** Distances which may be [np.inf] ([None]). *)
Notation edist := (option R) (only parsing).
Definition edist_ltb (a b : edist) : bool :=
  match a, b with
  | Some x, Some y => Rltb x y
  | Some _, None => true
  | None, _ => false
  end.
