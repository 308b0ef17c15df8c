(** numpy's averages of an array of real numbers. *)
From Verif.Model Require Export LinAlg Numpy.
Local Open Scope R_scope.

(** [np.mean]; of an empty array it is nan. *)
Definition mean (l : list R) : res R :=
  match l with [] => Err NonFinite | _ => Ok (Rsum l / INR (length l)) end.

Fixpoint insert_R (x : R) (l : list R) : list R :=
  match l with [] => [x] | y :: r => if Rleb x y then x :: l else y :: insert_R x r end.
(** [np.sort] *)
Definition sort_R (l : list R) : list R := fold_right insert_R [] l.
(** [np.median]: the middle of the sorted array, or the average of the two middle ones; of an empty
    array it is nan. *)
Definition median (l : list R) : res R :=
  match l with
  | [] => Err NonFinite
  | _ =>
      let s := sort_R l in let n := length l in
      Ok (if Nat.even n then (nth (n / 2 - 1) s 0 + nth (n / 2) s 0) / 2 else nth (n / 2) s 0)
  end.

(** [np.max] of absolute values; ValueError for an empty array. *)
Definition maxabs (l : list R) : res R :=
  match l with [] => Err ValueError | x :: r => Ok (fold_left (fun m y => Rmax m (Rabs y)) r (Rabs x)) end.

(** [a - b] of two arrays of the same length *)
Definition sub_arrays (a b : list R) : list R := map (fun '(u, v) => u - v) (combine a b).
