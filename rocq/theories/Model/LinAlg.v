(** The linear algebra of numpy used by the modelled fits, in exact arithmetic. Vectors are lists,
    matrices lists of rows. *)
From Verif.Model Require Export RealNum.
Local Open Scope R_scope.

(** [a.dot(b)] of two vectors of the same length. *)
Fixpoint dot (a b : list R) : R :=
  match a, b with x :: a', y :: b' => x * y + dot a' b' | _, _ => 0 end.
(** [np.sum] *)
Definition Rsum (l : list R) : R := fold_right Rplus 0 l.
(** [a + f*b] *)
Fixpoint axpy (a : list R) (f : R) (b : list R) : list R :=
  match a, b with x :: a', y :: b' => x + f * y :: axpy a' f b' | _, _ => [] end.
(** [H.dot(H.T)] for the list H of rows; [A.T.dot(A)] for the list of columns of A. *)
Definition gram (H : list (list R)) : list (list R) := map (fun r => map (dot r) H) H.
(** [H.dot(v)] *)
Definition matvec (H : list (list R)) (v : list R) : list R := map (fun r => dot r v) H.

(** An equation: coefficients and right hand side. *)
Notation equation := (list R * R)%type (only parsing).
(** First equation with a non zero leading coefficient, and the other ones. *)
Fixpoint split_pivot (rows : list equation) : option (equation * list equation) :=
  match rows with
  | [] => None
  | r :: rest =>
      if Reqb (hd 0 (fst r)) 0
      then match split_pivot rest with Some (p, others) => Some (p, r :: others) | None => None end
      else Some (r, rest)
  end.
Definition eliminate (p r : equation) : equation :=
  let f := - (hd 0 (fst r) / hd 0 (fst p)) in (axpy (tl (fst r)) f (tl (fst p)), snd r + f * snd p).
Fixpoint gauss (n : nat) (rows : list equation) : option (list R) :=
  match n with
  | O => Some []
  | S m =>
      match split_pivot rows with
      | None => None
      | Some (p, others) =>
          match gauss m (map (eliminate p) others) with
          | None => None
          | Some xs => Some ((snd p - dot (tl (fst p)) xs) / hd 0 (fst p) :: xs)
          end
      end
  end.
(** [np.linalg.solve(A, b)], also standing for [np.linalg.inv(A).dot(b)], for a square matrix A.
    Gaussian elimination; in exact arithmetic the pivoting strategy does not matter. Simplified:
    with rounding a singular matrix may go undetected. *)
Definition linalg_solve (A : list (list R)) (b : list R) : res (list R) :=
  match gauss (length A) (combine A b) with Some x => Ok x | None => Err LinAlgError end.
