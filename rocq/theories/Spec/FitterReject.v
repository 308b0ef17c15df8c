(** What the calibration fit does besides minimising: rejection of outliers, errors of the parameters, starting values. *)
From Verif.Model Require Import Fitter.
From Verif.Spec Require Import Fitter.
From Coq Require Import String Sorted.
Local Open Scope R_scope.
Local Open Scope list_scope.

(** [far l a]: distance of [a] to the fit of [l]. [rejects far n l l']: [l'] is [l] after [n] elements were removed one after the other, each the
    farthest of those left, at 0.2 mm and at 2.1 times the median distance or more. *)
Inductive rejects {A} (far : list A -> A -> R) : nat -> list A -> list A -> Prop :=
| rejects_none l : rejects far 0 l l
| rejects_one pre a post n l' med : let l := pre ++ a :: post in
    (forall b, In b l -> far l b <= far l a) -> median (map (far l) l) = Ok med -> 0.2 <= far l a -> 2.1 * med <= far l a ->
    rejects far n (pre ++ post) l' -> rejects far (S n) l l'.
(** All elements are nearer than 0.2 mm, or all are nearer than 2.1 times the median distance. *)
Definition settled {A} (far : list A -> A -> R) (l : list A) : Prop :=
  exists med, median (map (far l) l) = Ok med /\ ((forall b, In b l -> far l b < 0.2) \/ (forall b, In b l -> far l b < 2.1 * med)).

(** Names without a dot; the name of a covariance *)
Definition no_dot (k : string) : Prop := ~ In "."%char (list_ascii_of_string k).
Definition cov_name (a b : string) : string := ("COV." ++ a ++ "." ++ b)%string.
(** In alphabetical order *)
Definition alphabetical (l : list string) : Prop := Sorted (fun a b => String.leb a b = true) l.
(** The parameters named [names] have the values [v], the others those of [d]. *)
Fixpoint with_values (names : list string) (v : list R) (d : string -> R) (k : string) : R :=
  match names, v with
  | a :: names, x :: v => if String.eqb k a then x else with_values names v d k
  | _, _ => d k
  end.

(** Centres of the circles fitted to the moves at each of the angles [phis] with at least three moves, but for those where there is no such circle *)
Definition arc_centers (leastsq : (R * R -> list R) -> R * R -> R * R) (moves : list move) (phis : list R) : list (R * R) :=
  flat_map (fun v => if (3 <=? List.length (arc moves v))%nat
    then match robust_fit_circle leastsq 4 0.1 (map (fun m => ptl2flat (mv_x m) (mv_y m)) (arc moves v)) with Ok (c, _, _) => [c] | Err _ => [] end else []) phis.
