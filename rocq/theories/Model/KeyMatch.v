(** Model of the key join of /repo/py/desimeter/match_positioners.py ([match], lines 25-35). *)
From Verif.Model Require Export Numpy.

Section KeyMatch.
Variable argsort : forall K, (K -> K -> bool) -> list K -> list nat.
Context {K : Type} (ltb eqb : K -> K -> bool).

(** [np.unique(a)] up to order: distinct values. *)
Fixpoint distinct (a : list K) : list K :=
  match a with [] => [] | x :: r => if existsb (eqb x) r then distinct r else x :: distinct r end.

(** match_positioners.py:31-35 for one entry of [b]: [Some i] when [b]'s value is found in [a]
    at index [i]. The mask [m] is applied entry by entry. *)
Definition match_one (a : list K) (sa : list nat) (sorted : list K) (v : K) : res (option nat) :=
  let ind := searchsorted ltb sorted v in
  if Nat.ltb ind (length a) then
    rbind (geti sa ind) (fun i => rbind (geti a i) (fun x => Ok (if eqb x v then Some i else None)))
  else Ok None.

(** The entries selected by the mask, with their positions. *)
Fixpoint selected_pairs (k : nat) (l : list (option nat)) : list (nat * nat) :=
  match l with
  | [] => []
  | Some i :: r => (i, k) :: selected_pairs (S k) r
  | None :: r => selected_pairs (S k) r
  end.

(** match_positioners.py:25-35 [match(a, b)] *)
Definition match_keys (a b : list K) : res (list nat * list nat) :=
  let sa := argsort K ltb a in
  if negb (Nat.eqb (length (distinct a)) (length a)) then Err ValueError
  else
    rbind (take a sa) (fun sorted =>
    rbind (rmapM (match_one a sa sorted) b) (fun found =>
    let p := selected_pairs 0 found in Ok (map fst p, map snd p))).
End KeyMatch.
