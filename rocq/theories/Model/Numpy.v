(** The numpy operations used by the modelled code. *)
From Verif.Model Require Export Prelude.

(** [a[i]] for a non-negative index: IndexError when out of range. *)
Definition geti {A} (l : list A) (i : nat) : res A :=
  match nth_error l i with Some a => Ok a | None => Err IndexError end.

(** [a[i] = v] *)
Fixpoint seti {A} (l : list A) (i : nat) (v : A) : res (list A) :=
  match l, i with
  | [], _ => Err IndexError
  | _ :: r, O => Ok (v :: r)
  | x :: r, S i' => rmap (cons x) (seti r i' v)
  end.

(** [a[idx] = v] with an index array and a scalar. *)
Fixpoint set_all {A} (l : list A) (idx : list nat) (v : A) : res (list A) :=
  match idx with [] => Ok l | i :: r => rbind (seti l i v) (fun l' => set_all l' r v) end.

(** [a[idx] = vs] with an index array and an array of the same length, written in order
    (with a repeated index the last one wins). *)
Fixpoint set_each {A} (l : list A) (ivs : list (nat * A)) : res (list A) :=
  match ivs with [] => Ok l | (i, v) :: r => rbind (seti l i v) (fun l' => set_each l' r) end.

(** [a[idx]] *)
Definition take {A} (l : list A) (idx : list nat) : res (list A) := rmapM (geti l) idx.

(** [np.where(mask)[0]] of a predicate over an array, counted from [k]. *)
Fixpoint where_from {A} (f : A -> bool) (k : nat) (l : list A) : list nat :=
  match l with
  | [] => []
  | a :: r => if f a then k :: where_from f (S k) r else where_from f (S k) r
  end.
Definition where_ {A} (f : A -> bool) (l : list A) : list nat := where_from f 0 l.

(** [enumerate] *)
Definition enum {A} (l : list A) : list (nat * A) := combine (seq 0 (length l)) l.

(** [np.sum(mask)] of a predicate over an array. *)
Definition count {A} (f : A -> bool) (l : list A) : Z := Z.of_nat (length (filter f l)).

(** [np.unique] of an integer array: increasing, without repetition. *)
Fixpoint insert_unique (z : Z) (l : list Z) : list Z :=
  match l with
  | [] => [z]
  | y :: r => if z <? y then z :: l else if z =? y then l else y :: insert_unique z r
  end.
Definition unique (l : list Z) : list Z := fold_right insert_unique [] l.

(** [np.searchsorted(a, v)] (left side) for a sorted array: the number of leading entries
    below [v]. numpy bisects; on a sorted array the result is the same. *)
Fixpoint searchsorted {K} (ltb : K -> K -> bool) (a : list K) (v : K) : nat :=
  match a with [] => O | x :: r => if ltb x v then S (searchsorted ltb r v) else O end.

(** A concrete [np.argsort] (insertion sort, stable), used for the examples. *)
Fixpoint insert_by {K} (ltb : K -> K -> bool) (p : nat * K) (l : list (nat * K)) : list (nat * K) :=
  match l with
  | [] => [p]
  | q :: r => if ltb (snd q) (snd p) then q :: insert_by ltb p r else p :: l
  end.
Definition isort_argsort (K : Type) (ltb : K -> K -> bool) (a : list K) : list nat :=
  map fst (fold_right (insert_by ltb) [] (enum a)).
