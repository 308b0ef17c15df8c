(** The lines about the motion of positioners. *)
From Coq Require Import Permutation Sorted.
From Verif.Model Require Import CheckMoving.
From Verif.Spec Require Export Numpy.
Local Open Scope R_scope.
Local Open Scope list_scope.

(** The moves of a positioner in the order of their index (any order among equal ones), those without ptl_x left out *)
Definition in_order (rows : list dbmove) (posid : string) (s : list dbmove) : Prop :=
  exists all, Permutation all (filter (fun v => String.eqb (v_pos v) posid) rows) /\ StronglySorted Z.le (map v_index all) /\
    s = filter (fun v => match v_x v with Some _ => true | None => false end) all.
(** It moved by more than 0.05 mm from one to the next, both with both coordinates *)
Definition far (v w : dbmove) : Prop :=
  exists x y x' y', v_x v = Some x /\ v_y v = Some y /\ v_x w = Some x' /\ v_y w = Some y' /\ 0.05 < sqrt ((x' - x) ^ 2 + (y' - y) ^ 2).
(** The line of a positioner, for those with at least two such moves *)
Definition line_of (loc : Z) (rows : list dbmove) (l : moving_line) : Prop :=
  l_petal l = loc /\ (exists a v b, rows = a ++ v :: b /\ v_pos v = l_pos l /\ l_bus l = v_bus v /\ Forall (fun w => v_pos w <> l_pos l) a) /\
  exists s, in_order rows (l_pos l) s /\ (2 <= length s)%nat /\ S (length (l_moving l)) = length s /\
    forall i v w, nth_error s i = Some v -> nth_error s (S i) = Some w -> (nth_error (l_moving l) i = Some true <-> far v w).
(** The lines of a petal: one for every positioner with two moves, ordered by the names *)
Definition lines_of (loc : Z) (rows : list dbmove) (ls : list moving_line) : Prop :=
  Forall (line_of loc rows) ls /\ StronglySorted (fun a b => str_ltb a b = true) (map l_pos ls) /\
  forall p, In p (map l_pos ls) <-> (2 <= length (filter (fun v => String.eqb (v_pos v) p && match v_x v with Some _ => true | None => false end)%bool rows))%nat.
