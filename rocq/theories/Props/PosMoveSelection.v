(** C04: selection of moves by log note. *)
From Verif.Model Require Import PosMoveSelection.
From Verif.Spec Require Import PosMoveSelection.
From Verif.Proofs Require PosMoveSelection.

(** The result is the sublist (same order, same rows, no duplication) of the rows whose note
    satisfies the or of ands written in the selection string. *)
Theorem C04_selection_is_or_of_ands :
  forall (row : Type) (note : row -> string) (table : list row) (clauses : list (list string)),
    clauses <> [] ->
    Forall (fun ws => ws <> [] /\ Forall (fun w => free_of "&" w /\ free_of "|" w) ws) clauses ->
    exists kp : row -> bool,
      posmove_selection row note table (Some (joined "|" (map (joined "&") clauses))) = filter kp table /\
      forall r, kp r = true <-> selected clauses (note r).
Proof. intros row note. exact (@PosMoveSelection.selection_spec row note). Qed.
Print Assumptions C04_selection_is_or_of_ands.

Theorem C04_no_selection :
  forall (row : Type) (note : row -> string) table, posmove_selection row note table None = table.
Proof. intros row note table. exact (eq_refl table). Qed.
Print Assumptions C04_no_selection.

(** A selection with an empty clause (such as a trailing '|') keeps every row. *)
Theorem C04_empty_clause_keeps_all :
  forall (row : Type) (note : row -> string) table s,
    In EmptyString (split_char "|" s) -> posmove_selection row note table (Some s) = table.
Proof. intros row note. exact (@PosMoveSelection.empty_clause_all row note). Qed.
Print Assumptions C04_empty_clause_keeps_all.

Example C04_example :
  let t := ["arc calibration theta"; "grid calibration"; "arc calibration phi"]%string in
  posmove_selection string (fun s => s) t (Some "arc & phi| grid "%string)
    = ["grid calibration"; "arc calibration phi"]%string /\
  joined "|" (map (joined "&") [["arc "; " phi"]; [" grid "]])%string = "arc & phi| grid "%string /\
  posmove_selection string (fun s => s) t (Some "nothing|"%string) = t.
Proof. repeat split; reflexivity. Qed.
