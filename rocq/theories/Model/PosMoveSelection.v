(** Model of /repo/py/desimeter/posparams/posmoveselection.py. *)
From Verif.Model Require Export Prelude.

(** Characters removed by [str.strip()] (ASCII range). *)
Definition is_space (a : ascii) : bool :=
  let n := N_of_ascii a in ((N.leb 9 n && N.leb n 13) || (N.leb 28 n && N.leb n 32))%N.
Fixpoint lstrip (s : string) : string :=
  match s with EmptyString => EmptyString | String a r => if is_space a then lstrip r else s end.
Fixpoint rstrip (s : string) : string :=
  match s with
  | EmptyString => EmptyString
  | String a r => match rstrip r with
                  | EmptyString => if is_space a then EmptyString else String a EmptyString
                  | r' => String a r'
                  end
  end.
Definition strip (s : string) : string := rstrip (lstrip s).

(** [s.find(kw) >= 0] *)
Fixpoint found (kw s : string) : bool :=
  prefix kw s || match s with EmptyString => false | String _ r => found kw r end.

(** Elementwise [a &= b] and [a |= b] on boolean arrays of equal length. *)
Fixpoint mask_and (a b : list bool) : list bool :=
  match a, b with x :: a', y :: b' => (x && y) :: mask_and a' b' | _, _ => [] end.
Fixpoint mask_or (a b : list bool) : list bool :=
  match a, b with x :: a', y :: b' => (x || y) :: mask_or a' b' | _, _ => [] end.
(** [table[mask]] *)
Fixpoint take_mask {A} (m : list bool) (l : list A) : list A :=
  match m, l with b :: m', x :: l' => if b then x :: take_mask m' l' else take_mask m' l' | _, _ => [] end.

Section Selection.
(** A row of the table; only its LOG_NOTE text matters. *)
Variable row : Type.
Variable log_note : row -> string.

(** posmoveselection.py:19-22 *)
Definition keywords (selection_str : string) : list string :=
  filter (fun v => negb (String.eqb v EmptyString)) (map strip (split_char "&" selection_str)).

(** posmoveselection.py:18-28 [get_matches] *)
Definition get_matches (table : list row) (selection_str : string) : list bool :=
  fold_left (fun ok kw => mask_and ok (map (fun r => found kw (log_note r)) table))
            (keywords selection_str) (map (fun _ => true) table).

(** posmoveselection.py:3-16 [posmove_selection] (the printed summaries are left out). *)
Definition posmove_selection (table : list row) (sel : option string) : list row :=
  match sel with
  | None => table
  | Some s =>
      let ok := fold_left (fun ok c => mask_or ok (get_matches table c))
                          (split_char "|" s) (map (fun _ => false) table) in
      take_mask ok table
  end.
End Selection.
