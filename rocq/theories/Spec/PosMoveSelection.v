(** Selection of moves by their log note. *)
From Coq Require Import List NArith String Ascii.
Import ListNotations.

Definition contains (kw s : string) : Prop := exists a b, s = append a (append kw b).

Definition white (a : ascii) : Prop :=
  let n := N_of_ascii a in (9 <= n <= 13 \/ 28 <= n <= 32)%N.
Fixpoint all_white (s : string) : Prop :=
  match s with EmptyString => True | String a r => white a /\ all_white r end.
Definition starts_white (s : string) : Prop := exists a r, s = String a r /\ white a.
Definition ends_white (s : string) : Prop := exists a p, s = append p (String a EmptyString) /\ white a.
(** [t] is [s] without the white space around it. *)
Definition trimmed (s t : string) : Prop :=
  exists p q, s = append p (append t q) /\ all_white p /\ all_white q /\ ~ starts_white t /\ ~ ends_white t.

Fixpoint free_of (c : ascii) (s : string) : Prop :=
  match s with EmptyString => True | String a r => a <> c /\ free_of c r end.

(** words joined with a separator *)
Fixpoint joined (c : ascii) (l : list string) : string :=
  match l with
  | [] => EmptyString
  | [w] => w
  | w :: ws => append w (String c (joined c ws))
  end.

(** A note satisfies a selection (a list of clauses, each a list of words) when some clause
    has all of its non blank words in the note. *)
Definition selected (clauses : list (list string)) (note : string) : Prop :=
  exists ws, In ws clauses /\ forall w t, In w ws -> trimmed w t -> t <> EmptyString -> contains t note.
