(** Model of /repo/py/desimeter/util.py. *)
From Verif.Model Require Export Prelude.

(** Characters. Simplified: strings are byte strings, so [isdigit] means 0-9 (Python's
    [str.isdigit] also accepts other Unicode digits). *)
Definition is_digit (a : ascii) : bool :=
  let n := N_of_ascii a in (N.leb 48 n && N.leb n 57)%N.
Fixpoint all_digits (s : string) : bool :=
  match s with EmptyString => true | String a r => is_digit a && all_digits r end.
(** [str.isdigit]: non-empty and all digits. *)
Definition isdigit (s : string) : bool :=
  match s with EmptyString => false | _ => all_digits s end.
(** [int(s)] for a string of digits: left to right accumulation. *)
Fixpoint int_acc (acc : Z) (s : string) : Z :=
  match s with
  | EmptyString => acc
  | String a r => int_acc (10 * acc + (Z.of_N (N_of_ascii a) - 48)) r
  end.
Definition int_of (s : string) : Z := int_acc 0 s.

(** util.py:26 [len(s.strip(' \t')) == 0] *)
Fixpoint all_blank (s : string) : bool :=
  match s with
  | EmptyString => true
  | String a r => (Ascii.eqb a " " || Ascii.eqb a "009")%char && all_blank r
  end.
(** util.py:33 [sub.replace(' ','')] *)
Fixpoint remove_spaces (s : string) : string :=
  match s with
  | EmptyString => EmptyString
  | String a r => if Ascii.eqb a " " then remove_spaces r else String a (remove_spaces r)
  end.
(** [s.split('..')] *)
Fixpoint split_dots (s : string) : list string :=
  match s with
  | EmptyString => [EmptyString]
  | String a r =>
      let keep := match split_dots r with [] => [String a EmptyString] | w :: ws => String a w :: ws end in
      match r with
      | String b r' => if (Ascii.eqb a "." && Ascii.eqb b ".")%char then EmptyString :: split_dots r' else keep
      | EmptyString => keep
      end
  end.

(** [range(a, b)] *)
Definition zrange (a b : Z) : list Z := map (fun k => a + Z.of_nat k) (seq 0 (Z.to_nat (b - a))).

(** util.py:41-45, one symbol of the list [':','..','-']: the range if the item splits in two
    numbers. The test [symbol in sub] is implied: without the symbol the split has one part. *)
Definition two_numbers (parts : list string) : option (list Z) :=
  match parts with
  | [a; b] => if isdigit a && isdigit b then Some (zrange (int_of a) (int_of b)) else None
  | _ => None
  end.

(** util.py:33-50, one item of the comma separated list; [None] is the parsing error. *)
Definition parse_item (sub : string) : option (list Z) :=
  let sub := remove_spaces sub in
  if isdigit sub then Some [int_of sub]
  else match two_numbers (split_char ":" sub) with
       | Some l => Some l
       | None => match two_numbers (split_dots sub) with
                 | Some l => Some l
                 | None => two_numbers (split_char "-" sub)
                 end
       end.

(** util.py:32-50: the loop; the first item not understood ends the process with status 1. *)
Fixpoint parse_items (l : list string) : res (list Z) :=
  match l with
  | [] => Ok []
  | sub :: r =>
      match parse_item sub with
      | None => Err (SysExit 1)
      | Some fs => rbind (parse_items r) (fun rest => Ok (fs ++ rest))
      end
  end.

(** util.py:7-52 [parse_fibers]; [None] is Python's None, other arguments are already
    converted with [str]. *)
Definition parse_fibers (s : option string) : res (list Z) :=
  match s with
  | None => Ok []
  | Some s => if all_blank s then Ok [] else parse_items (split_char "," s)
  end.
