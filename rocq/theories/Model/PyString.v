(** The string functions of Python used to build file names and commands. *)
From Verif.Model Require Export Prelude.
Local Open Scope string_scope.
Local Open Scope list_scope.

(** [s.find(sub)] *)
Definition find (sub s : string) : Z := match String.index 0 sub s with Some n => Z.of_nat n | None => -1 end.
(** [s.replace(old, new)] for a non-empty [old]: occurrences from left to right, not overlapping.
    [skip]: characters of the occurrence still to be dropped *)
Fixpoint replace_from (old new : string) (skip : nat) (s : string) : string :=
  match s with
  | EmptyString => EmptyString
  | String c r =>
      match skip with
      | S k => replace_from old new k r
      | O => if String.prefix old s then (new ++ replace_from old new (String.length old - 1) r)%string else String c (replace_from old new O r)
      end
  end.
Definition replace (old new s : string) : string := replace_from old new 0 s.
(** [os.path.basename]: what follows the last slash *)
Fixpoint has_char (a : ascii) (s : string) : bool := match s with EmptyString => false | String c r => (Ascii.eqb c a || has_char a r)%bool end.
Fixpoint basename (s : string) : string := match s with EmptyString => EmptyString | String c r => if has_char "/" s then basename r else s end.
(** [os.path.join(a, b)] *)
Fixpoint last_char (s : string) : option ascii := match s with EmptyString => None | String c r => match last_char r with Some a => Some a | None => Some c end end.
Definition path_join (a b : string) : string :=
  match b with
  | String "/" _ => b
  | _ => match last_char a with None | Some "/"%char => (a ++ b)%string | Some _ => (a ++ "/" ++ b)%string end
  end.
(** [s.endswith(suf)] *)
Fixpoint endswith (suf s : string) : bool := (String.eqb suf s || match s with EmptyString => false | String _ r => endswith suf r end)%bool.
(** [s.split()] (ASCII white space) *)
Definition is_space (c : ascii) : bool := let n := N_of_ascii c in ((9 <=? n) && (n <=? 13) || (28 <=? n) && (n <=? 32))%N%bool.
Fixpoint words_aux (cur : string) (s : string) : list string :=
  match s with
  | EmptyString => match cur with EmptyString => [] | _ => [cur] end
  | String c r => if is_space c then match cur with EmptyString => words_aux EmptyString r | _ => cur :: words_aux EmptyString r end
                  else words_aux (cur ++ String c EmptyString)%string r
  end.
Definition words (s : string) : list string := words_aux EmptyString s.
