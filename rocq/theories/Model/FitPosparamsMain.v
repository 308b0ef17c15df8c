(** Model of /repo/bin/fit_posparams, from the list of files given on. Names are in ASCII (isalpha and isnumeric accept more); os.path.realpath
    of an absolute path without links is the path itself; making the output directory and the message on the number of files are left out. *)
From Verif.Model Require Export PyString.
Local Open Scope string_scope.
Local Open Scope list_scope.

(** [os.path.splitext] of a name without slash: index of the last dot, if there is another character than a dot before it *)
Fixpoint last_dot (s : string) : option nat :=
  match s with
  | EmptyString => None
  | String c r => match last_dot r with Some n => Some (S n) | None => if Ascii.eqb c "." then Some O else None end
  end.
Fixpoint only_dots (s : string) : bool := match s with EmptyString => true | String c r => (Ascii.eqb c "." && only_dots r)%bool end.
Definition drop (n : nat) (s : string) : string := String.substring n (String.length s - n) s.
Definition splitext (s : string) : string * string :=
  match last_dot s with
  | Some n => let root := String.substring 0 n s in if only_dots root then (s, "") else (root, drop n s)
  | None => (s, "")
  end.
Definition is_alpha (c : ascii) : bool := let n := N_of_ascii c in ((65 <=? n) && (n <=? 90) || (97 <=? n) && (n <=? 122))%N%bool.
Definition is_digit (c : ascii) : bool := let n := N_of_ascii c in ((48 <=? n) && (n <=? 57))%N%bool.
Fixpoint all_digits (s : string) : bool := match s with EmptyString => true | String c r => (is_digit c && all_digits r)%bool end.
(** lines 83-86: the positioner of a file *)
Definition posid_of (file : string) : option string :=
  let '(root, ext) := splitext (basename file) in
  let posid := String.substring 0 6 root in
  if (String.eqb ext ".csv" && Nat.eqb (String.length posid) 6)%bool
  then match posid with String c r => if (is_alpha c && all_digits r)%bool then Some posid else None | EmptyString => None end
  else None.
(** lines 80-88 *)
Definition csv_files (infiles : list string) : dict string string :=
  fold_left (fun d file => match posid_of file with Some p => dict_set String.eqb d p file | None => d end) infiles [].

(** How the script ends, with the lines printed by the fits: normally, never (waiting for a lost task), or with an exception *)
Inductive ending := Complete (printed : list string) | Waits (printed : list string) | Stopped (printed : list string) (e : exn).
Section Main.
(** [fithandler.run_best_fits] of a positioner and a path *)
Variable run : string -> string -> res string.
(** The order in which the tasks of the pool end *)
Variable order : list (string * string) -> list (string * string).
(** lines 119-120 *)
Fixpoint one_by_one (printed : list string) (files : list (string * string)) : ending :=
  match files with
  | [] => Complete printed
  | (p, f) :: rest => match run p f with Ok log => one_by_one (printed ++ [log]) rest | Err e => Stopped printed e end
  end.
(** lines 122-126: the callback gets the results of the tasks that return one; an exception stays in the result object nobody asks for;
    a worker that exits (SystemExit is not an Exception) never answers, and the pool waits for it *)
Definition in_pool (files : list (string * string)) : ending :=
  let results := map (fun '(p, f) => run p f) (order files) in
  let printed := flat_map (fun r => match r with Ok log => [log] | Err _ => [] end) results in
  if existsb (fun r => match r with Err (SysExit _) => true | _ => false end) results then Waits printed else Complete printed.
(** lines 80-128; [n]: the option -np *)
Definition fit_posparams (n : option Z) (infiles : list string) : ending :=
  match csv_files infiles with
  | [] => Stopped [] (SysExit 0)
  | files =>
      match n with
      | Some k => if (k <? 1)%Z then Stopped [] ValueError else if (k =? 1)%Z then one_by_one [] files else in_pool files
      | None => in_pool files
      end
  end.
End Main.
