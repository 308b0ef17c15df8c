(** Model of /repo/bin/prepare_posparams_for_instr. What the operator types is a list of lines; a prompt with no line left raises
    EOFError. Logging is left out. The input table is one for which astropy has a mask: [Table.mask] is None for a table read without
    any masked column, and line 251 then raises TypeError. The option --allow-scale is always reset (lines 53, 73-75), so that only the static fit is checked. *)
From Verif.Model Require Export Fitter Numpy.
From Coq Require Import String.
Local Open Scope R_scope.
Local Open Scope string_scope.
Local Open Scope list_scope.

(** One row of the table. [None] is a NaN or a masked value: every comparison with it is false. [r_missing]: one of the required values
    (lines 245-249) is masked. [r_nfit] and [r_err]: columns NUM_POINTS_IN_FIT_key and FIT_ERROR_key. The note of line 236-238 is kept as a
    list of (subject, eliminated) rather than as text. *)
Record prow := { r_id : string; r_missing : bool; r_flags : option Z; r_loc : Z; r_npts : option Z; r_nfit : string -> option Z;
  r_err : string -> option R; r_par : string -> option R; r_disabled : bool; r_notes : list (string * bool) }.
Definition ptable := list prow.

(** lines 125-126 *)
Definition fresh_row (r : prow) : prow := {| r_id := r_id r; r_missing := r_missing r; r_flags := r_flags r; r_loc := r_loc r; r_npts := r_npts r;
  r_nfit := r_nfit r; r_err := r_err r; r_par := r_par r; r_disabled := false; r_notes := [] |}.
(** lines 235-238, one row *)
Definition mark_row (why : string) (elim : bool) (r : prow) : prow := {| r_id := r_id r; r_missing := r_missing r; r_flags := r_flags r; r_loc := r_loc r;
  r_npts := r_npts r; r_nfit := r_nfit r; r_err := r_err r; r_par := r_par r; r_disabled := (r_disabled r || elim)%bool; r_notes := r_notes r ++ [(why, elim)] |}.

(** lines 209-242 [_eliminate_rows] *)
Definition eliminate_rows (en : bool) (t : ptable) (elim : list bool) (why : string) : res ptable :=
  if negb (List.length t =? List.length elim)%nat then Err AssertionError
  else if en then Ok (map (fun re => mark_row why (snd re) (fst re)) (combine t elim))
  else Ok (map fst (filter (fun re => negb (snd re)) (combine t elim))).

(** lines 130-139 [input2], what is returned for the line typed *)
Definition entered (s : string) : string := if String.eqb s "" then "(no entry)" else s.
Definition blank_responses : list string := [""; "(no entry)"].

(** [str.lower] of ASCII text *)
Definition lower_char (c : ascii) : ascii :=
  let n := nat_of_ascii c in if ((65 <=? n) && (n <=? 90))%nat then ascii_of_nat (n + 32) else c.
Fixpoint lower (s : string) : string := match s with EmptyString => EmptyString | String c r => String (lower_char c) (lower r) end.

(** lines 141-166 [yesnohelp]; the recursive call of line 166 does not pass the options on *)
Fixpoint yesnohelp (yes no help_ exit_ : bool) (inp : list string) : res (string * list string) :=
  if negb (yes || no || help_ || exit_) then Err AssertionError else
  match inp with
  | [] => Err EOFError
  | s :: rest =>
      let a := lower (entered s) in
      if (help_ && mem_str a ["h"; "help"; "doc"; "man"])%bool then Ok ("help", rest)
      else if (no && mem_str a ["n"; "no"; "false"])%bool then Ok ("no", rest)
      else if (yes && mem_str a ["y"; "yes"; "true"])%bool then Ok ("yes", rest)
      else if (exit_ && mem_str a ["exit"])%bool then Err (SysExit 0)
      else yesnohelp true true true true rest
  end.

(** [x > y], false for NaN *)
Definition above (x : option R) (y : R) : bool := match x with Some a => Rltb y a | None => false end.
Definition below (x : option R) (y : R) : bool := match x with Some a => Rltb a y | None => false end.

(** lines 257-265 [check_flags] *)
Fixpoint flags_loop (en : bool) (names : list string) (t : ptable) : res ptable :=
  match names with
  | [] => Ok t
  | f :: rest => rbind (bit f) (fun m =>
      rbind (eliminate_rows en t (map (fun r => match r_flags r with Some v => negb (Z.land m v =? 0)%Z | None => false end) t) ("flag " ++ f)%string) (flags_loop en rest))
  end.
Definition check_flags (en : bool) (t : ptable) : res ptable := rbind (all_names movemask) (fun ns => flags_loop en ns t).

(** lines 267-290 [check_static_fit_bounds] *)
Fixpoint bounds_loop (en : bool) (tf : R) (keys : list string) (t : ptable) : res ptable :=
  match keys with
  | [] => Ok t
  | k :: rest => rbind (dict_getE String.eqb default_bounds k) (fun mm =>
      let lo := Rmin (fst mm) (snd mm) in let hi := Rmax (fst mm) (snd mm) in let delta := hi - lo in
      rbind (eliminate_rows en t (map (fun r => below (r_par r k) (lo + delta * tf)) t) (k ++ " below min")%string) (fun t1 =>
      rbind (eliminate_rows en t1 (map (fun r => above (r_par r k) (hi - delta * tf)) t1) (k ++ " above max")%string) (bounds_loop en tf rest)))
  end.
Definition check_static_fit_bounds (en : bool) (tf : R) (t : ptable) : res ptable := bounds_loop en tf static_keys t.

(** lines 301-313: the test of one row. [float] of a column which has not exactly one row raises TypeError. *)
Definition outside (x : option R) (expected tol : R) : bool := match x with Some v => Rltb tol (Rabs (v - expected)) | None => false end.
Definition xy_fails (nominal : list (Z * (R * R))) (tol : R) (r : prow) : res bool :=
  match filter (fun n => (fst n =? r_loc r)%Z) nominal with
  | [(_, (ex, ey))] => Ok (outside (r_par r "OFFSET_X") ex tol || outside (r_par r "OFFSET_Y") ey tol)%bool
  | _ => Err TypeError
  end.
(** lines 292-316 [check_xy_offsets]; [load] is the outcome of [desimeter.io.load_nominal_positioner_locations()] *)
Definition check_xy_offsets (load : res (list (Z * (R * R)))) (en : bool) (tol : R) (t : ptable) : res ptable :=
  rbind load (fun nominal => rbind (rmapM (xy_fails nominal tol) t) (fun del => eliminate_rows en t del "OFFSET_X or OFFSET_Y")).

(** lines 318-338 [check_arm_lengths] *)
Definition check_arm_lengths (en : bool) (tol : R) (t : ptable) : res ptable :=
  rbind (dict_getE String.eqb default_values "LENGTH_R1") (fun e1 => rbind (dict_getE String.eqb default_values "LENGTH_R2") (fun e2 =>
  eliminate_rows en t (map (fun r => (outside (r_par r "LENGTH_R1") e1 tol || outside (r_par r "LENGTH_R2") e2 tol)%bool) t) "LENGTH_R1 or LENGTH_R2")).

(** lines 340-354 [check_fit_error] *)
Definition check_fit_error (en : bool) (tol : R) (key : string) (t : ptable) : res ptable :=
  let k := if String.eqb key "STATIC" then "STATIC" else "DYNAMIC" in
  eliminate_rows en t (map (fun r => above (r_err r k) tol) t) "FIT_ERROR".

(** lines 356-372 [check_num_outliers] *)
Definition num_outliers (r : prow) (key : string) : option R :=
  match r_npts r, r_nfit r key with Some n, Some m => Some (IZR (n - m)) | _, _ => None end.
Definition check_num_outliers (en : bool) (tol : R) (key : string) (t : ptable) : res ptable :=
  if negb (mem_str key ["STATIC"; "DYNAMIC"]) then Err AssertionError else if negb (Rleb 0 tol) then Err AssertionError
  else eliminate_rows en t (map (fun r => above (num_outliers r key) tol) t) "number of outliers".

(** lines 392-395: [np.flatnonzero(table['POS_ID'] == posid)] *)
Definition get_row_idxs (t : ptable) (id : string) : list nat := where_ (fun r => String.eqb (r_id r) id) t.
(** [table.remove_rows(idxs)] *)
Definition remove_rows (t : ptable) (idxs : list nat) : ptable :=
  map snd (filter (fun ir => negb (existsb (Nat.eqb (fst ir)) idxs)) (enum t)).
Definition str_of_nat (n : nat) : string := str_of_N (N.of_nat n).
(** lines 409-423: the loop of the prompt for one positioner *)
Fixpoint resolve (t : ptable) (id : string) (inp : list string) : res (ptable * list string) :=
  match inp with
  | [] => Err EOFError
  | s :: rest =>
      let a := entered s in
      let idxs := get_row_idxs t id in
      if mem_str (lower a) ["skip"; "s"] then Ok (remove_rows t idxs, rest)
      else match find (fun i => String.eqb a (str_of_nat i)) (seq 0 (List.length idxs)) with
           | Some k =>
               let t' := remove_rows t (filter (fun i => negb (Nat.eqb i k)) idxs) in
               if (List.length (get_row_idxs t' id) =? 1)%nat then Ok (t', rest) else Err AssertionError
           | None => resolve t id rest
           end
  end.
(** lines 396-423 *)
Fixpoint uniqueness_loop (ids : list string) (t : ptable) (inp : list string) : res (ptable * list string) :=
  match ids with
  | [] => Ok (t, inp)
  | id :: rest => if (List.length (get_row_idxs t id) =? 1)%nat then uniqueness_loop rest t inp
                  else rbind (resolve t id inp) (fun ti => uniqueness_loop rest (fst ti) (snd ti))
  end.

Section Script.
(** the order in which Python goes through the set of the POS_ID *)
Variable set_order : list string -> list string.
(** [str2float]: the finite number written in a line, if it is one (lines 168-175) *)
Variable str2float : string -> option R.
(** see [check_xy_offsets] *)
Variable load : res (list (Z * (R * R))).
(** option --set-enabling *)
Variable en : bool.

Definition dup_free (l : list string) : bool := (List.length (nodup string_dec l) =? List.length l)%nat.
(** lines 385-427 [check_uniqueness] *)
Definition check_uniqueness (t : ptable) (inp : list string) : res (ptable * list string) :=
  rbind (uniqueness_loop (set_order (map r_id t)) t inp) (fun ti =>
  if dup_free (map r_id (fst ti)) then Ok ti else Err AssertionError).

(** lines 429-436, 512-520 [Check]: a check function and its arguments *)
Inductive arg := ANum (x : R) | AStr (s : string).
Definition kwargs := dict string arg.
Inductive func := F_num_outliers | F_fit_error | F_flags | F_bounds | F_xy | F_arms | F_unique.
Definition checks : list (func * kwargs) :=
  [(F_num_outliers, [("tol", ANum 2); ("key", AStr "STATIC")]); (F_fit_error, [("tol", ANum 0.03); ("key", AStr "STATIC")]);
   (F_flags, []); (F_bounds, [("tighten_factor", ANum 0.001)]); (F_xy, [("tol", ANum 0.5)]); (F_arms, [("tol", ANum 0.5)]); (F_unique, [])].

Definition num_arg (kw : kwargs) (k : string) : res R := match dict_get String.eqb kw k with Some (ANum x) => Ok x | _ => Err TypeError end.
Definition str_arg (kw : kwargs) (k : string) : res string := match dict_get String.eqb kw k with Some (AStr s) => Ok s | _ => Err TypeError end.
(** lines 447-461 [Check.run] *)
Definition run (f : func) (kw : kwargs) (t : ptable) (inp : list string) : res (ptable * list string) :=
  let pure (r : res ptable) := rmap (fun t' => (t', inp)) r in
  match f with
  | F_num_outliers => pure (rbind (num_arg kw "tol") (fun tol => rbind (str_arg kw "key") (fun k => check_num_outliers en tol k t)))
  | F_fit_error => pure (rbind (num_arg kw "tol") (fun tol => rbind (str_arg kw "key") (fun k => check_fit_error en tol k t)))
  | F_flags => pure (check_flags en t)
  | F_bounds => pure (rbind (num_arg kw "tighten_factor") (fun tf => check_static_fit_bounds en tf t))
  | F_xy => pure (rbind (num_arg kw "tol") (fun tol => check_xy_offsets load en tol t))
  | F_arms => pure (rbind (num_arg kw "tol") (fun tol => check_arm_lengths en tol t))
  | F_unique => check_uniqueness t inp
  end.

(** lines 478-488: the number typed, [None] for a blank line *)
Fixpoint ask_number (inp : list string) : res (option R * list string) :=
  match inp with
  | [] => Err EOFError
  | s :: rest =>
      let a := entered s in
      if mem_str a blank_responses then Ok (None, rest)
      else if String.eqb a "exit" then Err (SysExit 0)
      else match str2float a with Some x => Ok (Some x, rest) | None => ask_number rest end
  end.
Definition arg_eqb (a b : arg) : bool :=
  match a, b with ANum x, ANum y => Reqb x y | AStr s, AStr t => String.eqb s t | _, _ => false end.
(** lines 463-490 [Check.offer_adjustment]: the [return] of line 490 is inside the loop over the arguments, so that only the first is asked for.
    The call of line 472 comes after a line was read: fuel one more than the number of lines left is enough. *)
Fixpoint offer_adjustment (fuel : nat) (kw : kwargs) (inp : list string) : res (bool * kwargs * list string) :=
  match fuel with
  | O => Err OutOfFuel
  | S k =>
      match kw with
      | [] => match inp with [] => Err EOFError | _ :: rest => Ok (false, kw, rest) end
      | (key, val) :: _ =>
          rbind (yesnohelp true true true true inp) (fun ai =>
          if String.eqb (fst ai) "help" then offer_adjustment k kw (snd ai)
          else if String.eqb (fst ai) "no" then Ok (false, kw, snd ai)
          else rbind (ask_number (snd ai)) (fun ni =>
            match fst ni with
            | None => Ok (false, kw, snd ni)
            | Some x => Ok (negb (arg_eqb (ANum x) val), dict_set String.eqb kw key (ANum x), snd ni)
            end))
      end
  end.
(** lines 492-499 [Check.run_and_adjust]; every turn reads at least one line *)
Fixpoint run_and_adjust (fuel : nat) (f : func) (kw : kwargs) (t : ptable) (inp : list string) : res (ptable * list string) :=
  match fuel with
  | O => Err OutOfFuel
  | S k =>
      rbind (run f kw t inp) (fun oi =>
      rbind (offer_adjustment (S (List.length (snd oi))) kw (snd oi)) (fun adj =>
      if fst (fst adj) then run_and_adjust k f (snd (fst adj)) t (snd adj) else Ok (fst oi, snd adj)))
  end.
(** lines 521-522 *)
Fixpoint run_checks (cs : list (func * kwargs)) (t : ptable) (inp : list string) : res (ptable * list string) :=
  match cs with
  | [] => Ok (t, inp)
  | (f, kw) :: rest => rbind (run_and_adjust (S (List.length inp)) f kw t inp) (fun ti => run_checks rest (fst ti) (snd ti))
  end.

(** lines 553-575 *)
Fixpoint ask_commit (fuel : nat) (inp : list string) : res (bool * list string) :=
  match fuel with
  | O => Err OutOfFuel
  | S k => rbind (yesnohelp true true true true inp) (fun ai =>
      if String.eqb (fst ai) "help" then ask_commit k (snd ai)
      else if String.eqb (fst ai) "no" then Ok (false, snd ai) else Ok (true, snd ai))
  end.
Definition disable_key : string := "DEVICE_CLASSIFIED_NONFUNCTIONAL".
(** lines 533-540. A key which is not a column of the table is skipped too (lines 546-548); the static keys are required columns. *)
Definition valid_keys : list string := ["LENGTH_R1"; "LENGTH_R2"; "OFFSET_T"; "OFFSET_P"; "OFFSET_X"; "OFFSET_Y"; "SCALE_T"; "SCALE_P"; "PHYSICAL_RANGE_T"; "PHYSICAL_RANGE_P"; disable_key].
Definition skip_keys : list string := ["PHYSICAL_RANGE_T"; "PHYSICAL_RANGE_P"; "SCALE_T"; "SCALE_P"].
(** lines 545-582: the value given to every COMMIT_key column, before line 582 *)
Fixpoint commit_loop (keys : list string) (inp : list string) : res (dict string bool * list string) :=
  match keys with
  | [] => Ok ([], inp)
  | k :: rest =>
      rbind (if mem_str k skip_keys then Ok (false, inp) else ask_commit (S (List.length inp)) inp) (fun bi =>
      rbind (commit_loop rest (snd bi)) (fun di => Ok ((k, fst bi) :: fst di, snd di)))
  end.
(** lines 577-582: the COMMIT_ columns of one row *)
Definition commits (d : dict string bool) (r : prow) : dict string bool :=
  map (fun kv => (fst kv, if String.eqb (fst kv) disable_key then snd kv else (snd kv && negb (r_disabled r))%bool)) d.

(** lines 244-254, 501-611: the rows written, with their COMMIT_ columns *)
Definition prepare (input : ptable) (inp : list string) : res (list (prow * dict string bool)) :=
  let t0 := map fresh_row input in
  rbind (eliminate_rows en t0 (map r_missing t0) "paramfits file missing required value(s)") (fun t1 =>
  rbind (if en then rmap snd (yesnohelp true false false true inp) else Ok inp) (fun inp1 =>
  rbind (run_checks checks t1 inp1) (fun ti =>
  rbind (commit_loop valid_keys (snd ti)) (fun di =>
  Ok (map (fun r => (r, commits (fst di) r)) (fst ti)))))).
End Script.

(** io.py:70-73: [resource_filename] is not imported in io.py *)
Definition load_nominal_positioner_locations : res (list (Z * (R * R))) := Err NameError.
