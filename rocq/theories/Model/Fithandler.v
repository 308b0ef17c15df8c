(** Model of /repo/py/desimeter/posparams/fithandler.py: the selection of rows, the analysis windows and the choice of the
    static parameters. The fit of a window is in Fitter.v. *)
From Verif.Model Require Export Stats Trig.
Local Open Scope R_scope.

(** One row of the table of moves of a positioner, the columns used here. *)
Record move_row := { m_enabled : bool; m_sequence : Z; m_date_sec : R }.

Section Sort.
Variable argsort : forall K, (K -> K -> bool) -> list K -> list nat.
(** [table.sort(column)] *)
Definition sort_by {K} (ltb : K -> K -> bool) (key : move_row -> K) (t : list move_row) : res (list move_row) := take t (argsort K ltb (map key t)).
(** fithandler.py:520-527 *)
Fixpoint diff_with_prepend (prepend : Z) (l : list Z) : list Z := match l with [] => [] | x :: r => (x - prepend)%Z :: diff_with_prepend x r end.
(** [table.remove_rows(mask)] *)
Definition remove_rows {A} (l : list A) (mask : list bool) : list A := map fst (filter (fun p => negb (snd p)) (combine l mask)).
(** fithandler.py:238-244: the table sorted in place, and the mask *)
Definition no_move_performed (t : list move_row) : res (list move_row * list bool) :=
  rbind (sort_by Z.ltb m_sequence t) (fun t' =>
  match t' with
  | [] => Err IndexError
  | r :: _ => Ok (t', map (Z.eqb 0) (diff_with_prepend (m_sequence r - 1) (map m_sequence t')))
  end).
(** fithandler.py:256-268, with the default filters *)
Definition apply_filters (t : list move_row) : res (list move_row) :=
  let t1 := remove_rows t (map (fun r => negb (m_enabled r)) t) in
  if (length t1 =? 0)%nat then Ok t1 else rbind (no_move_performed t1) (fun s => Ok (remove_rows (fst s) (snd s))).
End Sort.

(** [np.arange(a, b, p)] for p > 0 *)
Definition arange (a b p : R) : list R := map (fun k => a + INR k * p) (seq 0 (Z.to_nat (- Rfloor (- ((b - a) / p))))).
(** fithandler.py:81-83 for times in ascending order *)
Definition datum_dates (times : list R) (period_days : R) : list R := arange (hd 0 times) (last times 0) (period_days * 24 * 60 * 60).
(** fithandler.py:478-491 *)
Definition row_idx_for_time (times : list R) (t : R) : res nat :=
  match times with
  | [] => Err IndexError
  | t0 :: _ =>
      if Rltb t t0 then Ok 0%nat else if Rltb (last times 0) t then Ok (length times - 1)%nat
      else match where_ (fun x => Rleb t x) times with k :: _ => Ok k | [] => Err IndexError end
  end.

(** fithandler.py:302-317: [range(0, num_moves, data_window)], counted. Every case starts at 0 (line 314). *)
Definition single_date_cases (num_moves data_window : nat) : res (list (nat * nat)) :=
  match data_window with
  | O => Err ValueError
  | _ => Ok (map (fun k => (0, Nat.min (num_moves - 1) (k * data_window + data_window - 1))%nat) (seq 0 ((num_moves + data_window - 1) / data_window)))
  end.
(** fithandler.py:326 *)
Definition backwards_sum (widths : list Z) (i J : nat) : Z := fold_right Z.add 0%Z (skipn i (firstn (J + 1) widths)).
Definition satisfies_min_width (widths : list Z) (data_window i J : nat) : bool := (Z.of_nat data_window <? backwards_sum widths i J)%Z.
(** fithandler.py:329-331 *)
Fixpoint expand_backwards (widths : list Z) (data_window J I : nat) : nat :=
  match I with
  | O => O
  | S I' => if satisfies_min_width widths data_window I J then I else expand_backwards widths data_window J I'
  end.
Definition case_eqb (a b : nat * nat) : bool := ((fst a =? fst b) && (snd a =? snd b))%nat.
(** fithandler.py:325-338, from the turn J on *)
Fixpoint case_loop (starts finals : list nat) (widths : list Z) (data_window J : nat) (todo : list nat) (cases : list (nat * nat)) : res (list (nat * nat)) :=
  match todo with
  | [] => Ok cases
  | final_idx :: rest =>
      let I := expand_backwards widths data_window J J in
      if (negb (satisfies_min_width widths data_window I J) && (J + 1 <? length widths)%nat)%bool
      then case_loop starts finals widths data_window (S J) rest cases
      else rbind (geti starts I) (fun s =>
           let case := (s, final_idx) in
           case_loop starts finals widths data_window (S J) rest (if existsb (case_eqb case) cases then cases else cases ++ [case]))
  end.
(** fithandler.py:279-341, for times in ascending order *)
Definition define_cases (times dates : list R) (data_window : nat) : res (list (nat * nat)) :=
  if (length dates =? 1)%nat then single_date_cases (length times) data_window
  else
    rbind (rmapM (row_idx_for_time times) (removelast dates)) (fun starts =>
    rbind (rmapM (row_idx_for_time times) (tl dates)) (fun finals =>
    let widths := map (fun '(f, s) => (Z.of_nat f - Z.of_nat s)%Z) (combine finals starts) in
    case_loop starts finals widths data_window 0 finals [])).

(** [np.percentile(a, 100 q)] *)
Definition percentile (a : list R) (q : R) : res R :=
  if negb (Rleb 0 q && Rleb q 1) then Err ValueError
  else match sort_R a with
  | [] => Err IndexError
  | s => let v := q * INR (length s - 1) in let k := Z.to_nat (Rfloor v) in
         let lo := nth k s 0 in let hi := nth (Nat.min (k + 1) (length s - 1)) s 0 in
         Ok (lo + (hi - lo) * (v - INR k))
  end.
(** fithandler.py:138-143: each window has its fit error and its parameters, in the order of the keys. *)
Definition best_static (windows : list (R * list R)) (static_quantile : R) (nkeys : nat) : res (list R) :=
  rbind (percentile (map fst windows) static_quantile) (fun quantile =>
  let selection := filter (fun w => Rleb (fst w) quantile) windows in
  rmapM (fun k => median (map (fun w => nth k (snd w) 0) selection)) (seq 0 nkeys)).
