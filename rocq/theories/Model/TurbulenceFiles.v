(** Model of /repo/py/desimeter/turbulence.py lines 264-286 ([make_data]), 324-360 ([solve_files], after the two files are read) and 608-630
    ([empirical_covariance]). A table is a list of rows (LOCATION, (X_FP, Y_FP)); arithmetic is exact. *)
From Coq Require Import String.
From Verif.Model Require Export Turbulence.
From Coq Require Import Reals List.
Local Open Scope R_scope.

Record spot := { s_loc : Z; s_pos : R * R }.

Section Files.
Variable argsort : forall K, (K -> K -> bool) -> list K -> list nat.
Variable minimize : (list R -> res R) -> list R -> res (list R).

(** lines 277-286 [make_data]: a row is (location, (x, y, dx, dy)) *)
Definition make_data (expect measure : list spot) : res (list (Z * datum)) :=
  rbind (match_keys argsort Z.ltb Z.eqb (map s_loc expect) (map s_loc measure)) (fun mm =>
  rmapM (fun ij => rbind (geti expect (fst ij)) (fun e => rbind (geti measure (snd ij)) (fun m =>
    Ok (s_loc e, {| d_pos := s_pos e; d_dx := fst (s_pos m) - fst (s_pos e); d_dy := snd (s_pos m) - snd (s_pos e) |})))) (combine (fst mm) (snd mm))).

(** the added columns XNEW, YNEW, DXTURB, DYTURB of a row; [None] where they stay NaN *)
Notation cols := (option (R * R * R * R)) (only parsing).
(** lines 343-360, [solve] being the solver chosen with its keywords *)
Definition solve_rows (solve : list datum -> res (list R * list R * list R)) (expect measure : list spot) : res (list (spot * cols) * list R) :=
  rbind (make_data expect measure) (fun data =>
  rbind (solve (map snd data)) (fun r => let '(xturb, yturb, p) := r in
  rbind (match_keys argsort Z.ltb Z.eqb (map fst data) (map s_loc measure)) (fun mm =>
  rbind (rmapM (fun ij => rbind (geti measure (snd ij)) (fun m => rbind (geti xturb (fst ij)) (fun xt => rbind (geti yturb (fst ij)) (fun yt =>
      Ok (snd ij, Some (fst (s_pos m) - xt, snd (s_pos m) - yt, xt, yt)))))) (combine (fst mm) (snd mm))) (fun news =>
  rbind (set_each (map (fun _ => None) measure) news) (fun out => Ok (combine measure out, p)))))).

(** lines 343-350. The keywords: [rq], [nuse], [excludeself], [predict_at], [fix_covar], and [scale_covar] if it is given, which only the first solver knows. *)
Definition solve_files (mode : string) (rq : bool) (nuse : Z) (excludeself : bool) (predict_at : option (list (R * R))) (fix_covar : bool) (scale_covar : option R)
    (expect measure : list spot) : res (list (spot * cols) * list R) :=
  solve_rows (fun data =>
    if String.eqb mode "independent"%string then solve_independent argsort minimize rq nuse data excludeself predict_at fix_covar (match scale_covar with Some s => s | None => 1 end)
    else if String.eqb mode "gradwavefront"%string then match scale_covar with Some _ => Err TypeError | None => solve_gradwavefront argsort minimize rq nuse data excludeself predict_at fix_covar end
    else Err ValueError) expect measure.
End Files.

(** *** lines 608-630 [empirical_covariance] *)
(** the raveled square arrays: the element of row j and column i is about the spots i and j *)
Definition all_pairs (data : list datum) : list (datum * datum) := flat_map (fun b => map (fun a => (a, b)) data) data.
Definition separation (ab : datum * datum) : R := sqrt ((fst (d_pos (fst ab)) - fst (d_pos (snd ab))) ^ 2 + (snd (d_pos (fst ab)) - snd (d_pos (snd ab))) ^ 2).
(** [np.linspace(lo, hi, n + 1)] *)
Definition linspace (lo hi : R) (n : nat) : list R := match n with O => [lo] | _ => map (fun k => lo + INR k * ((hi - lo) / INR n)) (seq 0 (S n)) end.
(** [np.searchsorted(a, v, side='right')] for a sorted array *)
Fixpoint searchsorted_right (a : list R) (v : R) : nat := match a with [] => O | x :: r => if Rleb x v then S (searchsorted_right r v) else O end.
(** [np.bincount(ind, weights, minlength=bins)] *)
Definition bincount (ivs : list (nat * R)) (bins : nat) : list R :=
  map (fun k => Rsum (map snd (filter (fun iv => Nat.eqb (fst iv) k) ivs))) (seq 0 (Nat.max bins (fold_right (fun iv m => Nat.max (S (fst iv)) m) O ivs))).
Fixpoint centres (edges : list R) : list R := match edges with a :: (b :: _) as r => (a + b) / 2 :: centres r | _ => [] end.
Definition empirical_covariance (data : list datum) (bins : nat) (edges : option (list R)) : res (list R * list R * list R) :=
  let pairs := all_pairs data in
  rbind (match edges, map separation pairs with
         | Some e, _ => if Nat.eqb (length e) 0 then Err ValueError else Ok (pred (length e), e)
         | None, [] => Err ValueError
         | None, d :: ds => Ok (bins, linspace (fold_right Rmin d ds) (fold_right Rmax d ds + 0.1) bins)
         end) (fun be => let '(bins, edges) := be in
  let ind := flat_map (fun ab => match searchsorted_right edges (separation ab) with O => [] | S i => [(i, ab)] end) pairs in
  let total f := bincount (map (fun iab => (fst iab, f (snd iab))) ind) bins in
  let ncount := map (fun n => if Reqb n 0 then 1 else n) (total (fun _ => 1)) in
  let mean f := map (fun sn => fst sn / snd sn) (combine (total f) ncount) in
  Ok (centres edges, mean (fun ab => d_dx (fst ab) * d_dx (snd ab)), mean (fun ab => d_dy (fst ab) * d_dy (snd ab)))).
