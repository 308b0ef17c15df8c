(** Model of /repo/py/desimeter/match_positioners.py, lines 38-221. *)
From Verif.Model Require Export KeyMatch RealNum.

Section Positioners.
Variable argsort : forall K, (K -> K -> bool) -> list K -> list nat.
(** Device identifiers, with their order. *)
Context {K : Type} (ltb eqb : K -> K -> bool).
(** [np.median] of a non-empty list. *)
Variable median : list R -> R.
(** scipy's linear_sum_assignment for a matrix with the given numbers of rows and columns. *)
Variable solve : nat -> nat -> (nat -> nat -> Z) -> list (nat * nat).

(** A detected spot: PINHOLE_ID, COUNTS, (X_FP, Y_FP). *)
Record spot := Spot { s_pinhole : Z; s_counts : R; s_xy : point }.
(** A metrology entry: PINHOLE_ID, DEVICE_ID, (X_FP, Y_FP). *)
Record device := Device { d_pinhole : Z; d_id : K; d_xy : point }.
(** A calibration entry: POS_ID and the two arm lengths (the _STATIC columns when present,
    line 103). *)
Record calib := Calib { c_id : K; c_r1 : R; c_r2 : R }.

(** match_positioners.py:93-94, 97 *)
Definition usable_spot (thresh : R) (s : spot) : bool := (s_pinhole s =? 0) && Rltb thresh (s_counts s).
Definition is_positioner (d : device) : bool := d_pinhole d =? 0.

(** match_positioners.py:119: entries without arm length get the median of the others. The
    median of nothing is NaN ([None]). *)
Definition fill_arms (arms : list R) : list (option R) :=
  let known := filter (fun a => negb (Reqb a 0)) arms in
  let m := match known with [] => None | _ => Some (median known) end in
  map (fun a => if Reqb a 0 then m else Some a) arms.

(** match_positioners.py:101-119: arm length of each positioner. *)
Definition arm_lengths (fudge : R) (metr : list device) (cal : list calib) : res (list (option R)) :=
  rbind (match_keys argsort ltb eqb (map d_id metr) (map c_id cal)) (fun mmc =>
  rbind (take cal (snd mmc)) (fun cs =>
  rbind (set_each (map (fun _ => 0%R) metr)
           (combine (fst mmc) (map (fun c => (c_r1 c + c_r2 c + fudge)%R) cs))) (fun arms =>
  Ok (fill_arms arms)))).

(** [np.max] with NaN propagation; ValueError for an empty array. *)
Fixpoint max_nan (acc : option R) (l : list (option R)) : option R :=
  match l with
  | [] => acc
  | a :: r => max_nan (match acc, a with Some x, Some y => Some (Rmax x y) | _, _ => None end) r
  end.
Definition np_max (l : list (option R)) : res (option R) :=
  match l with [] => Err ValueError | a :: r => Ok (max_nan a r) end.

(** All index pairs of the two lists. *)
Definition index_pairs (n m : nat) : list (nat * nat) := list_prod (seq 0 n) (seq 0 m).

(** match_positioners.py:7-22 [match2d] restricted to the index pairs: all (i,j) at distance at
    most [rad]; none for a NaN radius. *)
Definition match2d (p1 p2 : list point) (rad : option R) : list (nat * nat) :=
  filter (fun ij => match nth_error p1 (fst ij), nth_error p2 (snd ij), rad with
                    | Some p, Some q, Some r => Rleb (dist2d p q) r
                    | _, _, _ => false
                    end) (index_pairs (length p1) (length p2)).

(** match_positioners.py:132-136: keep the pairs closer than the arm length ([d0 < a0] is
    false for NaN). *)
Definition in_reach (p1 p2 : list point) (arms : list (option R)) (ij : nat * nat) : bool :=
  match nth_error p1 (fst ij), nth_error p2 (snd ij), nth_error arms (fst ij) with
  | Some p, Some q, Some (Some a) => Rltb (dist2d p q) a
  | _, _, _ => false
  end.

(** match_positioners.py:129-147: the score matrix as a function. An empty candidate list makes
    [okdistance] an empty float array, which numpy refuses as an index. *)
Definition score_matrix (p1 p2 : list point) (arms : list (option R)) : res (nat -> nat -> Z) :=
  rbind (np_max arms) (fun mx =>
  let rad := match mx with Some r => Some (r + 1/10)%R | None => None end in
  let cand := match2d p1 p2 rad in
  match cand with
  | [] => Err IndexError
  | _ =>
      let edges := filter (in_reach p1 p2 arms) cand in
      Ok (fun i j => if existsb (fun e => Nat.eqb (fst e) i && Nat.eqb (snd e) j) edges then 1 else 0)
  end).

(** match_positioners.py:199-203 [solve_assignment] *)
Definition zsum (l : list Z) : Z := fold_right Z.add 0 l.
Definition solve_assignment (n m : nat) (sc : nat -> nat -> Z) : list (nat * nat) * Z :=
  let a := solve n m sc in (a, zsum (map (fun ij => sc (fst ij) (snd ij)) a)).

(** match_positioners.py:178-182 and 191-193: translate to indices of the input tables and
    write [ret[fvcind] = metrind]. *)
Definition to_table (metrpos fvcpos : list nat) (fvclen : nat) (a : list (nat * nat)) : res (list Z) :=
  rbind (take metrpos (map fst a)) (fun ms =>
  rbind (take fvcpos (map snd a)) (fun fs =>
  set_each (repeat (-1) fvclen) (combine fs (map Z.of_nat ms)))).
Definition to_scores (fvcpos : list nat) (fvclen : nat) (a : list (nat * nat)) (sc : nat -> nat -> Z) : res (list (option Z)) :=
  rbind (take fvcpos (map snd a)) (fun fs =>
  set_each (repeat None fvclen) (combine fs (map (fun ij => Some (sc (fst ij) (snd ij))) a))).

(** match_positioners.py:163-175: solve again without each assigned pair in turn. *)
Definition without (sc : nat -> nat -> Z) (e : nat * nat) : nat -> nat -> Z :=
  fun i j => if Nat.eqb i (fst e) && Nat.eqb j (snd e) then 0 else sc i j.
Definition alternatives_of (n m : nat) (sc : nat -> nat -> Z) (best : list (nat * nat) * Z) : list (list (nat * nat)) :=
  map fst (filter (fun alt => Z.eqb (snd alt) (snd best))
                  (map (fun e => solve_assignment n m (without sc e)) (fst best))).

(** match_positioners.py:38-196 [match_positioners(..., return_alternatives=True)]; with
    return_alternatives=False the fourth component is not returned. *)
Definition match_positioners (fvc : list spot) (metr : list device) (cal : list calib) (thresh fudge : R)
  : res (list Z * list (option Z) * Z * list (list Z)) :=
  let fvcpos := where_ (usable_spot thresh) fvc in
  let metrpos := where_ is_positioner metr in
  let fvclen := length fvc in
  rbind (take fvc fvcpos) (fun spots =>
  rbind (take metr metrpos) (fun devs =>
  rbind (arm_lengths fudge devs cal) (fun arms =>
  let n := length devs in let m := length spots in
  rbind (score_matrix (map d_xy devs) (map s_xy spots) arms) (fun sc =>
  let best := solve_assignment n m sc in
  rbind (rmapM (to_table metrpos fvcpos fvclen) (alternatives_of n m sc best)) (fun alts =>
  rbind (to_table metrpos fvcpos fvclen (fst best)) (fun ret =>
  rbind (to_scores fvcpos fvclen (fst best) sc) (fun scores =>
  Ok (ret, scores, snd best, alts)))))))).
End Positioners.
Arguments spot : clear implicits.

(** match_positioners.py:206-221 [possible_assignments_dict]: sets as lists of indices, an
    element added once. *)
Definition set_add (x : nat) (s : list nat) : list nat := if existsb (Nat.eqb x) s then s else s ++ [x].
Definition add_possible (d : dict Z (list nat)) (fm : nat * Z) : dict Z (list nat) :=
  let '(f, m) := fm in
  if m =? -1 then d
  else dict_set Z.eqb d m (set_add f (match dict_get Z.eqb d m with Some s => s | None => [] end)).
Definition possible_assignments_dict (assignment : list Z) (alternatives : option (list (list Z))) : dict Z (list nat) :=
  fold_left (fun d a => fold_left add_possible (enum a) d)
            (assignment :: match alternatives with Some l => l | None => [] end) [].
