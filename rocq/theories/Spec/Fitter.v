(** What the calibration fit of one positioner is about. *)
From Verif.Model Require Import Fitter.
From Verif.Spec Require Import Xy2tp.
From Coq Require Import String.
Local Open Scope R_scope.

(** The moves at one phi angle; mean square distance to their centroid. *)
Definition arc (moves : list move) (v : R) : list move := filter (fun m => Reqb (mv_p m) v) moves.
Definition average (f : move -> R) (l : list move) : R := Rsum (map f l) / INR (List.length l).
Definition spread (l : list move) : R := average (fun m => (mv_x m - average mv_x l) ^ 2 + (mv_y m - average mv_y l) ^ 2) l.
(** At least four moves at phi of at most 160 degrees and over 20 degrees of theta *)
Definition testable (moves : list move) (v : R) : Prop :=
  (4 <= List.length (arc moves v))%nat /\ v <= 160 /\ exists a b, In a (arc moves v) /\ In b (arc moves v) /\ 20 <= mv_t a - mv_t b.

(** Position of the fiber in flat petal coordinates for parameters [q], one value per name; the sequences [seqs] have their own
    angle offsets. *)
Definition model_position (q : string -> R) (seqs : list Z) (s : Z) (t p : R) : R * R :=
  let et := if existsb (Z.eqb s) seqs then q (eps_t s) else 0 in
  let ep := if existsb (Z.eqb s) seqs then q (eps_p s) else 0 in
  let a := PI * (t + q "OFFSET_T"%string + et) / 180 in
  let b := a + PI * (p + q "OFFSET_P"%string + ep) / 180 in
  (q "OFFSET_X"%string + q "LENGTH_R1"%string * cos a + q "LENGTH_R2"%string * cos b, q "OFFSET_Y"%string + q "LENGTH_R1"%string * sin a + q "LENGTH_R2"%string * sin b).
(** The measured positions are those of the model. *)
Definition exact_moves (q : string -> R) (moves : list move) : Prop :=
  forall m, In m moves -> ptl2flat (mv_x m) (mv_y m) = model_position q (sequences_without_rehome moves) (mv_seq m) (mv_t m) (mv_p m).

(** An optimiser which finds the minimum inside the bounds. *)
Definition in_bounds (x : list R) (b : list (R * R)) : Prop := Forall2 (fun v lh => fst lh <= v <= snd lh) x b.
Definition is_minimum (f : list R -> res R) (b : list (R * R)) (x : list R) (v : R) : Prop :=
  in_bounds x b /\ f x = Ok v /\ forall y u, in_bounds y b -> f y = Ok u -> v <= u.
Definition finds_minimum (minimize : (list R -> res R) -> list R -> list (R * R) -> list R * list (list R)) : Prop :=
  forall f x0 b x v, List.length b = List.length x0 -> is_minimum f b x v -> is_minimum f b (fst (minimize f x0 b)) v.
(** An optimiser which does not go up *)
Definition never_worse (minimize : (list R -> res R) -> list R -> list (R * R) -> list R * list (list R)) : Prop :=
  forall f x0 b v, f x0 = Ok v -> exists w, f (fst (minimize f x0 b)) = Ok w /\ w <= v.

(** Some theta arc qualifies and none of them moves. *)
Definition theta_stuck (moves : list move) : Prop := (exists v, testable moves v) /\ forall v, testable moves v -> spread (arc moves v) <= 0.01.
(** What fit_params asserts of its arguments *)
Definition valid_args (moves : list move) (nominals : dict string R) (bounds : dict string (R * R)) (keep_fixed : list string) (xerr yerr : option (list R)) : Prop :=
  (forall k, In k all_keys -> In k (map fst nominals) /\ In k (map fst bounds)) /\ (forall k, In k keep_fixed -> In k all_keys) /\
  (forall l, xerr = Some l \/ yerr = Some l -> List.length l = List.length moves).

(** The moves with the angles the positioner really reached: the positions are those of the model at these angles, and from one
    move to the next the angles change by the motor turns, i.e. the change of the position asked divided by the gear ratio used, times
    the true gear ratio. *)
Fixpoint driven (q : string -> R) (l : list (move * (R * R))) : Prop :=
  match l with
  | (m, a) :: (((m', b) :: _) as r) =>
      fst b - fst a = (mv_t m' - mv_t m) / mv_gt m' * q "SCALE_T"%string /\ snd b - snd a = (mv_p m' - mv_p m) / mv_gp m' * q "SCALE_P"%string /\ driven q r
  | _ => True
  end.
Definition exact_at (q : string -> R) (seqs : list Z) (ma : move * (R * R)) : Prop :=
  let '(m, (t, p)) := ma in ptl2flat (mv_x m) (mv_y m) = model_position q seqs (mv_seq m) t p.
(** The arms are strictly within reach, phi on its side and theta in the range where the inverse is unique. *)
Definition measurable (q : string -> R) (seqs : list Z) (ma : move * (R * R)) : Prop :=
  let '(m, (t, p)) := ma in
  let et := if existsb (Z.eqb (mv_seq m)) seqs then q (eps_t (mv_seq m)) else 0 in
  let ep := if existsb (Z.eqb (mv_seq m)) seqs then q (eps_p (mv_seq m)) else 0 in
  let d := sqrt ((fst (model_position q seqs (mv_seq m) t p) - q "OFFSET_X"%string) ^ 2 + (snd (model_position q seqs (mv_seq m) t p) - q "OFFSET_Y"%string) ^ 2) in
  Rabs (q "LENGTH_R1"%string - q "LENGTH_R2"%string) + tiny < d < q "LENGTH_R1"%string + q "LENGTH_R2"%string - tiny /\
  0 <= p + ep + q "OFFSET_P"%string <= 180 /\ -20 <= p + ep <= 200 /\ exists k, -180 + / 2 ^ 52 <= t + et + 360 * IZR k <= 180.

(** An optimiser returns as many numbers as it is given. *)
Definition same_shape (minimize : (list R -> res R) -> list R -> list (R * R) -> list R * list (list R)) : Prop :=
  forall f x0 b, List.length (fst (minimize f x0 b)) = List.length x0.
(** Elements left, in the same order, after some were removed *)
Inductive sublist {A} : list A -> list A -> Prop :=
| sub_nil : sublist [] []
| sub_keep a l m : sublist l m -> sublist (a :: l) (a :: m)
| sub_drop a l m : sublist l m -> sublist l (a :: m).
(** The fitted value of a parameter *)
Definition fitted (o : fit_out) (k : string) : R := match dict_get String.eqb (o_params o) k with Some v => v | None => 0 end.
(** Square distance between the measured position and that of the fitted model *)
Definition misfit (q : string -> R) (seqs : list Z) (m : move) : R :=
  (fst (model_position q seqs (mv_seq m) (mv_t m) (mv_p m)) - fst (ptl2flat (mv_x m) (mv_y m))) ^ 2 +
  (snd (model_position q seqs (mv_seq m) (mv_t m) (mv_p m)) - snd (ptl2flat (mv_x m) (mv_y m))) ^ 2.

(** The measurement errors in flat coordinates, from the errors on the petal through the slope over one micron, and the weighted
    sum of square distances *)
Definition flat_errors (m : move) (e : R * R) : R * R :=
  (Rabs ((fst (ptl2flat (mv_x m + 0.001) (mv_y m)) - fst (ptl2flat (mv_x m) (mv_y m))) / 0.001) * fst e,
   Rabs ((snd (ptl2flat (mv_x m) (mv_y m + 0.001)) - snd (ptl2flat (mv_x m) (mv_y m))) / 0.001) * snd e).
Definition chi_square (q : string -> R) (seqs : list Z) (l : list (move * (R * R))) : R :=
  Rsum (map (fun me => let '(m, e) := me in
    ((fst (model_position q seqs (mv_seq m) (mv_t m) (mv_p m)) - fst (ptl2flat (mv_x m) (mv_y m))) / fst (flat_errors m e)) ^ 2 +
    ((snd (model_position q seqs (mv_seq m) (mv_t m) (mv_p m)) - snd (ptl2flat (mv_x m) (mv_y m))) / snd (flat_errors m e)) ^ 2) l).
(** Errors not given are one. *)
Definition errors_of (xerr yerr : option (list R)) (moves : list move) : list (R * R) :=
  combine (match xerr with Some l => l | None => map (fun _ => 1) moves end) (match yerr with Some l => l | None => map (fun _ => 1) moves end).

(** The value of a parameter in a dictionary *)
Definition value_in (d : dict string R) (k : string) : R := match dict_get String.eqb d k with Some v => v | None => 0 end.
(** The fit is started: the arguments are accepted, theta is not stuck and some move was made after a rehome. *)
Definition starts (moves : list move) (nominals : dict string R) (bounds : dict string (R * R)) (keep_fixed : list string) (xerr yerr : option (list R)) : Prop :=
  valid_args moves nominals bounds keep_fixed xerr yerr /\ ~ theta_stuck moves /\ existsb mv_rehome moves = true.

(** The inverse Hessian returned has one row and one column per parameter. *)
Definition square_hessian (minimize : (list R -> res R) -> list R -> list (R * R) -> list R * list (list R)) : Prop :=
  forall f x0 b, let h := snd (minimize f x0 b) in List.length h = List.length x0 /\ Forall (fun row => List.length row = List.length x0) h.
(** No error vanishes in flat coordinates. *)
Definition good_errors (l : list (move * (R * R))) : Prop := Forall (fun me => fst (flat_errors (fst me) (snd me)) <> 0 /\ snd (flat_errors (fst me) (snd me)) <> 0) l.
