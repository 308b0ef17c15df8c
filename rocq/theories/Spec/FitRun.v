(** The run over all windows of a positioner. *)
From Coq Require Import Permutation Sorted.
From Verif.Model Require Import FitTable.
From Verif.Spec Require Import FitTable.
Local Open Scope R_scope.
Local Open Scope string_scope.
Local Open Scope list_scope.

(** A fit that failed, by its flag FAILED_FIT *)
Definition fit_failed (o : fit_out) : Prop := Z.testbit (o_flags o) 2 = true.
(** The offsets of the exposures without rehoming among some moves *)
Definition unrehomed (moves : list move) (e : string) : Prop := exists m, In m moves /\ mv_rehome m = false /\ (e = eps_t (mv_seq m) \/ e = eps_p (mv_seq m)).
Definition moves_of (rows : list row) (c : nat * nat) : list move := map w_move (stretch rows c).
Definition offset_keys (n : dict string R) : list string := filter has_epsilon (map fst n).

(** The best parameters of some fits: for each name the median of its values in the fits whose error is not above the quantile *)
Definition best_of (q : R) (names : list string) (os : list fit_out) (p : dict string R) : Prop :=
  exists v, percentile (map o_rms os) q = Ok v /\ NoDup names /\ map fst p = names /\
    forall k, In k names -> exists m, median (map (value_of k) (filter (fun o => Rleb (o_rms o) v) os)) = Ok m /\ dict_get String.eqb p k = Some m.
(** The offsets of the fits are those of exposures, and the first fit has them all. *)
Definition regular (first : fit_out) (os : list fit_out) : Prop :=
  Forall (fun o => Forall offset_name (offsets o)) (first :: os) /\ forall o e, In o os -> In e (offsets o) -> In e (offsets first).
(** The values the static fit starts with: the defaults if all moves were rehomed, else the best parameters of static fits of the
    rehomed moves alone, of which ten are needed. Also the bounds these fits leave, and the offsets they met. *)
Inductive start_values (fit : list move -> fit_mode -> dict string R -> dict string (R * R) -> bool -> res fit_out * (dict string R * dict string (R * R)))
    (rows : list row) (dates : list R) (data_window : nat) (q : R) (reject : bool) (b : dict string (R * R)) : dict string R -> dict string (R * R) -> list string -> Prop :=
| start_default : (forall w, In w rows -> mv_rehome (w_move w) = true) -> start_values fit rows dates data_window q reject b default_values b []
| start_best rehomed cases first os n b1 p w : In w rows -> mv_rehome (w_move w) = false -> rehomed = filter (fun w => mv_rehome (w_move w)) rows -> (10 <= List.length rehomed)%nat ->
    define_cases (map w_sec rehomed) dates data_window = Ok cases -> Forall (inside rehomed) cases -> fits fit rehomed Static reject default_values b cases (first :: os) n b1 ->
    regular first os -> Forall (fun o => ~ fit_failed o) (first :: os) -> best_of q all_keys (first :: os) p -> start_values fit rows dates data_window q reject b p b1 (offsets first).
(** A sorting function for numbers *)
Definition sorts (argsort : list R -> list nat) : Prop := forall l, Permutation (argsort l) (seq 0 (List.length l)) /\ StronglySorted (fun i j => nth i l 0 <= nth j l 0) (argsort l).
(** The rows of a column in some order *)
Definition at_rows (order : list nat) (col : list cell) : list cell := map (fun i => nth i col CNan) order.
Definition end_of (rows : list row) (cases : list (nat * nat)) (i : nat) : R := w_sec (nth (snd (nth i cases (0, 0)%nat)) rows no_row).
(** The table [t] shows the windows of [ts] and of [td] in the order given. *)
Record joined (rows : list row) (ts td : dict string (list cell)) (order : list nat) (t : dict string (list cell)) : Prop := {
  jn_left : forall k col, column ts k = Some col -> column t k = Some (at_rows order col);
  jn_right : forall k col, column td k = Some col -> column t k = Some (at_rows order col);
  jn_petal : forall w, In w rows -> column t "PETAL_ID" = Some (map (fun _ => CInt (w_petal_id w)) order) /\ column t "PETAL_LOC" = Some (map (fun _ => CInt (w_petal_loc w)) order) /\
    column t "DEVICE_LOC" = Some (map (fun _ => CInt (w_device_loc w)) order);
  jn_names : forall k, In k (map fst t) -> In k (map fst ts) \/ In k (map fst td) \/ In k ["PETAL_ID"; "PETAL_LOC"; "DEVICE_LOC"]
}.
