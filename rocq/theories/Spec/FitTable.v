(** What is written about the calibration fits of a positioner. *)
From Verif.Model Require Import FitTable.
Local Open Scope R_scope.
Local Open Scope string_scope.
Local Open Scope list_scope.

(** The column of a table *)
Definition column (t : dict string (list cell)) (name : string) : option (list cell) := dict_get String.eqb t name.
(** The rows of a window, both ends included *)
Definition stretch (rows : list row) (c : nat * nat) : list row := firstn (snd c + 1 - fst c) (skipn (fst c) rows).
Definition inside (rows : list row) (c : nat * nat) : Prop := (fst c <= snd c)%nat /\ (snd c < List.length rows)%nat.
Definition no_row : row := {| w_date := ""; w_sec := 0; w_move := {| mv_t := 0; mv_p := 0; mv_x := 0; mv_y := 0; mv_gt := 0; mv_gp := 0; mv_rehome := true; mv_seq := 0 |}; w_petal_id := 0; w_petal_loc := 0; w_device_loc := 0 |}.

(** The fits of the windows in their order: each is given the nominal values and bounds as the one before left them. *)
Inductive fits (fit : list move -> fit_mode -> dict string R -> dict string (R * R) -> bool -> res fit_out * (dict string R * dict string (R * R)))
    (rows : list row) (mode : fit_mode) (reject : bool) : dict string R -> dict string (R * R) -> list (nat * nat) -> list fit_out -> dict string R -> dict string (R * R) -> Prop :=
| fits_none n b : fits fit rows mode reject n b [] [] n b
| fits_next n b c cs o os n1 b1 n2 b2 : fit (map w_move (stretch rows c)) mode n b reject = (Ok o, (n1, b1)) -> fits fit rows mode reject n1 b1 cs os n2 b2 ->
    fits fit rows mode reject n b (c :: cs) (o :: os) n2 b2.

(** The names of the angle offsets of the exposures; exposures are numbered from zero. *)
Definition offset_name (k : string) : Prop := exists s, (0 <= s)%Z /\ (k = eps_t s \/ k = eps_p s).
(** The offsets a fit returned *)
Definition offsets (o : fit_out) : list string := filter has_epsilon (map fst (o_params o)).
(** The module variable output_keys after some calls: offsets met so far were added. *)
Definition known_offsets (g : module_vars) (E : list string) : Prop := v_okeys g = output_keys0 ++ map (fun k => (k, true)) E /\ NoDup E /\ Forall offset_name E.
(** The name of another known offset is the beginning of this one (EPSILON_T_1 and EPSILON_T_10). *)
Definition clashes (E : list string) (e : string) : Prop := exists e', In e' E /\ e' <> e /\ exists rest, e = (e' ++ rest)%string.

(** Value, covariance and error in a fit; zero if it has none *)
Definition value_of (k : string) (o : fit_out) : R := match dict_get String.eqb (o_params o) k with Some v => v | None => 0 end.
Definition covariance_of (a b : string) (o : fit_out) : R :=
  match dict_get String.eqb (o_cov o) ("COV." ++ a ++ "." ++ b)%string, dict_get String.eqb (o_cov o) ("COV." ++ b ++ "." ++ a)%string with
  | Some v, _ => v | None, Some v => v | None, None => 0
  end.
Definition error_of (k : string) (o : fit_out) : cell := if Rltb (covariance_of k k o) 0 then CNan else CNum (sqrt (covariance_of k k o)).
(** Two different parameters in the order of the list *)
Definition in_order (a b : string) (l : list string) : Prop := exists x y z, l = x ++ a :: y ++ b :: z.

(** The table of the fits [os] of the windows [cases]: one row for each window. [known] are the offsets whose names get the suffix. *)
Record fit_table (clock : fit_mode -> nat -> string) (posid : string) (rows : list row) (mode : fit_mode) (cases : list (nat * nat)) (os : list fit_out) (known : list string) (t : dict string (list cell)) : Prop := {
  ft_distinct : NoDup (map fst t);
  ft_posid : column t "POS_ID" = Some (map (fun _ => CStr posid) cases);
  ft_points : column t "NUM_POINTS" = Some (map (fun c => CInt (Z.of_nat (List.length (stretch rows c)))) cases);
  ft_start : column t "DATA_START_DATE" = Some (map (fun c => CStr (w_date (nth (fst c) rows no_row))) cases);
  ft_end : column t "DATA_END_DATE" = Some (map (fun c => CStr (w_date (nth (snd c) rows no_row))) cases);
  ft_start_sec : column t "DATA_START_DATE_SEC" = Some (map (fun c => CNum (w_sec (nth (fst c) rows no_row))) cases);
  ft_end_sec : column t "DATA_END_DATE_SEC" = Some (map (fun c => CNum (w_sec (nth (snd c) rows no_row))) cases);
  ft_flags : column t "FLAGS" = Some (map (fun o => CInt (o_flags o)) os);
  ft_date : column t ("ANALYSIS_DATE" ++ mode_suffix mode)%string = Some (map (fun i => CStr (clock mode i)) (seq 0 (List.length cases)));
  ft_rms : column t ("FIT_ERROR" ++ mode_suffix mode)%string = Some (map (fun o => CNum (o_rms o)) os);
  ft_npts : column t ("NUM_POINTS_IN_FIT" ++ mode_suffix mode)%string = Some (map (fun o => CInt (Z.of_nat (o_npts o))) os);
  ft_value : forall k, In k all_keys -> column t (k ++ mode_suffix mode)%string = Some (map (fun o => CNum (value_of k o)) os);
  ft_error : forall k, In k all_keys -> column t ("ERR." ++ k ++ mode_suffix mode)%string = Some (map (error_of k) os);
  (** covariances that are zero in all windows are left out *)
  ft_covariance : forall a b, in_order a b all_keys -> (exists o, In o os /\ covariance_of a b o <> 0) ->
    column t ("COV." ++ a ++ mode_suffix mode ++ "." ++ b ++ mode_suffix mode)%string = Some (map (fun o => CNum (covariance_of a b o)) os);
  ft_null : forall a b, in_order a b all_keys -> (forall o, In o os -> covariance_of a b o = 0) -> column t ("COV." ++ a ++ mode_suffix mode ++ "." ++ b ++ mode_suffix mode)%string = None;
  (** the offsets of the exposures, unless their name begins with that of another one *)
  ft_offset : forall o rest e, os = o :: rest -> In e (offsets o) -> ~ clashes known e -> column t (e ++ mode_suffix mode)%string = Some (map (fun o => CNum (value_of e o)) os);
  ft_lost : forall e, offset_name e -> clashes known e -> column t (e ++ mode_suffix mode)%string = None;
  (** these are there under a name with the suffix somewhere else *)
  ft_misnamed : forall o rest e, os = o :: rest -> In e (offsets o) -> exists r, replace (mode_suffix mode) "" ("EPSILON_" ++ r)%string = e /\ column t ("EPSILON_" ++ r)%string = Some (map (fun o => CNum (value_of e o)) os);
  (** there are no other columns *)
  ft_names : forall m, In m (map fst t) ->
    In m ["POS_ID"; "NUM_POINTS"; "DATA_START_DATE"; "DATA_END_DATE"; "DATA_START_DATE_SEC"; "DATA_END_DATE_SEC"; "FLAGS"] \/
    (exists k, In k (["ANALYSIS_DATE"; "FIT_ERROR"; "NUM_POINTS_IN_FIT"] ++ all_keys) /\ m = (k ++ mode_suffix mode)%string) \/
    (exists k, In k all_keys /\ m = ("ERR." ++ k ++ mode_suffix mode)%string) \/
    (exists a b, in_order a b all_keys /\ m = ("COV." ++ a ++ mode_suffix mode ++ "." ++ b ++ mode_suffix mode)%string) \/
    (exists o rest e, os = o :: rest /\ In e (offsets o) /\ replace (mode_suffix mode) "" m = e /\ (clashes known e \/ m = (e ++ mode_suffix mode)%string))
}.
