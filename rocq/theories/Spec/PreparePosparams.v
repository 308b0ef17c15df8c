(** What prepare_posparams_for_instr is expected to do, in terms of the rows of the table. *)
From Verif.Model Require Import PreparePosparams.
From Verif.Spec Require Export Fitter.
From Coq Require Import String Reals.
Local Open Scope R_scope.
Local Open Scope string_scope.
Local Open Scope list_scope.

(** [filtered P l m]: [m] is [l] without the elements for which [P] fails *)
Inductive filtered {A} (P : A -> Prop) : list A -> list A -> Prop :=
| f_nil : filtered P [] []
| f_keep a l m : P a -> filtered P l m -> filtered P (a :: l) (a :: m)
| f_drop a l m : ~ P a -> filtered P l m -> filtered P (a :: l) m.

(** The limits in force. *)
Record limits := { l_outliers : R; l_error : R; l_tighten : R; l_xy : R; l_arms : R }.
Definition default_limits : limits := {| l_outliers := 2; l_error := 0.03; l_tighten := 0.001; l_xy := 0.5; l_arms := 0.5 |}.

Definition good_outliers (tol : R) (r : prow) := forall n m, r_npts r = Some n -> r_nfit r "STATIC" = Some m -> IZR (n - m) <= tol.
Definition good_error (tol : R) (r : prow) := forall e, r_err r "STATIC" = Some e -> e <= tol.
(** neither stuck, nor a failed fit, nor an invalid table *)
Definition good_flags (r : prow) := forall v i, r_flags r = Some v -> (0 <= i < 5)%Z -> Z.testbit v i = false.
Definition within (lo hi tighten : R) (x : option R) := forall v, x = Some v -> lo + (hi - lo) * tighten <= v <= hi - (hi - lo) * tighten.
Definition good_bounds (tf : R) (r : prow) :=
  within 2.5 3.5 tf (r_par r "LENGTH_R1") /\ within 2.5 3.5 tf (r_par r "LENGTH_R2") /\ within (-200) 200 tf (r_par r "OFFSET_T") /\
  within (-30) 30 tf (r_par r "OFFSET_P") /\ within (-500) 500 tf (r_par r "OFFSET_X") /\ within (-500) 500 tf (r_par r "OFFSET_Y").
Definition near (x : option R) (expected tol : R) := forall v, x = Some v -> Rabs (v - expected) <= tol.
Definition good_xy (nominal : list (Z * (R * R))) (tol : R) (r : prow) :=
  forall ex ey, In (r_loc r, (ex, ey)) nominal -> near (r_par r "OFFSET_X") ex tol /\ near (r_par r "OFFSET_Y") ey tol.
Definition good_arms (tol : R) (r : prow) := near (r_par r "LENGTH_R1") 3 tol /\ near (r_par r "LENGTH_R2") 3 tol.
Definition acceptable (nominal : list (Z * (R * R))) (lim : limits) (r : prow) : Prop :=
  r_missing r = false /\ good_outliers (l_outliers lim) r /\ good_error (l_error lim) r /\ good_flags r /\ good_bounds (l_tighten lim) r /\
  good_xy nominal (l_xy lim) r /\ good_arms (l_arms lim) r.

(** Every limit is the default one or a number typed by the operator. *)
Definition typed (str2float : string -> option R) (inp : list string) (x : R) := exists s, In s inp /\ str2float s = Some x.
Definition limits_in_force (str2float : string -> option R) (inp : list string) (lim : limits) :=
  (l_outliers lim = 2 \/ typed str2float inp (l_outliers lim)) /\ (l_error lim = 0.03 \/ typed str2float inp (l_error lim)) /\
  (l_tighten lim = 0.001 \/ typed str2float inp (l_tighten lim)) /\ (l_xy lim = 0.5 \/ typed str2float inp (l_xy lim)) /\
  (l_arms lim = 0.5 \/ typed str2float inp (l_arms lim)).

(** The data of a row, apart from the two columns which the script fills in. *)
Definition same_data (r r' : prow) : Prop :=
  r_id r' = r_id r /\ r_missing r' = r_missing r /\ r_flags r' = r_flags r /\ r_loc r' = r_loc r /\ r_npts r' = r_npts r /\ r_nfit r' = r_nfit r /\
  r_err r' = r_err r /\ r_par r' = r_par r.

(** [one_each l m]: [m] is [l] where only rows of positioners with several rows have been removed, down to at most one. *)
Definition rows_of (id : string) (l : list prow) : list prow := filter (fun r => String.eqb (r_id r) id) l.
Definition one_each (l m : list prow) : Prop :=
  sublist m l /\ NoDup (map r_id m) /\ (forall id, List.length (rows_of id l) = 1%nat -> rows_of id m = rows_of id l).

(** Python goes through a set in some order. *)
Definition enumerates_sets (f : list string -> list string) : Prop := forall l, NoDup (f l) /\ forall x, In x (f l) <-> In x l.

(** What a line typed at a yes/no prompt means, in upper or lower case. *)
Definition means (s : string) : option string :=
  let a := lower s in
  if mem_str a ["h"; "help"; "doc"; "man"] then Some "help" else if mem_str a ["n"; "no"; "false"] then Some "no"
  else if mem_str a ["y"; "yes"; "true"] then Some "yes" else if mem_str a ["exit"] then Some "exit" else None.
(** The first line which means something, and the lines after it. *)
Fixpoint first_answer (inp : list string) : option (string * list string) :=
  match inp with [] => None | s :: rest => match means s with Some a => Some (a, rest) | None => first_answer rest end end.
Definition offered (yes no help_ exit_ : bool) (a : string) : Prop :=
  (a = "yes" /\ yes = true) \/ (a = "no" /\ no = true) \/ (a = "help" /\ help_ = true) \/ (a = "exit" /\ exit_ = true).

(** A dialogue: what is typed for one limit, nothing but a refusal to change it, or a new value; and the limit which results. *)
Definition lines_for (o : option string) : list string := match o with None => ["no"] | Some s => ["yes"; s; "no"] end.
Definition sets (str2float : string -> option R) (default : R) (o : option string) (x : R) : Prop :=
  match o with None => x = default | Some s => str2float s = Some x /\ x <> default /\ ~ In s [""; "(no entry)"; "exit"] end.
Definition yes_or_no (b : bool) : string := if b then "yes" else "no".
(** The columns for which the operator is asked, in this order. *)
Definition asked : list string := ["LENGTH_R1"; "LENGTH_R2"; "OFFSET_T"; "OFFSET_P"; "OFFSET_X"; "OFFSET_Y"; "DEVICE_CLASSIFIED_NONFUNCTIONAL"].
(** The answer for column [k] if [l] are the answers: none for a column which is not asked. *)
Definition answer_for (l : list bool) (k : string) : bool := existsb (fun kb => String.eqb (fst kb) k && snd kb)%bool (combine asked l).
