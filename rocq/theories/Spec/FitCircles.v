(** Measurements of a spot over several exposures. *)
From Coq Require Import List Reals ZArith.
From Verif.Model Require Import FitCircles.
Import ListNotations.
Local Open Scope R_scope.
Local Open Scope list_scope.

(** The rows of a table at a location and pinhole. *)
Definition rows_at (l p : Z) (t : list spot_row) : list spot_row := filter (fun r => ((r_location r =? l) && (r_pinhole r =? p))%Z%bool) t.
(** Measured positions: one for each table with exactly one row there. *)
Definition measurements (files : list (list spot_row)) (l p : Z) : list (R * R) :=
  flat_map (fun t => match rows_at l p t with [r] => [r_xy r] | _ => [] end) files.
(** Expected position: of the first row of the first table if it has one, otherwise in the first table with exactly one row. *)
Definition expected (files : list (list spot_row)) (l p : Z) : option (R * R) :=
  match files with
  | [] => None
  | t :: _ => match rows_at l p t with
              | r :: _ => Some (r_exp r)
              | [] => hd_error (flat_map (fun t => match rows_at l p t with [r] => [r_exp r] | _ => [] end) files)
              end
  end.
Definition variance (l : list R) : R := let m := fold_right Rplus 0 l / INR (length l) in fold_right Rplus 0 (map (fun u => (u - m) ^ 2) l) / INR (length l).
(** The measurements that count: those not at x = 0. *)
Definition valid (l : list (R * R)) : list (R * R) := filter (fun p => negb (Reqb (fst p) 0)) l.
