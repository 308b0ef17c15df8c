(** Least squares for the maps from the tangent plane to the focal plane that RayTraceFit uses. *)
From Coq Require Import List Reals ZArith.
From Verif.Model Require Import RayTraceTable.
From Verif.Spec Require Import SimpleCorr Fvc2fp Adc.
Local Open Scope R_scope.

(** The map with coefficients [c] from the tangent plane to mm in the focal plane. *)
Definition tan_map (ids : list Z) (c : list R) (p : R * R) : R * R :=
  let u := reduced_by 0.027 p in let d := field (getZhaoBurgeXY ids c) u in (420 * (fst u + fst d), 420 * (snd u + snd d)).
(** Only the zero coefficients move none of the points. *)
Definition determine (ids : list Z) (pts : list (R * R)) : Prop :=
  forall c, length c = length ids -> (forall p, In p pts -> field (getZhaoBurgeXY ids c) (reduced_by 0.027 p) = (0, 0)) -> c = repeat 0 (length ids).
(** Points of the tangent plane and of the focal plane in some rows; the rows with one sum ADC1 + 1000 ADC2. *)
Definition pairs_of (rows : list ray_row) : list ((R * R) * (R * R)) := map (fun w => (w_tan w, w_fp w)) rows.
Definition group (table : list ray_row) (c : R) : list ray_row := filter (fun w => if Req_EM_T (w_adc1 w + 1000 * w_adc2 w) c then true else false) table.
(** [c] is the only optimum. *)
Definition optimal (ids : list Z) (c : list R) (data : list ((R * R) * (R * R))) : Prop :=
  length c = length ids /\ forall c', length c' = length ids -> c' <> c -> misfit (tan_map ids c) data < misfit (tan_map ids c') data.
(** One entry per setup and one coefficient per polynomial. *)
Definition shaped (t : rtf) : Prop :=
  Forall (fun col => length col = length (r_adc1 t)) [r_adc2 t; r_scale t; r_rotation t; r_offset_x t; r_offset_y t] /\
  length (r_coeffs t) = length (r_adc1 t) /\ Forall (fun row => length row = length (r_polids t)) (r_coeffs t).
