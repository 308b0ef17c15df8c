(** Where a tile is pointed and how its field is turned. *)
From Coq Require Import List Reals.
From Verif.Model Require Import Radec2tan RayTraceFit Dm2pm.
From Verif.Spec Require Import Sphere.
Import ListNotations.
Local Open Scope R_scope.

(** Offset of the target [s] = (ra, dec) from the centre of the tile: components of its direction towards the west and the north at the centre. *)
Definition sky_offset (tile s : R * R) : R * R :=
  (inner (unit_vector (- fst s) (snd s)) (unit_vector (- fst tile + 90) 0), inner (unit_vector (- fst s) (snd s)) (unit_vector (- fst tile) (snd tile + 90))).
(** Targets, known on the sky and on the focal plane, farther than 10 mm from the centre of the focal plane. *)
Fixpoint outer_targets (targets : list (option (R * R) * option (R * R))) : list ((R * R) * (R * R)) :=
  match targets with
  | [] => []
  | (Some s, Some p) :: l => if Rlt_dec (10 * 10) (fst p * fst p + snd p * snd p) then (s, p) :: outer_targets l else outer_targets l
  | _ :: l => outer_targets l
  end.
(** The position [p] lies in the direction of the offset [d] turned by [theta] radians. *)
Definition turned_from (theta : R) (d p : R * R) : Prop :=
  exists k, 0 < k /\ p = (k * (cos theta * fst d - sin theta * snd d), k * (sin theta * fst d + cos theta * snd d)).
Definition average (l : list R) : R := fold_right Rplus 0 l / INR (length l).

(** One Newton step for the pointing at which [tile] falls on the origin; [shown tel s p] means that [s] is seen at [p] when pointing at [tel], and the
    derivatives are differences over one arc second. *)
Definition newton_step (shown : R * R -> R * R -> R * R -> Prop) (tile tel tel' : R * R) : Prop :=
  exists f0 f1 f2, shown tel tile f0 /\ shown tel (fst tile + 1 / 3600, snd tile) f1 /\ shown tel (fst tile, snd tile + 1 / 3600) f2 /\
  let dra := ((fst f1 - fst f0) * 3600, (snd f1 - snd f0) * 3600) in
  let ddec := ((fst f2 - fst f0) * 3600, (snd f2 - snd f0) * 3600) in
  fst dra * snd ddec <> fst ddec * snd dra /\
  f0 = (fst dra * (fst tel' - fst tel) + fst ddec * (snd tel' - snd tel), snd dra * (fst tel' - fst tel) + snd ddec * (snd tel' - snd tel)).

(** The target [s] seen through radec2tan and tan2fp, pointing at [tel]. *)
Definition shown argsort interp1d (table : rtf) (o : options) (mjd lst adc1 adc2 : R) (tel s p : R * R) : Prop :=
  exists t, radec2tan o (fst s) (snd s) (fst tel) (snd tel) mjd lst 0 = Ok t /\ tan2fp argsort interp1d table [t] adc1 adc2 = Ok [p].
(** The same for a list entry that may be nan, and in platemaker coordinates if [pm]. *)
Definition placed_at argsort interp1d (table : rtf) (platemaker : dm2pm_tx) (o : options) (mjd lst adc1 adc2 : R) (pm : bool) (tel s : R * R) (q : option (R * R)) : Prop :=
  match radec2tan o (fst s) (snd s) (fst tel) (snd tel) mjd lst 0 with
  | Ok t => exists p, tan2fp argsort interp1d table [t] adc1 adc2 = Ok [p] /\ exists p', (if pm then dm2pm platemaker p else Ok p) = Ok p' /\ q = Some p'
  | Err NonFinite => q = None
  | Err _ => False
  end.
(** The entry [q] that tan2radec gives for the point [t], nan where it is not defined. *)
Definition on_sky (o : options) (mjd lst : R) (tel t : R * R) (q : option (R * R)) : Prop :=
  match tan2radec o (fst t) (snd t) (fst tel) (snd tel) mjd lst 0 with Ok s => q = Some s | Err NonFinite => q = None | Err _ => False end.
