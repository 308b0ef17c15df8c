(** Guide stars: which ones are used, how the pointing is fitted, and how the field is turned. Angles in degrees. *)
From Coq Require Import List Reals.
From Verif.Model Require Import GuideStars.
From Verif.Spec Require Import LinAlg SimpleCorr Sphere TanPlane.
Import ListNotations.
Local Open Scope R_scope.

(** The elements of [l] with a value as [P] demands are kept, with that value, in their order; the others are left out. *)
Inductive chosen {A B} (P : A -> B -> Prop) : list A -> list (A * B) -> Prop :=
| chosen_nil : chosen P [] []
| chosen_keep a b l r : P a b -> chosen P l r -> chosen P (a :: l) ((a, b) :: r)
| chosen_drop a l r : (forall b, ~ P a b) -> chosen P l r -> chosen P (a :: l) r.

(** An unknown proper motion counts as none. *)
Definition known (pm : option R) : R := match pm with Some v => v | None => 0 end.
(** Position [g] of a star in the given year; proper motions are in milliarcseconds per year, the one in right ascension along the parallel. *)
Definition at_year (year : R) (s : star) (g : R * R) : Prop :=
  cos (PI * s_dec_gaia s / 180) <> 0 /\
  (fst g - s_ra_gaia s) * cos (PI * s_dec_gaia s / 180) = (year - s_epoch s) * known (s_pmra s) / (1000 * 3600) /\
  snd g - s_dec_gaia s = (year - s_epoch s) * known (s_pmdec s) / (1000 * 3600).
(** Separation in arc seconds, on the plane, without regard to the period of the right ascension. *)
Definition flat_separation (a g : R * R) : R := 3600 * sqrt (((fst a - fst g) * cos (PI * snd g / 180)) ^ 2 + (snd a - snd g) ^ 2).

(** [c] is the correction from the first to the second points of [data]: the pointing moves four times by the mean offset, the affine map that then remains is
    fitted by least squares, its constant moves the pointing again and its linear part is a rotation followed by a symmetric matrix of positive trace. *)
Definition fitted (data : list ((R * R) * (R * R))) (c : tancorr) : Prop :=
  exists (p : nat -> R * R) ax ay, p 0%nat = (0, 0) /\ (forall k, (k < 4)%nat -> pointing_step data (p k) (p (S k))) /\
  let src := sources_from (p 4%nat) data in
  not_collinear src /\ least_squares 3 (x_samples src) ax /\ least_squares 3 (y_samples src) ay /\
  nth 1 ax 0 + nth 2 ay 0 <> 0 /\ nth 1 ay 0 <> nth 2 ax 0 /\
  t_dha c = fst (p 4%nat) - 180 / PI * nth 0 ax 0 /\ t_ddec c = snd (p 4%nat) - 180 / PI * nth 0 ay 0 /\
  (forall q, let '(u, v) := mat2 (t_sxx c) (t_sxy c) (t_sxy c) (t_syy c) (rot2deg (t_rot_deg c) q) in (nth 0 ax 0 + u, nth 0 ay 0 + v) = affine ax ay q) /\ 0 < t_sxx c + t_syy c /\ 0 <= t_rot_deg c < 360 /\
  t_nstars c = length data /\ t_rms_arcsec c = 180 / PI * 3600 * sqrt (misfit (affine ax ay) src / INR (length data)).

(** From the pointing [tel] to [tel']: the stars [sky], seen at [gaia] from [tel], have been measured at [meas]. *)
Definition refit (o : options) (mjd lst hexrot : R) (meas sky : list (R * R)) (tel : R * R) (c : tancorr) (tel' : R * R) : Prop :=
  exists gaia, Forall2 (fun g q => radec2tan o (fst g) (snd g) (fst tel) (snd tel) mjd lst hexrot = Ok q) sky gaia /\
  length meas = length gaia /\ fitted (combine meas gaia) c /\ snd tel' = snd tel - t_ddec c /\ cos (PI * snd tel' / 180) <> 0 /\ (fst tel' - fst tel) * cos (PI * snd tel' / 180) = t_dha c.

(** The ends of a cross with arms of one degree, in radians. *)
Definition cross_ends : list (R * R) := [(PI / 180, 0); (0, PI / 180); (- (PI / 180), 0); (0, - (PI / 180))].
(** Position of a star of the catalogue: moved to the given year if the catalogue has proper motions. *)
Definition position_in (year : R) (cat : catalogue) (s : star) (g : R * R) : Prop :=
  if c_pm cat then at_year year s g else g = (s_ra_gaia s, s_dec_gaia s).
(** The stars whose pixels fall on the focal plane at [p], off the line x = 0. *)
Definition on_focal_plane argsort metrology (s : star * (R * R)) (p : R * R) : Prop :=
  gfa2fp argsort metrology (s_petal (fst s)) (s_x (fst s), s_y (fst s)) = Ok p /\ fst p <> 0.
