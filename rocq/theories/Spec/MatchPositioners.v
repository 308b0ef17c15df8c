(** Assignment of detected spots to positioners. *)
From Coq Require Import List Reals ZArith Bool.
From Verif.Model Require Import MatchPositioners.
From Verif.Spec Require Import Match.
Import ListNotations.

(** A one to one list of index pairs below given bounds. *)
Definition one_to_one (n m : nat) (a : list (nat * nat)) : Prop :=
  NoDup (map fst a) /\ NoDup (map snd a) /\ forall i j, In (i, j) a -> (i < n)%nat /\ (j < m)%nat.

(** What linear_sum_assignment promises: a one to one assignment of as many pairs as
    possible... *)
Definition assignment_solver (solve : nat -> nat -> (nat -> nat -> Z) -> list (nat * nat)) : Prop :=
  forall n m sc, one_to_one n m (solve n m sc) /\ length (solve n m sc) = Nat.min n m.
(** ... of maximal total score. *)
Definition total_score (sc : nat -> nat -> Z) (a : list (nat * nat)) : Z :=
  fold_right Z.add 0 (map (fun ij => sc (fst ij) (snd ij)) a).
Definition optimal_solver (solve : nat -> nat -> (nat -> nat -> Z) -> list (nat * nat)) : Prop :=
  assignment_solver solve /\
  forall n m sc b, one_to_one n m b -> length b = Nat.min n m -> total_score sc b <= total_score sc (solve n m sc).

Section Reach.
Context {K : Type} (eqb : K -> K -> bool) (median : list R -> R).
Local Open Scope R_scope.

(** Calibrated arm length of a device: last entry of the calibration table, 0 without entry. *)
Definition calibrated_arm (cal : list (@calib K)) (fudge : R) (k : K) : R :=
  fold_left (fun acc c => if eqb (c_id c) k then c_r1 c + c_r2 c + fudge else acc) cal 0.

(** Non zero arm lengths of the positioners of the metrology table. *)
Definition known_arms (metr : list (@device K)) (cal : list calib) (fudge : R) : list R :=
  filter (fun a => if Req_EM_T a 0 then false else true)
    (map (fun d => calibrated_arm cal fudge (d_id d)) (filter (fun d => Z.eqb (d_pinhole d) 0) metr)).

(** The reach of a positioner: its arm length, or the median one when it is not known. *)
Definition reach (metr : list (@device K)) (cal : list calib) (fudge : R) (d : device) (a : R) : Prop :=
  (calibrated_arm cal fudge (d_id d) <> 0 /\ a = calibrated_arm cal fudge (d_id d)) \/
  (calibrated_arm cal fudge (d_id d) = 0 /\ known_arms metr cal fudge <> [] /\ a = median (known_arms metr cal fudge)).

(** Spot number [f] and positioner number [p] (indices of the input tables) can be assigned. *)
Definition assignable (fvc : list spot) (metr : list (@device K)) (thresh : R) (f p : nat) : Prop :=
  exists s d, nth_error fvc f = Some s /\ s_pinhole s = 0%Z /\ thresh < s_counts s /\
              nth_error metr p = Some d /\ d_pinhole d = 0%Z.
Definition within_reach (fvc : list spot) (metr : list (@device K)) (cal : list calib) (fudge : R) (f p : nat) : Prop :=
  exists s d a, nth_error fvc f = Some s /\ nth_error metr p = Some d /\ reach metr cal fudge d a /\
                distance (d_xy d) (s_xy s) < a.
End Reach.

(** A well formed answer: one entry per spot, -1 or a positioner the spot can be assigned to,
    no positioner twice. *)
Definition valid_result {K} (fvc : list spot) (metr : list (@device K)) (thresh : R) (ret : list Z) : Prop :=
  length ret = length fvc /\
  (forall f z, nth_error ret f = Some z ->
     z = (-1)%Z \/ exists p, z = Z.of_nat p /\ assignable fvc metr thresh f p) /\
  (forall f g z, nth_error ret f = Some z -> nth_error ret g = Some z -> z <> (-1)%Z -> f = g).
