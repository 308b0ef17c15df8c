(** C23, C24: petal coordinates to focal plane coordinates. *)
From Verif.Model Require Import Ptl2fp.
From Verif.Spec Require Import Ptl2fp.
From Verif.Proofs Require Import Numpy Ptl2fp.
From Coq Require Import Lra.
Local Open Scope R_scope.

(** With z given, for any alignment of the petal. *)
Theorem C23_inverse :
  forall d loc x y z x' y' z', (exists a, dict_get Z.eqb d loc = Some a) ->
  ptl2fp d loc x y (Some z) = Ok (Some (x', y', z')) <-> fp2ptl d loc x' y' (Some z') = Ok (Some (x, y, z)).
Proof.
  intros d loc x y z x' y' z' [a E]. rewrite (ptl2fp_eq _ _ _ _ _ _ E), (fp2ptl_eq _ _ _ _ _ _ E). cbn [nominal_z option_map].
  split; intros H.
  - assert (H' : move a (x, y, z) = (x', y', z')) by congruence. now rewrite <- H', unmove_move.
  - assert (H' : unmove a (x', y', z') = (x, y, z)) by congruence. now rewrite <- H', move_unmove.
Qed.
Print Assumptions C23_inverse.
Theorem C23_rigid_motion :
  forall d loc, (exists a, dict_get Z.eqb d loc = Some a) ->
  exists m, (forall x y z, ptl2fp d loc x y (Some z) = Ok (Some (m (x, y, z)))) /\
  (forall p q, distance3 (m p) (m q) = distance3 p q) /\
  (forall o p q r, volume6 (m o) (m p) (m q) (m r) = volume6 o p q r).
Proof.
  intros d loc [a E]. exists (move a). split; [intros x y z; now rewrite (ptl2fp_eq _ _ _ _ _ _ E)|]. split; [apply move_distance|apply move_volume].
Qed.
Print Assumptions C23_rigid_motion.
(** Which motion: turn about x by alpha, about y by beta, about z by gamma, then shift. *)
Theorem C23_yaw_pitch_roll :
  forall d loc a x y z x' y' z', dict_get Z.eqb d loc = Some a ->
  about_z (gamma a) (about_y (beta a) (about_x (alpha a) (x, y, z))) = (x', y', z') ->
  ptl2fp d loc x y (Some z) = Ok (Some (x' + Tx a, y' + Ty a, z' + Tz a)).
Proof.
  intros d loc a x y z x' y' z' E H. rewrite (ptl2fp_eq _ _ _ _ _ _ E). cbn [nominal_z option_map]. now rewrite (move_rotations a _ x' y' z').
Qed.
Print Assumptions C23_yaw_pitch_roll.
(** z omitted both ways: the point found back is off by the difference between the nominal
    height at the focal plane position and the height reached. *)
Theorem C23_nominal_height_error :
  forall d loc x y z x' y' z' v, r2z (sqrt (x ^ 2 + y ^ 2)) = Some z ->
  ptl2fp d loc x y None = Ok (Some (x', y', z')) -> fp2ptl d loc x' y' None = Ok (Some v) ->
  exists zn, r2z (sqrt (x' ^ 2 + y' ^ 2)) = Some zn /\ distance3 v (x, y, z) = Rabs (zn - z').
Proof.
  intros d loc x y z x' y' z' v Ez E1 E2. destruct (dict_get Z.eqb d loc) as [a|] eqn:Ed.
  - rewrite (ptl2fp_eq _ _ _ _ _ _ Ed) in E1. rewrite (fp2ptl_eq _ _ _ _ _ _ Ed) in E2. cbn [nominal_z] in *. rewrite Ez in E1. cbn [option_map] in E1. assert (E1' : move a (x, y, z) = (x', y', z')) by congruence. clear E1.
    destruct (r2z (sqrt (x' ^ 2 + y' ^ 2))) as [zn|]; [|discriminate]. cbn [option_map] in E2. injection E2 as <-. exists zn. split; [reflexivity|].
    rewrite <- (unmove_move a (x, y, z)), E1', unmove_distance. cbn. rewrite <- sqrt_Rsqr_abs. f_equal. unfold Rsqr. ring.
  - unfold ptl2fp, dict_getE in E1. rewrite Ed in E1. discriminate.
Qed.
Print Assumptions C23_nominal_height_error.
(** With the shipped alignments, which have no tilt, x and y are found back exactly. *)
Theorem C23_shipped_round_trip :
  forall loc x y, (0 <= loc <= 9)%Z -> sqrt (x ^ 2 + y ^ 2) <= 499.865 ->
  exists x' y' z' z'', ptl2fp petal_alignments loc x y None = Ok (Some (x', y', z')) /\ fp2ptl petal_alignments loc x' y' None = Ok (Some (x, y, z'')).
Proof.
  intros loc x y H HL. assert (E : exists a, dict_get Z.eqb petal_alignments loc = Some a).
  { assert (C : (loc = 0 \/ loc = 1 \/ loc = 2 \/ loc = 3 \/ loc = 4 \/ loc = 5 \/ loc = 6 \/ loc = 7 \/ loc = 8 \/ loc = 9)%Z) by lia.
    repeat destruct C as [-> |C]; try (eexists; reflexivity). subst loc. eexists; reflexivity. }
  destruct E as [a E]. exact (shipped_round_trip loc a x y E HL).
Qed.
Print Assumptions C23_shipped_round_trip.
Example C23_example : exists z, ptl2fp petal_alignments 3 100 50 None = Ok (Some z) /\ exists z, ptl2fp petal_alignments 3 100 50 (Some 7) = Ok (Some z).
Proof.
  destruct (C23_shipped_round_trip 3 100 50 ltac:(lia)) as (x & y & z & _ & E & _).
  - apply hyp_le; lra.
  - rewrite E. eexists. split; [reflexivity|]. eexists. reflexivity.
Qed.

(** A table: column PETAL_LOC and columns X_PTL, Y_PTL, Z_PTL. *)
Theorem C24_each_row_own_petal :
  forall d petal_loc xyz, length xyz = length petal_loc -> (forall loc, In loc petal_loc -> exists a, dict_get Z.eqb d loc = Some a) ->
  exists out, apply_ptl2fp d petal_loc xyz = Ok out /\ length out = length petal_loc /\
  forall i loc x y z, nth_error petal_loc i = Some loc -> nth_error xyz i = Some (x, y, z) ->
    exists v, nth_error out i = Some v /\ ptl2fp d loc x y (Some z) = Ok (Some v).
Proof.
  intros d locs xyz L H. assert (H' : forall l, In l (unique locs) -> exists a, dict_get Z.eqb d l = Some a) by (intros l Hl; apply H, unique_In, Hl).
  destruct (apply_petals_spec d locs xyz (unique locs) L H' (repeat (0, 0, 0) (length locs)) (repeat_length _ _)) as (out & E & Lo & S).
    exists out. split; [exact E|]. split; [exact Lo|]. intros i loc x y z Hl Hp. destruct (H loc) as [a Ea]; [eapply nth_error_In; eauto|].
    destruct (S i loc Hl) as [A _]. specialize (A a). rewrite Hp in A. cbn [option_map] in A. exists (move a (x, y, z)). split; [apply A; [apply unique_In; eapply nth_error_In; eauto|exact Ea]|].
    now rewrite (ptl2fp_eq _ _ _ _ _ _ Ea).
Qed.
Print Assumptions C24_each_row_own_petal.
Theorem C24_unknown_petal :
  forall d petal_loc xyz loc, length xyz = length petal_loc -> In loc petal_loc -> dict_get Z.eqb d loc = None ->
  apply_ptl2fp d petal_loc xyz = Err KeyError.
Proof.
  intros d locs xyz loc L H E. apply apply_petals_missing; [exact L|apply repeat_length|]. exists loc. split; [now apply unique_In|exact E].
Qed.
Print Assumptions C24_unknown_petal.
Example C24_example : forall loc, In loc [7; 3; 7; 0]%Z -> exists a, dict_get Z.eqb petal_alignments loc = Some a.
Proof. intros loc H. cbn in H. repeat destruct H as [<-|H]; try (eexists; reflexivity). destruct H. Qed.
