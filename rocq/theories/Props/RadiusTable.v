(** C85: the two ways to convert between radius and arc length along the focal surface. *)
From Verif.Model Require Xy2qs RsznLookups.
From Coq Require Import List Reals ZArith Lia Lra.
From Verif.Spec Require Import RsznLookups.
From Verif.Proofs Require Import RsznLookups RadiusTable.
Local Open Scope R_scope.

(** The polynomials of xy2qs and the lookup table of rszn_lookups agree on the focal plane within 3.7 micrometres (the arc length of a radius)
    and 2.1 micrometres (the radius of an arc length), and within 0.66 micrometres from 25 to 410 mm. *)
Theorem C85_polynomials_follow_table :
  forall r s, RsznLookups.r2s r = Some s -> r <= 420 ->
  Rabs (Xy2qs.r2s r - s) < 0.0037 /\ Rabs (Xy2qs.s2r s - r) < 0.0021 /\
  (25 <= r <= 410 -> Rabs (Xy2qs.r2s r - s) < 0.00066 /\ Rabs (Xy2qs.s2r s - r) < 0.00066).
Proof.
  intros r s E Hr. apply (interp_iff _ _ _ _ inc_R) in E; [|rewrite len_R; lia].
  assert (L : length RsznLookups.col_R = length RsznLookups.col_S) by (rewrite len_R, len_S; reflexivity).
  pose proof (on_table_inverse _ _ _ _ inc_R inc_S L E) as E'.
  assert (Node : forall k z s' n, nth_error FocalSurfaceTable.focal_surface_lookup (S k) = Some (Z.of_nat (S k), z, s', n)%Z -> (S k < 501)%nat ->
    nth (S k) RsznLookups.col_R 0 = IZR (Z.of_nat (S k)) /\ (r < IZR (Z.of_nat (S k)) -> s < nth (S k) RsznLookups.col_S 0) /\ (IZR (Z.of_nat (S k)) < r -> nth (S k) RsznLookups.col_S 0 < s)).
  { intros k z s' n Hk Hl. destruct (row_at _ _ _ _ _ Hk) as [E1 _]. split; [exact E1|].
    pose proof (on_table_node RsznLookups.col_R RsznLookups.col_S k inc_R ltac:(rewrite len_R; exact Hl)) as T. rewrite E1 in T.
    split; intros H; [exact (on_table_mono _ _ _ _ _ _ inc_R inc_S L E T H)|exact (on_table_mono _ _ _ _ _ _ inc_R inc_S L T E H)]. }
  destruct (Node 420%nat _ _ _ eq_refl ltac:(lia)) as (R421 & S421 & _). destruct (Node 410%nat _ _ _ eq_refl ltac:(lia)) as (R411 & S411 & _). destruct (Node 23%nat _ _ _ eq_refl ltac:(lia)) as (R24 & _ & S24).
  change (IZR (Z.of_nat 421)) with 421 in *. change (IZR (Z.of_nat 411)) with 411 in *. change (IZR (Z.of_nat 24)) with 24 in *.
  split; [|split; [|intros [H1 H2]; split]].
  - eapply Rle_lt_trans; [apply (r2s_close 36600 0 421 r s); [lia|vm_compute; reflexivity|exact E|now left|lra]|lra].
  - eapply Rle_lt_trans; [apply (s2r_close 20000 0 421 r s); [lia|vm_compute; reflexivity|exact E'|now left|apply S421; lra]|lra].
  - eapply Rle_lt_trans; [apply (r2s_close 6480 24 411 r s); [lia|vm_compute; reflexivity|exact E|right; lra|lra]|lra].
  - eapply Rle_lt_trans; [apply (s2r_close 6480 24 411 r s); [lia|vm_compute; reflexivity|exact E'|right; apply S24; lra|apply S411; lra]|lra].
Qed.
Print Assumptions C85_polynomials_follow_table.
Example C85_example : exists s, RsznLookups.r2s 123.4 = Some s.
Proof.
  destruct (RsznLookups.r2s 123.4) as [s|] eqn:E; [now exists s|exfalso]. apply (interp_is_None _ _ _ inc_R) in E; [|rewrite len_R; lia].
  destruct (row_at 0 0 0 0 1722000 ltac:(vm_compute; reflexivity)) as [E0 _]. rewrite E0, len_R in E. change (501 - 1)%nat with 500%nat in E.
  destruct (row_at 500 500 (-28465658440) 501123800500 9735219020 ltac:(vm_compute; reflexivity)) as [E1 _]. rewrite E1 in E. lra.
Qed.
(** At the centre of the focal plane they differ by more than the micrometre documented for the polynomial. *)
Theorem C85_submicron_refuted : RsznLookups.r2s 0 = Some 0 /\ 0.0036 < Xy2qs.r2s 0.
Proof.
  split; [|unfold Xy2qs.r2s, Xy2qs.poly1d, Xy2qs.r2s_coefs; cbn [fold_left]; lra].
  apply (interp_iff _ _ _ _ inc_R); [rewrite len_R; lia|]. exists 0%nat. split; [rewrite len_R; lia|].
  destruct (row_at 0 0 0 0 1722000 ltac:(vm_compute; reflexivity)) as [A B]. destruct (row_at 1 1 (-100000) 1000000000 10606000 ltac:(vm_compute; reflexivity)) as [A' B'].
  cbv zeta. rewrite A, B, A', B'. lra.
Qed.
Print Assumptions C85_submicron_refuted.
