(** C22: the shipped focal surface lookup table (R and S in mm, N in degrees). *)
From Verif.Model Require Import RsznLookups.
From Verif.Spec Require Import RsznLookups.
From Verif.Proofs Require Import RsznLookups.
From Coq Require Import Lra.
Local Open Scope R_scope.

(** The conversions interpolate linearly between the rows of the shipped file, and do nothing else. *)
Theorem C22_interpolates_table :
  forall x y,
  (r2s x = Some y <-> on_table col_R col_S x y) /\ (s2r x = Some y <-> on_table col_S col_R x y) /\
  (r2n x = Some y <-> on_table col_R col_N x y) /\ (n2r x = Some y <-> on_table col_N col_R x y) /\
  (r2z x = Some y <-> on_table col_R col_Z x y).
Proof.
  intros x y. repeat split; apply interp_iff; auto using inc_R, inc_S, inc_N; rewrite ?len_R, ?len_S, ?len_N; lia.
Qed.
Print Assumptions C22_interpolates_table.
(** The remaining ones go through the radius. *)
Theorem C22_through_radius :
  forall x y,
  (s2n x = Some y <-> exists r, on_table col_S col_R x r /\ on_table col_R col_N r y) /\
  (s2z x = Some y <-> exists r, on_table col_S col_R x r /\ on_table col_R col_Z r y) /\
  (n2s x = Some y <-> exists r, on_table col_N col_R x r /\ on_table col_R col_S r y).
Proof.
  assert (G : forall f (g : R -> option R) x y, or_nan f (g x) = Some y <-> exists r, g x = Some r /\ f r = Some y).
  { intros f g x y. unfold or_nan. destruct (g x) as [r|]; [|split; [discriminate|intros (r & H & _); discriminate]].
    split; [intros E; eauto|intros (r' & [= <-] & E); exact E]. }
  assert (H : forall (f g : R -> option R) (P Q : R -> R -> Prop) x y, (forall r, g x = Some r <-> P x r) -> (forall r, f r = Some y <-> Q r y) ->
    or_nan f (g x) = Some y <-> exists r, P x r /\ Q r y).
  { intros f g P Q x y A B. rewrite G. split; intros (r & H1 & H2); exists r; (split; [apply A, H1|apply B, H2]). }
  intros x y. split; [|split].
  - apply (H r2n s2r); intros r; [exact (proj1 (proj2 (C22_interpolates_table x r)))|exact (proj1 (proj2 (proj2 (C22_interpolates_table r y))))].
  - apply (H r2z s2r); intros r; [exact (proj1 (proj2 (C22_interpolates_table x r)))|exact (proj2 (proj2 (proj2 (proj2 (C22_interpolates_table r y)))))].
  - apply (H r2s n2r); intros r; [exact (proj1 (proj2 (proj2 (proj2 (C22_interpolates_table x r)))))|exact (proj1 (C22_interpolates_table r y))].
Qed.
Print Assumptions C22_through_radius.
Theorem C22_inverse :
  forall x y, (r2s x = Some y <-> s2r y = Some x) /\ (r2n x = Some y <-> n2r y = Some x) /\ (s2n x = Some y <-> n2s y = Some x).
Proof.
  assert (A : forall x y, r2s x = Some y <-> s2r y = Some x) by (intros; apply interp_inverse; auto using inc_R, inc_S; rewrite ?len_R, ?len_S; lia).
  assert (B : forall x y, r2n x = Some y <-> n2r y = Some x) by (intros; apply interp_inverse; auto using inc_R, inc_N; rewrite ?len_R, ?len_N; lia).
  intros x y. split; [apply A|]. split; [apply B|]. unfold s2n, n2s, or_nan. split.
  - destruct (s2r x) as [r|] eqn:E; [|discriminate]. intros E'. apply B in E'. rewrite E'. now apply A.
  - destruct (n2r y) as [r|] eqn:E; [|discriminate]. intros E'. apply A in E'. rewrite E'. now apply B.
Qed.
Print Assumptions C22_inverse.
Theorem C22_monotone :
  forall a b x y, a < b ->
  (r2s a = Some x -> r2s b = Some y -> x < y) /\ (s2r a = Some x -> s2r b = Some y -> x < y) /\
  (r2n a = Some x -> r2n b = Some y -> x < y) /\ (n2r a = Some x -> n2r b = Some y -> x < y) /\
  (r2z a = Some x -> r2z b = Some y -> y < x).
Proof.
  intros a b x y H. repeat split; intros E E';
  [eapply interp_mono|eapply interp_mono|eapply interp_mono|eapply interp_mono|eapply interp_anti]; try exact E; try exact E'; try exact H;
  auto using inc_R, inc_S, inc_N, dec_Z; rewrite ?len_R, ?len_S, ?len_N, ?len_Z; lia.
Qed.
Print Assumptions C22_monotone.
(** NaN exactly outside the table. *)
Theorem C22_nan_outside :
  forall x,
  (r2s x = None <-> x < 0 \/ 500 < x) /\ (r2n x = None <-> x < 0 \/ 500 < x) /\ (r2z x = None <-> x < 0 \/ 500 < x) /\
  (s2r x = None <-> x < 0 \/ 501.1238005 < x) /\ (n2r x = None <-> x < 0.001722 \/ 9.73521902 < x).
Proof.
  intros x. unfold r2s, r2n, r2z, s2r, n2r. rewrite !interp_is_None by (auto using inc_R, inc_S, inc_N; rewrite ?len_R, ?len_S, ?len_N; lia).
  rewrite ?len_R, ?len_S, ?len_N. change (501 - 1)%nat with 500%nat. unfold col_R, col_S, col_N.
  rewrite !(nth_col _ _ _ row0), !(nth_col _ _ _ row500). cbn. repeat split; intros [H|H]; (left; lra) || (right; lra).
Qed.
Print Assumptions C22_nan_outside.
(** The Z column decreases, which np.interp does not support: z2r and z2s return NaN always. *)
Theorem C22_z2r_inverts_r2z_refuted : forall z, z2r z = None /\ z2s z = None.
Proof. intros z. unfold z2s. rewrite !z2r_nan. split; reflexivity. Qed.
Print Assumptions C22_z2r_inverts_r2z_refuted.
Example C22_example : on_table col_R col_S 4.5 4.5000005 /\ on_table col_R col_Z 1.5 (-0.000251).
Proof. split; [exists 4%nat|exists 1%nat]; (split; [rewrite len_R; lia|]); unfold col_R, col_S, col_Z; cbn; lra. Qed.
