From Verif.Model Require Import Gfa2fp.
From Verif.Spec Require Import Trig LinAlg SimpleCorr Numpy Gfa.
From Verif.Proofs Require Import Prelude RealNum Trig LinAlg ZhaoBurge SimpleCorr Stats Sorting Numpy Fvc2fpPairs Gfa2fp.
From Coq Require Import Lra Lia Permutation.
Local Open Scope R_scope.

(** C74. Guide camera pixels and the focal plane. [argsort] is any sort. *)
(** The rows of one petal's guide camera. *)
Definition gfa_rows (M : list gfa_row) (p : Z) : list gfa_row := filter (fun g => g_is_gfa g && Z.eqb (g_petal g) p)%bool M.
(** Every petal has no guide camera or its four corners. *)
Definition complete (M : list gfa_row) : Prop := forall p, (0 <= p <= 9)%Z -> length (gfa_rows M p) = 0%nat \/ length (gfa_rows M p) = 4%nat.
Lemma petals_in p : In p petals <-> (0 <= p <= 9)%Z.
Proof. unfold petals. cbn. lia. Qed.
Lemma petals_exists p : existsb (Z.eqb p) petals = true <-> (0 <= p <= 9)%Z.
Proof. rewrite <- petals_in, existsb_exists. split; [intros (q & H & E); apply Z.eqb_eq in E; now subst|]. intros H. exists p. split; [exact H|apply Z.eqb_refl]. Qed.

(** What the table measures for one petal: four rows, listed in any order, read in the order of their pinhole numbers. *)
Definition corners (M : list gfa_row) (p : Z) (r0 r1 r2 r3 : gfa_row) : Prop :=
  Permutation (gfa_rows M p) [r0; r1; r2; r3] /\ (g_pinhole r0 < g_pinhole r1 < g_pinhole r2)%Z /\ (g_pinhole r2 < g_pinhole r3)%Z.
Lemma corners_petal argsort M p r0 r1 r2 r3 : is_argsort argsort -> complete M -> (0 <= p <= 9)%Z -> corners M p r0 r1 r2 r3 -> gfa_transform argsort M p = fit_petal [r0; r1; r2; r3].
Proof.
  intros A C Hp (P & H1 & H2). destruct (gfa_transform_spec argsort A M) as (S & E & T); [intros q Hq; apply petals_in in Hq; exact (C q Hq)|].
  rewrite T. rewrite (proj2 (petals_exists p) Hp). destruct (sorted_petal argsort A M p S E) as [Pp Ap].
  assert (F : filter (fun g => Z.eqb (g_petal g) p) S = [r0; r1; r2; r3]); [|now rewrite F].
  assert (Q : Permutation (filter (fun g => Z.eqb (g_petal g) p) S) [r0; r1; r2; r3]) by (rewrite Pp; exact P).
  assert (G : forall r, In r [r0; r1; r2; r3] -> gfa_key r = (p, g_pinhole r)).
  { intros r Hr. apply (Permutation_in r (Permutation_sym Q)) in Hr. apply filter_In in Hr. destruct Hr as [_ Hr]. apply Z.eqb_eq in Hr. unfold gfa_key. now rewrite Hr. }
  assert (K : map gfa_key [r0; r1; r2; r3] = [(p, g_pinhole r0); (p, g_pinhole r1); (p, g_pinhole r2); (p, g_pinhole r3)]) by (cbn [map]; rewrite !G by (cbn; auto); reflexivity).
  apply (keys_unique gfa_key); [exact Q| |].
  - rewrite K. repeat constructor; cbn; intuition (try match goal with H : (_, _) = (_, _) |- _ => injection H; lia end).
  - apply (ascending_unique key_ltb key_ltb_strict); [exact Ap| |now apply Permutation_map].
    rewrite K. unfold ascending, key_ltb. repeat constructor; cbn; rewrite ?Z.eqb_refl, ?Z.ltb_irrefl; cbn; apply Z.ltb_ge; lia.
Qed.
(** The sum of the mean slopes of x along the rows of pixels and of y along the columns. *)
Definition slopes (r0 r1 r2 r3 : gfa_row) : R :=
  (g_x r1 - g_x r0 + g_x r2 - g_x r3) / (2 * 2047) + (g_y r3 - g_y r0 + g_y r2 - g_y r1) / (2 * 1031).
(** The best affine map for the corners, shifted along the normal of the sensor to the focal surface 2.23 mm above. *)
Theorem C74_pixels_to_focal_plane : forall argsort M p r0 r1 r2 r3 q, is_argsort argsort -> complete M -> (0 <= p <= 9)%Z -> corners M p r0 r1 r2 r3 ->
  let '(nx, ny, nz) := normal_of (g_x r0, g_y r0, g_z r0) (g_x r1, g_y r1, g_z r1) (g_x r2, g_y r2, g_z r2) in
  (slopes r0 r1 r2 r3 <> 0 -> nz <> 0 ->
    gfa2fp argsort M p q = Ok (corner_fit (g_x r0) (g_x r1) (g_x r2) (g_x r3) q + 2.23 * (nx / nz), corner_fit (g_y r0) (g_y r1) (g_y r2) (g_y r3) q + 2.23 * (ny / nz))) /\
  (slopes r0 r1 r2 r3 = 0 \/ nz = 0 -> gfa2fp argsort M p q = Err NonFinite /\ fp2gfa argsort M p q = Err NonFinite).
Proof.
  intros argsort M p r0 r1 r2 r3 q A C Hp H. pose proof (shift_spec r0 r1 r2 [r3]) as SH. unfold g_xyz in SH. destruct (normal_of _ _ _) as [[nx ny] nz]. unfold gfa2fp, fp2gfa. rewrite (corners_petal argsort M p r0 r1 r2 r3 A C Hp H).
  destruct (fit_corners r0 r1 r2 r3) as [F0 F1]. fold (slopes r0 r1 r2 r3) in F0, F1. unfold fit_petal. split.
  - intros S N. destruct (F1 S) as (c & -> & Ac). cbn [rbind]. rewrite SH. assert (Reqb nz 0 = false) as -> by now apply Reqb_false. cbn [rbind]. f_equal. specialize (Ac q). unfold corr_apply in *. cbn [shift_corr c_dx c_dy c_sxx c_syy c_sxy c_rot_deg]. injection Ac as Ax Ay. rewrite <- Ax, <- Ay. unfold mat2, rot2deg. cbn [fst snd]. f_equal; ring.
  - intros S. destruct (Req_dec (slopes r0 r1 r2 r3) 0) as [E|E]; [rewrite (F0 E); split; reflexivity|]. destruct S as [S|S]; [congruence|]. destruct (F1 E) as (c & -> & _). cbn [rbind]. rewrite SH. assert (Reqb nz 0 = true) as -> by now apply Reqb_true. split; reflexivity.
Qed.
Print Assumptions C74_pixels_to_focal_plane.
(** When the map of the pixels is not flat, [fp2gfa] inverts it; when it is flat every call gives no number. *)
Theorem C74_inverse : forall argsort M p, is_argsort argsort -> 
  forall f, (forall q, gfa2fp argsort M p q = Ok (f q)) ->
  let o := f (0, 0) in let u := f (1, 0) in let v := f (0, 1) in
  let det := (fst u - fst o) * (snd v - snd o) - (fst v - fst o) * (snd u - snd o) in
  (det <> 0 -> (forall q, fp2gfa argsort M p (f q) = Ok q) /\ forall s, exists q, fp2gfa argsort M p s = Ok q /\ f q = s) /\
  (det = 0 -> forall s, fp2gfa argsort M p s = Err NonFinite).
Proof.
  intros argsort M p A f Hf o u v det. unfold gfa2fp, fp2gfa in *. destruct (gfa_transform argsort M p) as [c|e]; [|specialize (Hf (0, 0)); discriminate]. cbn [rbind] in *.
  assert (F : forall q, f q = corr_apply c q) by (intros q; specialize (Hf q); congruence).
  assert (D : det = c_sxx c * c_syy c - c_sxy c ^ 2).
  { unfold det, o, u, v. rewrite !F. unfold corr_apply, mat2, rot2deg. cbn [fst snd]. set (C := cosdeg _). set (S := sindeg _). assert (T : C * C + S * S = 1).
    { unfold C, S, cosdeg, sindeg. pose proof (sin2_cos2 (D2R * c_rot_deg c)) as T. unfold Rsqr in T. lra. }
    transitivity ((c_sxx c * c_syy c - c_sxy c ^ 2) * (C * C + S * S)); [ring|rewrite T; ring]. }
  split; intros N.
  - assert (N' : c_sxx c * c_syy c <> c_sxy c ^ 2) by lra. split.
    + intros q. rewrite F. now apply apply_inverse_apply.
    + intros s. destruct (apply_inverse_Ok c s N') as [q E]. exists q. split; [exact E|]. rewrite F. now apply apply_apply_inverse.
  - intros s. unfold corr_apply_inverse. assert (Reqb (c_sxx c * c_syy c - c_sxy c ^ 2) 0 = true) as -> by (apply Reqb_true; lra). reflexivity.
Qed.
Print Assumptions C74_inverse.
(** A petal without corners in the table, or no petal at all, is refused, as is every call when some petal of the
    table is incomplete. *)
Theorem C74_refused : forall argsort M p q, is_argsort argsort ->
  (complete M -> gfa_rows M p = [] \/ ~ (0 <= p <= 9)%Z -> gfa2fp argsort M p q = Err KeyError /\ fp2gfa argsort M p q = Err KeyError) /\
  (~ complete M -> gfa2fp argsort M p q = Err AssertionError /\ fp2gfa argsort M p q = Err AssertionError).
Proof.
  intros argsort M p q A. unfold gfa2fp, fp2gfa. split.
  - intros C H. destruct (gfa_transform_spec argsort A M) as (S & E & T); [intros r Hr; apply petals_in in Hr; exact (C r Hr)|].
    assert (G : gfa_transform argsort M p = Err KeyError); [|rewrite G; split; reflexivity]. rewrite T. destruct (existsb (Z.eqb p) petals) eqn:X; [|reflexivity]. apply petals_exists in X. destruct H as [H|H]; [|contradiction].
    destruct (sorted_petal argsort A M p S E) as [Pp _]. unfold gfa_rows in H. unfold of_petal in Pp. rewrite H in Pp. apply Permutation_sym, Permutation_nil in Pp. now rewrite Pp.
  - intros C. assert (X : exists r, In r petals /\ length (filter (of_petal r) M) <> 0%nat /\ length (filter (of_petal r) M) <> 4%nat).
    { assert (D : forall ps, (forall r, In r ps -> length (filter (of_petal r) M) = 0%nat \/ length (filter (of_petal r) M) = 4%nat) \/ exists r, In r ps /\ length (filter (of_petal r) M) <> 0%nat /\ length (filter (of_petal r) M) <> 4%nat).
      { induction ps as [|r ps IH]; [left; intros r []|]. destruct IH as [IH|(s & Hs & Ns)]; [|right; exists s; split; [now right|exact Ns]].
        destruct (Nat.eq_dec (length (filter (of_petal r) M)) 0) as [|N0]; [|destruct (Nat.eq_dec (length (filter (of_petal r) M)) 4) as [|N4]; [|right; exists r; split; [now left|auto]]]; left; intros s [<-|Hs]; auto. }
      destruct (D petals) as [D1|D1]; [|exact D1]. exfalso. apply C. intros r Hr. apply D1. now apply petals_in. }
    destruct X as (r & Hr & N0 & N4). unfold gfa_transform. rewrite (gfa_fit_refused argsort A M r Hr N0 N4). split; reflexivity.
Qed.
Print Assumptions C74_refused.
(** A camera of petal 3 with 0.015 mm pixels tilted along y, its rows out of order. *)
Definition gfa_table : list gfa_row :=
  [ {| g_is_gfa := true; g_petal := 3; g_pinhole := 4; g_x := 400; g_y := 15.465; g_z := -1 |};
    {| g_is_gfa := true; g_petal := 3; g_pinhole := 1; g_x := 400; g_y := 0; g_z := 0 |};
    {| g_is_gfa := false; g_petal := 3; g_pinhole := 1; g_x := 5; g_y := 5; g_z := 0 |};
    {| g_is_gfa := true; g_petal := 3; g_pinhole := 3; g_x := 430.705; g_y := 15.465; g_z := -1 |};
    {| g_is_gfa := true; g_petal := 3; g_pinhole := 2; g_x := 430.705; g_y := 0; g_z := 0 |} ].
Example C74_example : let r i := nth i gfa_table (nth 0 gfa_table (nth 0 gfa_table {| g_is_gfa := true; g_petal := 0; g_pinhole := 0; g_x := 0; g_y := 0; g_z := 0 |})) in
  complete gfa_table /\ corners gfa_table 3 (r 1%nat) (r 4%nat) (r 3%nat) (r 0%nat) /\ gfa_rows gfa_table 2 = [] /\ ~ complete (tl gfa_table) /\
  gfa2fp isort_argsort gfa_table 3 (1000, 500) = Ok (415, 7.5 + 2.23 * (1 / 15.465)).
Proof.
  intros r. assert (C : complete gfa_table).
  { intros p Hp. assert (p = 0 \/ p = 1 \/ p = 2 \/ p = 3 \/ p = 4 \/ p = 5 \/ p = 6 \/ p = 7 \/ p = 8 \/ p = 9)%Z as H by lia. repeat (destruct H as [->|H]; [cbn; auto|]). subst. cbn. auto. }
  assert (K : corners gfa_table 3 (r 1%nat) (r 4%nat) (r 3%nat) (r 0%nat)).
  { split; [|cbn; lia]. cbn. eapply perm_trans; [apply perm_swap|]. constructor. eapply perm_trans; [apply Permutation_app_comm with (l := [_]) (l' := [_; _])|]. cbn. apply perm_swap. }
  split; [exact C|]. split; [exact K|]. split; [reflexivity|]. split; [intros H; destruct (H 3%Z) as [L|L]; [lia| |]; discriminate L|].
  pose proof (C74_pixels_to_focal_plane isort_argsort gfa_table 3 _ _ _ _ (1000, 500) isort_is_argsort C ltac:(lia) K) as T. cbn [r nth gfa_table g_x g_y g_z normal_of] in T. destruct T as [T _]. rewrite T; [|unfold slopes; cbn [g_x g_y]; lra|lra].
  unfold corner_fit. cbn [fst snd]. f_equal. f_equal; lra.
Qed.
