From Verif.Model Require Import DetectSpots.
From Verif.Spec Require Import LinAlg DetectSpots.
From Verif.Proofs Require Import Prelude RealNum LinAlg Stats DetectSpots.
From Coquelicot Require Import Coquelicot.
From Coq Require Import Lra Lia List.
Import ListNotations.
Local Open Scope R_scope.

(** C46. A peak is a pixel off the border, above the threshold and above its four neighbours. *)
Theorem C46_peaks : forall n0 n1 conv threshold i0 i1, In (i0, i1) (peaks n0 n1 conv threshold) <->
  (1 <= i0 <= n0 - 2)%nat /\ (1 <= i1 <= n1 - 2)%nat /\ threshold < pix conv i0 i1 /\
  pix conv (i0 - 1) i1 < pix conv i0 i1 /\ pix conv (i0 + 1) i1 < pix conv i0 i1 /\ pix conv i0 (i1 - 1) < pix conv i0 i1 /\ pix conv i0 (i1 + 1) < pix conv i0 i1.
Proof.
  intros n0 n1 conv th i0 i1. rewrite peaks_in. unfold is_peak. rewrite !andb_true_iff, !Nat.leb_le, !Rltb_true. split; intros H; repeat split; try tauto; try lia.
Qed.
Print Assumptions C46_peaks.
(** The window of a peak at least three pixels from the first row and column and four from the last ones has seven rows
    and columns, and its middle is the peak. *)
Theorem C46_window : forall n0 n1 img i0 i1, rectangle n0 n1 img -> (3 <= i0 /\ i0 + 4 <= n0)%nat -> (3 <= i1 /\ i1 + 4 <= n1)%nat ->
  rectangle 7 7 (stamp_at img i0 i1) /\ forall a b, (a < 7)%nat -> (b < 7)%nat -> pix (stamp_at img i0 i1) a b = pix img (i0 - 3 + a) (i1 - 3 + b).
Proof.
  intros n0 n1 img i0 i1 Hr H0 H1. split; [|intros a b Ha Hb; apply (window_pix n0 n1); auto; lia]. split.
  - rewrite (proj1 (window_shape n0 n1 img i0 i1 Hr ltac:(lia) ltac:(lia))). lia.
  - rewrite (stamp_far n0 n1 img Hr) by lia. apply Forall_forall. intros x Hx. apply in_map_iff in Hx. destruct Hx as (row & <- & Hrow).
    assert (In row img). { rewrite <- (firstn_skipn (i0 - 3) img). apply in_or_app. right. rewrite <- (firstn_skipn 7 (skipn (i0 - 3) img)). apply in_or_app. now left. }
    destruct Hr as [_ F]. rewrite Forall_forall in F. rewrite firstn_length, skipn_length, F by assumption. lia.
Qed.
Print Assumptions C46_window.
(** A measured spot is within one pixel of its peak in each direction. *)
Theorem C46_near : forall img noise i0 i1 s, measure img noise (i0, i1) = Ok s -> Rabs (f_x s - INR i1) <= 1 /\ Rabs (f_y s - INR i0) <= 1.
Proof.
  intros img noise i0 i1 s H. unfold measure in H. destruct (fitcentroid _ _) as [[[[[x y] ex] ey] c]|] eqn:E; [|discriminate]. cbn [rbind] in H. injection H as <-. cbn [f_x f_y]. apply fitcentroid_bound in E.
  replace (x + INR i1 + 0 - INR i1) with x by ring. replace (y + INR i0 + 0 - INR i0) with y by ring. exact E.
Qed.
Print Assumptions C46_near.
(** A spot that is the same seen in both mirrors through its peak is put on the centre of the peak pixel, with the counts
    of the best fitting gaussian of width one. The errors are those of a fit with this noise in each pixel, for a gaussian
    with all counts of the window. *)
Theorem C46_symmetric : forall n0 n1 img noise i0 i1, rectangle n0 n1 img -> (3 <= i0 /\ i0 + 4 <= n0)%nat -> (3 <= i1 /\ i1 + 4 <= n1)%nat ->
  (forall a b, (a <= 6)%nat -> (b <= 6)%nat -> pix img (i0 - 3 + (6 - a)) (i1 - 3 + b) = pix img (i0 - 3 + a) (i1 - 3 + b) /\ pix img (i0 - 3 + a) (i1 - 3 + (6 - b)) = pix img (i0 - 3 + a) (i1 - 3 + b)) ->
  Rsum (map (fun '(a, b) => pix img (i0 - 3 + a) (i1 - 3 + b)) (idx 7 7)) <> 0 ->
  exists s, measure img noise (i0, i1) = Ok s /\ f_x s = INR i1 /\ f_y s = INR i0 /\
    f_counts s = Rsum (map (fun '(a, b) => pix img (i0 - 3 + a) (i1 - 3 + b) * psf (INR a) (INR b) 3 3 1) (idx 7 7)) / Rsum (map (fun '(a, b) => psf (INR a) (INR b) 3 3 1 * psf (INR a) (INR b) 3 3 1) (idx 7 7)) /\
    let error d := noise / (Rabs (Rsum (map (fun '(a, b) => pix img (i0 - 3 + a) (i1 - 3 + b)) (idx 7 7))) * sqrt (Rsum (map (fun '(a, b) => d (INR a) (INR b) 3 3 1 ^ 2) (idx 7 7)))) in
    f_xerr s = error dpsfdxc /\ f_yerr s = error dpsfdyc.
Proof.
  intros n0 n1 img noise i0 i1 Hr H0 H1 Sy F. destruct (C46_window n0 n1 img i0 i1 Hr H0 H1) as [W P].
  assert (Es : Rsum (List.concat (stamp_at img i0 i1)) = Rsum (map (fun '(a, b) => pix img (i0 - 3 + a) (i1 - 3 + b)) (idx 7 7))).
  { rewrite (data_idx 7 7 _ W). f_equal. apply map_ext_in. intros [a b] Hp. apply idx_bound in Hp. cbn in Hp. rewrite P by lia. reflexivity. }
  pose proof (symmetric_fit (stamp_at img i0 i1) noise W) as E. cbv zeta in E. rewrite Es in E. assert (Sy' : forall a b, (a <= 6)%nat -> (b <= 6)%nat -> pix (stamp_at img i0 i1) (6 - a) b = pix (stamp_at img i0 i1) a b /\ pix (stamp_at img i0 i1) a (6 - b) = pix (stamp_at img i0 i1) a b).
  { intros a b Ha Hb. rewrite !P by lia. now apply Sy. }
  specialize (E Sy' F). unfold measure. rewrite E. cbn [rbind]. eexists. split; [reflexivity|]. cbn [f_x f_y f_counts f_xerr f_yerr]. split; [ring|]. split; [ring|]. split; [|split; reflexivity].
  f_equal. f_equal. apply map_ext_in. intros [a b] Hp. apply idx_bound in Hp. cbn in Hp. rewrite P by lia. reflexivity.
Qed.
Print Assumptions C46_symmetric.
(** One peak one or two pixels from the first row or column, and no spot of the image is measured. *)
Theorem C46_edge_refuted : forall query n0 n1 img conv threshold noise min_counts sigma i0 i1, rectangle n0 n1 img -> (7 <= n0)%nat -> (7 <= n1)%nat ->
  In (i0, i1) (peaks n0 n1 conv threshold) -> (i0 < 3)%nat \/ (i1 < 3)%nat -> (Z.of_nat (length (peaks n0 n1 conv threshold)) <= 10000)%Z ->
  detectspots query n0 n1 img conv threshold noise min_counts sigma = Err LinAlgError.
Proof.
  intros query n0 n1 img conv th noise mc sg i0 i1 Hr L0 L1 Hp E Np. unfold detectspots. cbv zeta.
  destruct (Nat.eqb_spec (length (peaks n0 n1 conv th)) 0) as [Z|_]; [destruct (peaks n0 n1 conv th); [destruct Hp|discriminate Z]|].
  destruct (Z.ltb_spec 10000 (Z.of_nat (length (peaks n0 n1 conv th)))) as [Z|_]; [lia|].
  rewrite (rmapM_fails (measure img noise) LinAlgError); [reflexivity|intros; now apply measure_err in H0|]. exists (i0, i1). split; [exact Hp|].
  unfold measure. rewrite empty_stamp; [reflexivity|]. unfold stamp_at. destruct Hr as [R0 R1]. destruct (lt_dec i0 3) as [A|A].
  - left. rewrite slice_near; [reflexivity|exact A|lia].
  - right. destruct E as [|E]; [lia|]. destruct (slice img _ _) as [|row rest] eqn:Es; [reflexivity|]. cbn [map shape1]. rewrite slice_near; [reflexivity|exact E|].
    rewrite Forall_forall in R1. rewrite R1; [lia|]. assert (I : In row (slice img (Z.of_nat i0 - 3) (Z.of_nat i0 + 3 + 1))) by (rewrite Es; now left). revert I. unfold slice. cbv zeta. generalize (Z.to_nat (let norm := fun i => (if i <? 0 then Z.max 0 (i + Z.of_nat (length img)) else Z.min i (Z.of_nat (length img)))%Z in norm (Z.of_nat i0 + 3 + 1)%Z - norm (Z.of_nat i0 - 3)%Z)). cbv zeta. intros n. match goal with |- In row (firstn ?a (skipn ?b img)) -> _ => generalize a, b end. intros a b I.
    rewrite <- (firstn_skipn b img). apply in_or_app. right. rewrite <- (firstn_skipn a (skipn b img)). apply in_or_app. now left.
Qed.
Print Assumptions C46_edge_refuted.
(** Where a measured spot is reported: the fit works in the window, whose row 0 is row i0-3 of the image. In the last row
    but one the reported position is one pixel more than the fitted one, and likewise for columns. *)
Theorem C46_last_refuted : forall n0 n1 img noise i0 i1 s, rectangle n0 n1 img -> (3 <= i0 /\ i0 + 2 <= n0)%nat -> (3 <= i1 /\ i1 + 2 <= n1)%nat -> measure img noise (i0, i1) = Ok s ->
  let stamp := stamp_at img i0 i1 in
  exists flux x y A, gauss_newton 5 1 (length stamp) (shape1 stamp) (List.concat stamp) (Rsum (List.concat stamp)) (INR (shape1 stamp / 2)) (INR (length stamp / 2)) [] = Ok (flux, x, y, A) /\
    f_y s = INR i0 - 3 + y + (if (i0 + 2 =? n0)%nat then 1 else 0) /\ f_x s = INR i1 - 3 + x + (if (i1 + 2 =? n1)%nat then 1 else 0).
Proof.
  intros n0 n1 img noise i0 i1 s Hr H0 H1 H stamp. destruct (window_shape n0 n1 img i0 i1 Hr ltac:(lia) ltac:(lia)) as [S0 S1]. fold stamp in S0, S1. unfold measure in H. fold stamp in H. unfold fitcentroid in H. cbv zeta in H.
  destruct (gauss_newton _ _ _ _ _ _ _ _ _) as [[[[flux x] y] A]|]; [|discriminate]. exists flux, x, y, A. split; [reflexivity|]. cbn [rbind] in H. destruct (linalg_solve A [0; 1; 0]); [|discriminate]. cbn [rbind] in H. destruct (linalg_solve A [0; 0; 1]); [|discriminate]. cbn [rbind] in H. apply Ok_inj in H. subst s. cbn [f_x f_y].
  assert (M : forall n i m, (3 <= i /\ i + 2 <= n)%nat -> m = Nat.min 7 (n - (i - 3)) -> - INR (m / 2) = - 3 + (if (i + 2 =? n)%nat then 1 else 0)).
  { intros n i m Hi ->. destruct (Nat.eqb_spec (i + 2) n) as [E|E].
    - replace (Nat.min 7 (n - (i - 3))) with 5%nat by lia. cbn. ring.
    - destruct (Nat.eq_dec (i + 3) n) as [E'|E']; [replace (Nat.min 7 (n - (i - 3))) with 6%nat by lia|replace (Nat.min 7 (n - (i - 3))) with 7%nat by lia]; cbn; ring. }
  pose proof (M n0 i0 _ H0 S0) as M0. pose proof (M n1 i1 _ H1 S1) as M1. split; lra.
Qed.
Print Assumptions C46_last_refuted.
(** A bright pixel at row 4 of nine rows and columns is measured exactly; at row 1 it stops the measurement. *)
Definition one_pixel (n i0 i1 : nat) : list (list R) := map (fun i => map (fun j => if ((i =? i0) && (j =? i1))%nat then 1 else 0) (seq 0 n)) (seq 0 n).
Example C46_example : In (4, 4)%nat (peaks 9 9 (one_pixel 9 4 4) 0.5) /\ (exists s, measure (one_pixel 9 4 4) 1 (4, 4)%nat = Ok s /\ f_x s = 4 /\ f_y s = 4) /\
  In (1, 4)%nat (peaks 9 9 (one_pixel 9 1 4) 0.5) /\ (Z.of_nat (length (peaks 9 9 (one_pixel 9 1 4) 0.5)) <= 10000)%Z.
Proof.
  split; [apply C46_peaks; cbn; repeat split; try lia; lra|]. split.
  - destruct (C46_symmetric 9 9 (one_pixel 9 4 4) 1 4 4) as (s & E & X & Y & _ & _); try lia.
    + split; [reflexivity|]. repeat constructor.
    + intros a b Ha Hb. do 7 (destruct a as [|a]; [do 7 (destruct b as [|b]; [split; reflexivity|]); lia|]). lia.
    + cbn. lra.
    + exists s. split; [exact E|]. rewrite X, Y. cbn. lra.
  - split; [apply C46_peaks; cbn; repeat split; try lia; lra|]. unfold peaks. rewrite map_length. enough (length (filter (fun index => is_peak 9 9 (one_pixel 9 1 4) 0.5 (index / 9) (index mod 9)) (seq 0 (9 * 9))) <= length (seq 0 (9 * 9)))%nat by (rewrite seq_length in *; lia).
    generalize (seq 0 (9 * 9)). induction l as [|a l IH]; cbn [filter length]; [lia|]. destruct (is_peak _ _ _ _ _ _); cbn [length]; lia.
Qed.

(** C47. The removal of duplicates ends, invents nothing, and leaves spots at least sigma apart unless it used up its
    hundred removals; spots with nothing close stay, and so does the brightest of its surroundings. *)
Theorem C47_separated : forall query sigma l, second_query query -> exists out, dedupe query 100 sigma l = Ok out /\ incl out l /\
  (length l = (length out + 100)%nat \/ ((length out <= length l)%nat /\ forall i j s t, i <> j -> nth_error out i = Some s -> nth_error out j = Some t -> sigma <= apart (f_x s, f_y s) (f_x t, f_y t))).
Proof.
  intros query sigma l Q. destruct (dedupe_spec query Q 100 sigma l) as (out & E & I & L & S). exists out. split; [exact E|]. split; [exact I|]. destruct S as [S|S]; [|now left]. right. split; [|exact S].
  clear L S I. revert l out E. generalize 100%nat. induction n as [|n IH]; intros l out E; [cbn in E; injection E as <-; lia|]. destruct (dedupe_turn query Q n sigma l) as [[E' _]|(i & j & s & t & N & Ei & _ & _ & E' & _)]; rewrite E' in E; [injection E as <-; lia|]. apply IH in E. pose proof (delete_length l i ltac:(apply nth_error_Some; congruence)). lia.
Qed.
Print Assumptions C47_separated.
Theorem C47_isolated : forall query sigma l1 s l2 out, second_query query -> (forall t, In t (l1 ++ l2) -> sigma <= apart (f_x s, f_y s) (f_x t, f_y t)) ->
  dedupe query 100 sigma (l1 ++ s :: l2) = Ok out -> In s out.
Proof. intros query sigma l1 s l2 out Q F E. exact (dedupe_isolated query Q 100 sigma s l1 l2 out E F). Qed.
Print Assumptions C47_isolated.
Theorem C47_brightest : forall query sigma l s out, second_query query -> NoDup (map f_xy l) -> In s l ->
  (forall t, In t l -> t <> s -> apart (f_x s, f_y s) (f_x t, f_y t) < sigma -> f_counts t < f_counts s) -> dedupe query 100 sigma l = Ok out -> In s out.
Proof. intros query sigma l s out Q N I B E. exact (dedupe_keeps query Q 100 sigma s l out E N I B). Qed.
Print Assumptions C47_brightest.
(** detectspots returns the measured peaks with enough counts, without duplicates. *)
Theorem C47_detect : forall query n0 n1 img conv threshold noise min_counts sigma out, second_query query ->
  detectspots query n0 n1 img conv threshold noise min_counts sigma = Ok out ->
  forall s, In s out -> (exists i, In i (peaks n0 n1 conv threshold) /\ measure img noise i = Ok s) /\ (0 < min_counts -> min_counts <= f_counts s).
Proof.
  intros query n0 n1 img conv th noise mc sigma out Q H s Hs. unfold detectspots in H. cbv zeta in H. revert H. generalize 100%nat. intros k H. destruct (_ =? 0)%nat; [discriminate|]. destruct (_ <? _)%Z; [discriminate|].
  destruct (rmapM (measure img noise) (peaks n0 n1 conv th)) as [spots|] eqn:M; [|discriminate]. cbn [rbind] in H. set (good := if Rltb 0 mc then _ else spots) in H.
  destruct (dedupe_spec query Q k sigma good) as (o & E & I & _). assert (o = out) by congruence. subst o. apply I in Hs.
  assert (S : In s spots /\ (0 < mc -> mc <= f_counts s)). { unfold good in Hs. destruct (Rltb 0 mc) eqn:C; [|apply Rltb_false in C; split; [exact Hs|lra]]. apply filter_In in Hs. destruct Hs as [Hs C']. apply Rleb_true in C'. now split. }
  split; [|apply S]. destruct S as [S _]. clear - M S. revert spots M S. induction (peaks n0 n1 conv th) as [|i l IH]; intros spots M S; cbn in M; [injection M as <-; destruct S|].
  destruct (measure img noise i) as [m|] eqn:E; [|discriminate]. cbn in M. destruct (rmapM (measure img noise) l) as [r|]; [|discriminate]. cbn in M. injection M as <-. destruct S as [<-|S]; [exists i; split; [now left|exact E]|]. destruct (IH r eq_refl S) as (i' & Hi & Ei). exists i'. split; [now right|exact Ei].
Qed.
Print Assumptions C47_detect.
Lemma map_NoDup_in {A B} (f : A -> B) l : (forall x y, In x l -> In y l -> f x = f y -> x = y) -> NoDup l -> NoDup (map f l).
Proof. intros I N. induction N as [|a l Ha N IH]; cbn; constructor; [|apply IH; intros; apply I; cbn; auto]. intros H. apply in_map_iff in H. destruct H as (y & E & Hy). apply I in E; cbn; auto. now subst. Qed.
Lemma peaks_NoDup n0 n1 conv th : NoDup (peaks n0 n1 conv th).
Proof.
  unfold peaks. apply map_NoDup_in; [|apply NoDup_filter, seq_NoDup]. intros a b Ha Hb E. apply filter_In in Ha as [Ha _]. apply in_seq in Ha. apply pair_equal_spec in E as [E1 E2]. destruct (Nat.eq_dec n1 0) as [->|N1]; [rewrite Nat.mul_0_r in Ha; lia|].
    rewrite (Nat.div_mod a n1 N1), (Nat.div_mod b n1 N1), E1, E2. reflexivity.
Qed.
(** Every peak is measured, and one with enough counts and nothing closer than sigma among the others is returned. *)
Theorem C47_complete : forall query n0 n1 img conv threshold noise min_counts sigma out, second_query query ->
  detectspots query n0 n1 img conv threshold noise min_counts sigma = Ok out ->
  forall i, In i (peaks n0 n1 conv threshold) -> exists s, measure img noise i = Ok s /\
    (min_counts <= 0 \/ min_counts <= f_counts s ->
     (forall i' t, In i' (peaks n0 n1 conv threshold) -> i' <> i -> measure img noise i' = Ok t -> sigma <= apart (f_x s, f_y s) (f_x t, f_y t)) -> In s out).
Proof.
  intros query n0 n1 img conv th noise mc sigma out Q H i Hi. unfold detectspots in H. cbv zeta in H. revert H. generalize 100%nat. intros k H. destruct (_ =? 0)%nat; [discriminate|]. destruct (_ <? _)%Z; [discriminate|].
  destruct (rmapM (measure img noise) (peaks n0 n1 conv th)) as [spots|] eqn:M; [|discriminate]. cbn [rbind] in H.
  assert (ND := peaks_NoDup n0 n1 conv th).
  apply in_split in Hi as (p1 & p2 & Ep). rewrite Ep in M, ND. 
  assert (SP : forall l1 l2 (o : list fvc_spot), rmapM (measure img noise) (l1 ++ i :: l2) = Ok o -> exists o1 s o2, o = o1 ++ s :: o2 /\ measure img noise i = Ok s /\ rmapM (measure img noise) l1 = Ok o1 /\ rmapM (measure img noise) l2 = Ok o2).
  { clear. induction l1 as [|a l1 IH]; intros l2 o E.
    - cbn [app rmapM] in E. destruct (measure img noise i) as [s|]; [|discriminate]. cbn [rbind] in E. destruct (rmapM _ l2) as [o2|] eqn:E2; [|discriminate]. injection E as <-. exists [], s, o2. auto.
    - cbn [app rmapM] in E. destruct (measure img noise a) as [s|] eqn:Ea; [|discriminate]. cbn [rbind] in E. destruct (rmapM _ (l1 ++ i :: l2)) as [o'|] eqn:E2; [|discriminate]. injection E as <-. destruct (IH _ _ E2) as (o1 & s' & o2 & -> & E3 & E4 & E5). exists (s :: o1), s', o2. cbn [rmapM]. rewrite Ea. cbn [rbind]. rewrite E4. auto. }
  destruct (SP _ _ _ M) as (o1 & s & o2 & -> & Es & E1 & E2). exists s. split; [exact Es|]. intros C Far.
  assert (RI : forall l o, rmapM (measure img noise) l = Ok o -> forall t, In t o -> exists i', In i' l /\ measure img noise i' = Ok t).
  { clear. induction l as [|a l IH]; intros o E t Ht; cbn [rmapM] in E; [injection E as <-; destruct Ht|]. destruct (measure img noise a) as [u|] eqn:Ea; [|discriminate]. cbn [rbind] in E. destruct (rmapM _ l) as [o'|]; [|discriminate]. injection E as <-. destruct Ht as [<-|Ht]; [exists a; split; [now left|exact Ea]|]. destruct (IH _ eq_refl t Ht) as (i' & Hi' & Et). exists i'. split; [now right|exact Et]. }
  assert (FarO : forall t, In t (o1 ++ o2) -> sigma <= apart (f_xy s) (f_xy t)).
  { intros t Ht. assert (Hn : ~ In i (p1 ++ p2)) by (apply NoDup_remove_2; exact ND). apply in_app_or in Ht. destruct Ht as [Ht|Ht]; [destruct (RI _ _ E1 t Ht) as (i' & Hi' & Et)|destruct (RI _ _ E2 t Ht) as (i' & Hi' & Et)]; apply (Far i'); try exact Et; try (rewrite Ep; apply in_or_app; cbn; tauto); intros ->; apply Hn, in_or_app; tauto. }
  destruct (Rltb 0 mc) eqn:B.
  - apply Rltb_true in B. rewrite filter_app in H. cbn [filter] in H. assert (Rleb mc (f_counts s) = true) as X by (apply Rleb_true; destruct C; lra). rewrite X in H. apply (dedupe_isolated query Q _ _ _ _ _ _ H).
    intros t Ht. apply FarO. apply in_app_or in Ht. apply in_or_app. destruct Ht as [Ht|Ht]; apply filter_In in Ht; tauto.
  - exact (dedupe_isolated query Q _ _ _ _ _ _ H FarO).
Qed.
Print Assumptions C47_complete.
Example C47_complete_example : exists s, detectspots twin_query 9 9 (one_pixel 9 4 4) (one_pixel 9 4 4) 0.5 1 0 3 = Ok (s :: nil) /\ f_x s = 4 /\ f_y s = 4.
Proof.
  destruct C46_example as (P & (s & M & X & Y) & _). exists s. split; [|now split].
  assert (E : peaks 9 9 (one_pixel 9 4 4) 0.5 = (4, 4)%nat :: nil).
  { pose proof (peaks_NoDup 9 9 (one_pixel 9 4 4) 0.5) as ND. assert (U : forall i, In i (peaks 9 9 (one_pixel 9 4 4) 0.5) -> i = (4, 4)%nat).
    { intros [i0 i1] H. apply C46_peaks in H as (B0 & B1 & T & _). destruct (Nat.eq_dec i0 4) as [->|N0].
      - destruct (Nat.eq_dec i1 4) as [->|N1]; [reflexivity|]. exfalso. do 9 (destruct i1 as [|i1]; [cbn in T; first [lra|congruence]|]). lia.
      - exfalso. do 9 (destruct i0 as [|i0]; [do 9 (destruct i1 as [|i1]; [cbn in T; first [lra|congruence]|]); lia|]). lia. }
    destruct (peaks 9 9 (one_pixel 9 4 4) 0.5) as [|a [|b l]]; [destruct P| |].
    - now rewrite (U a (or_introl eq_refl)).
    - exfalso. inversion ND as [|? ? N _]. apply N. rewrite (U a (or_introl eq_refl)), (U b (or_intror (or_introl eq_refl))). now left. }
  destruct (detectspots twin_query 9 9 (one_pixel 9 4 4) (one_pixel 9 4 4) 0.5 1 0 3) as [out|] eqn:D.
  - unfold detectspots in D. rewrite E in D. cbv zeta in D. revert D. generalize 100%nat. intros k D. cbn [length Nat.eqb rmapM] in D. change (10000 <? Z.of_nat 1)%Z with false in D. rewrite M in D. cbn [rbind] in D. assert (Rltb 0 0 = false) as B by (apply Rltb_false; lra). rewrite B in D.
    destruct (dedupe_spec twin_query twin_promise k 3 (s :: nil)) as (o & Eo & I & _). assert (o = out) by congruence. subst o. pose proof (dedupe_isolated twin_query twin_promise k 3 s nil nil out Eo ltac:(intros t [])) as Hs.
    destruct k as [|k]; [cbn in Eo; congruence|]. destruct (dedupe_turn twin_query twin_promise k 3 (s :: nil)) as [[Et _]|(i & j & a & b & N & Ei & Ej & _)]; [congruence|]. destruct i as [|i]; [|destruct i; discriminate]. destruct j as [|j]; [congruence|destruct j; discriminate].
  - exfalso. unfold detectspots in D. rewrite E in D. cbv zeta in D. revert D. generalize 100%nat. intros k D. cbn [length Nat.eqb rmapM] in D. change (10000 <? Z.of_nat 1)%Z with false in D. rewrite M in D. cbn [rbind] in D. assert (Rltb 0 0 = false) as B by (apply Rltb_false; lra). rewrite B in D.
    destruct (dedupe_spec twin_query twin_promise k 3 (s :: nil)) as (o & Eo & _). congruence.
Qed.
(** With no peak, or more than 10000, RuntimeError. *)
Theorem C47_refused : forall query n0 n1 img conv threshold noise min_counts sigma,
  peaks n0 n1 conv threshold = [] \/ (10000 < Z.of_nat (length (peaks n0 n1 conv threshold)))%Z ->
  detectspots query n0 n1 img conv threshold noise min_counts sigma = Err RuntimeError.
Proof.
  intros query n0 n1 img conv th noise mc sigma H. unfold detectspots. cbv zeta. destruct (Nat.eqb_spec (length (peaks n0 n1 conv th)) 0) as [E|N]; [reflexivity|].
  destruct H as [H|H]; [rewrite H in N; cbn in N; congruence|]. apply Z.ltb_lt in H. rewrite H. reflexivity.
Qed.
Print Assumptions C47_refused.
(** With equal coordinates the brighter one may be the one removed. *)
Definition spot_at (x y c : R) : fvc_spot := {| f_x := x; f_y := y; f_xerr := 0; f_yerr := 0; f_counts := c |}.
Theorem C47_tie_refuted : exists query, second_query query /\ dedupe query 100 1 (spot_at 0 0 2 :: spot_at 0 0 1 :: nil) = Ok (spot_at 0 0 1 :: nil).
Proof.
  exists twin_query. split; [exact twin_promise|]. assert (Z : apart (0, 0) (0, 0) = 0) by apply apart_self. 
  assert (N : nearest_other ((0, 0) :: (0, 0) :: nil) 0 = Some 1%nat) by reflexivity.
  assert (T : twin_query ((0, 0) :: (0, 0) :: nil) 0 = (Some 0, 0%nat)). { unfold twin_query. rewrite N. cbv zeta. cbn [nth]. rewrite Z. assert (Rleb 0 0 = true) as -> by (apply Rleb_true; lra). reflexivity. }
  assert (U : twin_query ((0, 0) :: nil) 0 = (None, 1%nat)) by reflexivity.
  assert (D : forall k, dedupe twin_query (S (S k)) 1 (spot_at 0 0 2 :: spot_at 0 0 1 :: nil) = Ok (spot_at 0 0 1 :: nil)); [|exact (D 98%nat)]. intros k.
  assert (F1 : find (fun i => closer (fst (twin_query (map f_xy (spot_at 0 0 2 :: spot_at 0 0 1 :: nil)) i)) 1) (seq 0 2) = Some 0%nat).
  { cbn [seq find]. change (map f_xy _) with ((0, 0) :: (0, 0) :: nil). rewrite T. cbn [fst closer]. assert (Rltb 0 1 = true) as -> by (apply Rltb_true; lra). reflexivity. }
  assert (F2 : find (fun i => closer (fst (twin_query (map f_xy (spot_at 0 0 1 :: nil)) i)) 1) (seq 0 1) = None).
  { cbn [seq find]. change (map f_xy _) with ((0, 0) :: nil). rewrite U. reflexivity. }
  unfold dedupe at 1. fold (dedupe twin_query). change (length (spot_at 0 0 2 :: spot_at 0 0 1 :: nil)) with 2%nat. rewrite F1. change (map f_xy (spot_at 0 0 2 :: spot_at 0 0 1 :: nil)) with ((0, 0) :: (0, 0) :: nil). rewrite T. cbn [snd geti nth_error rbind f_counts spot_at].
  assert (Rltb 2 2 = false) as -> by (apply Rltb_false; lra). cbn [delete_at]. unfold dedupe. change (length (_ :: nil)) with 1%nat. rewrite F2. reflexivity.
Qed.
Print Assumptions C47_tie_refuted.
(** Of 102 or more spots all close to each other at least two remain. *)
Theorem C47_limit_refuted : forall query sigma l, second_query query -> (102 <= length l)%nat -> (forall s t, In s l -> In t l -> apart (f_x s, f_y s) (f_x t, f_y t) < sigma) ->
  exists s t out, dedupe query 100 sigma l = Ok (s :: t :: out) /\ apart (f_x s, f_y s) (f_x t, f_y t) < sigma.
Proof.
  intros query sigma l Q L C. destruct (dedupe_spec query Q 100 sigma l) as (out & E & I & M & _). destruct out as [|s [|t out]]; cbn [length] in M; [lia|lia|]. exists s, t, out. split; [exact E|]. apply C; apply I; [now left|right; now left].
Qed.
Print Assumptions C47_limit_refuted.
Example C47_example : (exists query, second_query query) /\ (102 <= length (repeat (spot_at 0 0 1) 102))%nat /\ (forall s t, In s (repeat (spot_at 0 0 1) 102) -> In t (repeat (spot_at 0 0 1) 102) -> apart (f_x s, f_y s) (f_x t, f_y t) < 1) /\
  NoDup (map f_xy (spot_at 0 0 1 :: spot_at 1 0 2 :: spot_at 9 9 1 :: nil)).
Proof.
  split; [exists twin_query; exact twin_promise|]. split; [rewrite repeat_length; lia|]. split.
  - intros s t Hs Ht. apply repeat_spec in Hs, Ht. subst. cbn [f_x f_y spot_at]. rewrite apart_self. lra.
  - unfold f_xy, spot_at. cbn. repeat constructor; cbn; intros H; repeat destruct H as [H|H]; try (injection H; intros; lra); auto.
Qed.

(** C75. The gaussian integrated over a pixel is positive, and the derivatives used by the fit are its derivatives. *)
Theorem C75_derivatives : forall sigma i0 i1 xc yc, 0 < sigma -> 0 < psf i0 i1 xc yc sigma /\
  is_derive (fun x => psf i0 i1 x yc sigma) xc (dpsfdxc i0 i1 xc yc sigma) /\ is_derive (fun y => psf i0 i1 xc y sigma) yc (dpsfdyc i0 i1 xc yc sigma).
Proof.
  intros sigma i0 i1 xc yc H. split; [now apply psf_pos|]. assert (S : 0 < sqrt PI) by (apply sqrt_lt_R0, PI_RGT_0). unfold psf, dpsfdxc, dpsfdyc. cbv zeta. set (a := 1 / (sqrt 2 * sigma)).
  split.
  - evar_last. { apply (is_derive_ext (fun x => (0.25 * (erf (a * (i0 + 0.5 - yc)) - erf (a * (i0 - 0.5 - yc)))) * (erf (a * (i1 + 0.5 - x)) - erf (a * (i1 - 0.5 - x))))); [intros t; match goal with |- ?u = ?v => change (@eq R u v) end; ring|]. apply is_derive_scal. apply (is_derive_minus (V := R_NormedModule)); apply erf_shift. }
    unfold minus, plus, opp. cbn. field. lra.
  - evar_last. { apply is_derive_scal. apply (is_derive_minus (V := R_NormedModule)); apply erf_shift. }
    unfold minus, plus, opp. cbn. field. lra.
Qed.
Print Assumptions C75_derivatives.
(** The pixels of any window together hold the gaussian integrated over the window: nothing is counted twice or lost
    between pixels. *)
Theorem C75_window : forall sigma xc yc n0 n1, sigma <> 0 ->
  Rsum (map (fun '(i, j) => psf (INR i) (INR j) xc yc sigma) (idx n0 n1)) =
  (let a := 1 / (sqrt 2 * sigma) in 0.25 * (erf (a * (INR n1 - 0.5 - xc)) - erf (a * (- 0.5 - xc))) * (erf (a * (INR n0 - 0.5 - yc)) - erf (a * (- 0.5 - yc)))).
Proof.
  intros sigma xc yc n0 n1 _. cbv zeta. set (a := 1 / (sqrt 2 * sigma)).
  assert (T : forall c n, Rsum (map (fun j => erf (a * (INR j + 0.5 - c)) - erf (a * (INR j - 0.5 - c))) (seq 0 n)) = erf (a * (INR n - 0.5 - c)) - erf (a * (- 0.5 - c))).
  { intros c. induction n as [|n IH]; [cbn [seq map INR]; replace (0 - 0.5 - c) with (- 0.5 - c) by lra; unfold Rsum; cbn; ring|]. rewrite seq_S, map_app, Rsum_app, IH. cbn [Nat.add map]. rewrite Rsum_cons. replace (Rsum []) with 0 by reflexivity. rewrite S_INR. replace (INR n + 1 - 0.5 - c) with (INR n + 0.5 - c) by lra. ring. }
  assert (SC : forall k (f : nat -> R) l, Rsum (map (fun j => k * f j) l) = k * Rsum (map f l)) by (intros k f; induction l as [|x l IH]; cbn [map]; rewrite ?Rsum_cons; [unfold Rsum; cbn; ring|rewrite IH; ring]).
  unfold idx. rewrite concat_map_map. rewrite <- (T xc n1), <- (T yc n0). set (X := Rsum (map (fun j => erf (a * (INR j + 0.5 - xc)) - _) _)). rewrite <- SC. generalize (seq 0 n0) as l. induction l as [|i l IH]; [reflexivity|]. cbn [map List.concat]. rewrite Rsum_app, IH, Rsum_cons. f_equal. rewrite map_map.
  rewrite (map_ext _ (fun j => 0.25 * (erf (a * (INR i + 0.5 - yc)) - erf (a * (INR i - 0.5 - yc))) * (erf (a * (INR j + 0.5 - xc)) - erf (a * (INR j - 0.5 - xc))))) by (intros j; unfold psf; fold a; ring). rewrite SC. fold X. ring.
Qed.
Print Assumptions C75_window.
Example C75_example : dpsfdxc 3 4 3 3 1 <> 0 /\ dpsfdyc 4 3 3 3 1 <> 0.
Proof. split; [apply dx_nonzero|apply dy_nonzero]; lra. Qed.

(** Data of the linear fit of one pass: for every pixel the model and its derivatives in flux, x and y at the current values, and the
    residual. *)
Definition pass_samples (px : list (R * R)) (data : list R) (flux xc yc : R) : list (list R * R) :=
  map (fun '((i0, i1), d) => ([psf i0 i1 xc yc 1; flux * dpsfdxc i0 i1 xc yc 1; flux * dpsfdyc i0 i1 xc yc 1], d - flux * psf i0 i1 xc yc 1)) (combine px data).
(** [a] is column [j] of the inverse of the matrix of sums of products of these. *)
Definition inverse_column (hs : list (list R)) (j : nat) (a : list R) : Prop :=
  length a = 3%nat /\ forall i, (i < 3)%nat -> fold_right Rplus 0 (map (fun h => nth i h 0 * combination a h) hs) = if Nat.eqb i j then 1 else 0.
(** The result is one least squares step, shortened to 0.2 pixel, from the values of the pass before; the errors are the noise times the
    square roots of the diagonal of the inverse normal matrix of that pass, in x and in y. *)
Theorem C75_step : forall n0 n1 stamp noise x y xe ye flux, rectangle n0 n1 stamp -> (0 < n0)%nat -> fitcentroid stamp noise = Ok (x, y, xe, ye, flux) ->
  exists flux0 xc yc delta f ax ay, let samples := pass_samples (pixels n0 n1) (List.concat stamp) flux0 xc yc in
    least_squares 3 samples delta /\ (let m := Rmax (Rabs (nth 1 delta 0)) (Rabs (nth 2 delta 0)) in m <= 0.2 /\ f = 1 \/ 0.2 < m /\ f * m = 0.2) /\
    flux = flux0 + f * nth 0 delta 0 /\ x = xc + f * nth 1 delta 0 - INR (n1 / 2) /\ y = yc + f * nth 2 delta 0 - INR (n0 / 2) /\
    inverse_column (map fst samples) 1 ax /\ xe = noise * sqrt (nth 1 ax 0) /\ inverse_column (map fst samples) 2 ay /\ ye = noise * sqrt (nth 2 ay 0).
Proof.
  intros n0 n1 stamp noise x y xe ye flux [L0 L1] P0. unfold fitcentroid.
  assert (S1 : shape1 stamp = n1). { destruct stamp as [|row stamp]; [cbn in L0; lia|]. inversion L1. assumption. }
  rewrite S1, L0. set (data := List.concat stamp). set (h1 := (n1 / 2)%nat). set (h0 := (n0 / 2)%nat). clearbody h0 h1.
  assert (Ld : length (pixels n0 n1) = length data).
  { unfold pixels, data. clear -L0 L1. subst n0. assert (K : forall k, length (List.concat (map (fun i => map (fun j => (INR i, INR j)) (seq 0 n1)) (seq k (length stamp)))) = length (List.concat stamp)); [|apply K].
    induction stamp as [|row stamp IH]; intros k; cbn [length seq map List.concat]; [reflexivity|]. inversion L1 as [|? ? Hr Hs]; subst. rewrite !app_length, map_length, seq_length. f_equal. now apply IH. }
  destruct (gauss_newton 5 1 n0 n1 data (Rsum data) (INR h1) (INR h0) []) as [[[[F X] Y] A]|] eqn:E; cbn [rbind]; [|discriminate].
  destruct (linalg_solve A [0; 1; 0]) as [ax|] eqn:Ex; cbn [rbind]; [|discriminate]. destruct (linalg_solve A [0; 0; 1]) as [ay|] eqn:Ey; cbn [rbind]; [|discriminate]. intros H. injection H as <- <- <- <- <-.
  assert (G : forall k flux xc yc A0, gauss_newton (S k) 1 n0 n1 data flux xc yc A0 = Ok (F, X, Y, A) ->
    exists flux0 xc0 yc0 delta, let px := pixels n0 n1 in let H := [map (fun '(i0, i1) => psf i0 i1 xc0 yc0 1) px; map (fun '(i0, i1) => flux0 * dpsfdxc i0 i1 xc0 yc0 1) px; map (fun '(i0, i1) => flux0 * dpsfdyc i0 i1 xc0 yc0 1) px] in
      A = gram H /\ normal_fit H (sub_arrays data (map (Rmult flux0) (map (fun '(i0, i1) => psf i0 i1 xc0 yc0 1) px))) = Ok delta /\
      let val := Rmax (Rabs (nth 1 delta 0)) (Rabs (nth 2 delta 0)) in let f := if Rltb 0.2 val then 0.2 / val else 1 in
      F = flux0 + nth 0 delta 0 * f /\ X = xc0 + nth 1 delta 0 * f /\ Y = yc0 + nth 2 delta 0 * f).
  { clear Ex Ey E. induction k as [|k IH]; intros fl xc yc A0; cbn [gauss_newton]; cbv zeta; (destruct (linalg_solve _ _) as [delta|] eqn:Es; cbn [rbind]; [|discriminate]); set (c := andb _ _); destruct c.
    - intros H. injection H as <- <- <- <-. exists fl, xc, yc, delta. split; [reflexivity|]. split; [exact Es|]. split; [reflexivity|split; reflexivity].
    - intros H. injection H as <- <- <- <-. exists fl, xc, yc, delta. split; [reflexivity|]. split; [exact Es|]. split; [reflexivity|split; reflexivity].
    - intros H. injection H as <- <- <- <-. exists fl, xc, yc, delta. split; [reflexivity|]. split; [exact Es|]. split; [reflexivity|split; reflexivity].
    - intros H. exact (IH _ _ _ [] H). }
  destruct (G _ _ _ _ _ E) as (flux0 & xc & yc & delta & EA & Fit & Step). clear G E. cbv zeta in EA, Fit, Step.
  set (px := pixels n0 n1) in *. clearbody data px. set (H := [map _ px; map _ px; map _ px]) in *.
  exists flux0, xc, yc, delta. set (val := Rmax _ _) in *. exists (if Rltb 0.2 val then 0.2 / val else 1), ax, ay. cbv zeta.
  set (v := sub_arrays data _) in Fit.
  assert (SM : samples H v = pass_samples px data flux0 xc yc).
  { unfold v, H, pass_samples. clear -Ld. revert data Ld. induction px as [|[i0 i1] px IH]; intros [|d data] Ld; try discriminate; [reflexivity|]. cbn. f_equal. apply IH. now injection Ld. }
  assert (W : Forall (fun r => length r = length v) H).
  { assert (Lv : length v = length px) by (unfold v, sub_arrays; rewrite map_length, combine_length, !map_length; lia). unfold H. repeat constructor; rewrite map_length; congruence. }
  assert (COL : forall j b a, b = map (fun i => if Nat.eqb i j then 1 else 0) [0; 1; 2]%nat -> linalg_solve A b = Ok a -> inverse_column (map fst (pass_samples px data flux0 xc yc)) j a).
  { intros j b a Eb Ea. rewrite EA in Ea. apply linalg_solve_Ok in Ea; [|rewrite Eb; reflexivity|apply gram_square]. destruct Ea as (La & Ea & _). rewrite (gram_matvec H a v W) in Ea. split; [exact La|]. intros i Hi.
    assert (K : nth i (matvec H (map (fun s => dot a (fst s)) (samples H v))) 0 = if Nat.eqb i j then 1 else 0) by (rewrite Ea, Eb; destruct i as [|[|[|i]]]; [reflexivity..|lia]).
    rewrite <- K. unfold matvec. rewrite (nth_indep _ 0 (dot [] (map (fun s => dot a (fst s)) (samples H v)))) by (cbn; lia). rewrite (map_nth (fun r => dot r (map (fun s => dot a (fst s)) (samples H v)))).
    rewrite SM. rewrite map_map. unfold pass_samples. rewrite !map_map. unfold H. clear -Ld Hi.
    destruct i as [|[|[|i]]]; [| | |lia]; cbn [nth]; revert data Ld; (induction px as [|[i0 i1] px IH]; intros [|d data] Ld; try discriminate; [reflexivity|]); cbn [combine map fold_right dot fst]; rewrite IH by (now injection Ld); rewrite combination_dot; reflexivity. }
  assert (Fv : forall val : R, (if Rltb 0.2 val then 0.2 / val else 1) = 1 /\ val <= 0.2 \/ 0.2 < val /\ (if Rltb 0.2 val then 0.2 / val else 1) * val = 0.2).
  { intros w. destruct (Rltb 0.2 w) eqn:Ew; [apply Rltb_true in Ew; right; split; [exact Ew|field; lra]|apply Rltb_false in Ew; left; split; [reflexivity|lra]]. }
  destruct Step as (-> & -> & ->). split; [rewrite <- SM; exact (proj1 (normal_fit_Ok H v delta W Fit))|]. split; [destruct (Fv val) as [[-> Hv]|[Hv ->]]; [left; split; [exact Hv|reflexivity]|right; split; [exact Hv|reflexivity]]|].
  split; [lra|]. split; [lra|]. split; [lra|]. split; [eapply COL; [|exact Ex]; reflexivity|]. split; [reflexivity|]. split; [eapply COL; [|exact Ey]; reflexivity|reflexivity].
Qed.
Print Assumptions C75_step.
