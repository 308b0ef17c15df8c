(** Proofs about the transformation between desimeter and platemaker coordinates. *)
From Coq Require Import Lra Lia.
From Verif.Model Require Import Dm2pm.
From Verif.Spec Require Import LinAlg SimpleCorr ZhaoBurge.
From Verif.Proofs Require Import RealNum LinAlg ZhaoBurge.
Local Open Scope R_scope.

(** The map with coefficients [c], in mm. *)
Definition zb_map (polids : list Z) (c : list R) (p : R * R) : R * R :=
  let r := reduce_xy p in expand_xy (displaced (getZhaoBurgeXY polids c (fst r) (snd r)) r).
Lemma apply_value polids c p : Forall valid_id polids -> apply_zb polids c p = Ok (zb_map polids c p).
Proof. intros H. unfold apply_zb, zb_map. cbv zeta. rewrite XY_Ok by exact H. reflexivity. Qed.
Lemma misfit_mm polids c data :
  misfit (zb_map polids c) data = 420 ^ 2 * misfit (fun p => displaced (getZhaoBurgeXY polids c (fst p) (snd p)) p) (map (fun d => (reduce_xy (fst d), reduce_xy (snd d))) data).
Proof.
  unfold misfit. induction data as [|d data IH]; cbn [map fold_right]; [ring|]. rewrite IH. unfold zb_map. cbv zeta. cbn [fst snd].
  set (q := displaced _ _). unfold expand_xy, reduce_xy. cbn [fst snd]. field.
Qed.
(** The points determine the coefficients. *)
Definition determined (polids : list Z) (pts : list (R * R)) : Prop :=
  forall c, length c = length polids -> (forall p, In p pts -> zb_map polids c p = p) -> c = repeat 0 (length polids).
Lemma zb_map_id polids c p : Forall valid_id polids -> zb_map polids c p = p -> getZhaoBurgeXY polids c (fst (reduce_xy p)) (snd (reduce_xy p)) = Ok (0, 0).
Proof.
  intros V E. unfold zb_map in E. cbv zeta in E. rewrite XY_Ok in * by exact V. destruct p as [x y]. unfold reduce_xy, expand_xy, displaced in *. cbn [fst snd] in *.
  injection E as E1 E2. f_equal. f_equal; lra.
Qed.
Lemma zb_id_map polids c p : getZhaoBurgeXY polids c (fst (reduce_xy p)) (snd (reduce_xy p)) = Ok (0, 0) -> zb_map polids c p = p.
Proof. intros E. unfold zb_map. cbv zeta. rewrite E. destruct p as [x y]. unfold reduce_xy, expand_xy, displaced. cbn [fst snd]. f_equal; field. Qed.
Lemma fit_mm polids data : Forall valid_id polids -> determined polids (map fst data) ->
  exists c, fitZhaoBurge (map (fun d => reduce_xy (fst d)) data) (map (fun d => reduce_xy (snd d)) data) (Some polids) = Ok (polids, c) /\ length c = length polids /\
  forall c', length c' = length polids -> c' <> c -> misfit (zb_map polids c) data < misfit (zb_map polids c') data.
Proof.
  intros V D. set (rd := map (fun d => (reduce_xy (fst d), reduce_xy (snd d))) data).
  destruct (fit_Ok rd polids V) as (c & E & L & O).
  - apply zb_independent; [exact V|]. intros c L H. apply D; [exact L|]. intros p Hp. apply in_map_iff in Hp as (d & <- & Hd). apply zb_id_map. apply (H (reduce_xy (fst d), reduce_xy (snd d))). unfold rd. now apply (in_map (fun d => (reduce_xy (fst d), reduce_xy (snd d)))).
  - exists c. unfold rd in E at 1 2. rewrite !map_map in E. split; [exact E|]. split; [exact L|]. intros c' L' N. rewrite !misfit_mm. fold rd. rewrite <- !sum_sq_misfit by exact V.
    apply Rmult_lt_compat_l; [lra|]. now apply O.
Qed.
Lemma fit_mm_singular polids data : Forall valid_id polids -> ~ determined polids (map fst data) ->
  fitZhaoBurge (map (fun d => reduce_xy (fst d)) data) (map (fun d => reduce_xy (snd d)) data) (Some polids) = Err LinAlgError.
Proof.
  intros V D. set (rd := map (fun d => (reduce_xy (fst d), reduce_xy (snd d))) data).
  assert (E : fitZhaoBurge (map fst rd) (map snd rd) (Some polids) = Err LinAlgError).
  { apply fit_singular; [exact V|]. intros I. apply D. rewrite zb_independent in I by exact V. intros c L H. apply I; [exact L|]. intros d Hd. unfold rd in Hd. apply in_map_iff in Hd as (e & <- & He). cbn [fst]. apply zb_map_id; [exact V|]. apply H. now apply in_map. }
  unfold rd in E. rewrite !map_map in E. exact E.
Qed.
Lemma misfit_zero f data : (forall d, In d data -> f (fst d) = snd d) -> misfit f data = 0.
Proof. intros H. unfold misfit. induction data as [|d data IH]; cbn [map fold_right]; [reflexivity|]. rewrite IH by (intros; apply H; now right). rewrite (H d) by now left. ring. Qed.
Lemma misfit_nonneg f data : 0 <= misfit f data.
Proof. unfold misfit. induction data as [|d data IH]; cbn [map fold_right]; [lra|]. pose proof (pow2_ge_0 (fst (snd d) - fst (f (fst d)))). pose proof (pow2_ge_0 (snd (snd d) - snd (f (fst d)))). lra. Qed.
Lemma swap_reduce (data : list ((R * R) * (R * R))) : map fst (map (fun d => (snd d, fst d)) data) = map snd data.
Proof. rewrite map_map. reflexivity. Qed.
