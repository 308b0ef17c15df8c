(** C11: averaging the coordinates of several tables. *)
From Verif.Model Require Import AverageCoord KDTree.
From Verif.Spec Require Import Numpy LinAlg Match SimpleCorr AverageCoord.
From Verif.Proofs Require Numpy KDTree AverageCoord.
From Coq Require Import Lra.
Local Open Scope R_scope.

(** Whenever the call returns a finite result: the spots of the first table paired in turn with
    each of the other tables get the mean over all tables, everything else is unchanged. *)
Theorem C11_average_of_paired_spots :
  forall argsort, is_argsort argsort -> forall query2, nearest_query query2 ->
  forall A (table1 : list (A * (R * R))) others t',
  average_coordinates argsort query2 (table1 :: others) = Ok t' ->
  exists S gs, averaging (map snd table1) (map (map snd) others) S gs /\ length t' = length table1 /\
    (forall k row xy, nth_error table1 k = Some (row, xy) ->
       (In k S -> nth_error t' k = Some (row, mean_position (map (fun g => g k) gs))) /\
       (~ In k S -> nth_error t' k = Some (row, xy))).
Proof. intros a Ha q Hq A. exact (AverageCoord.average_spec a Ha q Hq). Qed.
Print Assumptions C11_average_of_paired_spots.

(** Averaging tables of the same spots, each seen through its own affine map, gives back the
    first table. *)
Theorem C11_same_spots_unchanged :
  forall argsort, is_argsort argsort -> forall query2, nearest_query query2 ->
  forall A (table1 : list (A * (R * R))) others,
  (forall t, In t others -> aligned (map snd table1) (map snd t)) ->
  average_coordinates argsort query2 (table1 :: others) = Ok table1.
Proof. intros a Ha q Hq A. exact (AverageCoord.average_aligned a Ha q Hq). Qed.
Print Assumptions C11_same_spots_unchanged.

(** The first triangle and its copy moved by (1,2). *)
Definition spots3 : list (R * R) := [(0, 0); (10, 0); (0, 10)].
Example C11_example : is_argsort isort_argsort /\ nearest_query (scan_query distance) /\
  aligned spots3 (map (fun p => (fst p + 1, snd p + 2)) spots3).
Proof.
  split; [exact Numpy.isort_is_argsort|]. split; [exact KDTree.scan_query2|].
  assert (D : forall a b c d, distance (a, b) (c, d) = sqrt ((a - c) ^ 2 + (b - d) ^ 2)) by reflexivity.
  constructor.
  - reflexivity.
  - intros a b c H. cbn in H. pose proof (H _ (or_introl eq_refl)) as H1. pose proof (H _ (or_intror (or_introl eq_refl))) as H2. pose proof (H _ (or_intror (or_intror (or_introl eq_refl)))) as H3. cbn in *. lra.
  - exists [-1; 1; 0], [-2; 0; 1]. split; [reflexivity|]. split; [reflexivity|]. split; [cbn; lra|].
    intros k Hk. cbn in Hk. destruct k as [|[|[|k]]]; [| | |lia]; unfold affine, spot; cbn; f_equal; lra.
  - intros k k' Hk Hk'. cbn in Hk, Hk'. assert (B : sqrt 5 < 5). { rewrite <- (sqrt_square 5) at 2 by lra. apply sqrt_lt_1; lra. }
    destruct k as [|[|[|k]]]; [| | |lia]; (destruct k' as [|[|[|k']]]; [| | |lia]); unfold spot; cbn [nth map spots3 fst snd]; rewrite !D;
      (split; [match goal with |- sqrt ?e < 5 => replace e with 5 by ring; exact B end|]); intros N; try (exfalso; apply N; reflexivity); apply sqrt_lt_1; nra.
Qed.
(** No table at all: np.vstack raises ValueError. *)
Theorem C11_no_table : forall argsort query2 A, @average_coordinates argsort query2 A [] = Err ValueError.
Proof. reflexivity. Qed.
Print Assumptions C11_no_table.
