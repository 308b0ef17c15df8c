(** Lemmas on the matrices of Model/Turbulence.v. *)
From Verif.Model Require Import Turbulence.
From Verif.Proofs Require Import Prelude RealNum Stats LinAlg.
From Coq Require Import Reals Lra.
Local Open Scope R_scope.

(** *** vectors *)
Lemma dot_app a b c d : length a = length c -> dot (a ++ b) (c ++ d) = dot a c + dot b d.
Proof. revert c. induction a as [|x a IH]; intros [|y c] H; try discriminate; cbn; [ring|]. rewrite IH by (cbn in H; lia). ring. Qed.
Lemma dot_middle a x b c y d : length a = length c -> dot (a ++ x :: b) (c ++ y :: d) = dot (a ++ b) (c ++ d) + x * y.
Proof. intros H. rewrite !dot_app by exact H. cbn. ring. Qed.
Lemma dot_axpy_r a b f c : length b = length c -> dot a (axpy b f c) = dot a b + f * dot a c.
Proof. intros H. rewrite dot_comm, dot_axpy by exact H. rewrite (dot_comm b), (dot_comm c). ring. Qed.
Lemma dot_scale_map {A} c (f : A -> R) l v : dot (map (fun a => c * f a) l) v = c * dot (map f l) v.
Proof. revert v. induction l as [|a l IH]; intros [|x v]; cbn; try ring. rewrite IH. ring. Qed.
Lemma dot_self_nonneg v : 0 <= dot v v.
Proof. induction v as [|x v IH]; cbn; [lra|]. pose proof (Rle_0_sqr x). unfold Rsqr in *. lra. Qed.
Lemma dot_self_zero v : dot v v = 0 -> v = repeat 0 (length v).
Proof.
  induction v as [|x v IH]; cbn; [reflexivity|]. intros H. pose proof (dot_self_nonneg v). pose proof (Rle_0_sqr x) as S. unfold Rsqr in S. assert (x * x = 0) by lra. f_equal; [|apply IH; lra]. apply Rmult_integral in H1. now destruct H1.
Qed.
Lemma axpy_nth a f b i : length a = length b -> (i < length a)%nat -> nth i (axpy a f b) 0 = nth i a 0 + f * nth i b 0.
Proof. revert b i. induction a as [|x a IH]; intros [|y b] [|i] L H; cbn in *; try lia; [reflexivity|]. apply IH; lia. Qed.
Lemma list_eq_nth (a b : list R) : length a = length b -> (forall i, (i < length a)%nat -> nth i a 0 = nth i b 0) -> a = b.
Proof. intros L H. apply (nth_ext a b 0 0 L H). Qed.
Lemma unit_vec_length n j : length (unit_vec n j) = n.
Proof. unfold unit_vec. now rewrite map_length, seq_length. Qed.
Lemma unit_vec_nth n j i : (i < n)%nat -> nth i (unit_vec n j) 0 = if Nat.eqb i j then 1 else 0.
Proof. intros H. unfold unit_vec. rewrite (nth_indep _ 0 ((fun i => if Nat.eqb i j then 1 else 0) 0%nat)) by (rewrite map_length, seq_length; exact H). now rewrite (map_nth (fun i => if Nat.eqb i j then 1 else 0)), seq_nth. Qed.
Lemma dot_unit n j v : length v = n -> (j < n)%nat -> dot (unit_vec n j) v = nth j v 0.
Proof.
  unfold unit_vec. intros L H. assert (G : forall m k v, length v = m -> dot (map (fun i => if Nat.eqb i j then 1 else 0) (seq k m)) v = if (Nat.leb k j && Nat.ltb j (k + m))%bool then nth (j - k) v 0 else 0).
  { clear. induction m as [|m IH]; intros k v L; destruct v as [|x v]; try discriminate; cbn [seq map dot].
    - destruct (Nat.leb_spec k j), (Nat.ltb_spec j (k + 0)); cbn; try lia; reflexivity.
    - rewrite IH by (cbn in L; lia). destruct (Nat.eqb_spec k j) as [->|N].
      + replace (Nat.leb (S j) j) with false by (symmetry; apply Nat.leb_gt; lia). cbn [andb]. rewrite Nat.leb_refl. replace (Nat.ltb j (j + S m)) with true by (symmetry; apply Nat.ltb_lt; lia). rewrite Nat.sub_diag. cbn. ring.
      + replace (k + S m)%nat with (S k + m)%nat by lia. destruct (Nat.leb_spec (S k) j) as [A|A].
        * replace (Nat.leb k j) with true by (symmetry; apply Nat.leb_le; lia). cbn [andb]. destruct (Nat.ltb j (S k + m)); [|ring]. replace (j - k)%nat with (S (j - S k)) by lia. cbn. ring.
        * replace (Nat.leb k j) with false by (symmetry; apply Nat.leb_gt; lia). cbn. ring. }
  rewrite (G n 0%nat v L). cbn [Nat.leb]. replace (Nat.ltb j (0 + n)) with true by (symmetry; apply Nat.ltb_lt; lia). cbn [andb]. now rewrite Nat.sub_0_r.
Qed.

(** *** matrices *)
Definition square (A : list (list R)) : Prop := Forall (fun r => length r = length A) A.
Definition symmetric (A : list (list R)) : Prop := forall u v, length u = length A -> length v = length A -> dot (matvec A u) v = dot u (matvec A v).
Definition definite (A : list (list R)) : Prop := forall v, length v = length A -> v <> repeat 0 (length A) -> 0 < dot v (matvec A v).
Lemma matvec_length A v : length (matvec A v) = length A.
Proof. unfold matvec. apply map_length. Qed.

Lemma add_diag_length c A : length (add_diag c A) = length A.
Proof. unfold add_diag. rewrite map_length, combine_length, seq_length. apply Nat.min_id. Qed.
Lemma add_diag_square c A : square A -> square (add_diag c A).
Proof.
  unfold square. rewrite add_diag_length. unfold add_diag.
  assert (G : forall A n k m, Forall (fun r : list R => length r = m) A -> Forall (fun r : list R => length r = m) (map (fun ir => map (fun jv => if Nat.eqb (fst ir) (fst jv) then snd jv + c else snd jv) (combine (seq 0 (length (snd ir))) (snd ir))) (combine (seq k n) A))).
  { clear A. induction A as [|r A IH]; intros [|n] k m F; cbn; try constructor; inversion F; subst; [|apply IH; assumption]. rewrite map_length, combine_length, seq_length. apply Nat.min_id. }
  intros F. now apply G.
Qed.
Lemma add_diag_matvec c A v : square A -> length v = length A -> matvec (add_diag c A) v = axpy (matvec A v) c v.
Proof.
  intros Sq L. unfold square in Sq. apply list_eq_nth.
  - rewrite matvec_length, add_diag_length. rewrite axpy_length by (rewrite matvec_length; congruence). now rewrite matvec_length.
  - rewrite matvec_length, add_diag_length. intros i Hi. rewrite axpy_nth by (rewrite matvec_length; congruence).
    assert (R1 : exists r, nth_error A i = Some r /\ length r = length A). { destruct (nth_error A i) as [r|] eqn:E; [|apply nth_error_None in E; lia]. exists r. split; [reflexivity|]. rewrite Forall_forall in Sq. apply Sq. now apply nth_error_In in E. }
    destruct R1 as (r & Er & Lr).
    assert (N1 : nth i (matvec A v) 0 = dot r v). { apply nth_error_nth. unfold matvec. rewrite nth_error_map, Er. reflexivity. }
    assert (N2 : nth i (matvec (add_diag c A) v) 0 = dot (map (fun jv => if Nat.eqb i (fst jv) then snd jv + c else snd jv) (combine (seq 0 (length r)) r)) v).
    { apply nth_error_nth. unfold matvec, add_diag. rewrite nth_error_map, nth_error_map.
      assert (Ec : nth_error (combine (seq 0 (length A)) A) i = Some (i, r)). { clear -Er Hi. assert (G : forall k, nth_error (combine (seq k (length A)) A) i = Some ((k + i)%nat, r)); [|apply (G 0%nat)]. revert i Er Hi. induction A as [|x A IH]; intros [|i] Er Hi k; cbn in *; try lia; [injection Er as ->; now rewrite Nat.add_0_r|]. rewrite IH by (auto; lia). now rewrite Nat.add_succ_r. }
      rewrite Ec. reflexivity. }
    rewrite N1, N2. clear N1 N2 Er. assert (G : forall r v k, length r = length v -> dot (map (fun jv => if Nat.eqb i (fst jv) then snd jv + c else snd jv) (combine (seq k (length r)) r)) v = dot r v + if (Nat.leb k i && Nat.ltb i (k + length r))%bool then c * nth (i - k) v 0 else 0).
    { clear. induction r as [|x r IH]; intros [|y v] k L; cbn [length seq combine map dot]; try discriminate.
      - destruct (Nat.leb_spec k i), (Nat.ltb_spec i (k + 0)); cbn; try lia; ring.
      - cbn [fst snd]. rewrite IH by (cbn in L; lia). destruct (Nat.eqb_spec i k) as [->|N].
        + replace (Nat.leb (S k) k) with false by (symmetry; apply Nat.leb_gt; lia). rewrite Nat.leb_refl. replace (Nat.ltb k (k + S (length r))) with true by (symmetry; apply Nat.ltb_lt; lia). rewrite Nat.sub_diag. cbn. ring.
        + replace (k + S (length r))%nat with (S k + length r)%nat by lia. destruct (Nat.leb_spec (S k) i).
          * replace (Nat.leb k i) with true by (symmetry; apply Nat.leb_le; lia). cbn [andb]. destruct (Nat.ltb i (S k + length r)); [|ring]. replace (i - k)%nat with (S (i - S k)) by lia. cbn. ring.
          * replace (Nat.leb k i) with false by (symmetry; apply Nat.leb_gt; lia). cbn. ring. }
    rewrite G by lia. cbn [Nat.leb]. replace (Nat.ltb i (0 + length r)) with true by (symmetry; apply Nat.ltb_lt; lia). cbn [andb]. now rewrite Nat.sub_0_r.
Qed.
Lemma add_diag_symmetric c A : square A -> symmetric A -> symmetric (add_diag c A).
Proof.
  intros Sq Sy u v Lu Lv. rewrite add_diag_length in *. rewrite !add_diag_matvec by assumption. rewrite dot_axpy, dot_axpy_r by (rewrite matvec_length; congruence). rewrite (Sy u v Lu Lv). ring.
Qed.
Lemma add_diag_definite c A : square A -> 0 < c -> (forall v, length v = length A -> 0 <= dot v (matvec A v)) -> definite (add_diag c A).
Proof.
  intros Sq Hc P v L N. rewrite add_diag_length in *. rewrite add_diag_matvec, dot_axpy_r by (rewrite ?matvec_length; congruence || assumption).
  assert (dot v v <> 0) by (intros E; apply N; rewrite <- L; now apply dot_self_zero). pose proof (dot_self_nonneg v). specialize (P v L). assert (0 < c * dot v v) by (apply Rmult_lt_0_compat; lra). lra.
Qed.
Lemma definite_solve A b : square A -> definite A -> length b = length A -> exists x, linalg_solve A b = Ok x.
Proof.
  intros Sq D L. destruct (linalg_solve A b) as [x|e] eqn:E; [eauto|]. exfalso. apply linalg_solve_Err in E as (_ & z & Lz & Nz & Ez); [|exact L|exact Sq]. specialize (D z Lz Nz). rewrite Ez, dot_repeat0 in D. lra.
Qed.

(** *** scaling *)
Lemma mat_scale_length c A : length (mat_scale c A) = length A.
Proof. apply map_length. Qed.
Lemma mat_scale_square c A : square A -> square (mat_scale c A).
Proof. unfold square. rewrite mat_scale_length. unfold mat_scale. generalize (length A). intros n F. apply Forall_map. eapply Forall_impl; [|exact F]. intros r H. cbn. now rewrite map_length. Qed.
Definition vscale (c : R) (v : list R) : list R := map (fun x => x * c) v.
Lemma dot_vscale_l c a b : dot (vscale c a) b = dot a b * c.
Proof. revert b. induction a as [|x a IH]; intros [|y b]; cbn; try ring. rewrite IH. ring. Qed.
Lemma dot_vscale_r c a b : dot a (vscale c b) = dot a b * c.
Proof. now rewrite dot_comm, dot_vscale_l, dot_comm. Qed.
Lemma mat_scale_matvec c A v : matvec (mat_scale c A) v = vscale c (matvec A v).
Proof. unfold matvec, mat_scale, vscale. rewrite !map_map. apply map_ext. intros r. apply dot_vscale_l. Qed.
Lemma matvec_vscale c A v : matvec A (vscale c v) = vscale c (matvec A v).
Proof. unfold matvec, vscale. rewrite map_map. apply map_ext. intros r. apply dot_vscale_r. Qed.
Lemma matvec_axpy A u f v : length u = length v -> matvec A (axpy u f v) = axpy (matvec A u) f (matvec A v).
Proof. intros L. unfold matvec. induction A as [|r A IH]; cbn; [reflexivity|]. rewrite IH, dot_axpy_r by exact L. reflexivity. Qed.
Lemma axpy_cancel u f v : length u = length v -> axpy (axpy u f v) (- f) v = u.
Proof. revert v. induction u as [|x u IH]; intros [|y v] L; cbn in *; try discriminate; [reflexivity|]. rewrite IH by lia. f_equal. ring. Qed.
Lemma add_diag_cancel c A : square A -> add_diag (- c) (add_diag c A) = A.
Proof.
  unfold square. intros F. unfold add_diag. assert (G : forall A k m, Forall (fun r : list R => length r = m) A ->
    map (fun ir => map (fun jv => if Nat.eqb (fst ir) (fst jv) then snd jv + - c else snd jv) (combine (seq 0 (length (snd ir))) (snd ir)))
      (combine (seq k (length A)) (map (fun ir => map (fun jv => if Nat.eqb (fst ir) (fst jv) then snd jv + c else snd jv) (combine (seq 0 (length (snd ir))) (snd ir))) (combine (seq k (length A)) A))) = A).
  { clear. induction A as [|r A IH]; intros k m F; cbn [length seq combine map]; [reflexivity|]. inversion F; subst. rewrite (IH (S k) _ H2). f_equal. cbn [fst snd]. rewrite map_length, combine_length, seq_length, Nat.min_id. clear. generalize 0%nat. induction r as [|x r IH]; intros j; cbn; [reflexivity|]. rewrite IH. f_equal. destruct (Nat.eqb k j); ring. }
  rewrite map_length, combine_length, seq_length, Nat.min_id. apply (G A 0%nat _ F).
Qed.

(** *** covariance matrices *)
Section Cov.
Variable k : R * R -> R * R -> R.
Lemma cov_length ps qs : length (cov_matrix k ps qs) = length qs.
Proof. apply map_length. Qed.
Lemma cov_square ps : square (cov_matrix k ps ps).
Proof. unfold square. rewrite cov_length. apply Forall_forall. intros r H. unfold cov_matrix in H. apply in_map_iff in H as (q & <- & _). apply map_length. Qed.
Lemma cov_matvec ps qs v : matvec (cov_matrix k ps qs) v = map (fun q => dot (map (fun p => k p q) ps) v) qs.
Proof. unfold matvec, cov_matrix. apply map_map. Qed.
(** the bilinear form *)
Definition pairing (l m : list (R * (R * R))) : R := Rsum (map (fun a => Rsum (map (fun b => fst a * fst b * k (snd b) (snd a)) m)) l).
Lemma cov_pairing ps v : length v = length ps -> forall qs u, length u = length qs -> dot u (matvec (cov_matrix k ps qs) v) = pairing (combine u qs) (combine v ps).
Proof.
  intros L. rewrite <- (Nat.add_0_l (length v)) in L. intros qs. rewrite cov_matvec. unfold pairing. induction qs as [|q qs IH]; intros [|x u] Lu; cbn in Lu; try discriminate; [reflexivity|]. cbn [map combine dot]. rewrite Rsum_cons, (IH u) by lia. f_equal. cbn [fst snd].
  clear -L. cbn in L. revert ps L. induction v as [|y v IH]; intros [|p ps] L; cbn in L; try discriminate; [cbn; ring|]. cbn [combine map]. rewrite Rsum_cons, <- IH by lia. cbn. ring.
Qed.
Lemma Rsum_zero {A} (l : list A) : Rsum (map (fun _ => 0) l) = 0.
Proof. induction l as [|a l IH]; cbn; [reflexivity|]. unfold Rsum in IH. rewrite IH. ring. Qed.
Lemma pairing_sym l m : (forall p q, k p q = k q p) -> pairing l m = pairing m l.
Proof.
  intros S. unfold pairing. induction l as [|a l IH]; cbn [map]; [cbn; symmetry; apply Rsum_zero|]. rewrite Rsum_cons, IH. rewrite <- Rsum_plus. f_equal. apply map_ext. intros b. cbn [map]. rewrite Rsum_cons. rewrite (S (snd b)). ring.
Qed.
Lemma cov_symmetric ps : (forall p q, k p q = k q p) -> symmetric (cov_matrix k ps ps).
Proof. intros S u v Lu Lv. rewrite cov_length in *. rewrite dot_comm, !cov_pairing by assumption. now apply pairing_sym. Qed.
End Cov.

(** *** the inverse of a symmetric matrix *)
Lemma transpose_nth n cols i : (i < n)%nat -> nth i (transpose n cols) [] = map (fun c => nth i c 0) cols.
Proof. intros H. unfold transpose. rewrite (nth_indep _ [] ((fun i => map (fun c => nth i c 0) cols) 0%nat)) by (rewrite map_length, seq_length; exact H). now rewrite (map_nth (fun i => map (fun c => nth i c 0) cols)), seq_nth. Qed.
Lemma inv_row A kinv i : square A -> symmetric A -> linalg_inv A = Ok kinv -> (i < length A)%nat ->
  length kinv = length A /\ linalg_solve A (unit_vec (length A) i) = Ok (nth i kinv []).
Proof.
  intros Sq Sy H Hi. unfold linalg_inv in H. destruct (rmapM _ _) as [cols|] eqn:E; [|discriminate]. cbn in H. apply Ok_inj in H. subst kinv. split; [unfold transpose; now rewrite map_length, seq_length|].
  apply rmapM_Ok_Forall2 in E. assert (Lc : length cols = length A) by (apply Forall2_length in E; now rewrite seq_length in E).
  assert (C : forall j, (j < length A)%nat -> linalg_solve A (unit_vec (length A) j) = Ok (nth j cols [])).
  { intros j Hj. assert (G : forall l m, Forall2 (fun x y => linalg_solve A (unit_vec (length A) x) = Ok y) l m -> forall j, (j < length l)%nat -> linalg_solve A (unit_vec (length A) (nth j l 0%nat)) = Ok (nth j m [])). { induction 1; intros [|j'] Hj'; cbn in *; try lia; [assumption|]. apply IHForall2. lia. }
    specialize (G _ _ E j). rewrite seq_length in G. specialize (G Hj). now rewrite seq_nth in G. }
  rewrite transpose_nth by exact Hi. assert (CS : forall j, (j < length A)%nat -> length (nth j cols []) = length A /\ matvec A (nth j cols []) = unit_vec (length A) j).
  { intros j Hj. destruct (linalg_solve_Ok A _ _ (unit_vec_length _ _) Sq (C j Hj)) as (X & Y & _). auto. }
  rewrite (C i Hi). f_equal. destruct (CS i Hi) as [Li Mi]. apply list_eq_nth; [rewrite map_length; congruence|]. rewrite Li. intros j Hj. destruct (CS j Hj) as [Lj Mj].
  rewrite (nth_indep (map _ cols) 0 ((fun c => nth i c 0) [])) by (rewrite map_length; lia). rewrite (map_nth (fun c => nth i c 0)).
  rewrite <- (dot_unit (length A) j (nth i cols [])) by assumption. rewrite <- (dot_unit (length A) i (nth j cols [])) by assumption. rewrite <- Mi, <- Mj. rewrite (Sy _ _ Lj Li). apply dot_comm.
Qed.
Lemma exclude_row A d t : square A -> symmetric A -> length d = length A -> predict_exclude A d = Ok t ->
  length t = length d /\ forall i, (i < length d)%nat -> exists u, linalg_solve A (unit_vec (length A) i) = Ok u /\ nth i u 0 <> 0 /\ nth i t 0 = nth i d 0 - dot u d / nth i u 0.
Proof.
  intros Sq Sy L H. unfold predict_exclude in H. destruct (linalg_inv A) as [kinv|] eqn:K; [|discriminate]. cbn [rbind] in H. apply rmapM_Ok_Forall2 in H.
  destruct (Nat.eq_dec (length A) 0) as [Z|NZ].
  { rewrite Z in L. destruct d; [|discriminate]. cbn in H. inversion H; subst. split; [reflexivity|]. cbn. intros; lia. }
  assert (Lk : length kinv = length A) by (apply (inv_row A kinv 0 Sq Sy K); lia).
  pose proof (Forall2_length _ _ _ H) as Lt. rewrite !combine_length, seq_length, Lk, L, !Nat.min_id in Lt. split; [lia|]. intros i Hi. exists (nth i kinv []). destruct (inv_row A kinv i Sq Sy K ltac:(lia)) as [_ Row]. split; [exact Row|].
  assert (G : forall l m (P : (R * list R * nat) -> R -> Prop), Forall2 P l m -> forall i, (i < length l)%nat -> P (nth i l (0, [], 0%nat)) (nth i m 0)). { clear. induction 1; intros [|i] Hi; cbn in *; try lia; [assumption|]. apply IHForall2. lia. }
  specialize (G _ _ _ H i). rewrite !combine_length, seq_length, Lk, L, !Nat.min_id in G. specialize (G ltac:(lia)).
  rewrite (combine_nth (combine d kinv)) in G by (rewrite combine_length, seq_length; lia). rewrite combine_nth in G by lia. rewrite seq_nth in G by lia. cbn [Nat.add] in G.
  destruct (Reqb (nth i (nth i kinv []) 0) 0) eqn:E; [discriminate|]. apply Ok_inj in G. split; [|now symmetry]. intros Z. apply Reqb_true in Z. congruence.
Qed.

(** *** leaving one point out *)
Lemma axpy_app a f b c d : length a = length c -> axpy (a ++ b) f (c ++ d) = axpy a f c ++ axpy b f d.
Proof. revert c. induction a as [|x a IH]; intros [|y c] H; try discriminate; cbn; [reflexivity|]. rewrite IH by (cbn in H; lia). reflexivity. Qed.
Lemma unit_vec_app a b : unit_vec (a + S b) a = repeat 0 a ++ 1 :: repeat 0 b.
Proof.
  unfold unit_vec. rewrite seq_app, map_app. f_equal.
  - assert (G : forall n k, (k + n <= a)%nat -> map (fun i => if Nat.eqb i a then 1 else 0) (seq k n) = repeat 0 n). { induction n as [|n IH]; intros k H; cbn; [reflexivity|]. rewrite IH by lia. destruct (Nat.eqb_spec k a); [lia|reflexivity]. } apply G. lia.
  - cbn [seq map Nat.add]. rewrite Nat.eqb_refl. f_equal. assert (G : forall n k, (a < k)%nat -> map (fun i => if Nat.eqb i a then 1 else 0) (seq k n) = repeat 0 n). { induction n as [|n IH]; intros k H; cbn; [reflexivity|]. rewrite IH by lia. destruct (Nat.eqb_spec k a); [lia|reflexivity]. } apply G. lia.
Qed.
Lemma dot_map_plus {A} (f g : A -> R) c l v : dot (map (fun a => f a + g a * c) l) v = dot (map f l) v + c * dot (map g l) v.
Proof. revert v. induction l as [|a l IH]; intros [|x v]; cbn; try ring. rewrite IH. ring. Qed.
Lemma app_eq_length {A} (a b c d : list A) : length a = length c -> a ++ b = c ++ d -> a = c /\ b = d.
Proof. revert c. induction a as [|x a IH]; intros [|y c] L H; try discriminate; [auto|]. cbn in H. injection H as -> H. destruct (IH c ltac:(cbn in L; lia) H) as [-> ->]. auto. Qed.
Lemma split_nth {A} (l : list A) n : (n < length l)%nat -> exists a x b, l = a ++ x :: b /\ length a = n.
Proof. intros H. exists (firstn n l). destruct (skipn n l) as [|x b] eqn:E; [apply (f_equal (@length A)) in E; rewrite skipn_length in E; cbn in E; lia|]. exists x, b. split; [now rewrite <- E, firstn_skipn|rewrite firstn_length; lia]. Qed.

Lemma leave_one_out k c pre p post dpre dp dpost t : (forall p q, k p q = k q p) -> length dpre = length pre -> length dpost = length post ->
  let ps := pre ++ p :: post in let others := pre ++ post in
  predict_exclude (add_diag c (cov_matrix k ps ps)) (dpre ++ dp :: dpost) = Ok t ->
  forall s, linalg_solve (add_diag c (cov_matrix k others others)) (dpre ++ dpost) = Ok s -> nth (length pre) t 0 = dot (map (fun q => k q p) others) s.
Proof.
  intros Sym L1 L2 ps others H s Hs. set (A := add_diag c (cov_matrix k ps ps)) in *. set (M := add_diag c (cov_matrix k others others)) in *.
  assert (LA : length A = (length pre + S (length post))%nat) by (unfold A; rewrite add_diag_length, cov_length; unfold ps; rewrite app_length; reflexivity).
  assert (LM : length M = (length pre + length post)%nat) by (unfold M; rewrite add_diag_length, cov_length; unfold others; rewrite app_length; reflexivity).
  assert (SqA : square A) by apply add_diag_square, cov_square. assert (SqM : square M) by apply add_diag_square, cov_square.
  assert (SyA : symmetric A) by (apply add_diag_symmetric; [apply cov_square|now apply cov_symmetric]). assert (SyM : symmetric M) by (apply add_diag_symmetric; [apply cov_square|now apply cov_symmetric]).
  apply exclude_row in H as [Lt H]; [|exact SqA|exact SyA|rewrite LA, app_length; cbn; lia]. destruct (H (length pre)) as (u & Hu & Nu & ->); [rewrite app_length; cbn; lia|]. clear H.
  apply linalg_solve_Ok in Hu as (Lu & Mu & _); [|now rewrite unit_vec_length|exact SqA]. apply linalg_solve_Ok in Hs as (Ls & Ms & _); [|rewrite app_length, LM; lia|exact SqM].
  destruct (split_nth u (length pre) ltac:(lia)) as (u1 & ui & u2 & -> & Lu1). rewrite app_length in Lu. cbn in Lu. assert (Lu2 : length u2 = length post) by lia.
  assert (N : nth (length pre) (u1 ++ ui :: u2) 0 = ui) by (rewrite app_nth2, Lu1, Nat.sub_diag by lia; reflexivity). rewrite N in *. clear N.
  assert (N : nth (length pre) (dpre ++ dp :: dpost) 0 = dp) by (rewrite app_nth2, L1, Nat.sub_diag by lia; reflexivity). rewrite N. clear N.
  rewrite dot_middle by lia.
  (* the equations of the other points *)
  assert (Eq : axpy (map (fun q => dot (map (fun p' => k p' q) others) (u1 ++ u2) + k p q * ui) others) c (u1 ++ u2) = repeat 0 (length others)).
  { rewrite LA, unit_vec_app in Mu. unfold A in Mu. rewrite add_diag_matvec in Mu; [|apply cov_square|rewrite cov_length; unfold ps; rewrite !app_length; cbn; lia]. rewrite cov_matvec in Mu.
    assert (F : forall q, dot (map (fun p' => k p' q) ps) (u1 ++ ui :: u2) = dot (map (fun p' => k p' q) others) (u1 ++ u2) + k p q * ui). { intros q. unfold ps, others. rewrite !map_app. cbn [map]. rewrite dot_middle by (rewrite map_length; lia). reflexivity. }
    rewrite (map_ext _ _ F) in Mu. unfold ps at 1 in Mu. rewrite map_app in Mu. cbn [map] in Mu. rewrite axpy_app in Mu by (rewrite map_length; lia). cbn [axpy] in Mu.
    apply app_eq_length in Mu as [E1 E2]; [|rewrite axpy_length by (rewrite map_length; lia); rewrite map_length, repeat_length; reflexivity]. injection E2 as _ E2.
    unfold others at 2. rewrite map_app, axpy_app by (rewrite map_length; lia). rewrite E1, E2. unfold others. now rewrite app_length, repeat_app. }
  assert (D : dot (matvec M (u1 ++ u2)) s = - ui * dot (map (fun q => k p q) others) s).
  { apply (f_equal (fun l => dot l s)) in Eq. rewrite (dot_comm (repeat 0 _)), dot_repeat0 in Eq. rewrite dot_axpy in Eq by (unfold others; rewrite map_length, !app_length; lia). rewrite dot_map_plus in Eq.
    unfold M. rewrite add_diag_matvec; [|apply cov_square|rewrite cov_length; unfold others; rewrite !app_length; lia]. rewrite dot_axpy by (rewrite matvec_length, cov_length; unfold others; rewrite !app_length; lia). rewrite cov_matvec. change (fun q : R * R => k p q) with (k p). lra. }
  rewrite <- Ms, <- (SyM (u1 ++ u2) s) by (rewrite ?app_length; lia). rewrite D. rewrite (map_ext (fun q => k q p) (fun q => k p q)) by (intros; apply Sym). field. exact Nu.
Qed.

(** *** smoothing the data is predicting at the data *)
Lemma smoothing_gen K sigma d : sigma <> 0 -> square K -> length d = length K -> forall t s,
  predict_smooth sigma (add_diag (sigma ^ 2) K) d = Ok t -> linalg_solve (add_diag (sigma ^ 2) K) d = Ok s -> t = matvec K s.
Proof.
  intros Ns SqK L t s. unfold predict_smooth. destruct (Reqb sigma 0) eqn:E; [apply Reqb_true in E; contradiction|]. rewrite add_diag_cancel by exact SqK.
  set (c := / sigma ^ 2). assert (Nc : sigma ^ 2 <> 0) by (apply pow_nonzero; exact Ns).
  intros Ht Hs. apply linalg_solve_Ok in Hs as (Ls & Ms & _); [|rewrite add_diag_length; lia|now apply add_diag_square]. rewrite add_diag_length in Ls.
  apply linalg_solve_Ok in Ht as (_ & _ & U); [|rewrite matvec_length, add_diag_length; reflexivity|apply add_diag_square, mat_scale_square, SqK]. symmetry. apply U; [rewrite matvec_length, add_diag_length, mat_scale_length; reflexivity|].
  rewrite add_diag_matvec by (try apply mat_scale_square; rewrite ?matvec_length, ?mat_scale_length; auto). rewrite !mat_scale_matvec. rewrite <- Ms, add_diag_matvec by auto.
  rewrite matvec_axpy by (rewrite matvec_length; lia). assert (G : forall l m, axpy (vscale c l) 1 m = vscale c (axpy l (sigma ^ 2) m)); [|apply G].
  clear -Nc. subst c. unfold vscale. induction l as [|x l IH]; intros [|y m]; try reflexivity. cbn [map axpy]. rewrite IH. f_equal. field. intros E. apply Nc. rewrite E. ring.
Qed.
Lemma smooth_ok k sigma ps d : sigma <> 0 -> length d = length ps -> (forall v, length v = length ps -> 0 <= dot v (matvec (cov_matrix k ps ps) v)) ->
  exists t, predict_smooth sigma (add_diag (sigma ^ 2) (cov_matrix k ps ps)) d = Ok t.
Proof.
  intros Ns L P. unfold predict_smooth. destruct (Reqb sigma 0) eqn:E; [apply Reqb_true in E; contradiction|]. rewrite add_diag_cancel by apply cov_square.
  assert (SqK : square (cov_matrix k ps ps)) by apply cov_square. assert (LK := cov_length k ps ps). apply definite_solve.
  - apply add_diag_square, mat_scale_square, SqK.
  - apply add_diag_definite; [apply mat_scale_square, SqK|lra|]. rewrite mat_scale_length, LK. intros v Lv. rewrite mat_scale_matvec, dot_vscale_r. apply Rmult_le_pos; [now apply P|]. left. apply Rinv_0_lt_compat. assert (sigma ^ 2 <> 0) by (apply pow_nonzero; exact Ns). pose proof (pow2_ge_0 sigma). lra.
  - rewrite matvec_length, add_diag_length. reflexivity.
Qed.

(** *** leave-one-out: an offset does not enter its own prediction *)
Lemma exclude_own A pre x x' post t t' : square A -> symmetric A -> length A = (length pre + S (length post))%nat ->
  predict_exclude A (pre ++ x :: post) = Ok t -> predict_exclude A (pre ++ x' :: post) = Ok t' -> nth (length pre) t 0 = nth (length pre) t' 0.
Proof.
  intros Sq Sy L H H'. apply exclude_row in H as [_ H]; [|assumption|assumption|rewrite app_length; cbn; lia]. apply exclude_row in H' as [_ H']; [|assumption|assumption|rewrite app_length; cbn; lia].
  destruct (H (length pre)) as (u & Eu & Nu & ->); [rewrite app_length; cbn; lia|]. destruct (H' (length pre)) as (u' & Eu' & _ & ->); [rewrite app_length; cbn; lia|]. rewrite Eu in Eu'. apply Ok_inj in Eu'. subst u'.
  apply linalg_solve_Ok in Eu as (Lu & _ & _); [|now rewrite unit_vec_length|exact Sq]. destruct (split_nth u (length pre) ltac:(lia)) as (u1 & ui & u2 & -> & Lu1). rewrite app_length in Lu. cbn in Lu.
  assert (N : forall z (a b : list R), length a = length pre -> nth (length pre) (a ++ z :: b) 0 = z) by (intros z a b La; rewrite app_nth2, La, Nat.sub_diag by lia; reflexivity). rewrite !(N _ pre) by reflexivity. rewrite (N ui u1) in * by exact Lu1. rewrite !dot_middle by lia. field. exact Nu.
Qed.
