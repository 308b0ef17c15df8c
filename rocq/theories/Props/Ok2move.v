(** C56, C82: ok2move. *)
From Verif.Model Require Import Ok2move.
From Verif.Proofs Require Import Prelude RealNum Stats Numpy Sorting.
From Verif.Spec Require Import Numpy.
From Coq Require Import String Reals Lra Permutation Sorted.
Local Open Scope R_scope.
Local Open Scope string_scope.
Local Open Scope list_scope.

Lemma concat_slices {A} (l : list A) g n : List.concat (map (fun i => slice l i g) (seq 0 n)) = firstn (n * g) l.
Proof.
  induction n as [|n IH]; [reflexivity|]. rewrite seq_S, map_app, concat_app, IH. cbn [map List.concat]. rewrite app_nil_r. unfold slice. cbn [Nat.add]. replace (S n * g)%nat with (n * g + g)%nat by lia.
  rewrite <- (firstn_skipn (n * g) (firstn (n * g + g) l)), firstn_firstn, Nat.min_l by lia. f_equal. now rewrite skipn_firstn_comm, Nat.add_comm, Nat.add_sub.
Qed.
(** C56. The groups of the text output, together, are the list of the positioners, in order; every group has between 1 and [groupsize] positioners,
    [groupsize] unless it is the last one, and its number counts the groups before it. *)
Theorem C56_text : forall ids groupsize groups, (0 < groupsize)%Z -> text_groups ids groupsize = Ok groups ->
  List.concat (map snd groups) = ids /\ map fst groups = seq 0 (List.length groups) /\
  (forall i g, In (i, g) groups -> (0 < Z.of_nat (List.length g) <= groupsize)%Z) /\
  (forall i g, In (i, g) groups -> (S i < List.length groups)%nat -> Z.of_nat (List.length g) = groupsize).
Proof.
  intros ids gs groups Hg E. unfold text_groups in E. destruct (Z.eqb_spec gs 0); [lia|]. apply Ok_inj in E. subst groups.
  set (g := Z.to_nat gs). assert (Eg : gs = Z.of_nat g) by (unfold g; lia). assert (Pg : (0 < g)%nat) by lia. clearbody g. subst gs.
  rewrite <- Nat2Z.inj_div. replace (Z.to_nat (Z.of_nat (List.length ids / g) + 1)) with (S (List.length ids / g))%nat by lia. set (q := (List.length ids / g)%nat).
  pose proof (Nat.div_mod (List.length ids) g ltac:(lia)) as DM. pose proof (Nat.mod_upper_bound (List.length ids) g ltac:(lia)) as MB. fold q in DM.
  assert (Len : forall i, (i <= q)%nat -> List.length (slice ids i g) = if (i <? q)%nat then g else (List.length ids mod g)%nat).
  { intros i Hi. unfold slice. rewrite firstn_length, skipn_length. destruct (Nat.ltb_spec i q); [|replace i with q by lia; lia]. assert ((i * g + g <= q * g)%nat) by nia. lia. }
  assert (Fl : filter (fun x => (0 <? List.length (snd x))%nat) (map (fun i => (i, slice ids i g)) (seq 0 (S q))) = map (fun i => (i, slice ids i g)) (seq 0 (if (List.length ids mod g =? 0)%nat then q else S q))).
  { rewrite seq_S, map_app, filter_app. cbn [map filter snd Nat.add]. rewrite (Len q (le_n q)), Nat.ltb_irrefl.
    assert (F0 : filter (fun x => (0 <? List.length (snd x))%nat) (map (fun i => (i, slice ids i g)) (seq 0 q)) = map (fun i => (i, slice ids i g)) (seq 0 q)).
    { assert (All : forall x, In x (map (fun i => (i, slice ids i g)) (seq 0 q)) -> (0 <? List.length (snd x))%nat = true). { intros x J. apply in_map_iff in J as (i & <- & J). apply in_seq in J. cbn [snd]. rewrite Len by lia. destruct (Nat.ltb_spec i q); [|lia]. now apply Nat.ltb_lt. }
      revert All. generalize (map (fun i => (i, slice ids i g)) (seq 0 q)). induction l as [|x l IH]; intros All; [reflexivity|]. cbn [filter]. rewrite (All x (or_introl eq_refl)). f_equal. apply IH. intros y J. apply All. now right. }
    rewrite F0. destruct (Nat.eqb_spec (List.length ids mod g) 0) as [E0|E0]; [rewrite E0; cbn; apply app_nil_r|]. replace (0 <? _)%nat with true by (symmetry; apply Nat.ltb_lt; lia). now rewrite seq_S, map_app. }
  rewrite Fl. set (m := if (List.length ids mod g =? 0)%nat then q else S q). assert (Hm : (m * g >= List.length ids /\ m <= S q)%nat). { unfold m. destruct (Nat.eqb_spec (List.length ids mod g) 0); nia. }
  assert (Hq : (m = q /\ List.length ids mod g = 0)%nat \/ (m = S q /\ (0 < List.length ids mod g)%nat)). { unfold m. destruct (Nat.eqb_spec (List.length ids mod g) 0); [left|right]; lia. } clearbody m.
  split; [rewrite map_map; cbn [snd]; rewrite concat_slices; apply firstn_all2; lia|]. rewrite map_map, map_length, seq_length. cbn [fst]. split; [apply map_id|]. split.
  - intros i x J. apply in_map_iff in J as (j & E & J). injection E as -> <-. apply in_seq in J. rewrite Len by lia. destruct (Nat.ltb_spec i q); [lia|]. lia.
  - intros i x J L. apply in_map_iff in J as (j & E & J). injection E as -> <-. apply in_seq in J. rewrite Len by lia. destruct (Nat.ltb_spec i q); lia.
Qed.
Print Assumptions C56_text.

(** The HTML pages: the full groups only. *)
Theorem C56_html : forall ids groupsize groups, (0 < groupsize)%Z -> html_groups ids groupsize = Ok groups ->
  Z.of_nat (List.length groups) = (Z.of_nat (List.length ids) / groupsize)%Z /\ map fst groups = seq 0 (List.length groups) /\
  List.concat (map snd groups) = firstn (List.length groups * Z.to_nat groupsize) ids /\ (forall i g, In (i, g) groups -> Z.of_nat (List.length g) = groupsize).
Proof.
  intros ids gs groups Hg E. unfold html_groups in E. destruct (Z.eqb_spec gs 0); [lia|]. apply Ok_inj in E. subst groups.
  pose proof (Z.div_pos (Z.of_nat (List.length ids)) gs ltac:(lia) Hg) as P. pose proof (Z.mul_div_le (Z.of_nat (List.length ids)) gs Hg) as D. set (q := (Z.of_nat (List.length ids) / gs)%Z) in *. clearbody q.
  rewrite map_length, seq_length, !map_map. cbn [fst snd]. split; [lia|]. split; [apply map_id|]. split; [apply concat_slices|].
  intros i x J. apply in_map_iff in J as (j & E & J). injection E as -> <-. apply in_seq in J. unfold slice. rewrite firstn_length, skipn_length. assert ((i * Z.to_nat gs + Z.to_nat gs <= List.length ids)%nat); [|lia].
  assert ((Z.of_nat i * gs + gs <= gs * q)%Z) by nia. nia.
Qed.
Print Assumptions C56_html.
(** Positioners of the last group are in no page unless the number of positioners is a multiple of [groupsize]. *)
Theorem C56_html_refuted : ~ (forall ids groupsize groups, (0 < groupsize)%Z -> html_groups ids groupsize = Ok groups -> List.concat (map snd groups) = ids).
Proof. intros H. specialize (H ["M1"; "M2"; "M3"] 2%Z _ eq_refl eq_refl). discriminate H. Qed.
Print Assumptions C56_html_refuted.
(** Size zero raises ZeroDivisionError, and with a negative size nothing is written. *)
Theorem C56_not_positive : forall ids groupsize, (groupsize <= 0)%Z ->
  (groupsize = 0%Z -> text_groups ids groupsize = Err ZeroDivision) /\ (groupsize <> 0%Z -> text_groups ids groupsize = Ok []).
Proof.
  intros ids gs H. unfold text_groups. split; [intros ->; reflexivity|]. intros N. destruct (Z.eqb_spec gs 0); [contradiction|]. f_equal. replace (Z.to_nat gs) with 0%nat by lia. induction (seq _ _) as [|i l IH]; [reflexivity|]. cbn. unfold slice. cbn. exact IH.
Qed.
Print Assumptions C56_not_positive.
Example C56_example : text_groups ["M1"; "M2"; "M3"; "M4"; "M5"] 2 = Ok [(0%nat, ["M1"; "M2"]); (1%nat, ["M3"; "M4"]); (2%nat, ["M5"])] /\ text_groups ["M1"; "M2"; "M3"; "M4"] 2 = Ok [(0%nat, ["M1"; "M2"]); (1%nat, ["M3"; "M4"])].
Proof. split; reflexivity. Qed.

(** Every positioner of the table is in exactly one of the groups of the text output or in the list of those not to be moved; fiducials are in none. *)
Theorem C56_partition : forall argsort table groupsize text html bad, (0 < groupsize)%Z -> main argsort table groupsize = Ok (text, html, bad) ->
  Permutation (List.concat (map snd text) ++ bad) (map s_id (filter (fun s => Z.eqb (s_pinhole s) 0) table)).
Proof.
  intros argsort table gs text html bad Hg H. unfold main in H. set (spots := filter _ table) in *. destruct (ok2move _ _ _ spots) as [ok|] eqn:O; [|discriminate]. cbn [rbind] in H.
  destruct (text_groups _ gs) as [t|] eqn:T; [|discriminate]. cbn [rbind] in H. destruct (html_groups _ gs) as [h|]; [|discriminate]. cbn [rbind] in H. apply Ok_inj in H. injection H as <- <- <-. apply C56_text in T as [-> _]; [|exact Hg].
  assert (L : List.length spots = List.length ok). { unfold ok2move in O. destruct (find_neighbors argsort spots) as [l|] eqn:F; [|discriminate]. apply Ok_inj in O. subst ok. rewrite map_length. unfold find_neighbors in F. apply rmapM_Ok_Forall2 in F. now apply Forall2_length in F. }
  clear O Hg. revert ok L. generalize spots. clear. induction spots as [|s l IH]; intros [|b ok] L; try discriminate; [constructor|]. cbn in *. specialize (IH ok ltac:(lia)). destruct b; cbn.
  - now constructor.
  - rewrite <- Permutation_middle. now constructor.
Qed.
Print Assumptions C56_partition.

(** C82. Which positioners may be moved. *)
Definition dist (a b : spot) : R := sqrt ((s_x a - s_x b) ^ 2 + (s_y a - s_y b) ^ 2).
(** [j] and [k] are the two spots nearest to spot [i] *)
Definition nearest_two (spots : list spot) (i j k : nat) : Prop :=
  i <> j /\ i <> k /\ j <> k /\ exists si sj sk, nth_error spots i = Some si /\ nth_error spots j = Some sj /\ nth_error spots k = Some sk /\
  dist sj si <= dist sk si /\ forall l sl, nth_error spots l = Some sl -> l <> i -> l <> j -> l <> k -> dist sk si <= dist sl si.
(** seen from [s], the directions of [a] and [b] are at least 90 degrees apart *)
Definition wide (s a b : spot) : Prop := (s_x a - s_x s) * (s_x b - s_x s) + (s_y a - s_y s) * (s_y b - s_y s) <= 0.

Lemma dist_pos a b : (s_x a, s_y a) <> (s_x b, s_y b) -> 0 < dist a b.
Proof.
  intros N. apply sqrt_lt_R0. assert (s_x a - s_x b <> 0 \/ s_y a - s_y b <> 0). { destruct (Req_dec (s_x a - s_x b) 0); [|auto]. right. intros E. apply N. f_equal; lra. }
  pose proof (pow2_ge_0 (s_x a - s_x b)). pose proof (pow2_ge_0 (s_y a - s_y b)). destruct H as [H|H]; apply Rsqr_pos_lt in H; unfold Rsqr in H; nra.
Qed.
Lemma dist_self a : dist a a = 0.
Proof. unfold dist. replace ((s_x a - s_x a) ^ 2 + (s_y a - s_y a) ^ 2) with 0 by ring. apply sqrt_0. Qed.

Lemma acute x1 y1 x2 y2 : hypot x1 y1 * hypot x2 y2 <> 0 -> (acos ((x1 * x2 + y1 * y2) / (hypot x1 y1 * hypot x2 y2)) * (180 / PI) < 90 <-> 0 < x1 * x2 + y1 * y2).
Proof.
  intros N. set (n := hypot x1 y1 * hypot x2 y2) in *. assert (Pn : 0 < n). { assert (0 <= n) by (apply Rmult_le_pos; apply sqrt_pos). lra. }
  assert (CS : -1 <= (x1 * x2 + y1 * y2) / n <= 1).
  { assert (Sq : (x1 * x2 + y1 * y2) ^ 2 <= n ^ 2). { unfold n, hypot. rewrite Rpow_mult_distr, !pow2_sqrt by nra. assert (0 <= (x1 * y2 - x2 * y1) ^ 2) by apply pow2_ge_0. nra. }
    assert (A : - n <= x1 * x2 + y1 * y2 <= n) by nra. split; [apply Rmult_le_reg_r with n; [exact Pn|]|apply Rmult_le_reg_r with n; [exact Pn|]]; unfold Rdiv; rewrite Rmult_assoc, Rinv_l by lra; lra. }
  set (c := (x1 * x2 + y1 * y2) / n) in *. assert (Ec : 0 < c <-> 0 < x1 * x2 + y1 * y2). { unfold c. split; intros H; [apply Rmult_lt_reg_r with (/ n); [now apply Rinv_0_lt_compat|lra]|apply Rmult_lt_0_compat; [exact H|now apply Rinv_0_lt_compat]]. }
  rewrite <- Ec. pose proof PI_RGT_0 as HP. pose proof (acos_bound c) as B. assert (E2 : acos c * (180 / PI) < 90 <-> acos c < PI / 2).
  { split; intros H; [apply Rmult_lt_reg_r with (180 / PI); [apply Rdiv_lt_0_compat; lra|]; replace (PI / 2 * (180 / PI)) with 90 by (field; lra); exact H|]. replace 90 with (PI / 2 * (180 / PI)) by (field; lra). apply Rmult_lt_compat_r; [apply Rdiv_lt_0_compat; lra|exact H]. }
  rewrite E2. pose proof (cos_acos c CS) as CA. split; intros H.
  - rewrite <- CA. apply cos_gt_0; lra.
  - destruct (Rlt_dec (acos c) (PI / 2)) as [|G]; [assumption|]. exfalso. assert (cos (acos c) <= 0) by (apply cos_le_0; lra). lra.
Qed.

(** If no two spots coincide, a spot is not ok to move exactly when its two nearest spots are both closer than 3.5 mm and lie at least 90 degrees apart.
    (When the second and third nearest are equally far, the choice is that of argsort.) *)
Theorem C82_wedged : forall argsort spots ok, is_argsort argsort -> (forall i j a b, nth_error spots i = Some a -> nth_error spots j = Some b -> i <> j -> (s_x a, s_y a) <> (s_x b, s_y b)) ->
  ok2move argsort 3.5 90 spots = Ok ok ->
  List.length ok = List.length spots /\
  forall i si b, nth_error spots i = Some si -> nth_error ok i = Some b ->
    exists j k sj sk, nearest_two spots i j k /\ nth_error spots j = Some sj /\ nth_error spots k = Some sk /\ (b = false <-> dist sj si < 3.5 /\ dist sk si < 3.5 /\ wide si sj sk).
Proof.
  intros argsort spots ok HA D H. unfold ok2move in H. destruct (find_neighbors argsort spots) as [l|] eqn:F; [|discriminate]. cbn [rmap] in H. apply Ok_inj in H. subst ok. rewrite map_length. unfold find_neighbors in F. apply rmapM_Ok_Forall2 in F. split; [symmetry; now apply Forall2_length in F|].
  intros i si b Ei Eb. rewrite nth_error_map in Eb. destruct (nth_error l i) as [ni|] eqn:El; [|discriminate]. cbn in Eb. injection Eb as <-.
  assert (G : neighbors_of argsort spots si = Ok ni). { clear -F Ei El. revert i Ei El. generalize (neighbors_of argsort spots) F. clear. intros f F. induction F as [|a b l m E F IH]; intros [|i] Ei El; try discriminate; cbn in *; [congruence|eauto]. }
  clear F El l. unfold neighbors_of in G. set (dx := map (fun q => s_x q - s_x si) spots) in *. set (dy := map (fun q => s_y q - s_y si) spots) in *. set (d := map _ (combine dx dy)) in *.
  assert (Ed : d = map (fun q => dist q si) spots). { unfold d, dx, dy, dist, hypot. clear. induction spots as [|a l IH]; [reflexivity|]. cbn [map combine fst snd]. f_equal. exact IH. }
  destruct (HA R Rltb d) as [P S].
  { split; [intros x; apply Rltb_false; lra| |]; intros x y z; rewrite !Rltb_true; [lra|]. intros. destruct (Rlt_dec x y); [auto|right; lra]. }
  assert (Nth : forall m sm, nth_error spots m = Some sm -> nth_error d m = Some (dist sm si)). { intros m sm E. rewrite Ed, nth_error_map, E. reflexivity. }
  assert (Rng : forall m, In m (argsort R Rltb d) -> exists sm, nth_error spots m = Some sm). { intros m J. apply (Permutation_in _ P) in J. apply in_seq in J. rewrite Ed, map_length in J. destruct (nth_error spots m) as [sm|] eqn:E; [eauto|]. apply nth_error_None in E. lia. }
  destruct (argsort R Rltb d) as [|p0 [|j [|k rest]]] eqn:Ea; cbn [skipn firstn] in G; try discriminate.
  assert (N : NoDup (p0 :: j :: k :: rest)) by (apply (Permutation_NoDup (Permutation_sym P)), seq_NoDup).
  (* the first is the spot itself *)
  destruct (Rng p0 (or_introl eq_refl)) as (s0 & E0). destruct (Rng j (or_intror (or_introl eq_refl))) as (sj & Ej). destruct (Rng k (or_intror (or_intror (or_introl eq_refl)))) as (sk & Ek).
  assert (Ii : In i (p0 :: j :: k :: rest)). { apply (Permutation_in _ (Permutation_sym P)). apply in_seq. rewrite Ed, map_length. split; [lia|]. cbn. apply nth_error_Some. congruence. }
  inversion S as [|? ? S1 F0]; subst. inversion S1 as [|? ? S2 Fj]; subst. inversion S2 as [|? ? _ Fk]; subst. rewrite Forall_forall in F0, Fj, Fk.
  assert (p0 = i). { destruct Ii as [|Ii]; [assumption|]. exfalso. specialize (F0 i Ii _ _ (Nth _ _ E0) (Nth _ _ Ei)). rewrite dist_self in F0. apply Rltb_false in F0. assert (p0 <> i) by (intros ->; inversion N; subst; contradiction).
    pose proof (dist_pos s0 si (D _ _ _ _ E0 Ei H)). lra. }
  subst p0. assert (Nij : i <> j /\ i <> k /\ j <> k). { inversion N as [|? ? N1 N2]; subst. inversion N2 as [|? ? N3 _]; subst. cbn in N1, N3. repeat split; intros ->; tauto. } destruct Nij as (Nj & Nk & Njk).
  exists j, k, sj, sk. split; [|split; [exact Ej|split; [exact Ek|]]].
  - split; [exact Nj|]. split; [exact Nk|]. split; [exact Njk|]. exists si, sj, sk. split; [exact Ei|]. split; [exact Ej|]. split; [exact Ek|]. split.
    + specialize (Fj k (or_introl eq_refl) _ _ (Nth _ _ Ej) (Nth _ _ Ek)). apply Rltb_false in Fj. lra.
    + intros m sm Em M1 M2 M3. assert (J : In m (i :: j :: k :: rest)). { apply (Permutation_in _ (Permutation_sym P)). apply in_seq. rewrite Ed, map_length. split; [lia|]. cbn. apply nth_error_Some. congruence. }
      destruct J as [J|[J|[J|J]]]; try congruence. specialize (Fk m J _ _ (Nth _ _ Ek) (Nth _ _ Em)). apply Rltb_false in Fk. lra.
  - assert (Gi : forall (f : spot -> R) m sm, nth_error spots m = Some sm -> geti (map f spots) m = Ok (f sm)). { intros f m sm E. unfold geti. rewrite nth_error_map, E. reflexivity. }
    unfold dx, dy in G. clearbody d. subst d. rewrite !(Gi _ _ _ Ej), !(Gi _ _ _ Ek) in G. cbn [rbind] in G. apply Ok_inj in G. subst ni. unfold is_ok. cbv zeta. rewrite Bool.orb_false_iff, Bool.negb_false_iff, Bool.andb_true_iff, !Rltb_true.
    set (n := hypot (s_x sj - s_x si) (s_y sj - s_y si) * hypot (s_x sk - s_x si) (s_y sk - s_y si)).
    assert (Nz : n <> 0). { pose proof (dist_pos sj si (D _ _ _ _ Ej Ei (not_eq_sym Nj))) as A. pose proof (dist_pos sk si (D _ _ _ _ Ek Ei (not_eq_sym Nk))) as B. apply Rgt_not_eq. now apply Rmult_lt_0_compat. }
    destruct (Reqb n 0) eqn:En; [apply Reqb_true in En; contradiction|]. rewrite Rltb_false. unfold wide. pose proof (acute _ _ _ _ Nz) as A. fold n in A. split.
    + intros [[X Y] W]. split; [exact X|]. split; [exact Y|]. destruct (Rle_dec ((s_x sj - s_x si) * (s_x sk - s_x si) + (s_y sj - s_y si) * (s_y sk - s_y si)) 0) as [|G]; [assumption|]. apply Rnot_le_lt in G. apply A in G. lra.
    + intros (X & Y & W). split; [auto|]. destruct (Rle_dec 90 (acos (((s_x sj - s_x si) * (s_x sk - s_x si) + (s_y sj - s_y si) * (s_y sk - s_y si)) / n) * (180 / PI))) as [|G]; [assumption|]. apply Rnot_le_lt in G. apply A in G. lra.
Qed.
Print Assumptions C82_wedged.

(** The program: with a size of groups that is positive, the groups written are, in order, the positioners that are not wedged as above, and the page of
    those not to be moved has exactly the wedged ones. The full groups have a page each. *)
Theorem C82_program : forall argsort table groupsize text html bad, is_argsort argsort -> (0 < groupsize)%Z ->
  let spots := filter (fun s => Z.eqb (s_pinhole s) 0) table in
  (forall i j a b, nth_error spots i = Some a -> nth_error spots j = Some b -> i <> j -> (s_x a, s_y a) <> (s_x b, s_y b)) ->
  main argsort table groupsize = Ok (text, html, bad) ->
  exists ok, List.length ok = List.length spots /\
    (forall i si b, nth_error spots i = Some si -> nth_error ok i = Some b ->
      exists j k sj sk, nearest_two spots i j k /\ nth_error spots j = Some sj /\ nth_error spots k = Some sk /\ (b = false <-> dist sj si < 3.5 /\ dist sk si < 3.5 /\ wide si sj sk)) /\
    List.concat (map snd text) = map (fun so => s_id (fst so)) (filter (fun so => snd so) (combine spots ok)) /\
    bad = map (fun so => s_id (fst so)) (filter (fun so => negb (snd so)) (combine spots ok)) /\
    List.concat (map snd html) = firstn (List.length html * Z.to_nat groupsize) (List.concat (map snd text)).
Proof.
  intros argsort table gs text html bad HA Hg spots D H. unfold main in H. fold spots in H. destruct (ok2move argsort 3.5 90 spots) as [ok|] eqn:E; [|discriminate]. cbn [rbind] in H.
  destruct (text_groups _ gs) as [t|] eqn:T; [|discriminate]. cbn [rbind] in H. destruct (html_groups _ gs) as [h|] eqn:G; [|discriminate]. cbn [rbind] in H.
  assert (X : t = text /\ h = html /\ map (fun so => s_id (fst so)) (filter (fun so => negb (snd so)) (combine spots ok)) = bad) by (injection H; auto). destruct X as (<- & <- & Eb). destruct (C82_wedged _ _ _ HA D E) as [L W].
  destruct (C56_text _ _ _ Hg T) as (Ct & _). destruct (C56_html _ _ _ Hg G) as (_ & _ & Ch & _). exists ok. rewrite Ct, Ch. auto.
Qed.
Print Assumptions C82_program.

(** With one or two positioners the program stops; from three on it does not. *)
Theorem C82_three : forall argsort tooclose maxangle spots, is_argsort argsort ->
  (spots = [] -> ok2move argsort tooclose maxangle spots = Ok []) /\
  (List.length spots = 1%nat \/ List.length spots = 2%nat -> ok2move argsort tooclose maxangle spots = Err ValueError) /\
  ((3 <= List.length spots)%nat -> exists ok, ok2move argsort tooclose maxangle spots = Ok ok).
Proof.
  intros argsort tc ma spots HA. split; [intros ->; reflexivity|].
  assert (SW : strict_weak Rltb). { split; [intros x; apply Rltb_false; lra| |]; intros x y z; rewrite !Rltb_true; [lra|]. intros. destruct (Rlt_dec x y); [auto|right; lra]. }
  assert (L : forall s d, d = map (fun xy : R * R => hypot (fst xy) (snd xy)) (combine (map (fun q => s_x q - s_x s) spots) (map (fun q => s_y q - s_y s) spots)) -> Permutation (argsort R Rltb d) (seq 0 (List.length spots))).
  { intros s d ->. destruct (HA R Rltb (map (fun xy : R * R => hypot (fst xy) (snd xy)) (combine (map (fun q => s_x q - s_x s) spots) (map (fun q => s_y q - s_y s) spots))) SW) as [P _]. rewrite map_length, combine_length, !map_length, Nat.min_id in P. exact P. }
  split.
  - intros H. unfold ok2move, find_neighbors. destruct spots as [|s l]; [cbn in H; lia|]. cbn [rmapM]. unfold neighbors_of at 1. specialize (L s _ eq_refl). apply Permutation_length in L. rewrite seq_length in L.
    destruct (argsort _ _ _) as [|a [|b [|c r]]]; cbn in *; try reflexivity; lia.
  - intros H. assert (T : forall s, exists n, neighbors_of argsort spots s = Ok n).
    { intros s. unfold neighbors_of. specialize (L s _ eq_refl). pose proof (Permutation_length L) as LL. rewrite seq_length in LL. destruct (argsort _ _ _) as [|a [|b [|c r]]]; cbn in LL; try lia. cbn [skipn firstn].
      assert (Rb : (b < List.length spots)%nat) by (assert (J : In b (seq 0 (List.length spots))) by (apply (Permutation_in _ L); cbn; auto); apply in_seq in J; lia).
      assert (Rc : (c < List.length spots)%nat) by (assert (J : In c (seq 0 (List.length spots))) by (apply (Permutation_in _ L); cbn; auto); apply in_seq in J; lia).
      assert (G : forall (A : Type) (l : list A) m, (m < List.length l)%nat -> exists v, geti l m = Ok v). { intros A l m Hm. unfold geti. destruct (nth_error l m) eqn:E; [eauto|]. apply nth_error_None in E. lia. }
      repeat match goal with |- context [rbind (geti ?l ?m) _] => destruct (G _ l m) as (? & ->); [rewrite ?map_length, ?combine_length, ?map_length, ?Nat.min_id; assumption|]; cbn [rbind] end. eauto. }
    unfold ok2move, find_neighbors. assert (M : exists l, rmapM (neighbors_of argsort spots) spots = Ok l). { generalize spots at 2. induction spots0 as [|s l [m IH]]; [exists []; reflexivity|]. destruct (T s) as (n & En). cbn [rmapM]. rewrite En. cbn [rbind]. rewrite IH. cbn. eauto. }
    destruct M as (l & ->). cbn. eauto.
Qed.
Print Assumptions C82_three.

(** Three positioners in a row, 3 mm apart: only the one in the middle is wedged. *)
Definition row : list spot := [{| s_id := "M1"; s_pinhole := 0; s_x := 0; s_y := 0 |}; {| s_id := "M2"; s_pinhole := 0; s_x := 3; s_y := 0 |}; {| s_id := "M3"; s_pinhole := 0; s_x := -3; s_y := 0 |}].
Example C82_example : ok2move isort_argsort 3.5 90 row = Ok [false; true; true].
Proof.
  destruct (C82_three isort_argsort 3.5 90 row isort_is_argsort) as (_ & _ & T). destruct T as (ok & Eok); [cbn; lia|]. rewrite Eok. f_equal.
  assert (D : forall i j a b, nth_error row i = Some a -> nth_error row j = Some b -> i <> j -> (s_x a, s_y a) <> (s_x b, s_y b)).
  { intros [|[|[|i]]] [|[|[|j]]] a b Ei Ej N E; cbn in Ei, Ej; try (destruct i; discriminate); try (destruct j; discriminate); try congruence; injection Ei as <-; injection Ej as <-; cbn in E; injection E; lra. }
  destruct (C82_wedged _ _ _ isort_is_argsort D Eok) as [L W]. destruct ok as [|b0 [|b1 [|b2 [|]]]]; try discriminate L. clear Eok L.
  assert (D1 : forall x y : R, 0 <= y -> x = y ^ 2 -> sqrt x = y) by (intros x y P ->; now apply sqrt_pow2).
  f_equal; [|f_equal; [|f_equal]].
  - destruct (W 0%nat _ _ eq_refl eq_refl) as (j & k & sj & sk & (N1 & N2 & N3 & _) & Ej & Ek & B).
    apply B. destruct j as [|[|[|j]]], k as [|[|[|k]]]; cbn in Ej, Ek; try congruence; try (destruct j; discriminate); try (destruct k; discriminate); injection Ej as <-; injection Ek as <-; unfold dist, wide; cbn [s_x s_y];
    rewrite !(D1 _ 3) by lra; lra.
  - destruct (W 1%nat _ _ eq_refl eq_refl) as (j & k & sj & sk & (N1 & N2 & N3 & _) & Ej & Ek & B). destruct b1; [reflexivity|]. exfalso. destruct (proj1 B eq_refl) as (_ & _ & X). revert X.
    destruct j as [|[|[|j]]], k as [|[|[|k]]]; cbn in Ej, Ek; try congruence; try (destruct j; discriminate); try (destruct k; discriminate); injection Ej as <-; injection Ek as <-; unfold wide; cbn [s_x s_y]; lra.
  - destruct (W 2%nat _ _ eq_refl eq_refl) as (j & k & sj & sk & (N1 & N2 & N3 & _) & Ej & Ek & B). destruct b2; [reflexivity|]. exfalso. destruct (proj1 B eq_refl) as (_ & _ & X). revert X.
    destruct j as [|[|[|j]]], k as [|[|[|k]]]; cbn in Ej, Ek; try congruence; try (destruct j; discriminate); try (destruct k; discriminate); injection Ej as <-; injection Ek as <-; unfold wide; cbn [s_x s_y]; lra.
Qed.
(** With a fiducial in the table and groups of two: the fiducial is left out, M1 is not to be moved. *)
Example C82_program_example : main isort_argsort ({| s_id := "F1"; s_pinhole := 1; s_x := 1; s_y := 0 |} :: row) 2 = Ok ([(0%nat, ["M2"; "M3"])], [(0%nat, ["M2"; "M3"])], ["M1"]).
Proof. unfold main. cbn [filter s_pinhole]. change (Z.eqb 1 0) with false. change (filter (fun s => Z.eqb (s_pinhole s) 0) row) with row. cbn match. rewrite C82_example. reflexivity. Qed.
