From Verif.Model Require Import Gfa2fp.
From Verif.Spec Require Import Trig LinAlg SimpleCorr Numpy Gfa.
From Verif.Proofs Require Import Prelude RealNum Trig LinAlg ZhaoBurge SimpleCorr Stats Sorting Numpy Fvc2fpPairs.
From Coq Require Import Lra Lia Permutation.
Local Open Scope R_scope.

Definition corner_coeffs (v0 v1 v2 v3 : R) : list R := [(3 * v0 + v1 - v2 + v3) / 4; (v1 - v0 + v2 - v3) / (2 * 2047); (v3 - v0 + v2 - v1) / (2 * 1031)].
Definition corner_samples (v0 v1 v2 v3 : R) : list (list R * R) := [([1; 0; 0], v0); ([1; 2047; 0], v1); ([1; 2047; 1031], v2); ([1; 0; 1031], v3)].
Lemma corner_least_squares v0 v1 v2 v3 : least_squares 3 (corner_samples v0 v1 v2 v3) (corner_coeffs v0 v1 v2 v3).
Proof.
  split; [reflexivity|]. intros q Lq Nq. destruct q as [|a [|b [|c [|]]]]; try discriminate.
  unfold sum_sq, corner_samples, corner_coeffs. cbn [map fold_right combination fst snd].
  set (p0 := (3 * v0 + v1 - v2 + v3) / 4). set (p1 := (v1 - v0 + v2 - v3) / (2 * 2047)). set (p2 := (v3 - v0 + v2 - v1) / (2 * 1031)).
  assert (E0 : 4 * p0 = 3 * v0 + v1 - v2 + v3) by (unfold p0; field). assert (E1 : 4094 * p1 = v1 - v0 + v2 - v3) by (unfold p1; field). assert (E2 : 2062 * p2 = v3 - v0 + v2 - v1) by (unfold p2; field).
  pose (d0 := a - p0). pose (d1 := b - p1). pose (d2 := c - p2).
  assert (ND : d0 <> 0 \/ d0 + 2047 * d1 <> 0 \/ d0 + 2047 * d1 + 1031 * d2 <> 0).
  { destruct (Req_dec d0 0) as [Z0|]; [|now left]. destruct (Req_dec (d0 + 2047 * d1) 0) as [Z1|]; [|right; now left]. destruct (Req_dec (d0 + 2047 * d1 + 1031 * d2) 0) as [Z2|]; [|right; now right].
    exfalso. apply Nq. unfold corner_coeffs. fold p0 p1 p2. unfold d0, d1, d2 in *. repeat f_equal; lra. }
  assert (S : 0 < d0 ^ 2 + (d0 + 2047 * d1) ^ 2 + (d0 + 2047 * d1 + 1031 * d2) ^ 2 + (d0 + 1031 * d2) ^ 2).
  { pose proof (pow2_ge_0 d0). pose proof (pow2_ge_0 (d0 + 2047 * d1)). pose proof (pow2_ge_0 (d0 + 2047 * d1 + 1031 * d2)). pose proof (pow2_ge_0 (d0 + 1031 * d2)).
    assert (SQ : forall x, x <> 0 -> 0 < x ^ 2) by (intros; nra). destruct ND as [N|[N|N]]; apply SQ in N; lra. }
  replace a with (p0 + d0) by (unfold d0; ring). replace b with (p1 + d1) by (unfold d1; ring). replace c with (p2 + d2) by (unfold d2; ring).
  clearbody d0 d1 d2. clear ND Nq Lq a b c.
  (* residuals: r, -r, r, -r *)
  pose (r := v0 - p0). assert (V0 : v0 = p0 + r) by (unfold r; ring). assert (V1 : v1 = p0 + 2047 * p1 - r) by (unfold r; lra). assert (V2 : v2 = p0 + 2047 * p1 + 1031 * p2 + r) by (unfold r; lra). assert (V3 : v3 = p0 + 1031 * p2 - r) by (unfold r; lra).
  clearbody r p0 p1 p2. subst v0 v1 v2 v3. clear E0 E1 E2. nra.
Qed.
Definition corner_data (x y : nat -> R) : list (point * point) := [((0, 0), (x 0%nat, y 0%nat)); ((2047, 0), (x 1%nat, y 1%nat)); ((2047, 1031), (x 2%nat, y 2%nat)); ((0, 1031), (x 3%nat, y 3%nat))].
Lemma corner_not_collinear x y : not_collinear (corner_data x y).
Proof.
  intros a b c H. pose proof (H _ (or_introl eq_refl)) as H1. pose proof (H _ (or_intror (or_introl eq_refl))) as H2. pose proof (H _ (or_intror (or_intror (or_introl eq_refl)))) as H3. cbn in H1, H2, H3. lra.
Qed.
Lemma keys_unique {A} (key : A -> Z * Z) S : forall S', Permutation S S' -> NoDup (map key S') -> map key S = map key S' -> S = S'.
Proof.
  induction S as [|a S IH]; intros [|b S'] P N E; try discriminate; [reflexivity|]. cbn in E. injection E as E1 E2. cbn in N. inversion N as [|? ? N1 N2]; subst.
  assert (a = b). { destruct (Permutation_in a P (or_introl eq_refl)) as [|H]; [now symmetry|]. exfalso. apply N1. rewrite <- E1. now apply in_map. }
  subst b. f_equal. apply IH; [now apply Permutation_cons_inv in P|assumption|assumption].
Qed.
Lemma perm_filter {A} (f : A -> bool) l l' : Permutation l l' -> Permutation (filter f l) (filter f l').
Proof.
  induction 1; cbn; [constructor| | |eapply perm_trans; eassumption].
  - destruct (f x); [now constructor|assumption].
  - destruct (f x), (f y); try reflexivity. constructor.
Qed.
Lemma ascending_filter {A} (key : A -> Z * Z) f l : ascending key_ltb (map key l) -> ascending key_ltb (map key (filter f l)).
Proof.
  induction l as [|a l IH]; cbn; intros H; [constructor|]. inversion H as [|? ? H1 H2]; subst. destruct (f a); [|now apply IH]. cbn. constructor; [now apply IH|].
  rewrite Forall_map in *. apply Forall_forall. intros x Hx. apply filter_In in Hx. rewrite Forall_forall in H2. now apply H2.
Qed.
Lemma filter_filter {A} (f g : A -> bool) l : filter f (filter g l) = filter (fun a => g a && f a)%bool l.
Proof. induction l as [|a l IH]; cbn; [reflexivity|]. destruct (g a) eqn:G; cbn; [destruct (f a); now rewrite IH|exact IH]. Qed.

(** *** One petal *)
Lemma fit_corners r0 r1 r2 r3 : 
  let trace := (g_x r1 - g_x r0 + g_x r2 - g_x r3) / (2 * 2047) + (g_y r3 - g_y r0 + g_y r2 - g_y r1) / (2 * 1031) in
  (trace = 0 -> corr_fit simplecorr_init xgfa ygfa (map g_x [r0; r1; r2; r3]) (map g_y [r0; r1; r2; r3]) false = Err NonFinite) /\
  (trace <> 0 -> exists c, corr_fit simplecorr_init xgfa ygfa (map g_x [r0; r1; r2; r3]) (map g_y [r0; r1; r2; r3]) false = Ok c /\
    forall p, corr_apply c p = (corner_fit (g_x r0) (g_x r1) (g_x r2) (g_x r3) p, corner_fit (g_y r0) (g_y r1) (g_y r2) (g_y r3) p)).
Proof.
  cbv zeta. pose (rows := [r0; r1; r2; r3]). pose (data := corner_data (fun i => g_x (nth i rows r0)) (fun i => g_y (nth i rows r0))).
  destruct (fit_affine_spec data simplecorr_init (corner_not_collinear _ _)) as (ax & ay & Lx & Ly & F0 & F1).
  assert (Ex : ax = corner_coeffs (g_x r0) (g_x r1) (g_x r2) (g_x r3)) by (apply (least_squares_unique 3 (x_samples data)); [exact Lx|apply corner_least_squares]).
  assert (Ey : ay = corner_coeffs (g_y r0) (g_y r1) (g_y r2) (g_y r3)) by (apply (least_squares_unique 3 (y_samples data)); [exact Ly|apply corner_least_squares]).
  subst ax ay. cbn [corner_coeffs nth] in F0, F1. split; intros T; [exact (F0 T)|]. destruct (F1 T) as (c & E & A & _). exists c. split; [exact E|]. intros p. rewrite (proj2 A) by (right; exists 0%Z; cbn; lra).
  unfold affine, corner_coeffs, corner_fit. cbn [combination]. f_equal; ring.
Qed.
Lemma normalize3_spec v : (exists n, 0 < n /\ normalize3 v = Ok (let '(x, y, z) := v in (x / n, y / n, z / n))) \/ (normalize3 v = Err NonFinite /\ v = (0, 0, 0)).
Proof.
  destruct v as [[x y] z]. unfold normalize3. set (n := sqrt _). destruct (Reqb n 0) eqn:E.
  - right. split; [reflexivity|]. apply Reqb_true in E. unfold n in E. apply sqrt_eq_0 in E; [|pose proof (pow2_ge_0 x); pose proof (pow2_ge_0 y); pose proof (pow2_ge_0 z); lra].
    pose proof (pow2_ge_0 x); pose proof (pow2_ge_0 y); pose proof (pow2_ge_0 z). assert (Z : forall t, t ^ 2 = 0 -> t = 0) by (intros; nra). rewrite (Z x), (Z y), (Z z) by lra. reflexivity.
  - left. exists n. split; [|reflexivity]. apply Reqb_false in E. assert (0 <= n) by apply sqrt_pos. lra.
Qed.
Lemma shift_spec r0 r1 r2 rest : let '(nx, ny, nz) := normal_of (g_xyz r0) (g_xyz r1) (g_xyz r2) in
  gfa_shift (r0 :: r1 :: r2 :: rest) = if Reqb nz 0 then Err NonFinite else Ok (2.23 * (nx / nz), 2.23 * (ny / nz)).
Proof.
  unfold gfa_shift, g_xyz. cbn [geti nth_error rbind normal_of sub3].
  set (u := g_x r1 - g_x r0). set (v := g_y r1 - g_y r0). set (w := g_z r1 - g_z r0). set (u' := g_x r2 - g_x r1). set (v' := g_y r2 - g_y r1). set (w' := g_z r2 - g_z r1).
  destruct (normalize3_spec (u, v, w)) as [(n & Pn & ->)|[-> E]]; cbn [rbind].
  2:{ injection E as -> -> ->. assert (Reqb (0 * v' - 0 * u') 0 = true) as -> by (apply Reqb_true; ring). reflexivity. }
  destruct (normalize3_spec (u', v', w')) as [(n' & Pn' & ->)|[-> E]]; cbn [rbind].
  2:{ injection E as -> -> ->. assert (Reqb (u * 0 - v * 0) 0 = true) as -> by (apply Reqb_true; ring). reflexivity. }
  cbn [cross]. assert (Ez : u / n * (v' / n') - v / n * (u' / n') = (u * v' - v * u') / (n * n')) by (field; lra).
  assert (Pnn : 0 < n * n') by nra. destruct (Reqb (u * v' - v * u') 0) eqn:Z.
  - apply Reqb_true in Z. assert (Reqb (u / n * (v' / n') - v / n * (u' / n')) 0 = true) as ->; [|reflexivity]. apply Reqb_true. rewrite Ez, Z. unfold Rdiv. ring.
  - apply Reqb_false in Z. assert (Reqb (u / n * (v' / n') - v / n * (u' / n')) 0 = false) as ->.
    { apply Reqb_false. rewrite Ez. intros H. apply Z. apply (Rmult_eq_reg_r (/ (n * n'))); [|apply Rinv_neq_0_compat; lra]. rewrite Rmult_0_l. exact H. }
    f_equal. f_equal; field; repeat split; lra.
Qed.

(** *** The table *)
Section Table.
Variable argsort : forall K, (K -> K -> bool) -> list K -> list nat.
Hypothesis argsort_ok : is_argsort argsort.
Definition of_petal (p : Z) (g : gfa_row) : bool := (g_is_gfa g && Z.eqb (g_petal g) p)%bool.
Definition petals : list Z := [0; 1; 2; 3; 4; 5; 6; 7; 8; 9]%Z.

Lemma store_fit_four r0 r1 r2 r3 : store (fit_petal [r0; r1; r2; r3]) = Ok (fit_petal [r0; r1; r2; r3]).
Proof.
  unfold fit_petal. destruct (fit_corners r0 r1 r2 r3) as [A B]. cbv zeta in A, B. destruct (Req_dec ((g_x r1 - g_x r0 + g_x r2 - g_x r3) / (2 * 2047) + (g_y r3 - g_y r0 + g_y r2 - g_y r1) / (2 * 1031)) 0) as [E|E].
  - rewrite (A E). reflexivity.
  - destruct (B E) as (c & -> & _). cbn [rbind]. pose proof (shift_spec r0 r1 r2 [r3]) as S. destruct (normal_of _ _ _) as [[nx ny] nz]. rewrite S. destruct (Reqb nz 0); reflexivity.
Qed.
Lemma fit_not_four sel : length sel <> 4%nat -> store (fit_petal sel) = Err AssertionError.
Proof.
  intros H. unfold fit_petal, corr_fit, fit_affine, same_shapes. rewrite !map_length. cbn [xgfa ygfa length]. destruct (Nat.eqb_spec 4 (length sel)); [congruence|]. rewrite Bool.andb_false_r. reflexivity.
Qed.
Lemma find_concat (rows : list gfa_row) q : forall ps,
  find (fun e => Z.eqb (fst e) q) (List.concat (map (fun p => match filter (fun g => Z.eqb (g_petal g) p) rows with [] => [] | sel => [(p, fit_petal sel)] end) ps)) =
  if existsb (Z.eqb q) ps then match filter (fun g => Z.eqb (g_petal g) q) rows with [] => None | sel => Some (q, fit_petal sel) end else None.
Proof.
  induction ps as [|p ps IH]; [reflexivity|]. cbn [map List.concat existsb]. destruct (Z.eqb_spec q p) as [->|N]; cbn [orb].
  - destruct (filter _ rows) eqn:F; cbn [app find fst]; [|now rewrite Z.eqb_refl]. rewrite IH. destruct (existsb _ ps); [rewrite ?F|]; reflexivity.
  - destruct (filter (fun g => Z.eqb (g_petal g) p) rows) eqn:F; cbn [app find fst]; [exact IH|]. destruct (Z.eqb_spec p q); [congruence|]. exact IH.
Qed.
Lemma sorted_petal M p S : sort_rows argsort gfa_key (filter g_is_gfa M) = Ok S -> Permutation (filter (fun g => Z.eqb (g_petal g) p) S) (filter (of_petal p) M) /\ ascending key_ltb (map gfa_key (filter (fun g => Z.eqb (g_petal g) p) S)).
Proof.
  intros E. destruct (sort_rows_ok argsort argsort_ok gfa_key (filter g_is_gfa M)) as (S' & E' & P & A). rewrite E in E'. apply Ok_inj in E'. subst S'. split; [|now apply ascending_filter].
  unfold of_petal. rewrite <- filter_filter. now apply perm_filter.
Qed.
Lemma gfa_transform_spec M : (forall p, In p petals -> length (filter (of_petal p) M) = 0%nat \/ length (filter (of_petal p) M) = 4%nat) ->
  exists S, sort_rows argsort gfa_key (filter g_is_gfa M) = Ok S /\ forall p, gfa_transform argsort M p =
    if existsb (Z.eqb p) petals then match filter (fun g => Z.eqb (g_petal g) p) S with [] => Err KeyError | sel => fit_petal sel end else Err KeyError.
Proof.
  intros H. destruct (sort_rows_ok argsort argsort_ok gfa_key (filter g_is_gfa M)) as (S & E & P & A). exists S. split; [exact E|]. intros q. unfold gfa_transform, fit_gfa2fp. rewrite E. cbn [rbind].
  change [0; 1; 2; 3; 4; 5; 6; 7; 8; 9]%Z with petals. rewrite (rmapM_total _ (fun p => match filter (fun g => Z.eqb (g_petal g) p) S with [] => [] | sel => [(p, fit_petal sel)] end)).
  - cbn [rmap rbind]. rewrite find_concat. destruct (existsb _ petals); [|reflexivity]. destruct (filter _ S); reflexivity.
  - intros p Hp. destruct (sorted_petal M p S E) as [Pp _]. apply Permutation_length in Pp. destruct (H p Hp) as [L|L]; rewrite L in Pp; destruct (filter _ S) as [|a [|b [|c [|d [|? ?]]]]]; try discriminate Pp; [reflexivity|].
    rewrite store_fit_four. reflexivity.
Qed.
Lemma gfa_fit_refused M p : In p petals -> length (filter (of_petal p) M) <> 0%nat -> length (filter (of_petal p) M) <> 4%nat -> fit_gfa2fp argsort M = Err AssertionError.
Proof.
  intros Hp N0 N4. destruct (sort_rows_ok argsort argsort_ok gfa_key (filter g_is_gfa M)) as (S & E & _). unfold fit_gfa2fp. rewrite E. cbn [rbind]. change [0; 1; 2; 3; 4; 5; 6; 7; 8; 9]%Z with petals.
  assert (G : forall q, let f := fun p => match filter (fun g => Z.eqb (g_petal g) p) S with [] => Ok [] | sel => rmap (fun c => [(p, c)]) (store (fit_petal sel)) end in f q = Err AssertionError \/ exists l, f q = Ok l).
  { intros q. cbv zeta beta. destruct (filter _ S) as [|a l] eqn:F; [eauto|]. destruct (Nat.eq_dec (length (a :: l)) 4) as [L|L].
    - destruct l as [|b [|c [|d [|? ?]]]]; try discriminate L. rewrite store_fit_four. cbn [rmap]. eauto.
    - rewrite fit_not_four by exact L. now left. }
  assert (Bad : (fun p => match filter (fun g => Z.eqb (g_petal g) p) S with [] => Ok [] | sel => rmap (fun c => [(p, c)]) (store (fit_petal sel)) end) p = Err AssertionError).
  { cbv beta. destruct (sorted_petal M p S E) as [Pp _]. apply Permutation_length in Pp. destruct (filter (fun g => Z.eqb (g_petal g) p) S) as [|a l]; [cbn in Pp; congruence|]. rewrite fit_not_four by (rewrite Pp; exact N4). reflexivity. }
  set (f := fun p : Z => _) in *. assert (R : forall ps, In p ps -> rmapM f ps = Err AssertionError).
  { induction ps as [|q ps IH]; intros Hq; [destruct Hq|]. cbn [rmapM]. destruct (G q) as [Gq|[l Gq]]; fold f in Gq; cbv zeta in Gq.
    - change (f q = Err AssertionError) in Gq. rewrite Gq. reflexivity.
    - change (f q = Ok l) in Gq. rewrite Gq. cbn [rbind]. destruct Hq as [->|Hq]; [congruence|]. rewrite (IH Hq). reflexivity. }
  rewrite (R petals Hp). reflexivity.
Qed.
End Table.
