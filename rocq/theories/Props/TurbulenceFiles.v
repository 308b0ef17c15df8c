(** C121, C122: the turbulence solution of two tables, and the empirical covariance of the offsets. *)
From Coq Require Import String.
From Verif.Model Require Import TurbulenceFiles.
From Verif.Spec Require Import Numpy TurbulenceFiles.
From Verif.Proofs Require Import Prelude RealNum Stats LinAlg KeyMatch Sorting Numpy Turbulence TurbulenceFiles.
From Verif.Props Require Turbulence.
From Coq Require Import Reals Lra List Permutation Sorted.
Import ListNotations.
Local Open Scope R_scope.

(** C121. Every measured row comes back in its place. If its location is expected, XNEW, YNEW is the measured position less the turbulence that the solver finds for it, from
    the offsets of all common locations taken at the expected positions; otherwise the four columns stay NaN. *)
Theorem C121_rows : forall argsort minimize mode rq nuse ex fx scale expect measure, is_argsort argsort -> NoDup (map s_loc expect) -> NoDup (map s_loc (common expect measure)) ->
  mode = "independent"%string \/ mode = "gradwavefront"%string /\ scale = None ->
  forall solved, solved = (if String.eqb mode "independent" then solve_independent argsort minimize rq nuse (offsets expect measure) ex None fx (match scale with Some s => s | None => 1 end)
                           else solve_gradwavefront argsort minimize rq nuse (offsets expect measure) ex None fx) ->
  solve_files argsort minimize mode rq nuse ex None fx scale expect measure =
  match solved with Ok (xt, yt, p) => Ok (filled expect measure (combine xt yt), p) | Err e => Err e end.
Proof.
  intros argsort minimize mode rq nuse ex fx scale expect measure AS N M Md solved ->. unfold solve_files.
  assert (G : forall solve : list datum -> res (list R * list R * list R), (forall d x y p, solve d = Ok (x, y, p) -> length x = length d /\ length y = length d) ->
    solve_rows argsort solve expect measure = match solve (offsets expect measure) with Ok (xt, yt, p) => Ok (filled expect measure (combine xt yt), p) | Err e => Err e end).
  { intros solve L. destruct (solve (offsets expect measure)) as [[[xt yt] p]|e] eqn:E.
    - destruct (L _ _ _ _ E) as [Lx Ly]. now apply solve_rows_ok.
    - unfold solve_rows. rewrite (make_data_rows _ _ _ AS N). cbn [rbind]. now rewrite located_offsets, E. }
  destruct Md as [->|[-> ->]]; cbn [String.eqb Ascii.eqb Bool.eqb].
  - apply G. intros. eapply solve_independent_length; eauto.
  - apply (G (fun data => solve_gradwavefront argsort minimize rq nuse data ex None fx)). intros. eapply solve_gradwavefront_length; eauto.
Qed.
Print Assumptions C121_rows.

(** What is in a row: its place is that of the measured row, the corrected position and the turbulence add up to the measured position. *)
Theorem C121_values : forall expect measure turb, length turb = length (offsets expect measure) -> map fst (filled expect measure turb) = measure /\
  Forall (fun mc => match expected_at expect (fst mc), snd mc with
                    | Some _, Some (xn, yn, xt, yt) => xn + xt = fst (s_pos (fst mc)) /\ yn + yt = snd (s_pos (fst mc)) /\ In (xt, yt) turb
                    | None, None => True
                    | _, _ => False end) (filled expect measure turb).
Proof.
  intros expect measure turb. revert turb; induction measure as [|m r IH]; intros turb L; cbn [filled offsets flat_map] in *; [split; constructor|]. destruct (expected_at expect m) as [e|] eqn:X.
  - destruct turb as [|[x y] t]; cbn in L; [discriminate|]. destruct (IH t) as [I1 I2]; [unfold offsets; lia|]. split; [cbn; now rewrite I1|]. constructor.
    + cbn [fst snd]. rewrite X. split; [lra|]. split; [lra|now left].
    + eapply Forall_impl; [|exact I2]. intros [m' c]. cbn [fst snd]. destruct (expected_at expect m'), c as [[[[xn yn] xt] yt]|]; try tauto. intros (A & B & C). repeat split; try assumption. now right.
  - destruct (IH turb L) as [I1 I2]. split; [cbn; now rewrite I1|]. constructor; [cbn; now rewrite X|exact I2].
Qed.
Print Assumptions C121_values.

(** With the fixed covariance nothing can fail, and with excludeself the turbulence of a row is the one predicted at its expected position from the other rows alone. *)
Theorem C121_leave_one_out : forall argsort minimize nuse scale expect pre m post e, is_argsort argsort -> NoDup (map s_loc expect) -> NoDup (map s_loc (common expect (pre ++ m :: post))) ->
  expected_at expect m = Some e -> scale <> 0 ->
  exists out p xt yt, solve_files argsort minimize "independent" false nuse true None true (Some scale) expect (pre ++ m :: post) = Ok (out, p) /\
    nth_error out (length pre) = Some (m, Some (fst (s_pos m) - xt, snd (s_pos m) - yt, xt, yt)) /\
    solve_independent argsort minimize false nuse (offsets expect (pre ++ post)) false (Some [s_pos e]) true scale = Ok ([xt], [yt], p).
Proof.
  intros argsort minimize nuse scale expect pre m post e AS N M X Sc. rewrite (C121_rows argsort minimize "independent" false nuse true true (Some scale) expect (pre ++ m :: post) AS N M (or_introl eq_refl) _ eq_refl). cbn [String.eqb Ascii.eqb Bool.eqb].
  assert (O : offsets expect (pre ++ m :: post) = offsets expect pre ++ offset_from e m :: offsets expect post) by (unfold offsets; rewrite flat_map_app; cbn [flat_map]; rewrite X; reflexivity).
  assert (O' : offsets expect (pre ++ post) = offsets expect pre ++ offsets expect post) by apply flat_map_app.
  destruct (Turbulence.C59_fixed argsort minimize nuse scale (offsets expect pre) (offset_from e m) (offsets expect post) Sc) as (xt & yt & p & H1 & H2). rewrite O, O', H1. cbn [d_pos offset_from] in H2.
  destruct (solve_independent_length _ _ _ _ _ _ _ _ _ _ _ H1) as [Lx Ly]. rewrite app_length in Lx, Ly. cbn [length] in Lx, Ly.
  destruct (filled_at expect pre m post e (combine xt yt) X) as (x & y & T & F). { rewrite combine_length, <- offsets_length. lia. }
  exists (filled expect (pre ++ m :: post) (combine xt yt)), p, x, y. split; [reflexivity|]. split; [exact F|]. rewrite H2. rewrite <- offsets_length in T.
  assert (D : nth (length (offsets expect pre)) (combine xt yt) (0, 0) = (x, y)) by now apply nth_error_nth. rewrite combine_nth in D by lia. injection D as -> ->. reflexivity.
Qed.
Print Assumptions C121_leave_one_out.

(** When it fails: a location twice in the expected table; a mode other than the two; a common location measured twice, but only after the solver has run: an exception of the solver comes first. *)
Theorem C121_fails : forall argsort minimize mode rq nuse ex at_ fx scale expect measure, is_argsort argsort ->
  (~ NoDup (map s_loc expect) -> solve_files argsort minimize mode rq nuse ex at_ fx scale expect measure = Err ValueError) /\
  (mode <> "independent"%string -> mode <> "gradwavefront"%string -> solve_files argsort minimize mode rq nuse ex at_ fx scale expect measure = Err ValueError) /\
  (NoDup (map s_loc expect) -> ~ NoDup (map s_loc (common expect measure)) -> exists e, solve_files argsort minimize mode rq nuse ex at_ fx scale expect measure = Err e) /\
  (NoDup (map s_loc expect) -> ~ NoDup (map s_loc (common expect measure)) -> forall s, s <> 0 -> scale = Some s -> solve_files argsort minimize "independent" false nuse ex None true scale expect measure = Err ValueError).
Proof.
  intros argsort minimize mode rq nuse ex at_ fx scale expect measure AS. unfold solve_files.
  assert (D : forall solve : list datum -> res (list R * list R * list R), ~ NoDup (map s_loc expect) -> solve_rows argsort solve expect measure = Err ValueError).
  { intros solve H. unfold solve_rows, make_data. now rewrite (match_keys_dup argsort Z.ltb Z.eqb Z.eqb_eq _ (map s_loc measure) H). }
  assert (T : forall solve : list datum -> res (list R * list R * list R), NoDup (map s_loc expect) -> ~ NoDup (map s_loc (common expect measure)) ->
    solve_rows argsort solve expect measure = match solve (offsets expect measure) with Ok _ => Err ValueError | Err e => Err e end).
  { intros solve N H. unfold solve_rows. rewrite (make_data_rows _ _ _ AS N). cbn [rbind]. rewrite located_offsets. destruct (solve (offsets expect measure)) as [[[xt yt] p]|e]; [|reflexivity]. cbn [rbind]. rewrite located_common. now rewrite (match_keys_dup argsort Z.ltb Z.eqb Z.eqb_eq _ (map s_loc measure) H). }
  split; [apply D|]. split; [|split].
  - intros M1 M2. apply String.eqb_neq in M1, M2. rewrite M1, M2. unfold solve_rows. destruct (make_data argsort expect measure) as [data|e] eqn:E; [reflexivity|]. cbn. f_equal.
    destruct (ListDec.NoDup_dec Z.eq_dec (map s_loc expect)) as [N|N]; [now rewrite (make_data_rows _ _ _ AS N) in E|]. unfold make_data in E. rewrite (match_keys_dup argsort Z.ltb Z.eqb Z.eqb_eq _ (map s_loc measure) N) in E. cbn in E. congruence.
  - intros N H. rewrite T by assumption. match goal with |- context [match ?s with Ok _ => _ | Err _ => _ end] => destruct s end; eauto.
  - intros N H s Hs ->. rewrite T by assumption. cbn [String.eqb Ascii.eqb Bool.eqb]. unfold solve_independent, fixed_param. cbn [rbind app].
    destruct (Turbulence.C59_total (0.005 * s) (0.005 * s) (50 * s) (offsets expect measure)) as ((x & y & E & _) & (x' & y' & E' & _) & _); [lra|lra|]. destruct ex; [rewrite E|rewrite E']; reflexivity.
Qed.
Print Assumptions C121_fails.

(** So a measured table with a location twice can be solved if that location is not expected, and cannot if it is. *)
Definition at_loc (l : Z) (x : R) : spot := {| s_loc := l; s_pos := (x, 0) |}.
Example C121_example :
  (exists out p yn yt, solve_files isort_argsort (fun _ g => Ok g) "independent" false 500 true None true (Some 1) [at_loc 1 0; at_loc 2 0] [at_loc 9 5; at_loc 2 0.5; at_loc 9 6; at_loc 1 0.02] = Ok (out, p) /\
     nth_error out 0 = Some (at_loc 9 5, None) /\ nth_error out 1 = Some (at_loc 2 0.5, Some (0.49, yn, 0.01, yt))) /\
  solve_files isort_argsort (fun _ g => Ok g) "independent" false 500 true None true (Some 1) [at_loc 1 0; at_loc 2 0] [at_loc 1 0.02; at_loc 1 0.5] = Err ValueError.
Proof.
  assert (AS : is_argsort isort_argsort) by exact Numpy.isort_is_argsort. assert (N : NoDup (map s_loc [at_loc 1 0; at_loc 2 0])) by (cbn; repeat constructor; cbn; intuition lia).
  split.
  - assert (M : NoDup (map s_loc (common [at_loc 1 0; at_loc 2 0] [at_loc 9 5; at_loc 2 0.5; at_loc 9 6; at_loc 1 0.02]))) by (cbn; repeat constructor; cbn; intuition lia).
    rewrite (C121_rows isort_argsort (fun _ g => Ok g) "independent" false 500 true true (Some 1) _ _ AS N M (or_introl eq_refl) _ eq_refl).
    cbn [String.eqb Ascii.eqb Bool.eqb]. assert (Ed : offsets [at_loc 1 0; at_loc 2 0] [at_loc 9 5; at_loc 2 0.5; at_loc 9 6; at_loc 1 0.02] = [Turbulence.twin 0.5; Turbulence.twin 0.02]).
    { unfold Turbulence.twin. cbn. unfold offset_from. cbn. repeat f_equal; lra. }
    rewrite Ed. destruct (Turbulence.C59_example 0.5) as (xt & yt & p & H & Hx). change (solve_independent isort_argsort (fun _ g => Ok g) false 500 [Turbulence.twin 0.5; Turbulence.twin 0.02] true None true 1 = Ok (xt, yt, p)) in H. rewrite H.
    destruct (solve_independent_length _ _ _ _ _ _ _ _ _ _ _ H) as [Lx Ly]. destruct xt as [|x xt]; [discriminate|]. destruct yt as [|y yt]; [discriminate|]. cbn [nth] in Hx. subst x.
    eexists; exists p; eexists; exists y. split; [reflexivity|]. split; [reflexivity|]. cbn [filled expected_at find s_loc at_loc Z.eqb Pos.eqb combine nth_error s_pos fst snd]. do 3 f_equal. cbn. repeat f_equal. lra.
  - destruct (C121_fails isort_argsort (fun _ g => Ok g) "independent" false 500 true None true (Some 1) [at_loc 1 0; at_loc 2 0] [at_loc 1 0.02; at_loc 1 0.5] AS) as (_ & _ & _ & F). apply (F N) with (s := 1); [|lra|reflexivity]. cbn. intros H. inversion H as [|? ? Hn _]. apply Hn. now left.
Qed.

(** C122. With ascending edges all pairs are below the last of: a value for each bin, its place the middle, and it is the mean of the products over all ordered pairs of spots, a spot with itself included,
    whose separation is at least the lower and below the upper edge; 0 for a bin without pairs. *)
Theorem C122_bins : forall data bins edges n, StronglySorted Rlt edges -> length edges = S n -> Forall (fun ab => apart ab < nth n edges 0) (list_prod data data) ->
  exists c cx cy, empirical_covariance data bins (Some edges) = Ok (c, cx, cy) /\ length c = n /\ length cx = n /\ length cy = n /\
  forall k, (k < n)%nat -> nth k c 0 = (nth k edges 0 + nth (S k) edges 0) / 2 /\
    nth k cx 0 = bin_mean edges k apart dxdx (list_prod data data) /\ nth k cy 0 = bin_mean edges k apart dydy (list_prod data data).
Proof.
  intros data bins edges n SE LE F. assert (F' : Forall (fun ab => separation ab < nth n edges 0) (all_pairs data)) by (rewrite pairs_perm; exact F).
  exists (centres edges), (means edges n dxdx (all_pairs data)), (means edges n dydy (all_pairs data)). split; [now apply emp_edges|]. split; [now apply centres_length|].
  split; [rewrite means_length; now apply width_inside|]. split; [rewrite means_length; now apply width_inside|]. intros k L. split; [apply centres_nth; lia|]. split; now apply means_bin.
Qed.
Print Assumptions C122_bins.

(** If some pair is not below the last edge, the two arrays have one value more than there are bins, the others being the same. *)
Theorem C122_beyond : forall data bins edges n, StronglySorted Rlt edges -> length edges = S n -> Exists (fun ab => nth n edges 0 <= apart ab) (list_prod data data) ->
  exists c cx cy, empirical_covariance data bins (Some edges) = Ok (c, cx, cy) /\ length c = n /\ length cx = S n /\ length cy = S n /\
  forall k, (k < n)%nat -> nth k cx 0 = bin_mean edges k apart dxdx (list_prod data data) /\ nth k cy 0 = bin_mean edges k apart dydy (list_prod data data).
Proof.
  intros data bins edges n SE LE F. assert (F' : Exists (fun ab => nth n edges 0 <= separation ab) (all_pairs data)).
  { apply Exists_exists in F as (ab & I & H). apply Exists_exists. exists ab. split; [|exact H]. eapply Permutation_in; [symmetry; apply pairs_perm|exact I]. }
  exists (centres edges), (means edges n dxdx (all_pairs data)), (means edges n dydy (all_pairs data)). split; [now apply emp_edges|]. split; [now apply centres_length|].
  split; [rewrite means_length; now apply width_outside|]. split; [rewrite means_length; now apply width_outside|]. intros k L. split; now apply means_bin.
Qed.
Print Assumptions C122_beyond.

(** Without edges: bins of one width from 0 to 0.1 beyond the largest separation; every pair is in one of them, so that the means weighted with the numbers of pairs add up to the square of the sum of the offsets. *)
Theorem C122_default : forall data n, data <> [] -> exists far edges c cx cy, (exists a b, In a data /\ In b data /\ apart (a, b) = far) /\ (forall a b, In a data -> In b data -> apart (a, b) <= far) /\
  length edges = S (S n) /\ (forall k, (k <= S n)%nat -> nth k edges 0 = INR k * ((far + 0.1) / INR (S n))) /\
  empirical_covariance data (S n) None = Ok (c, cx, cy) /\ length c = S n /\ length cx = S n /\ length cy = S n /\
  (forall k, (k < S n)%nat -> nth k c 0 = (nth k edges 0 + nth (S k) edges 0) / 2 /\
     nth k cx 0 = bin_mean edges k apart dxdx (list_prod data data) /\ nth k cy 0 = bin_mean edges k apart dydy (list_prod data data)) /\
  Rsum (map (fun k => INR (length (in_bin edges k apart (list_prod data data))) * nth k cx 0) (seq 0 (S n))) = Rsum (map d_dx data) ^ 2 /\
  Rsum (map (fun k => INR (length (in_bin edges k apart (list_prod data data))) * nth k cy 0) (seq 0 (S n))) = Rsum (map d_dy data) ^ 2.
Proof.
  intros data n Nd. destruct (default_edges data n Nd) as (far & E1 & E2 & H). cbv zeta in H. set (edges := linspace 0 (far + 0.1) (S n)) in *. destruct H as (Eq & SE & LE & En & F). clearbody edges.
  assert (F' : Forall (fun ab => 0 <= apart ab < nth (S n) edges 0) (list_prod data data)) by (rewrite <- pairs_perm; exact F).
  destruct (C122_bins data (S n) edges (S n) SE LE) as (c & cx & cy & Ec & L1 & L2 & L3 & B). { eapply Forall_impl; [|exact F']. cbn. intros ab [_ H]. exact H. }
  exists far, edges, c, cx, cy. split; [exact E1|]. split; [exact E2|]. split; [exact LE|]. split; [exact En|]. split; [now rewrite Eq|]. split; [exact L1|]. split; [exact L2|]. split; [exact L3|]. split; [exact B|].
  assert (T : forall f (cs : list R), (forall k, (k < S n)%nat -> nth k cs 0 = bin_mean edges k apart f (list_prod data data)) ->
    Rsum (map (fun k => INR (length (in_bin edges k apart (list_prod data data))) * nth k cs 0) (seq 0 (S n))) = Rsum (map f (list_prod data data))).
  { intros f cs Hc. rewrite <- (partition_sum (fun ab => searchsorted_right edges (apart ab)) f (S n) (list_prod data data)).
    - f_equal. apply map_ext_in. intros k I. apply in_seq in I. rewrite Hc by lia. rewrite bin_total. f_equal. f_equal. unfold in_bin. apply filter_ext. intros ab. apply (bin_ssr edges (S n) SE LE). lia.
    - eapply Forall_impl; [|exact F']. cbv beta. intros ab [H1 H2]. pose proof (ssr_le edges (apart ab)) as U. destruct (searchsorted_right edges (apart ab)) as [|k] eqn:S0.
      + exfalso. destruct edges as [|e0 r]; [discriminate|]. cbn [searchsorted_right] in S0. destruct (Rleb e0 (apart ab)) eqn:E0; [discriminate|]. assert (Z0 := En 0%nat ltac:(lia)). cbn [nth INR] in Z0. assert (Rleb e0 (apart ab) = true) by (apply Rleb_t; lra). congruence.
      + split; [lia|]. apply (ssr_S _ _ SE) in S0 as (A1 & A2 & _). destruct (Nat.eq_dec k (S n)) as [->|]; [lra|lia]. }
  split.
  - rewrite (T dxdx cx); [|intros k Lk; now apply B]. unfold dxdx. rewrite (product_sum d_dx). ring.
  - rewrite (T dydy cy); [|intros k Lk; now apply B]. unfold dydy. rewrite (product_sum d_dy). ring.
Qed.
Print Assumptions C122_default.

(** No spots and no edges, or no edge in the list: ValueError. *)
Theorem C122_fails : forall data bins, empirical_covariance [] bins None = Err ValueError /\ empirical_covariance data bins (Some []) = Err ValueError.
Proof. intros data bins. split; reflexivity. Qed.
Print Assumptions C122_fails.

(** Two spots at a distance of 1: their covariance is in the second bin, and the first holds the mean square of the offsets. *)
Definition spot_at (x dx : R) : datum := {| d_pos := (x, 0); d_dx := dx; d_dy := 0 |}.
Lemma apart_01 : apart (spot_at 0 2, spot_at 1 3) = 1 /\ apart (spot_at 1 3, spot_at 0 2) = 1 /\ apart (spot_at 0 2, spot_at 0 2) = 0 /\ apart (spot_at 1 3, spot_at 1 3) = 0.
Proof. unfold apart, spot_at. cbn [fst snd d_pos]. repeat split; (replace (_ + _) with 1 by ring; apply sqrt_1) || (replace (_ + _) with 0 by ring; apply sqrt_0). Qed.
Ltac decide_bins := repeat match goal with |- context [Rleb ?a ?b] => first [replace (Rleb a b) with true by (symmetry; apply Rleb_t; lra)|replace (Rleb a b) with false by (symmetry; apply not_true_is_false; rewrite Rleb_t; lra)]
  | |- context [Rltb ?a ?b] => first [replace (Rltb a b) with true by (symmetry; apply Rltb_t; lra)|replace (Rltb a b) with false by (symmetry; apply not_true_is_false; rewrite Rltb_t; lra)] end.
Example C122_example : exists c cx cy, empirical_covariance [spot_at 0 2; spot_at 1 3] 10 (Some [0; 0.5; 2]) = Ok (c, cx, cy) /\ length cx = 2%nat /\ nth 0 cx 0 = 13 / 2 /\ nth 1 cx 0 = 6.
Proof.
  destruct apart_01 as (A & B & C & D).
  destruct (C122_bins [spot_at 0 2; spot_at 1 3] 10 [0; 0.5; 2] 2) as (c & cx & cy & E & _ & L & _ & H).
  - repeat constructor; lra.
  - reflexivity.
  - cbn [list_prod map app nth]. repeat constructor; rewrite ?A, ?B, ?C, ?D; lra.
  - exists c, cx, cy. split; [exact E|]. split; [exact L|]. destruct (H 0%nat ltac:(lia)) as (_ & H0 & _). destruct (H 1%nat ltac:(lia)) as (_ & H1 & _). rewrite H0, H1. unfold bin_mean, in_bin. cbn [list_prod map app nth filter]. rewrite A, B, C, D. decide_bins.
    cbn [andb map length Rsum fold_right INR]. unfold dxdx, spot_at. cbn [fst snd d_dx]. split; lra.
Qed.
(** The claim that the three arrays returned have one length is false. *)
Theorem C122_lengths_refuted : ~ (forall data bins edges c cx cy, StronglySorted Rlt edges -> empirical_covariance data bins (Some edges) = Ok (c, cx, cy) -> length cx = length c).
Proof.
  intros H. destruct (C122_beyond [spot_at 0 2; spot_at 1 3] 10 [0; 0.5] 1) as (c & cx & cy & E & L1 & L2 & _).
  - repeat constructor; lra.
  - reflexivity.
  - destruct apart_01 as (A & _). apply Exists_exists. exists (spot_at 0 2, spot_at 1 3). split; [cbn; auto|]. rewrite A. cbn. lra.
  - apply H in E; [lia|repeat constructor; lra].
Qed.
Print Assumptions C122_lengths_refuted.
(** The claim that a value is a mean over pairs of two different spots is false: with the default bins the first value holds the squares of the offsets. *)
Theorem C122_self_refuted : exists data edges c cx cy, empirical_covariance data 10 (Some edges) = Ok (c, cx, cy) /\ StronglySorted Rlt edges /\ NoDup (map d_pos data) /\
  (forall a b, In a data -> In b data -> apart (a, b) < nth 1 edges 0 -> a = b) /\ nth 0 cx 0 <> 0.
Proof.
  destruct C122_example as (c & cx & cy & E & _ & H & _). destruct apart_01 as (A & B & C & D). exists [spot_at 0 2; spot_at 1 3], [0; 0.5; 2], c, cx, cy. split; [exact E|]. split; [repeat constructor; lra|]. split; [|split].
  - cbn. repeat constructor; cbn; intros X; repeat destruct X as [X|X]; try injection X; try lra; contradiction.
  - intros a b [<-|[<-|[]]] [<-|[<-|[]]]; cbn [nth]; rewrite ?A, ?B; try reflexivity; lra.
  - rewrite H. lra.
Qed.
Print Assumptions C122_self_refuted.
