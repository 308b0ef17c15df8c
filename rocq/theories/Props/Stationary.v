(** C61: turbulence of all fibres from the stationary ones. *)
From Verif.Model Require Import Turbulence.
From Verif.Proofs Require Import Prelude RealNum Stats LinAlg Turbulence Gaussian Fithandler.
From Verif.Props Require Import Turbulence.
From Coq Require Import Reals Lra.
From Verif.Spec Require Import Stationary.
Local Open Scope R_scope.

Notation srow := (option R * option R * option R * option R)%type (only parsing).
Definition full (r : R * R * R * R) : option R * option R * option R * option R := let '(x, y, x0, y0) := r in (Some x, Some y, Some x0, Some y0).
Definition finite (r : option R * option R * option R * option R) : Prop := exists x, r = full x.
Definition is_finite (r : option R * option R * option R * option R) : bool := match r with (Some _, Some _, Some _, Some _) => true | _ => false end.
Lemma finite_spec r : finite_row r = None <-> ~ finite r.
Proof.
  split.
  - intros H [[[[? ?] ?] ?] ->]. discriminate.
  - intros H. destruct r as [[[[x|] [y|]] [x0|]] [y0|]]; try reflexivity. destruct H. now exists (x, y, x0, y0).
Qed.
(** C61. Without clipping, an entry with a value that is not finite changes nothing but its own flag, which says it was not used. *)
Theorem C61_ignored : forall argsort minimize pre r post at_ sc clip, ~ finite r -> clip <= 0 ->
  correct_using_stationary argsort minimize (pre ++ r :: post) at_ sc clip =
  rmap (fun t => let '(xt, yt, m) := t in (xt, yt, firstn (length pre) m ++ false :: skipn (length pre) m)) (correct_using_stationary argsort minimize (pre ++ post) at_ sc clip).
Proof.
  intros argsort minimize pre r post at_ sc clip N C. unfold correct_using_stationary. destruct (Rltb 0 clip) eqn:B; [apply Rltb_true in B; lra|]. apply finite_spec in N. rewrite !map_app, !flat_map_app. cbn [map flat_map]. rewrite N. cbn [app].
  set (mp := map _ pre). set (mq := map _ post). replace (length pre) with (length mp) by apply map_length. clearbody mp mq. destruct (solve_independent _ _ _ _ _ _ _ _ _) as [[[x y] p]|]; [|reflexivity]. cbn. rewrite firstn_app, skipn_app, Nat.sub_diag, firstn_all, skipn_all. cbn. now rewrite app_nil_r.
Qed.
Print Assumptions C61_ignored.

(** The prediction is the Gaussian process one. *)
Lemma linear_w (k : R * R -> R * R -> R) ps w q : length w = length ps -> dot (map (fun p => k p q) ps) w = Rsum (map (fun pw => snd pw * k (fst pw) q) (combine ps w)).
Proof. revert w. induction ps as [|p ps IH]; intros [|v w] L; try discriminate; cbn; [reflexivity|]. rewrite IH by (cbn in L; lia). unfold Rsum. cbn. lra. Qed.
Lemma kriging_other s aa ll ps v qs f : ll <> 0 -> length v = length ps ->
  predict_other (add_diag (s ^ 2) (cov_matrix (fun p q => aa ^ 2 * exp (- (dist2 p q / ll ^ 2) / 2)) ps ps)) (cov_matrix (fun p q => aa ^ 2 * exp (- (dist2 p q / ll ^ 2) / 2)) ps qs) v = Ok f -> kriging s aa ll ps v qs f.
Proof.
  intros Nl L H. set (k := fun p q : R * R => _) in H. assert (Ek : forall p q, k p q = gauss_cov aa ll p q). { intros p q. unfold k, gauss_cov, dist2. f_equal. f_equal. field. exact Nl. }
  unfold predict_other, cho_solve in H. destruct (cho_factor _); [|discriminate]. cbn [rbind] in H. destruct (linalg_solve _ v) as [w|] eqn:E; [|discriminate]. cbn [rmap] in H. apply Ok_inj in H. subst f.
  apply linalg_solve_Ok in E as (Lw & M & _); [|now rewrite add_diag_length, cov_length|apply add_diag_square, cov_square]. rewrite add_diag_length, cov_length in Lw. exists w. split; [exact Lw|]. rewrite add_diag_matvec in M; [|apply cov_square|now rewrite cov_length].
  assert (F : forall q, dot (map (fun p => k p q) ps) w = gp_field aa ll ps w q). { intros q. unfold gp_field. rewrite linear_w by exact Lw. f_equal. apply map_ext. intros t. now rewrite Ek. }
  split.
  - intros i Hi. rewrite <- M. rewrite axpy_nth; [|now rewrite matvec_length, cov_length|now rewrite matvec_length, cov_length]. rewrite cov_matvec. f_equal. rewrite (nth_indep _ 0 (dot (map (fun p => k p (0, 0)) ps) w)) by now rewrite map_length. rewrite (map_nth (fun q => dot (map (fun p => k p q) ps) w)). symmetry. apply F.
  - rewrite cov_matvec. apply map_ext. exact F.
Qed.
Lemma kriging_at s aa ll data qs x y : ll <> 0 -> independent_at false [s; aa; ll] data false (Some qs) = Ok (x, y) -> kriging s aa ll (map d_pos data) (map d_dx data) qs x /\ kriging s aa ll (map d_pos data) (map d_dy data) qs y.
Proof.
  intros N H. unfold independent_at, make_covar_independent, kernel in H. destruct (Reqb ll 0) eqn:B; [apply Reqb_true in B; contradiction|]. cbn [rmap rbind hd] in H. apply both_Ok in H as [Hx Hy].
  split; (apply kriging_other; [exact N|now rewrite !map_length|assumption]).
Qed.
Lemma kriging_smooth s aa ll data x y : s <> 0 -> ll <> 0 -> independent_at false [s; aa; ll] data false None = Ok (x, y) ->
  kriging s aa ll (map d_pos data) (map d_dx data) (map d_pos data) x /\ kriging s aa ll (map d_pos data) (map d_dy data) (map d_pos data) y.
Proof.
  intros Ns Nl H. destruct (C59_total s aa ll data Ns Nl) as (_ & _ & T). destruct (T (map d_pos data)) as (x' & y' & E & _). destruct (C59_smoothing _ _ _ _ _ _ _ H E) as [-> ->]. now apply kriging_at.
Qed.
Lemma scaled sc : sc <> 0 -> 0.005 * sc <> 0 /\ 50 * sc <> 0.
Proof. intros N. split; apply Rmult_integral_contrapositive_currified; trivial; apply Rgt_not_eq; lra. Qed.

(** Without clipping there is a result for any entries: the Gaussian process prediction from the finite ones; the flags are those of the finite entries. *)
Theorem C61_unclipped : forall argsort minimize rows at_ sc clip, sc <> 0 -> clip <= 0 -> exists xt yt m data,
  correct_using_stationary argsort minimize rows at_ sc clip = Ok (xt, yt, m) /\ length m = length rows /\ flagged m rows = map full data /\ Forall (fun r => ~ finite r) (flagged (map negb m) rows) /\
  let ps := map (fun r : R * R * R * R => fst (fst r)) data in
  kriging (0.005 * sc) (0.005 * sc) (50 * sc) ps (map (fun r => let '(x, y, x0, y0) := r in x - x0) data) at_ xt /\
  kriging (0.005 * sc) (0.005 * sc) (50 * sc) ps (map (fun r => let '(x, y, x0, y0) := r in y - y0) data) at_ yt.
Proof.
  intros argsort minimize rows at_ sc clip N C. destruct (scaled sc N) as [N1 N2]. unfold correct_using_stationary. destruct (Rltb 0 clip) eqn:B; [apply Rltb_true in B; lra|].
  set (m := map _ rows). set (dat := flat_map _ rows). destruct (C59_total (0.005 * sc) (0.005 * sc) (50 * sc) dat N1 N2) as (_ & _ & T). destruct (T at_) as (x & y & E & _). exists x, y, m.
  assert (X : exists data, flagged m rows = map full data /\ Forall (fun r => ~ finite r) (flagged (map negb m) rows) /\ dat = map (fun r : R * R * R * R => let '(x, y, x0, y0) := r in make_datum (x, y) (x0, y0)) data).
  { unfold m, dat. clear. induction rows as [|r rows (data & E1 & E2 & E3)]; [exists []; repeat split; constructor|]. cbn. destruct (finite_row r) as [d|] eqn:F; cbn.
    - destruct r as [[[[a|] [b|]] [c|]] [e|]]; try discriminate. cbn in F. injection F as <-. exists ((a, b, c, e) :: data). cbn. split; [f_equal; exact E1|]. split; [exact E2|]. now rewrite E3.
    - exists data. split; [exact E1|]. split; [constructor; [now apply finite_spec|exact E2]|exact E3]. }
  destruct X as (data & E1 & E2 & E3). exists data. unfold solve_independent, fixed_param. cbn [rbind app]. rewrite E. cbn [rmap]. split; [reflexivity|]. split; [apply map_length|]. split; [exact E1|]. split; [exact E2|].
  cbv zeta. apply kriging_at in E; [|exact N2]. rewrite E3, !map_map in E. destruct E as [Kx Ky]. split; [revert Kx|revert Ky]; match goal with |- kriging _ _ _ ?a ?b _ _ -> kriging _ _ _ ?c ?d _ _ => replace a with c; [replace b with d; [trivial|]|] end; apply map_ext; intros [[[? ?] ?] ?]; reflexivity.
Qed.
Print Assumptions C61_unclipped.

Lemma within5_length c : length (within5 c) = length c.
Proof.
  unfold within5. destruct (median c) as [med|] eqn:M.
  - destruct (mad_std c) as [sd|] eqn:S; [apply map_length|]. exfalso. unfold mad_std in S. rewrite M in S. cbn [rbind] in S. destruct (median_total (map (fun x => Rabs (x - med)) c)) as (b & Eb); [intros Z; apply map_eq_nil in Z; subst c; discriminate|]. rewrite Eb in S. discriminate.
  - destruct c as [|v c]; [reflexivity|]. destruct (median_total (v :: c)) as (b & Eb); [discriminate|congruence].
Qed.
Lemma finite_count (rows : list srow) : (length (flat_map (fun r => match finite_row r with Some d => [d] | None => [] end) rows) <= length rows)%nat /\
  (Exists (fun r => ~ finite r) rows -> (length (flat_map (fun r => match finite_row r with Some d => [d] | None => [] end) rows) < length rows)%nat).
Proof.
  induction rows as [|r rows [IH IH']]; [split; [constructor|intros H; inversion H]|]. cbn. rewrite app_length. destruct (finite_row r) as [d|] eqn:F; cbn; (split; [lia|]); intros H; [|lia]. inversion H; subst; [|specialize (IH' ltac:(assumption)); lia].
  exfalso. match goal with X : ~ finite r |- _ => apply finite_spec in X; congruence end.
Qed.
(** With clipping, as by default, one entry which is not finite makes the call fail, unless exactly one other is finite. *)
Theorem C61_clipped_nonfinite : forall argsort minimize pre r post at_ sc clip, ~ finite r -> 0 < clip -> length (filter is_finite (pre ++ r :: post)) <> 1%nat ->
  correct_using_stationary argsort minimize (pre ++ r :: post) at_ sc clip = Err ValueError.
Proof.
  intros argsort minimize pre r post at_ sc clip N C L1. unfold correct_using_stationary. destruct (Rltb 0 clip) eqn:B; [|apply Rltb_false in B; lra]. set (rows := pre ++ r :: post) in *. set (dat := flat_map _ rows). set (m := map _ rows).
  assert (Ed : length dat = length (filter is_finite rows)). { unfold dat. clear. induction rows as [|a rows IH]; [reflexivity|]. cbn. rewrite app_length, IH. destruct a as [[[[?|] [?|]] [?|]] [?|]]; reflexivity. }
  assert (Lt : (length dat < length m)%nat). { unfold m. rewrite map_length. apply finite_count. unfold rows. apply Exists_app. right. now constructor. }
  assert (X : and_into m (within5 (map d_dx dat)) = Err ValueError).
  { unfold and_into. rewrite within5_length, map_length. destruct (Nat.eqb_spec (length m) (length dat)); [lia|]. pose proof (within5_length (map d_dx dat)) as W. rewrite map_length in W. destruct (within5 _) as [|v [|w l]]; try reflexivity. cbn in W. lia. }
  rewrite X. reflexivity.
Qed.
Print Assumptions C61_clipped_nonfinite.

(** With exactly one finite entry, clipping works: the others are ignored. *)
Theorem C61_clipped_single : forall argsort minimize pre r post at_ sc clip, Forall (fun r => ~ finite r) pre -> Forall (fun r => ~ finite r) post -> finite r -> 0 < clip ->
  correct_using_stationary argsort minimize (pre ++ r :: post) at_ sc clip =
  rmap (fun t => let '(xt, yt, m) := t in (xt, yt, repeat false (length pre) ++ m ++ repeat false (length post))) (correct_using_stationary argsort minimize [r] at_ sc clip).
Proof.
  intros argsort minimize pre r post at_ sc clip Fp Fq Fr C. unfold correct_using_stationary. destruct (Rltb 0 clip) eqn:B; [|apply Rltb_false in B; lra].
  assert (E : forall l, Forall (fun r => ~ finite r) l -> map (fun r => match finite_row r with Some _ => true | None => false end) l = repeat false (length l) /\ flat_map (fun r => match finite_row r with Some d => [d] | None => [] end) l = []).
  { induction 1 as [|a l Na _ [E1 E2]]; [auto|]. apply finite_spec in Na. cbn. rewrite Na, E1, E2. auto. }
  rewrite !map_app, !flat_map_app. cbn [map flat_map]. destruct (E _ Fp) as [-> ->]. destruct (E _ Fq) as [-> ->]. clear E. destruct (finite_row r) as [d|] eqn:F; [|apply finite_spec in F; contradiction]. cbn [app map]. set (a := repeat false (length pre)). set (b := repeat false (length post)).
  assert (W : forall v, within5 [v] = [false]). { intros v. unfold within5. assert (M : median [v] = Ok v) by reflexivity. rewrite M. unfold mad_std. rewrite M. cbn [rbind map]. assert (M0 : median [Rabs (v - v)] = Ok (Rabs (v - v))) by reflexivity. rewrite M0. cbn [rmap]. replace (v - v) with 0 by ring. rewrite Rabs_R0, Rmult_0_l, Rmult_0_r. cbn [map]. destruct (Rltb (v - 0) v) eqn:Bv; [apply Rltb_true in Bv; lra|reflexivity]. }
  rewrite !W.
  assert (A : forall l, and_into l [false] = Ok (map (fun _ => false) l)). { intros l. unfold and_into. cbn [length]. destruct l as [|x [|y l]]; try reflexivity; cbn. - now rewrite Bool.andb_false_r. - rewrite !Bool.andb_false_r. do 3 f_equal. apply map_ext. intros z. apply Bool.andb_false_r. }
  rewrite !A. cbn [rbind]. rewrite !A. cbn [rbind]. assert (X : forall l : list bool, existsb (fun b => b) (map (fun _ : bool => false) l) = false) by (induction l; cbn; auto). rewrite !X. cbn [rbind].
  destruct (solve_independent _ _ _ _ [d] false None _ _) as [[[xt yt] p]|]; [|reflexivity]. cbn [rbind]. set (t := map _ _). destruct (select t [d]) as [dd|]  eqn:S1; [|reflexivity]. cbn [rbind].
  assert (Lt : length t = 1%nat). { unfold select in S1. destruct (Nat.eqb_spec (length t) (length [d])) as [Q|]; [exact Q|discriminate]. } destruct t as [|v [|]]; try discriminate. unfold and_masked. rewrite !filter_app. cbn [filter].
  assert (Z : forall n, filter (fun b => b) (repeat false n) = []) by (induction n; cbn; auto). unfold a, b. rewrite !Z. cbn [app and_into length Nat.eqb map combine fst snd andb rmap rbind put_masked].
  assert (P : forall n l, put_masked (repeat false n ++ true :: repeat false (length post)) l = repeat false n ++ put_masked (true :: repeat false (length post)) l) by (induction n as [|n IH]; intros l; [reflexivity|exact (f_equal (cons false) (IH l))]). rewrite P.
  assert (P' : forall n l, put_masked (repeat false n) l = repeat false n) by (induction n as [|n IH]; intros l; [reflexivity|exact (f_equal (cons false) (IH l))]). cbn [put_masked]. rewrite P'.
  destruct (solve_independent _ _ _ _ dd _ _ _ _) as [[[xt' yt'] p']|]; reflexivity.
Qed.
Print Assumptions C61_clipped_single.

Lemma flagged_select {A} m (l : list A) : length m = length l -> select m l = Ok (flagged m l).
Proof. intros L. unfold select. rewrite L, Nat.eqb_refl. f_equal. revert l L. induction m as [|[] m IH]; intros [|x l] L; try discriminate; cbn; [reflexivity|f_equal; apply IH; cbn in L; lia|apply IH; cbn in L; lia]. Qed.
Lemma flagged_all {A} (l : list A) : flagged (repeat true (length l)) l = l.
Proof. induction l; cbn; f_equal; auto. Qed.
Lemma flagged_map {A B} (f : A -> B) m l : flagged m (map f l) = map f (flagged m l).
Proof. revert l. induction m as [|[] m IH]; intros [|x l]; cbn; f_equal; auto. Qed.
Lemma flagged_length {A} m (l : list A) : length m = length l -> length (flagged m l) = length (filter (fun b => b) m).
Proof. revert l. induction m as [|[] m IH]; intros [|x l] L; try discriminate; cbn; [reflexivity|f_equal; apply IH; cbn in L; lia|apply IH; cbn in L; lia]. Qed.
Lemma and_all b : and_into (repeat true (length b)) b = Ok b.
Proof. unfold and_into. rewrite repeat_length, Nat.eqb_refl. f_equal. induction b; cbn; f_equal; auto. Qed.
Lemma put_masked_length m t : length (put_masked m t) = length m.
Proof. revert t. induction m as [|[] m IH]; intros [|v t]; cbn; f_equal; auto. Qed.
Lemma flagged_put {A} m t (l : list A) : length m = length l -> length t = length (filter (fun b => b) m) -> flagged (put_masked m t) l = flagged t (flagged m l).
Proof.
  revert t l. induction m as [|[] m IH]; intros t [|x l] L Lt; try discriminate; cbn in *.
  - destruct t; [reflexivity|discriminate].
  - destruct t as [|v t]; [discriminate|]. destruct v; cbn; [f_equal|]; apply IH; cbn in *; lia.
  - apply IH; lia.
Qed.
Lemma within5_spec c i : (i < length c)%nat -> nth i (within5 c) false = true <-> inlier c (nth i c 0).
Proof.
  intros Hi. pose proof (within5_length c) as L. unfold within5, inlier in *. unfold mad_std in *. destruct (median c) as [med|] eqn:M; [|cbn in L; lia]. cbn [rbind] in *. destruct (median (map _ c)) as [b|] eqn:Mb; cbn [rmap] in *; [|cbn in L; lia].
  rewrite (nth_indep _ false (Rltb (med - 5 * (b * 1.482602218505602)) 0 && Rltb 0 (med + 5 * (b * 1.482602218505602)))%bool) by now rewrite map_length. rewrite (map_nth (fun v => (Rltb (med - 5 * (b * 1.482602218505602)) v && Rltb v (med + 5 * (b * 1.482602218505602)))%bool)). rewrite Bool.andb_true_iff, !Rltb_true. split.
  - intros [H1 H2]. exists med, b. split; [reflexivity|]. split; [exact Mb|]. apply Rabs_def1; lra.
  - intros (med' & b' & E & Eb & H). apply Ok_inj in E. subst med'. rewrite Mb in Eb. apply Ok_inj in Eb. subst b'. apply Rabs_def2 in H. lra.
Qed.
Definition at_pos (r : R * R * R * R) : R * R := fst (fst r).
Definition off_x (r : R * R * R * R) : R := let '(x, y, x0, y0) := r in x - x0.
Definition off_y (r : R * R * R * R) : R := let '(x, y, x0, y0) := r in y - y0.
(** C61. With clipping and finite entries only: the entries not strictly within 5 robust standard deviations in both offsets are left out, unless that leaves none;
    of the others those are used which the Gaussian process fits to better than 0.01; the flags say which, and the prediction is the one from these. *)
Theorem C61_clipped : forall argsort minimize data at_ sc clip, sc <> 0 -> 0 < clip -> exists k d1 sx sy t d2 xt yt m,
  correct_using_stationary argsort minimize (map full data) at_ sc clip = Ok (xt, yt, m) /\ length m = length data /\ flagged m data = d2 /\
  (length k = length data /\ forall i r, nth_error data i = Some r -> (nth_error k i = Some true <-> inlier (map off_x data) (off_x r) /\ inlier (map off_y data) (off_y r))) /\
  d1 = (if existsb (fun b => b) k then flagged k data else data) /\
  kriging (0.005 * sc) (0.005 * sc) (50 * sc) (map at_pos d1) (map off_x d1) (map at_pos d1) sx /\ kriging (0.005 * sc) (0.005 * sc) (50 * sc) (map at_pos d1) (map off_y d1) (map at_pos d1) sy /\
  (length t = length d1 /\ forall i r, nth_error d1 i = Some r -> (nth_error t i = Some true <-> sqrt ((off_x r - nth i sx 0) ^ 2 + (off_y r - nth i sy 0) ^ 2) < 0.01)) /\
  d2 = flagged t d1 /\
  kriging (0.005 * sc) (0.005 * sc) (50 * sc) (map at_pos d2) (map off_x d2) at_ xt /\ kriging (0.005 * sc) (0.005 * sc) (50 * sc) (map at_pos d2) (map off_y d2) at_ yt.
Proof.
  intros argsort minimize data at_ sc clip N C. destruct (scaled sc N) as [N1 N2]. set (mk := fun r : R * R * R * R => let '(x, y, x0, y0) := r in make_datum (x, y) (x0, y0)).
  assert (Mp : forall l, map d_pos (map mk l) = map at_pos l) by (intros l; rewrite map_map; apply map_ext; now intros [[[? ?] ?] ?]). assert (Mx : forall l, map d_dx (map mk l) = map off_x l) by (intros l; rewrite map_map; apply map_ext; now intros [[[? ?] ?] ?]). assert (My : forall l, map d_dy (map mk l) = map off_y l) by (intros l; rewrite map_map; apply map_ext; now intros [[[? ?] ?] ?]).
  assert (Kr : forall l x y, independent_at false [0.005 * sc; 0.005 * sc; 50 * sc] (map mk l) false (Some at_) = Ok (x, y) -> kriging (0.005 * sc) (0.005 * sc) (50 * sc) (map at_pos l) (map off_x l) at_ x /\ kriging (0.005 * sc) (0.005 * sc) (50 * sc) (map at_pos l) (map off_y l) at_ y).
  { intros l x y H. apply kriging_at in H; [|exact N2]. now rewrite Mp, Mx, My in H. }
  unfold correct_using_stationary. destruct (Rltb 0 clip) eqn:B; [|apply Rltb_false in B; lra].
  replace (map (fun r => match finite_row r with Some _ => true | None => false end) (map full data)) with (repeat true (length data)) by (clear; induction data as [|[[[? ?] ?] ?] l IH]; cbn; f_equal; auto).
  replace (flat_map (fun r => match finite_row r with Some d => [d] | None => [] end) (map full data)) with (map mk data) by (clear; induction data as [|[[[? ?] ?] ?] l IH]; cbn; f_equal; auto).
  rewrite Mx, My. set (w1 := within5 (map off_x data)). set (w2 := within5 (map off_y data)). assert (L1 : length w1 = length data) by (unfold w1; now rewrite within5_length, map_length). assert (L2 : length w2 = length data) by (unfold w2; now rewrite within5_length, map_length).
  assert (A1 : and_into (repeat true (length data)) w1 = Ok w1) by (rewrite <- L1; apply and_all). rewrite A1. cbn [rbind]. set (k := map (fun ab => fst ab && snd ab)%bool (combine w1 w2)). assert (A2 : and_into w1 w2 = Ok k) by (unfold and_into; now rewrite L1, L2, Nat.eqb_refl). rewrite A2. cbn [rbind]. assert (Lk : length k = length data) by (unfold k; rewrite map_length, combine_length, L1, L2; lia).
  assert (Sk : forall i r, nth_error data i = Some r -> (nth_error k i = Some true <-> inlier (map off_x data) (off_x r) /\ inlier (map off_y data) (off_y r))).
  { intros i r H. assert (Hi : (i < length data)%nat) by (apply nth_error_Some; congruence). pose proof (within5_spec (map off_x data) i ltac:(now rewrite map_length)) as S1. pose proof (within5_spec (map off_y data) i ltac:(now rewrite map_length)) as S2. fold w1 in S1. fold w2 in S2.
    rewrite (nth_indep (map off_x data) 0 (off_x r)) in S1 by now rewrite map_length. rewrite (nth_indep (map off_y data) 0 (off_y r)) in S2 by now rewrite map_length. rewrite map_nth in S1, S2. rewrite (nth_error_nth data i r H) in S1, S2. rewrite <- S1, <- S2.
    unfold k. rewrite nth_error_map, (nth_error_nth' (combine w1 w2) (false, false)) by (rewrite combine_length; lia). rewrite combine_nth by lia. cbn [option_map fst snd].
    destruct (nth i w1 false), (nth i w2 false); cbn; intuition congruence. }
  set (m1 := if existsb (fun b => b) k then k else repeat true (length data)). assert (Lm : length m1 = length data) by (unfold m1; destruct (existsb _ k); [exact Lk|apply repeat_length]).
  set (d1 := if existsb (fun b => b) k then flagged k data else data). assert (Fd : flagged m1 data = d1) by (unfold m1, d1; destruct (existsb _ k); [reflexivity|apply flagged_all]).
  replace (if existsb _ k then _ else _) with (Ok (map mk d1, m1)). 2: { unfold d1, m1. destruct (existsb _ k); [|reflexivity]. rewrite flagged_select by now rewrite map_length. cbn [rbind]. assert (A3 : and_into (repeat true (length data)) k = Ok k) by (rewrite <- Lk; apply and_all). rewrite A3. cbn [rmap]. now rewrite flagged_map. }
  cbn [rbind]. unfold solve_independent, fixed_param. cbn [rbind app]. destruct (C59_total (0.005 * sc) (0.005 * sc) (50 * sc) (map mk d1) N1 N2) as (_ & (sx & sy & Es & Lx & Ly) & _). rewrite Es. cbn [rmap rbind]. rewrite map_length in Lx, Ly.
  set (t := map _ (combine (map mk d1) (combine sx sy))). assert (Lt : length t = length d1) by (unfold t; rewrite map_length, combine_length, combine_length, map_length, Lx, Ly; lia). rewrite flagged_select by now rewrite map_length. cbn [rbind].
  assert (Lf : length d1 = length (filter (fun b => b) m1)) by (rewrite <- Fd; now apply flagged_length). unfold and_masked. replace (filter (fun b => b) m1) with (repeat true (length t)). 2: { rewrite Lt, Lf. clear. induction m1 as [|[] m IH]; cbn; f_equal; auto. } rewrite and_all. cbn [rmap rbind]. rewrite flagged_map.
  destruct (C59_total (0.005 * sc) (0.005 * sc) (50 * sc) (map mk (flagged t d1)) N1 N2) as (_ & _ & T). destruct (T at_) as (xt & yt & E & _). rewrite E. cbn [rmap].
  exists k, d1, sx, sy, t, (flagged t d1), xt, yt, (put_masked m1 t). split; [reflexivity|]. split; [now rewrite put_masked_length|]. split; [rewrite flagged_put; [now rewrite Fd|exact Lm|now rewrite Lt]|]. split; [split; [exact Lk|exact Sk]|]. split; [reflexivity|].
  apply kriging_smooth in Es; [|exact N1|exact N2]. rewrite Mp, Mx, My in Es. destruct Es as [Kx Ky]. split; [exact Kx|]. split; [exact Ky|]. split; [|split; [reflexivity|now apply Kr]]. split; [exact Lt|].
  intros i r H. assert (Hi : (i < length d1)%nat) by (apply nth_error_Some; congruence). unfold t. rewrite nth_error_map. rewrite (nth_error_nth' _ (mk r, (0, 0))) by (rewrite combine_length, combine_length, map_length, Lx, Ly; lia). rewrite combine_nth by (rewrite combine_length, map_length, Lx, Ly; lia). rewrite combine_nth by lia. rewrite map_nth, (nth_error_nth d1 i r H).
  cbn [option_map fst snd]. destruct r as [[[x y] x0] y0]. cbn [mk make_datum d_dx d_dy off_x off_y fst snd]. split; [intros X; injection X as X; now apply Rltb_true|intros X; f_equal; now apply Rltb_true].
Qed.
Print Assumptions C61_clipped.
(** The value of [clip_resid] does not matter beyond its sign. *)
Theorem C61_threshold : forall argsort minimize rows at_ sc clip clip', 0 < clip -> 0 < clip' -> correct_using_stationary argsort minimize rows at_ sc clip = correct_using_stationary argsort minimize rows at_ sc clip'.
Proof. intros argsort minimize rows at_ sc clip clip' C C'. unfold correct_using_stationary. destruct (Rltb 0 clip) eqn:B; [|apply Rltb_false in B; lra]. destruct (Rltb 0 clip') eqn:B'; [reflexivity|apply Rltb_false in B'; lra]. Qed.
Print Assumptions C61_threshold.
Lemma gauss_cov_self aa ll p : gauss_cov aa ll p p = aa ^ 2.
Proof. unfold gauss_cov. replace (- ((fst p - fst p) ^ 2 + (snd p - snd p) ^ 2) / (2 * ll ^ 2)) with 0; [rewrite exp_0; ring|]. replace ((fst p - fst p) ^ 2 + (snd p - snd p) ^ 2) with 0 by ring. unfold Rdiv. ring. Qed.
Lemma kriging_one sc p v f : sc <> 0 -> kriging (0.005 * sc) (0.005 * sc) (50 * sc) [p] [v] [p] f -> f = [v / 2].
Proof.
  intros N (w & L & E & ->). destruct w as [|w [|]]; try discriminate. specialize (E 0%nat ltac:(cbn; lia)). unfold gp_field in *. cbn [map combine nth snd fst Rsum fold_right] in *. unfold Rsum in *. cbn [fold_right] in *. rewrite gauss_cov_self in *. f_equal. lra.
Qed.
(** One stationary fibre off by [dx]: half of it is turbulence, and the fibre is used if that is below 0.01. *)
Example C61_example : forall argsort minimize dx sc clip, sc <> 0 -> 0 < clip -> Rabs dx < 0.02 ->
  correct_using_stationary argsort minimize [(Some dx, Some 0, Some 0, Some 0)] [(dx, 0)] sc clip = Ok ([dx / 2], [0 / 2], [true]).
Proof.
  intros argsort minimize dx sc clip N C Hd. destruct (C61_clipped argsort minimize [(dx, 0, 0, 0)] [(dx, 0)] sc clip N C) as (k & d1 & sx & sy & t & d2 & xt & yt & m & E & Lm & Fm & (Lk & _) & D1 & Kx & Ky & (Lt & St) & D2 & Px & Py).
  destruct k as [|b [|]]; try discriminate. assert (D1' : d1 = [(dx, 0, 0, 0)]) by (rewrite D1; destruct b; reflexivity). clear D1. subst d1. cbn [map at_pos off_x off_y fst snd] in *. apply kriging_one in Kx; [|exact N]. apply kriging_one in Ky; [|exact N]. subst sx sy.
  specialize (St 0%nat _ eq_refl). destruct t as [|v [|]]; try discriminate. cbn [nth_error nth off_x off_y] in St. assert (v = true). { assert (X : Some v = Some true); [|now injection X]. apply St. replace ((dx - 0 - (dx - 0) / 2) ^ 2 + (0 - 0 - (0 - 0) / 2) ^ 2) with (Rsqr (dx / 2)) by (unfold Rsqr; field). rewrite sqrt_Rsqr_abs. unfold Rdiv. rewrite Rabs_mult, (Rabs_right (/ 2)) by lra. lra. } subst v.
  cbn [flagged] in D2. rewrite D2 in Px, Py, Fm. cbn [map at_pos off_x off_y fst snd] in *. apply kriging_one in Px; [|exact N]. apply kriging_one in Py; [|exact N]. subst xt yt. destruct m as [|[] [|]]; try discriminate. cbn [full] in E. rewrite E. repeat f_equal; lra.
Qed.
(** By default (clip_resid = 0.01) an entry which is not finite is not ignored: the call fails. *)
Theorem C61_ignored_refuted : ~ (forall argsort minimize pre r post at_ sc xt yt m, ~ finite r -> sc <> 0 -> correct_using_stationary argsort minimize (pre ++ post) at_ sc 0.01 = Ok (xt, yt, m) ->
  exists m', correct_using_stationary argsort minimize (pre ++ r :: post) at_ sc 0.01 = Ok (xt, yt, m')).
Proof.
  intros H. assert (C : 0 < 0.01) by lra. assert (N1 : (1 : R) <> 0) by (apply Rgt_not_eq; lra). destruct (C61_clipped (fun _ _ _ => []) (fun _ g => Ok g) [(0, 0, 0, 0); (10, 0, 10, 0)] [] 1 0.01 N1 C) as (k & d1 & sx & sy & t & d2 & xt & yt & m & E & _).
  assert (Nf : ~ finite (None, Some 0, Some 0, Some 0)) by (intros [[[[? ?] ?] ?] X]; discriminate).
  specialize (H (fun _ _ _ => []) (fun _ g => Ok g) [] (None, Some 0, Some 0, Some 0) (map full [(0, 0, 0, 0); (10, 0, 10, 0)]) [] 1 xt yt m Nf N1 E). destruct H as (m' & H). rewrite C61_clipped_nonfinite in H; [discriminate|exact Nf|exact C|discriminate].
Qed.
Print Assumptions C61_ignored_refuted.
(** "exclude positioners with residuals larger than [clip_resid]": not so. *)
Theorem C61_residual_refuted : ~ (forall argsort minimize data sc clip xt yt m i r, sc <> 0 -> 0 < clip -> correct_using_stationary argsort minimize (map full data) (map at_pos data) sc clip = Ok (xt, yt, m) ->
  nth_error data i = Some r -> nth_error m i = Some true -> sqrt ((off_x r - nth i xt 0) ^ 2 + (off_y r - nth i yt 0) ^ 2) <= clip).
Proof.
  intros H. assert (C : 0 < 0.001) by lra. assert (N1 : (1 : R) <> 0) by (apply Rgt_not_eq; lra). assert (Hd : Rabs 0.01 < 0.02) by (rewrite Rabs_right; lra).
  pose proof (C61_example (fun _ _ _ => []) (fun _ g => Ok g) 0.01 1 0.001 N1 C Hd) as E. specialize (H _ _ [(0.01, 0, 0, 0)] 1 0.001 _ _ _ 0%nat _ N1 C E eq_refl eq_refl). cbn [off_x off_y nth] in H. replace ((0.01 - 0 - 0.01 / 2) ^ 2 + (0 - 0 - 0 / 2) ^ 2) with (Rsqr 0.005) in H by (unfold Rsqr; lra). rewrite sqrt_Rsqr in H by lra. lra.
Qed.
Print Assumptions C61_residual_refuted.

(** C59. [correct]: the parameters are those the optimiser finds for the loss of the 500 spots nearest to the origin, starting from (0.01, 0.01, 10). If its noise and its
    length are not zero there is a result: from each measured position is subtracted the Gaussian process prediction from the offsets (measured minus expected) of the
    other spots, at their measured positions. *)
Theorem C59_correct : forall argsort minimize rows s aa ll datause, let data := map (fun r : R * R * (R * R) => make_datum (fst r) (snd r)) rows in
  central argsort 500 data = Ok datause -> minimize (loss_independent false datause) [0.01; 0.01; 10] = Ok [s; aa; ll] -> s <> 0 -> ll <> 0 ->
  exists cx cy, correct argsort minimize rows = Ok (cx, cy) /\ length cx = length rows /\ length cy = length rows /\
  forall pre p p0 post, rows = pre ++ (p, p0) :: post -> exists fx fy,
    kriging s aa ll (map fst (pre ++ post)) (map (fun r => fst (fst r) - fst (snd r)) (pre ++ post)) [p] [fx] /\
    kriging s aa ll (map fst (pre ++ post)) (map (fun r => snd (fst r) - snd (snd r)) (pre ++ post)) [p] [fy] /\
    nth (length pre) cx 0 = fst p - fx /\ nth (length pre) cy 0 = snd p - fy.
Proof.
  intros argsort minimize rows s aa ll datause data Cen Min Hs Hl. destruct (C59_total s aa ll data Hs Hl) as ((xt & yt & E & Lx & Ly) & _). assert (LD : length data = length rows) by apply map_length.
  exists (sub_arrays (map (fun r => fst (fst r)) rows) xt), (sub_arrays (map (fun r => snd (fst r)) rows) yt).
  assert (SL : forall a b : list R, length a = length b -> length (sub_arrays a b) = length b) by (clear; induction a as [|x a IH]; intros [|y b] H; cbn in *; try discriminate; [reflexivity|f_equal; apply IH; congruence]).
  assert (SN : forall (a b : list R) i, length a = length b -> (i < length b)%nat -> nth i (sub_arrays a b) 0 = nth i a 0 - nth i b 0).
  { clear. induction a as [|x a IH]; intros [|y b] i H Hi; cbn in *; try discriminate; try lia. destruct i as [|i]; [reflexivity|]. apply IH; [congruence|lia]. }
  split; [|split; [|split]].
  - unfold correct, solve_independent, fit_param. fold data. rewrite Cen. cbn [rbind app]. rewrite Min. cbn [rbind]. rewrite E. reflexivity.
  - rewrite SL; [congruence|]. rewrite map_length. congruence.
  - rewrite SL; [congruence|]. rewrite map_length. congruence.
  - intros pre p p0 post ->. unfold data in *. rewrite map_app in E, Lx, Ly. cbn [map fst snd] in E, Lx, Ly. rewrite app_length in Lx, Ly. cbn [length] in Lx, Ly.
    destruct (C59_total s aa ll (map (fun r => make_datum (fst r) (snd r)) pre ++ map (fun r => make_datum (fst r) (snd r)) post) Hs Hl) as (_ & _ & T). destruct (T [d_pos (make_datum p p0)]) as (xo & yo & E2 & _).
    destruct (C59_leave_one_out false _ _ _ _ _ _ _ _ E E2) as [-> ->]. rewrite map_length in *. exists (nth (length pre) xt 0), (nth (length pre) yt 0).
    destruct (kriging_at s aa ll _ _ _ _ Hl E2) as [K1 K2]. rewrite <- map_app, !map_map in K1, K2. cbn [d_pos d_dx d_dy make_datum] in K1, K2. split; [exact K1|]. split; [exact K2|].
    rewrite !map_length in Lx, Ly. rewrite !SN by (rewrite ?map_length, ?app_length; cbn [length]; lia). rewrite !map_app, !app_nth2; rewrite ?map_length; try lia. rewrite !Nat.sub_diag. split; reflexivity.
Qed.
Print Assumptions C59_correct.
(** Two spots measured at the same place, with the starting point as parameters: each is corrected by half the offset of the other. *)
Example C59_correct_example : forall argsort, (forall K ltb l, argsort K ltb l = seq 0 (length l)) -> exists cx cy,
  correct argsort (fun _ g => Ok g) [((0, 0), (1, 0)); ((0, 0), (-2, 0))] = Ok (cx, cy) /\ nth 0 cx 0 = -1 /\ nth 1 cx 0 = 1 / 2.
Proof.
  intros argsort A. destruct (C59_correct argsort (fun _ g => Ok g) [((0, 0), (1, 0)); ((0, 0), (-2, 0))] 0.01 0.01 10 (map (fun r : R * R * (R * R) => make_datum (fst r) (snd r)) [((0, 0), (1, 0)); ((0, 0), (-2, 0))])) as (cx & cy & E & _ & _ & H); [|reflexivity|lra|lra|].
  - unfold central. cbn [Z.ltb Z.compare]. rewrite A. reflexivity.
  - exists cx, cy. split; [exact E|].
    assert (K : forall v f, kriging 0.01 0.01 10 [(0, 0)] [v] [(0, 0)] [f] -> f = v / 2).
    { intros v f (w & L & S & F). destruct w as [|w0 [|]]; try discriminate. specialize (S 0%nat ltac:(cbn; lia)). cbn in S. unfold gp_field in S, F. cbn [map combine fst snd] in S, F. rewrite gauss_cov_self in S, F. unfold Rsum in S, F. cbn [fold_right] in S, F. injection F as ->. lra. }
    destruct (H [] (0, 0) (1, 0) [((0, 0), (-2, 0))] eq_refl) as (fx & fy & K1 & _ & N1 & _). destruct (H [((0, 0), (1, 0))] (0, 0) (-2, 0) [] eq_refl) as (gx & gy & K2 & _ & N2 & _).
    cbn [map app fst snd] in K1, K2. apply K in K1, K2. cbn [length fst] in N1, N2. rewrite N1, N2, K1, K2. split; lra.
Qed.
