(** Proofs about the turbulence solution of two tables and the empirical covariance. *)
From Verif.Model Require Import TurbulenceFiles.
From Verif.Spec Require Import Numpy TurbulenceFiles.
From Verif.Proofs Require Import Prelude RealNum Stats LinAlg KeyMatch Sorting Numpy Turbulence Gaussian.
From Coq Require Import Reals Lra List Permutation Sorted.
Import ListNotations.
Local Open Scope R_scope.

(** *** the pairs of equal keys *)
Fixpoint place (a : list Z) (v : Z) : option nat := match a with [] => None | x :: r => if Z.eqb x v then Some O else option_map S (place r v) end.
Lemma place_spec a v i : NoDup a -> (place a v = Some i <-> nth_error a i = Some v).
Proof.
  revert i; induction a as [|x a IH]; intros i N; cbn [place]; [split; [discriminate|destruct i; discriminate]|]. inversion N as [|? ? Nx Na]; subst.
  destruct (Z.eqb x v) eqn:E; [apply Z.eqb_eq in E; subst x|apply Z.eqb_neq in E].
  - split; [intros [= <-]; reflexivity|]. destruct i as [|i]; [reflexivity|]. cbn. intros H. exfalso. apply Nx. eapply nth_error_In; eauto.
  - destruct i as [|i]; cbn [nth_error].
    + split; [destruct (place a v); discriminate|intros [= ->]; now destruct E].
    + rewrite <- (IH i Na). destruct (place a v) as [j|]; cbn; split; intros H; congruence.
Qed.
Lemma sorted_pairs_unique (l m : list (nat * nat)) : StronglySorted lt (map snd l) -> StronglySorted lt (map snd m) -> (forall p, In p l <-> In p m) -> l = m.
Proof.
  revert m; induction l as [|p l IH]; intros [|q m] Sl Sm E; [reflexivity|exfalso; apply (E q); now left|exfalso; apply (E p); now left|].
  cbn in Sl, Sm. inversion Sl as [|? ? Sl' Fl]; subst. inversion Sm as [|? ? Sm' Fm]; subst. rewrite Forall_map, Forall_forall in Fl, Fm.
  assert (p = q).
  { destruct (proj1 (E p) (or_introl eq_refl)) as [H|H]; [now symmetry|]. destruct (proj2 (E q) (or_introl eq_refl)) as [H'|H']; [assumption|]. specialize (Fl _ H'). specialize (Fm _ H). cbn in *. lia. }
  subst q. f_equal. apply IH; [assumption|assumption|]. intros r. split; intros H.
  - destruct (proj1 (E r) (or_intror H)) as [<-|H']; [|assumption]. specialize (Fl _ H). cbn in *. lia.
  - destruct (proj2 (E r) (or_intror H)) as [<-|H']; [|assumption]. specialize (Fm _ H). cbn in *. lia.
Qed.
Lemma match_places argsort a b : is_argsort argsort -> NoDup a ->
  match_keys argsort Z.ltb Z.eqb a b = Ok (map fst (selected_pairs 0 (map (place a) b)), map snd (selected_pairs 0 (map (place a) b))).
Proof.
  intros AS N. destruct (match_keys_ok argsort AS Z.ltb Z.eqb Zltb_strict Z.eqb_eq a b N) as (ia & ib & -> & L & S & I).
  assert (C : combine ia ib = selected_pairs 0 (map (place a) b)).
  { apply sorted_pairs_unique; [|apply selected_pairs_sorted|].
    - clear - L S. replace (map snd (combine ia ib)) with ib; [assumption|]. clear S. revert ib L; induction ia as [|i ia IH]; intros [|j ib] L; try discriminate; cbn; [reflexivity|]. f_equal. apply IH. cbn in L. lia.
    - intros [i j]. rewrite I, selected_pairs_In, Nat.sub_0_r, nth_error_map. split.
      + intros (v & Ha & Hb). split; [lia|]. rewrite Hb. cbn. f_equal. now apply place_spec.
      + intros [_ H]. destruct (nth_error b j) as [v|]; [|discriminate]. cbn in H. injection H as H. exists v. split; [now apply place_spec|reflexivity]. }
  rewrite <- C. f_equal. f_equal; clear - L; revert ib L; induction ia as [|i ia IH]; intros [|j ib] L; try discriminate; cbn; [reflexivity| |reflexivity|]; f_equal; apply IH; cbn in L; lia.
Qed.
Lemma combine_map_pairs (l : list (nat * nat)) : combine (map fst l) (map snd l) = l.
Proof. induction l as [|[i j] l IH]; cbn; congruence. Qed.

(** *** make_data *)
Lemma place_expected expect m : place (map s_loc expect) (s_loc m) = None <-> expected_at expect m = None.
Proof.
  unfold expected_at. induction expect as [|e l IH]; cbn [map place find]; [tauto|]. destruct (Z.eqb (s_loc e) (s_loc m)); [split; discriminate|].
  rewrite <- IH. destruct (place _ _); cbn; split; congruence.
Qed.
Lemma place_at expect m i : place (map s_loc expect) (s_loc m) = Some i -> exists e, expected_at expect m = Some e /\ nth_error expect i = Some e /\ s_loc e = s_loc m.
Proof.
  unfold expected_at. revert i; induction expect as [|e l IH]; intros i; cbn [map place find]; [discriminate|]. destruct (Z.eqb (s_loc e) (s_loc m)) eqn:E.
  - intros [= <-]. apply Z.eqb_eq in E. exists e. auto.
  - destruct (place _ _) as [j|] eqn:P; [|discriminate]. cbn. intros [= <-]. destruct (IH j eq_refl) as (e' & F & Ne & L). exists e'. auto.
Qed.
Definition located (expect : list spot) (m : spot) : list (Z * datum) := match expected_at expect m with Some e => [(s_loc m, offset_from e m)] | None => [] end.
Lemma make_data_suffix expect measure pre suf : measure = pre ++ suf ->
  rmapM (fun ij => rbind (geti expect (fst ij)) (fun e => rbind (geti measure (snd ij)) (fun m =>
    Ok (s_loc e, {| d_pos := s_pos e; d_dx := fst (s_pos m) - fst (s_pos e); d_dy := snd (s_pos m) - snd (s_pos e) |}))))
    (selected_pairs (length pre) (map (place (map s_loc expect)) (map s_loc suf))) = Ok (flat_map (located expect) suf).
Proof.
  revert pre; induction suf as [|m suf IH]; intros pre E; cbn [map selected_pairs flat_map]; [reflexivity|].
  assert (E' : measure = (pre ++ [m]) ++ suf) by now rewrite <- app_assoc. specialize (IH _ E'). rewrite app_length in IH. cbn [length] in IH. replace (length pre + 1)%nat with (S (length pre)) in IH by lia. unfold located at 1.
  destruct (place (map s_loc expect) (s_loc m)) as [i|] eqn:P.
  - destruct (place_at _ _ _ P) as (e & -> & Ne & L). cbn [rmapM fst snd]. unfold geti at 1. rewrite Ne. cbn [rbind]. unfold geti at 1. rewrite E, nth_error_app2, Nat.sub_diag by lia. cbn [nth_error rbind].
    rewrite <- E, IH. cbn. now rewrite L.
  - apply place_expected in P. rewrite P. exact IH.
Qed.
Lemma make_data_rows argsort expect measure : is_argsort argsort -> NoDup (map s_loc expect) -> make_data argsort expect measure = Ok (flat_map (located expect) measure).
Proof. intros AS N. unfold make_data. rewrite (match_places _ _ _ AS N). cbn [rbind fst snd]. rewrite combine_map_pairs. exact (make_data_suffix expect measure [] measure eq_refl). Qed.
Lemma located_offsets expect measure : map snd (flat_map (located expect) measure) = offsets expect measure.
Proof. induction measure as [|m r IH]; [reflexivity|]. cbn [flat_map offsets]. rewrite map_app, IH. unfold located. now destruct (expected_at expect m). Qed.
Lemma located_common expect measure : map fst (flat_map (located expect) measure) = map s_loc (common expect measure).
Proof. induction measure as [|m r IH]; [reflexivity|]. cbn [flat_map common filter]. rewrite map_app, IH. unfold located. now destruct (expected_at expect m). Qed.
Lemma offsets_length expect measure : length (offsets expect measure) = length (common expect measure).
Proof. rewrite <- located_offsets, map_length, <- (map_length fst), located_common. apply map_length. Qed.

(** *** the columns written *)
Lemma seti_app {A} (l : list A) x r v : seti (l ++ x :: r) (length l) v = Ok (l ++ v :: r).
Proof. induction l as [|y l IH]; cbn; [reflexivity|]. now rewrite IH. Qed.
Lemma place_app a v b : ~ In v a -> place (a ++ v :: b) v = Some (length a).
Proof. induction a as [|x a IH]; intros H; cbn; [now rewrite Z.eqb_refl|]. destruct (Z.eqb x v) eqn:E; [apply Z.eqb_eq in E; subst; exfalso; apply H; now left|]. rewrite IH; [reflexivity|]. intros C. apply H. now right. Qed.
Lemma place_notin a v : ~ In v a -> place a v = None.
Proof. induction a as [|x a IH]; intros H; cbn; [reflexivity|]. destruct (Z.eqb x v) eqn:E; [apply Z.eqb_eq in E; subst; exfalso; apply H; now left|]. rewrite IH; [reflexivity|]. intros C. apply H. now right. Qed.
Lemma unexpected_notin expect measure m : expected_at expect m = None -> ~ In (s_loc m) (map s_loc (common expect measure)).
Proof.
  intros H C. apply in_map_iff in C as (m' & L & I). unfold common in I. apply filter_In in I as [_ I]. unfold expected_at in *. rewrite L, H in I. discriminate.
Qed.
Lemma columns expect measure xt yt pre suf done : measure = pre ++ suf -> NoDup (map s_loc (common expect measure)) -> length done = length pre ->
  length xt = length (common expect measure) -> length yt = length (common expect measure) ->
  exists news, rmapM (fun ij => rbind (geti measure (snd ij)) (fun m => rbind (geti xt (fst ij)) (fun x => rbind (geti yt (fst ij)) (fun y =>
      Ok (snd ij, Some (fst (s_pos m) - x, snd (s_pos m) - y, x, y)))))) (selected_pairs (length pre) (map (place (map s_loc (common expect measure))) (map s_loc suf))) = Ok news /\
  set_each (done ++ map (fun _ => None) suf) news = Ok (done ++ map snd (filled expect suf (skipn (length (common expect pre)) (combine xt yt)))).
Proof.
  intros E N. revert pre done E; induction suf as [|m suf IH]; intros pre done E Ld Lx Ly; cbn [map selected_pairs filled]; [exists []; auto|].
  assert (E' : measure = (pre ++ [m]) ++ suf) by now rewrite <- app_assoc. assert (Lp : length (pre ++ [m]) = S (length pre)) by (rewrite app_length; cbn; lia).
  assert (Cm : common expect measure = common expect pre ++ (match expected_at expect m with Some _ => [m] | None => [] end) ++ common expect suf).
  { rewrite E. unfold common. rewrite filter_app. cbn [filter]. destruct (expected_at expect m); reflexivity. }
  assert (Cp : common expect (pre ++ [m]) = common expect pre ++ (match expected_at expect m with Some _ => [m] | None => [] end)).
  { unfold common. rewrite filter_app. cbn [filter]. destruct (expected_at expect m); reflexivity. }
  destruct (expected_at expect m) as [e|] eqn:X.
  - assert (Pl : place (map s_loc (common expect measure)) (s_loc m) = Some (length (common expect pre))).
    { rewrite Cm, map_app. cbn [map app]. rewrite place_app, map_length; [reflexivity|]. rewrite Cm, map_app in N. cbn [map app] in N. intros C. apply NoDup_remove_2 in N. apply N. apply in_or_app. now left. }
    assert (Gm : geti measure (length pre) = Ok m) by (unfold geti; rewrite E, nth_error_app2, Nat.sub_diag by lia; reflexivity). rewrite Pl. cbn [rmapM fst snd]. rewrite Gm. cbn [rbind].
    assert (Lc : (length (common expect pre) < length xt)%nat) by (rewrite Lx, Cm, app_length; cbn; lia).
    destruct (nth_error xt (length (common expect pre))) as [x|] eqn:Ex; [|apply nth_error_None in Ex; lia]. destruct (nth_error yt (length (common expect pre))) as [y|] eqn:Ey; [|apply nth_error_None in Ey; lia].
    assert (Gx : geti xt (length (common expect pre)) = Ok x) by (unfold geti; now rewrite Ex). assert (Gy : geti yt (length (common expect pre)) = Ok y) by (unfold geti; now rewrite Ey). rewrite Gx. cbn [rbind]. rewrite Gy. cbn [rbind].
    destruct (IH (pre ++ [m]) (done ++ [Some (fst (s_pos m) - x, snd (s_pos m) - y, x, y)]) E') as (news & R1 & R2); [rewrite !app_length; cbn; lia|assumption|assumption|].
    rewrite Lp in R1. rewrite R1. eexists. split; [reflexivity|]. cbn [set_each]. rewrite <- Ld, seti_app. cbn [rbind]. rewrite <- app_assoc in R2. cbn [app] in R2. rewrite R2. f_equal. rewrite <- app_assoc. cbn [app]. f_equal.
    assert (Sk : skipn (length (common expect pre)) (combine xt yt) = (x, y) :: skipn (S (length (common expect pre))) (combine xt yt)).
    { clear - Ex Ey. revert xt yt Ex Ey; induction (length (common expect pre)) as [|n IHn]; intros [|x' xt] [|y' yt] Ex Ey; try discriminate; cbn in Ex, Ey; [injection Ex as ->; injection Ey as ->; reflexivity|]. cbn [combine skipn]. rewrite (IHn _ _ Ex Ey). reflexivity. }
    rewrite Sk. cbn [map snd]. rewrite Cp, app_length. cbn [length]. now rewrite Nat.add_1_r.
  - rewrite (place_notin _ _ (unexpected_notin expect measure m X)). cbn [app] in Cp. rewrite app_nil_r in Cp.
    destruct (IH (pre ++ [m]) (done ++ [None]) E') as (news & R1 & R2); [rewrite !app_length; cbn; lia|assumption|assumption|]. rewrite Lp in R1. exists news. split; [exact R1|]. rewrite <- !app_assoc in R2. cbn [app] in R2. rewrite Cp in R2. rewrite R2. reflexivity.
Qed.
Lemma combine_filled expect measure : forall turb, combine measure (map snd (filled expect measure turb)) = filled expect measure turb.
Proof. induction measure as [|m r IH]; intros turb; cbn [filled]; [reflexivity|]. destruct (expected_at expect m), turb as [|[x y] t]; cbn [map snd combine]; now rewrite IH. Qed.
Lemma solve_rows_ok argsort solve expect measure xt yt p : is_argsort argsort -> NoDup (map s_loc expect) -> NoDup (map s_loc (common expect measure)) ->
  solve (offsets expect measure) = Ok (xt, yt, p) -> length xt = length (offsets expect measure) -> length yt = length (offsets expect measure) ->
  solve_rows argsort solve expect measure = Ok (filled expect measure (combine xt yt), p).
Proof.
  intros AS N M S Lx Ly. unfold solve_rows. rewrite (make_data_rows _ _ _ AS N). cbn [rbind]. rewrite located_offsets, S. cbn [rbind]. rewrite located_common, (match_places _ _ _ AS M). cbn [rbind fst snd]. rewrite combine_map_pairs.
  rewrite offsets_length in Lx, Ly. destruct (columns expect measure xt yt [] measure [] eq_refl M eq_refl Lx Ly) as (news & R1 & R2). cbn [length] in R1. rewrite R1. cbn [rbind]. cbn [app] in R2. rewrite R2. cbn [rbind common filter length skipn]. now rewrite combine_filled.
Qed.

(** *** what the solvers return has one entry for each spot *)
Lemma rmapM_len {A B} (f : A -> res B) l r : rmapM f l = Ok r -> length r = length l.
Proof. intros H. apply rmapM_Ok_Forall2 in H. symmetry. eapply Forall2_length; eauto. Qed.
Lemma exclude_length A d t : length d = length A -> predict_exclude A d = Ok t -> length t = length d.
Proof.
  intros L. unfold predict_exclude, linalg_inv. destruct (rmapM _ (seq 0 (length A))) as [cols|]; [|discriminate]. cbn [rmap rbind]. intros H. apply rmapM_len in H. rewrite H, !combine_length, seq_length. unfold transpose. rewrite map_length, seq_length. lia.
Qed.
Lemma smooth_length s A d t : square A -> length d = length A -> predict_smooth s A d = Ok t -> length t = length d.
Proof.
  intros Sq L. unfold predict_smooth. destruct (Reqb s 0); [discriminate|]. intros H. apply linalg_solve_Ok in H as (H & _).
  - rewrite H, add_diag_length, mat_scale_length, add_diag_length. lia.
  - rewrite matvec_length, !add_diag_length. reflexivity.
  - apply add_diag_square, mat_scale_square, add_diag_square, Sq.
Qed.
Lemma independent_length rq param data ex x y : independent_at rq param data ex None = Ok (x, y) -> length x = length data /\ length y = length data.
Proof.
  unfold independent_at, make_covar_independent. destruct (kernel rq param) as [k|]; [|discriminate]. cbn [rmap rbind].
  set (A := add_diag _ _). assert (Sq : square A) by apply add_diag_square, cov_square. assert (LA : length A = length data) by (unfold A; now rewrite add_diag_length, cov_length, map_length). clearbody A.
  destruct ex.
  - destruct (predict_exclude A (map d_dx data)) as [a|] eqn:Ea; [|discriminate]. cbn [rbind]. destruct (predict_exclude A (map d_dy data)) as [b|] eqn:Eb; [|discriminate]. cbn. intros H. apply Ok_inj in H. injection H as <- <-.
    apply exclude_length in Ea; [|rewrite map_length; lia]. apply exclude_length in Eb; [|rewrite map_length; lia]. rewrite map_length in *. auto.
  - destruct (predict_smooth _ A (map d_dx data)) as [a|] eqn:Ea; [|discriminate]. cbn [rbind]. destruct (predict_smooth _ A (map d_dy data)) as [b|] eqn:Eb; [|discriminate]. cbn. intros H. apply Ok_inj in H. injection H as <- <-.
    apply smooth_length in Ea; [|assumption|rewrite map_length; lia]. apply smooth_length in Eb; [|assumption|rewrite map_length; lia]. rewrite map_length in *. auto.
Qed.
Lemma solve_independent_length argsort minimize rq nuse data ex fx sc x y p : solve_independent argsort minimize rq nuse data ex None fx sc = Ok (x, y, p) -> length x = length data /\ length y = length data.
Proof.
  unfold solve_independent. destruct (if fx then _ else _) as [q|]; [|discriminate]. cbn [rbind]. destruct (independent_at _ _ _ _ _) as [[a b]|] eqn:E; [|discriminate]. cbn. intros H. apply Ok_inj in H. injection H as <- <- <-. eapply independent_length; eauto.
Qed.
Lemma grad_dims rq param ps qs K : make_covar_gradwavefront_nonoise rq param ps qs = Ok K -> length K = (2 * length qs)%nat /\ Forall (fun r => length r = (2 * length ps)%nat) K.
Proof.
  unfold make_covar_gradwavefront_nonoise. destruct rq; [discriminate|]. destruct param as [|s [|a [|l [|]]]]; try discriminate. destruct (Reqb l 0); [discriminate|]. intros H. apply Ok_inj in H. subst K. split; [rewrite app_length, !map_length; lia|].
  apply Forall_forall. intros r H. apply in_app_or in H as [H|H]; apply in_map_iff in H as (q & <- & _); rewrite app_length, !map_length; lia.
Qed.
Lemma solve_gradwavefront_length argsort minimize rq nuse data ex fx x y p : solve_gradwavefront argsort minimize rq nuse data ex None fx = Ok (x, y, p) -> length x = length data /\ length y = length data.
Proof.
  unfold solve_gradwavefront. assert (G : forall q, rmap (fun xy => (xy, q)) (gradwavefront_at rq q data ex None) = Ok (x, y, p) -> length x = length data /\ length y = length data).
  { intros q. unfold gradwavefront_at, make_covar_gradwavefront. destruct (make_covar_gradwavefront_nonoise _ _ _ _) as [K|] eqn:E; [|discriminate]. apply grad_dims in E as [LK FK]. rewrite map_length in *. cbn [rmap rbind].
    set (A := add_diag _ _). assert (Sq : square A) by (apply add_diag_square; unfold square; now rewrite LK). assert (LA : length A = (2 * length data)%nat) by (unfold A; now rewrite add_diag_length). clearbody A.
    assert (Ld : length (map d_dx data ++ map d_dy data) = (2 * length data)%nat) by (rewrite app_length, !map_length; lia).
    assert (Hv : forall v, length v = (2 * length data)%nat -> halves (length data) v = (x, y) -> length x = length data /\ length y = length data).
    { intros v L. unfold halves. intros [= <- <-]. rewrite firstn_length, skipn_length. lia. }
    destruct ex.
    - destruct (predict_exclude A _) as [t|] eqn:T; [|discriminate]. apply exclude_length in T; [|lia]. cbn [rmap rbind]. intros H. apply Ok_inj in H. apply (f_equal fst) in H. cbn [fst] in H. apply (Hv t); [lia|exact H].
    - destruct (predict_smooth _ A _) as [t|] eqn:T; [|discriminate]. apply smooth_length in T; [|assumption|lia]. cbn [rmap rbind]. intros H. apply Ok_inj in H. apply (f_equal fst) in H. cbn [fst] in H. apply (Hv t); [lia|exact H]. }
  destruct ex; (destruct (if fx then _ else _) as [q|]; [|discriminate]); cbn [rbind]; apply G.
Qed.
Lemma filled_at expect pre m post e : forall turb, expected_at expect m = Some e -> (length (common expect pre) < length turb)%nat ->
  exists x y, nth_error turb (length (common expect pre)) = Some (x, y) /\ nth_error (filled expect (pre ++ m :: post) turb) (length pre) = Some (m, Some (fst (s_pos m) - x, snd (s_pos m) - y, x, y)).
Proof.
  induction pre as [|q pre IH]; intros turb X L; cbn [common filter app filled length] in *.
  - rewrite X. destruct turb as [|[x y] t]; cbn in *; [lia|]. exists x, y. auto.
  - destruct (expected_at expect q) as [e'|] eqn:Q.
    + cbn [length] in L. destruct turb as [|[x y] t]; cbn [length] in L; [lia|]. cbn [nth_error length]. apply (IH t X). unfold common. lia.
    + apply (IH turb X L).
Qed.

(** *** empirical covariance *)
Lemma Rleb_t a b : Rleb a b = true <-> a <= b.
Proof. unfold Rleb. destruct (Rle_dec a b); split; congruence || tauto. Qed.
Lemma Rltb_t a b : Rltb a b = true <-> a < b.
Proof. unfold Rltb. destruct (Rlt_dec a b); split; congruence || tauto. Qed.
Lemma ascending_nth edges : StronglySorted Rlt edges -> forall i j, (i <= j)%nat -> (j < length edges)%nat -> nth i edges 0 <= nth j edges 0.
Proof.
  induction 1 as [|x r S IH F]; intros i j L H; cbn [length] in H; [lia|]. destruct i as [|i], j as [|j]; cbn [nth]; [lra| |lia|apply IH; lia].
  rewrite Forall_forall in F. left. apply F. apply nth_In. lia.
Qed.
Lemma ssr_le edges d : (searchsorted_right edges d <= length edges)%nat.
Proof. induction edges as [|x r IH]; cbn; [lia|]. destruct (Rleb x d); cbn; lia. Qed.
Lemma ssr_S edges d : StronglySorted Rlt edges -> forall k, searchsorted_right edges d = S k <-> (k < length edges)%nat /\ nth k edges 0 <= d /\ ((S k < length edges)%nat -> d < nth (S k) edges 0).
Proof.
  induction 1 as [|x r S IH F]; intros k; cbn [searchsorted_right length]; [split; [discriminate|lia]|].
  destruct (Rleb x d) eqn:E.
  - apply Rleb_t in E. destruct k as [|k]; cbn [nth].
    + split.
      * intros [= H]. split; [lia|]. split; [assumption|]. intros L. destruct r as [|y r]; cbn in L; [lia|]. cbn [searchsorted_right] in H. destruct (Rleb y d) eqn:E'; [discriminate|]. cbn. apply Rnot_le_lt. intros C. apply Rleb_t in C. congruence.
      * intros (_ & _ & H). f_equal. destruct r as [|y r]; [reflexivity|]. cbn [searchsorted_right]. destruct (Rleb y d) eqn:E'; [|reflexivity]. apply Rleb_t in E'. cbn in H. specialize (H ltac:(lia)). lra.
    + specialize (IH k). split.
      * intros [= H]. apply IH in H as (A & B & C). split; [lia|]. split; [exact B|]. intros L. apply C. lia.
      * intros (A & B & C). f_equal. apply IH. split; [lia|]. split; [exact B|]. intros L. apply C. lia.
  - split; [discriminate|]. intros (A & B & _). exfalso. assert (nth 0 (x :: r) 0 <= nth k (x :: r) 0) by (apply ascending_nth; [constructor; assumption|lia|cbn; lia]). cbn [nth] in H.
    assert (x <= d) by (destruct k; cbn in *; lra). apply Rleb_t in H0. congruence.
Qed.
Lemma nth_map_lt {A B} (f : A -> B) l k d d' : (k < length l)%nat -> nth k (map f l) d' = f (nth k l d).
Proof. revert k; induction l as [|a l IH]; intros [|k] L; cbn in *; try lia; [reflexivity|]. apply IH. lia. Qed.
Lemma Rsum_app' l m : Rsum (l ++ m) = Rsum l + Rsum m.
Proof. induction l as [|x l IH]; cbn [app]; rewrite ?Rsum_cons; [unfold Rsum; cbn; lra|]. rewrite IH. lra. Qed.
Section Bins.
Context (edges : list R) (n : nat) (SE : StronglySorted Rlt edges) (LE : length edges = S n).
Lemma bin_ssr {A} (sep : A -> R) k x : (k < n)%nat -> andb (Rleb (nth k edges 0) (sep x)) (Rltb (sep x) (nth (S k) edges 0)) = Nat.eqb (searchsorted_right edges (sep x)) (S k).
Proof.
  intros L. apply eq_true_iff_eq. rewrite andb_true_iff, Rleb_t, Rltb_t, Nat.eqb_eq, (ssr_S _ _ SE). split; [intros [A1 A2]; repeat split; auto; lia|intros (A1 & A2 & A3); split; [assumption|apply A3; lia]].
Qed.
Lemma fold_max_bound (ivs : list (nat * R)) b : Forall (fun iv => (S (fst iv) <= b)%nat) ivs -> (fold_right (fun iv m => Nat.max (S (fst iv)) m) O ivs <= b)%nat.
Proof. induction 1; cbn [fold_right]; lia. Qed.
Lemma fold_max_ge (ivs : list (nat * R)) iv : In iv ivs -> (S (fst iv) <= fold_right (fun iv m => Nat.max (S (fst iv)) m) O ivs)%nat.
Proof. induction ivs as [|a l IH]; [intros []|]. intros [->|H]; cbn [fold_right]; [lia|]. specialize (IH H). lia. Qed.
Definition indexed (pairs : list (datum * datum)) : list (nat * (datum * datum)) := flat_map (fun ab => match searchsorted_right edges (separation ab) with O => [] | S i => [(i, ab)] end) pairs.
Lemma indexed_filter k pairs : map snd (filter (fun iab => Nat.eqb (fst iab) k) (indexed pairs)) = filter (fun ab => Nat.eqb (searchsorted_right edges (separation ab)) (S k)) pairs.
Proof.
  unfold indexed. induction pairs as [|ab l IH]; [reflexivity|]. cbn [flat_map filter]. destruct (searchsorted_right edges (separation ab)) as [|i] eqn:E; cbn [app]; [exact IH|]. cbn [filter fst]. cbn [Nat.eqb]. destruct (Nat.eqb i k); cbn [map snd]; now rewrite IH.
Qed.
Lemma indexed_weights (f : datum * datum -> R) k pairs : map snd (filter (fun iv => Nat.eqb (fst iv) k) (map (fun iab => (fst iab, f (snd iab))) (indexed pairs))) = map f (filter (fun ab => Nat.eqb (searchsorted_right edges (separation ab)) (S k)) pairs).
Proof.
  rewrite <- indexed_filter. induction (indexed pairs) as [|[i ab] l IH]; [reflexivity|]. cbn [map filter fst snd]. destruct (Nat.eqb i k); cbn [map snd]; now rewrite IH.
Qed.
Definition width (pairs : list (datum * datum)) : nat := Nat.max n (fold_right (fun iv m => Nat.max (S (fst iv)) m) O (map (fun iab => (fst iab, 1)) (indexed pairs))).
Lemma width_any (f : datum * datum -> R) pairs : Nat.max n (fold_right (fun iv m => Nat.max (S (fst iv)) m) O (map (fun iab => (fst iab, f (snd iab))) (indexed pairs))) = width pairs.
Proof. unfold width. f_equal. induction (indexed pairs) as [|a l IH]; cbn [map fold_right fst snd]; [reflexivity|]. now rewrite IH. Qed.
Lemma width_inside pairs : Forall (fun ab => separation ab < nth n edges 0) pairs -> width pairs = n.
Proof.
  intros F. unfold width. apply Nat.max_l. apply fold_max_bound. apply Forall_forall. intros iv H. apply in_map_iff in H as ([i ab] & <- & H). cbn. unfold indexed in H. apply in_flat_map in H as (ab' & I & H).
  destruct (searchsorted_right edges (separation ab')) as [|j] eqn:E; [destruct H|]. destruct H as [[= -> ->]|[]]. rewrite Forall_forall in F. specialize (F _ I). apply (ssr_S _ _ SE) in E as (A & B & _).
  destruct (Nat.eq_dec i n) as [->|]; [lra|lia].
Qed.
Lemma width_outside pairs : Exists (fun ab => nth n edges 0 <= separation ab) pairs -> width pairs = S n.
Proof.
  intros X. apply Exists_exists in X as (ab & I & H). assert (E : searchsorted_right edges (separation ab) = S n) by (apply (ssr_S _ _ SE); repeat split; [lia|assumption|lia]).
  assert (U : (fold_right (fun iv m => Nat.max (S (fst iv)) m) O (map (fun iab => (fst iab, 1%R)) (indexed pairs)) <= S n)%nat).
  { apply fold_max_bound. apply Forall_forall. intros iv Hv. apply in_map_iff in Hv as ([i ab'] & <- & Hv). cbn. unfold indexed in Hv. apply in_flat_map in Hv as (ab'' & _ & Hv). pose proof (ssr_le edges (separation ab'')).
    destruct (searchsorted_right edges (separation ab'')) as [|j]; [destruct Hv|]. destruct Hv as [[= -> ->]|[]]. lia. }
  assert (L : (S n <= fold_right (fun iv m => Nat.max (S (fst iv)) m) O (map (fun iab => (fst iab, 1%R)) (indexed pairs)))%nat).
  { apply (fold_max_ge (map (fun iab => (fst iab, 1)) (indexed pairs)) (n, 1)). apply in_map_iff. exists (n, ab). split; [reflexivity|]. unfold indexed. apply in_flat_map. exists ab. split; [assumption|]. rewrite E. now left. }
  unfold width. lia.
Qed.
Definition means (f : datum * datum -> R) (pairs : list (datum * datum)) : list R :=
  map (fun sn => fst sn / snd sn) (combine (bincount (map (fun iab => (fst iab, f (snd iab))) (indexed pairs)) n)
    (map (fun v => if Reqb v 0 then 1 else v) (bincount (map (fun iab => (fst iab, 1)) (indexed pairs)) n))).
Lemma bincount_len f pairs : length (bincount (map (fun iab => (fst iab, f (snd iab))) (indexed pairs)) n) = width pairs.
Proof. unfold bincount. rewrite map_length, seq_length. apply width_any. Qed.
Lemma bincount_len1 pairs : length (bincount (map (fun iab => (fst iab, 1)) (indexed pairs)) n) = width pairs.
Proof. exact (bincount_len (fun _ => 1) pairs). Qed.
Lemma means_length f pairs : length (means f pairs) = width pairs.
Proof. unfold means. rewrite map_length, combine_length, map_length, bincount_len, bincount_len1. apply Nat.min_id. Qed.
Lemma bincount_nth f pairs k : (k < width pairs)%nat -> nth k (bincount (map (fun iab => (fst iab, f (snd iab))) (indexed pairs)) n) 0 = Rsum (map f (filter (fun ab => Nat.eqb (searchsorted_right edges (separation ab)) (S k)) pairs)).
Proof.
  intros L. unfold bincount. rewrite width_any. rewrite (nth_indep _ 0 (Rsum (map snd (filter (fun iv => Nat.eqb (fst iv) 0) (map (fun iab => (fst iab, f (snd iab))) (indexed pairs)))))) by (rewrite map_length, seq_length; assumption).
  rewrite (map_nth (fun k => Rsum (map snd (filter (fun iv => Nat.eqb (fst iv) k) (map (fun iab => (fst iab, f (snd iab))) (indexed pairs)))))). rewrite seq_nth by assumption. cbn [Nat.add]. now rewrite indexed_weights.
Qed.
Lemma Rsum_ones {A} (l : list A) : Rsum (map (fun _ => 1) l) = INR (length l).
Proof. induction l as [|a l IH]; [reflexivity|]. cbn [map length]. rewrite Rsum_cons, S_INR, IH. lra. Qed.
Lemma means_nth f pairs k : (k < width pairs)%nat -> nth k (means f pairs) 0 =
  let m := filter (fun ab => Nat.eqb (searchsorted_right edges (separation ab)) (S k)) pairs in match m with [] => 0 | _ => Rsum (map f m) / INR (length m) end.
Proof.
  intros L. unfold means. rewrite (nth_map_lt _ _ _ (0, 0)) by (rewrite combine_length, map_length, bincount_len, bincount_len1, Nat.min_id; assumption).
  rewrite combine_nth by (rewrite map_length, bincount_len, bincount_len1; reflexivity). cbn [fst snd]. rewrite bincount_nth by assumption.
  rewrite (nth_map_lt _ _ _ 0) by (rewrite bincount_len1; assumption). rewrite (bincount_nth (fun _ => 1) pairs k L). rewrite Rsum_ones.
  cbv zeta. destruct (filter _ pairs) as [|a l]; [cbn [map length Rsum fold_right INR]; unfold Rdiv; ring|].
  destruct (Reqb _ 0) eqn:E; [|reflexivity]. apply Reqb_true in E. exfalso. pose proof (pos_INR (length l)) as P. cbn [length] in E. rewrite S_INR in E. lra.
Qed.
End Bins.
Lemma flat_map_cons_perm {A B} (f : A -> B) (g : A -> list B) m : Permutation (flat_map (fun b => f b :: g b) m) (map f m ++ flat_map g m).
Proof. induction m as [|b m IH]; [reflexivity|]. cbn. constructor. rewrite IH, !app_assoc. apply Permutation_app_tail. apply Permutation_app_comm. Qed.
Lemma pairs_perm_gen (l m : list datum) : Permutation (flat_map (fun b => map (fun a => (a, b)) l) m) (list_prod l m).
Proof.
  induction l as [|a l IH]; cbn [map list_prod]; [induction m; [reflexivity|assumption]|]. rewrite (flat_map_cons_perm (fun b => (a, b)) (fun b => map (fun a => (a, b)) l)). now apply Permutation_app_head.
Qed.
Lemma pairs_perm data : Permutation (all_pairs data) (list_prod data data).
Proof. apply pairs_perm_gen. Qed.
Lemma filter_perm {A} (f : A -> bool) l m : Permutation l m -> Permutation (filter f l) (filter f m).
Proof. induction 1; cbn; [constructor|destruct (f x); auto|destruct (f x), (f y); auto; constructor|etransitivity; eauto]. Qed.
Lemma means_bin edges n (SE : StronglySorted Rlt edges) (LE : length edges = S n) f data k : (k < n)%nat -> nth k (means edges n f (all_pairs data)) 0 = bin_mean edges k apart f (list_prod data data).
Proof.
  intros L. rewrite means_nth by (unfold width; lia). cbv zeta. unfold bin_mean. assert (P : Permutation (filter (fun ab => Nat.eqb (searchsorted_right edges (separation ab)) (S k)) (all_pairs data)) (in_bin edges k apart (list_prod data data))).
  { unfold in_bin. rewrite (filter_ext (fun x => (Rleb (nth k edges 0) (apart x) && Rltb (apart x) (nth (S k) edges 0))%bool) (fun ab => Nat.eqb (searchsorted_right edges (separation ab)) (S k))).
    - apply filter_perm, pairs_perm.
    - intros ab. exact (bin_ssr edges n SE LE separation k ab L). }
  destruct (filter _ _) as [|a l] eqn:E.
  - apply Permutation_nil in P. now rewrite P.
  - rewrite <- E in *. rewrite (Rsum_perm _ _ (Permutation_map f P)), (Permutation_length P). destruct (in_bin _ _ _ _) as [|b m] eqn:E'; [|reflexivity]. symmetry in P. apply Permutation_nil in P. congruence.
Qed.
Lemma emp_edges data bins edges n : length edges = S n -> empirical_covariance data bins (Some edges) = Ok (centres edges, means edges n dxdx (all_pairs data), means edges n dydy (all_pairs data)).
Proof. intros L. unfold empirical_covariance. rewrite L. cbn [Nat.eqb pred rbind]. reflexivity. Qed.
Lemma centres_length edges n : length edges = S n -> length (centres edges) = n.
Proof. revert n; induction edges as [|a r IH]; intros n L; [discriminate|]. destruct r as [|b r]; cbn in L; [injection L as <-; reflexivity|]. destruct n as [|n]; [lia|]. cbn [centres length]. f_equal. apply IH. cbn. lia. Qed.
Lemma centres_nth edges k : (S k < length edges)%nat -> nth k (centres edges) 0 = (nth k edges 0 + nth (S k) edges 0) / 2.
Proof. revert k; induction edges as [|a r IH]; intros k L; cbn in L; [lia|]. destruct r as [|b r]; cbn in L; [lia|]. cbn [centres]. destruct k as [|k]; [reflexivity|]. cbn [nth]. apply IH. cbn. lia. Qed.

(** the default bins *)
Lemma fold_min_le d ds : forall x, In x (d :: ds) -> fold_right Rmin d ds <= x.
Proof. induction ds as [|a ds IH]; cbn [fold_right]; intros x; [intros [->|[]]; lra|]. intros [->|[->|H]]; [specialize (IH x (or_introl eq_refl)); pose proof (Rmin_r a (fold_right Rmin x ds)); lra|apply Rmin_l|specialize (IH x (or_intror H)); pose proof (Rmin_r a (fold_right Rmin d ds)); lra]. Qed.
Lemma fold_min_in d ds : In (fold_right Rmin d ds) (d :: ds).
Proof. induction ds as [|a ds IH]; cbn [fold_right]; [now left|]. unfold Rmin at 1. destruct (Rle_dec _ _); [right; now left|]. destruct IH as [H|H]; [left; exact H|right; right; exact H]. Qed.
Lemma fold_max_le d ds : forall x, In x (d :: ds) -> x <= fold_right Rmax d ds.
Proof. induction ds as [|a ds IH]; cbn [fold_right]; intros x; [intros [->|[]]; lra|]. intros [->|[->|H]]; [specialize (IH x (or_introl eq_refl)); pose proof (Rmax_r a (fold_right Rmax x ds)); lra|apply Rmax_l|specialize (IH x (or_intror H)); pose proof (Rmax_r a (fold_right Rmax d ds)); lra]. Qed.
Lemma fold_max_in d ds : In (fold_right Rmax d ds) (d :: ds).
Proof. induction ds as [|a ds IH]; cbn [fold_right]; [now left|]. unfold Rmax at 1. destruct (Rle_dec _ _); [|right; now left]. destruct IH as [H|H]; [left; exact H|right; right; exact H]. Qed.
Lemma separation_self a : separation (a, a) = 0.
Proof. unfold separation. cbn [fst snd]. replace (_ + _) with 0 by ring. apply sqrt_0. Qed.
Lemma all_pairs_In data a b : In (a, b) (all_pairs data) <-> In a data /\ In b data.
Proof. unfold all_pairs. rewrite in_flat_map. split; [intros (x & Hx & H); apply in_map_iff in H as (y & [= <- <-] & H); auto|intros [Ha Hb]; exists b; split; [assumption|]; apply in_map_iff; exists a; auto]. Qed.
Lemma linspace_length lo hi n : length (linspace lo hi n) = S n.
Proof. destruct n; [reflexivity|]. unfold linspace. now rewrite map_length, seq_length. Qed.
Lemma linspace_nth lo hi n k : (k <= S n)%nat -> nth k (linspace lo hi (S n)) 0 = lo + INR k * ((hi - lo) / INR (S n)).
Proof. intros L. unfold linspace. rewrite (nth_map_lt _ _ _ O) by (rewrite seq_length; lia). rewrite seq_nth by lia. reflexivity. Qed.
Lemma seq_map_sorted (f : nat -> R) : (forall i j, (i < j)%nat -> f i < f j) -> forall len s, StronglySorted Rlt (map f (seq s len)).
Proof. intros M len. induction len as [|len IH]; intros s; cbn; constructor; [apply IH|]. apply Forall_forall. intros x H. apply in_map_iff in H as (j & <- & H). apply in_seq in H. apply M. lia. Qed.
Lemma linspace_sorted lo hi n : lo < hi -> StronglySorted Rlt (linspace lo hi (S n)).
Proof.
  intros L. unfold linspace. apply seq_map_sorted. intros i j H. apply Rplus_lt_compat_l. apply Rmult_lt_compat_r; [|now apply lt_INR]. apply Rdiv_lt_0_compat; [lra|]. apply lt_0_INR. lia.
Qed.
Lemma default_edges data n : data <> [] -> exists far, (exists a b, In a data /\ In b data /\ apart (a, b) = far) /\ (forall a b, In a data -> In b data -> apart (a, b) <= far) /\
  let edges := linspace 0 (far + 0.1) (S n) in empirical_covariance data (S n) None = empirical_covariance data (S n) (Some edges) /\ StronglySorted Rlt edges /\ length edges = S (S n) /\
  (forall k, (k <= S n)%nat -> nth k edges 0 = INR k * ((far + 0.1) / INR (S n))) /\ Forall (fun ab => 0 <= separation ab < nth (S n) edges 0) (all_pairs data).
Proof.
  intros Nd. destruct (map separation (all_pairs data)) as [|d ds] eqn:E.
  { exfalso. destruct data as [|a r]; [congruence|]. assert (I : In (separation (a, a)) []) by (rewrite <- E; apply in_map; apply all_pairs_In; split; now left). destruct I. }
  set (far := fold_right Rmax d ds). exists far.
  assert (Le : forall a b, In a data -> In b data -> apart (a, b) <= far).
  { intros a b Ia Ib. change (apart (a, b)) with (separation (a, b)). apply fold_max_le. rewrite <- E. apply in_map. now apply all_pairs_In. }
  assert (Lo : fold_right Rmin d ds = 0).
  { apply Rle_antisym.
    - destruct data as [|a r]; [congruence|]. rewrite <- (separation_self a). apply fold_min_le. rewrite <- E. apply in_map, all_pairs_In. split; now left.
    - pose proof (fold_min_in d ds) as I. rewrite <- E in I. apply in_map_iff in I as (ab & <- & _). apply sqrt_pos. }
  assert (F0 : 0 <= far) by (destruct data as [|a r]; [congruence|]; specialize (Le a a (or_introl eq_refl) (or_introl eq_refl)); change (apart (a, a)) with (separation (a, a)) in Le; rewrite separation_self in Le; exact Le).
  split. { pose proof (fold_max_in d ds) as I. rewrite <- E in I. apply in_map_iff in I as ([a b] & Hs & I). apply all_pairs_In in I as [Ia Ib]. exists a, b. auto. }
  split; [exact Le|]. cbv zeta. split; [|split; [|split; [|split]]].
  - unfold empirical_covariance. rewrite E, linspace_length. cbn [Nat.eqb pred rbind]. rewrite Lo. fold far. reflexivity.
  - apply linspace_sorted. lra.
  - apply linspace_length.
  - intros k L. rewrite linspace_nth by assumption. rewrite Rplus_0_l, Rminus_0_r. reflexivity.
  - apply Forall_forall. intros [a b] I. split; [apply sqrt_pos|]. apply all_pairs_In in I as [Ia Ib]. specialize (Le a b Ia Ib). rewrite linspace_nth by lia. change (separation (a, b)) with (apart (a, b)).
    replace (0 + INR (S n) * ((far + 0.1 - 0) / INR (S n))) with (far + 0.1); [lra|]. field. apply not_0_INR. lia.
Qed.
(** every pair in one bin *)
Lemma sum_delta i v : forall n s, Rsum (map (fun k => if Nat.eqb i k then v else 0) (seq s n)) = if andb (Nat.leb s i) (Nat.ltb i (s + n)) then v else 0.
Proof.
  induction n as [|n IH]; intros s; cbn [seq map].
  - rewrite Nat.add_0_r. destruct (Nat.leb_spec s i); [|reflexivity]. destruct (Nat.ltb_spec i s); [lia|reflexivity].
  - rewrite Rsum_cons, IH. destruct (Nat.eqb_spec i s); destruct (Nat.leb_spec s i), (Nat.leb_spec (S s) i), (Nat.ltb_spec i (s + S n)), (Nat.ltb_spec i (S s + n)); cbn; try lia; lra.
Qed.
Lemma partition_sum {A} (idx : A -> nat) (f : A -> R) n l : Forall (fun x => (1 <= idx x <= n)%nat) l ->
  Rsum (map (fun k => Rsum (map f (filter (fun x => Nat.eqb (idx x) (S k)) l))) (seq 0 n)) = Rsum (map f l).
Proof.
  induction 1 as [|x l H F IH]; [exact (Rsum_zero (seq 0 n))|]. cbn [map]. rewrite Rsum_cons, <- IH.
  rewrite (map_ext (fun k => Rsum (map f (filter (fun x => Nat.eqb (idx x) (S k)) (x :: l)))) (fun k => (if Nat.eqb (pred (idx x)) k then f x else 0) + Rsum (map f (filter (fun x => Nat.eqb (idx x) (S k)) l)))).
  - rewrite Rsum_plus, sum_delta. destruct (Nat.leb_spec 0 (pred (idx x))), (Nat.ltb_spec (pred (idx x)) (0 + n)); cbn; try lia. reflexivity.
  - intros k. cbn [filter]. destruct (idx x) as [|i]; [lia|]. cbn [pred Nat.eqb]. destruct (Nat.eqb i k); cbn [map]; [apply Rsum_cons|lra].
Qed.
Lemma bin_total {A} edges k (sep f : A -> R) l : INR (length (in_bin edges k sep l)) * bin_mean edges k sep f l = Rsum (map f (in_bin edges k sep l)).
Proof. unfold bin_mean. destruct (in_bin edges k sep l) as [|a m] eqn:E; [cbn; ring|]. field. apply not_0_INR. cbn. lia. Qed.
Lemma product_sum (g : datum -> R) l m : Rsum (map (fun ab => g (fst ab) * g (snd ab)) (list_prod l m)) = Rsum (map g l) * Rsum (map g m).
Proof. induction l as [|a l IH]; cbn [list_prod map]; [cbn; ring|]. rewrite map_app, Rsum_cons, map_map, Rsum_app', IH. cbn [fst snd]. rewrite (Rsum_scale (g a) g). ring. Qed.
