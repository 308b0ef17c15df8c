From Verif.Model Require Import Fitter.
From Verif.Proofs Require Circles.
From Verif.Spec Require Import Trig Match Xy2tp Numpy.
From Verif.Proofs Require Import Prelude RealNum Numpy Stats Trig.
From Verif.Proofs Require Xy2tp Pos2ptl.
From Verif.Spec Require Import Fitter.
From Coq Require Import Lra Lia String List Permutation DecimalString DecimalPos DecimalZ.
Import ListNotations.
Local Open Scope R_scope.
Local Open Scope string_scope.
Local Open Scope list_scope.

(** *** Flags *)
Lemma unique_R_In x l : In x (unique_R l) <-> In x l.
Proof.
  assert (I : forall y x l, In x (insert_unique_R y l) <-> x = y \/ In x l).
  { intros y z l0. induction l0 as [|a l0 IH]; cbn; [intuition|]. destruct (Rltb y a); [cbn; intuition|]. destruct (Reqb y a) eqn:E; [apply Reqb_true in E; subst; cbn; intuition|]. cbn. rewrite IH. intuition. }
  induction l as [|a l IH]; cbn; [tauto|]. fold (unique_R l). rewrite I, IH. intuition.
Qed.
Lemma max_R_spec l : l <> [] -> exists h, max_R l = Ok h /\ In h l /\ forall x, In x l -> x <= h.
Proof.
  destruct l as [|a l]; [congruence|]. intros _. exists (fold_left Rmax l a). split; [reflexivity|]. revert a. induction l as [|b l IH]; intros a; cbn [fold_left]; [split; [left; reflexivity|intros x [->|[]]; lra]|].
  destruct (IH (Rmax a b)) as [I B]. split.
  - destruct I as [<-|I]; [|right; right; exact I]. unfold Rmax. destruct (Rle_dec a b); [right; left|left]; reflexivity.
  - intros x [->|[->|Hx]]; [pose proof (B (Rmax x b) (or_introl eq_refl)); pose proof (Rmax_l x b); lra|pose proof (B (Rmax a x) (or_introl eq_refl)); pose proof (Rmax_r a x); lra|apply B; right; exact Hx].
Qed.
Lemma min_R_spec l : l <> [] -> exists h, min_R l = Ok h /\ In h l /\ forall x, In x l -> h <= x.
Proof.
  destruct l as [|a l]; [congruence|]. intros _. exists (fold_left Rmin l a). split; [reflexivity|]. revert a. induction l as [|b l IH]; intros a; cbn [fold_left]; [split; [left; reflexivity|intros x [->|[]]; lra]|].
  destruct (IH (Rmin a b)) as [I B]. split.
  - destruct I as [<-|I]; [|right; right; exact I]. unfold Rmin. destruct (Rle_dec a b); [left|right; left]; reflexivity.
  - intros x [->|[->|Hx]]; [pose proof (B (Rmin x b) (or_introl eq_refl)); pose proof (Rmin_l x b); lra|pose proof (B (Rmin a x) (or_introl eq_refl)); pose proof (Rmin_r a x); lra|apply B; right; exact Hx].
Qed.
Lemma variance_sum l : l <> [] -> exists vx vy, variance (map mv_x l) = Ok vx /\ variance (map mv_y l) = Ok vy /\ vx + vy = spread l.
Proof.
  intros NE. assert (N1 : forall f : move -> R, map f l <> []) by (intros f E; apply map_eq_nil in E; auto).
  unfold variance. rewrite !mean_Ok by auto. cbn [rbind]. rewrite !mean_Ok by (intros E; apply map_eq_nil in E; revert E; apply N1). do 2 eexists. split; [reflexivity|]. split; [reflexivity|].
  unfold spread, average. rewrite !map_length, !map_map. assert (S2 : forall f g : move -> R, forall k, Rsum (map (fun m => f m + g m) k) = Rsum (map f k) + Rsum (map g k)) by (intros f g k; induction k as [|m k IH]; cbn; [lra|fold (Rsum (map (fun m => f m + g m) k)); unfold Rsum in *; cbn; lra]).
  rewrite S2. unfold Rdiv. lra.
Qed.
Lemma spread_pos l : 0 <= spread l.
Proof.
  unfold spread at 1. set (ax := average mv_x l). set (ay := average mv_y l). clearbody ax ay. unfold average. apply Rmult_le_pos.
  - induction l as [|m l IH]; unfold Rsum in *; cbn; [lra|]. pose proof (pow2_ge_0 (mv_x m - ax)). pose proof (pow2_ge_0 (mv_y m - ay)). cbn in *. lra.
  - destruct l as [|m l]; [cbn; rewrite Rinv_0; lra|]. left. apply Rinv_0_lt_compat. apply lt_0_INR. cbn. lia.
Qed.
Lemma theta_loop_spec moves : forall vals s, exists t m, theta_loop moves vals s = Ok (t, m) /\
  (t = true <-> fst s = true \/ exists v, In v vals /\ testable moves v) /\
  (m = true <-> snd s = true \/ exists v, In v vals /\ testable moves v /\ 0.01 < spread (arc moves v)).
Proof.
  induction vals as [|v vals IH]; intros s.
  - exists (fst s), (snd s). cbn. destruct s as [a b]. split; [reflexivity|]. cbn. split; (split; [auto|intros [H|(v & [] & _)]; exact H]).
  - cbn [theta_loop]. fold (arc moves v). assert (Skip : ~ testable moves v -> forall s t m, (exists t' m', theta_loop moves vals s = Ok (t', m') /\ t' = t /\ m' = m) -> theta_loop moves vals s = Ok (t, m)) by (intros _ s0 t m (t' & m' & E & -> & ->); exact E).
    assert (Other : ~ testable moves v -> exists t m, theta_loop moves vals s = Ok (t, m) /\ (t = true <-> fst s = true \/ (exists v0 : R, In v0 (v :: vals) /\ testable moves v0)) /\ (m = true <-> snd s = true \/ (exists v0 : R, In v0 (v :: vals) /\ testable moves v0 /\ 0.01 < spread (arc moves v0)))).
    { intros NT. destruct (IH s) as (t & m & E & Ht & Hm). exists t, m. split; [exact E|]. rewrite Ht, Hm. split; (split; intros [H|(w & Hw & Tw)]; [left; exact H|right; exists w; split; [right; exact Hw|exact Tw]|left; exact H|]); (destruct Hw as [<-|Hw]; [tauto|right; exists w; split; [exact Hw|exact Tw]]). }
    clear Skip. destruct (Nat.ltb_spec (List.length (arc moves v)) 4) as [L|L]; [apply Other; intros (L4 & _); lia|].
    destruct (Rltb 160 v) eqn:E160; [apply Rltb_true in E160; apply Other; intros (_ & V & _); lra|]. apply Rltb_false in E160.
    assert (NE : arc moves v <> []) by (intros E; rewrite E in L; cbn in L; lia).
    assert (NEt : map mv_t (arc moves v) <> []) by (intros E; apply map_eq_nil in E; auto).
    destruct (max_R_spec _ NEt) as (hi & -> & Ih & Bh). destruct (min_R_spec _ NEt) as (lo & -> & Il & Bl). cbn [rbind].
    destruct (Rltb (hi - lo) 20) eqn:E20.
    + apply Rltb_true in E20. apply Other. intros (_ & _ & a & b & Ia & Ib & D). pose proof (Bh _ (in_map mv_t _ _ Ia)). pose proof (Bl _ (in_map mv_t _ _ Ib)). lra.
    + apply Rltb_false in E20. assert (T : testable moves v). { split; [exact L|]. split; [exact E160|]. apply in_map_iff in Ih as (a & <- & Ia). apply in_map_iff in Il as (b & <- & Ib). exists a, b. auto. }
      destruct (variance_sum _ NE) as (vx & vy & -> & -> & Ev). cbn [rbind]. rewrite Ev.
      destruct (IH (true, snd s || Rltb 0.1 (sqrt (spread (arc moves v))))) as (t & m & E & Ht & Hm). exists t, m. split; [exact E|]. rewrite Ht, Hm. cbn [fst snd].
      assert (Eq : Rltb 0.1 (sqrt (spread (arc moves v))) = true <-> 0.01 < spread (arc moves v)). { rewrite Rltb_true. pose proof (spread_pos (arc moves v)) as P. split; intros H. - replace 0.01 with (0.1 * 0.1) by lra. rewrite <- (sqrt_sqrt _ P). pose proof (sqrt_pos (spread (arc moves v))). nra. - replace 0.1 with (sqrt 0.01); [apply sqrt_lt_1; lra|]. replace 0.01 with (0.1 * 0.1) by lra. apply sqrt_square. lra. }
      split; [split; [intros _; right; exists v; split; [left; reflexivity|exact T]|intros _; left; reflexivity]|]. rewrite orb_true_iff, Eq. split.
      * intros [[H|H]|(w & Hw & Tw)]; [left; exact H|right; exists v; split; [left; reflexivity|auto]|right; exists w; split; [right; exact Hw|exact Tw]].
      * intros [H|(w & [<-|Hw] & Tw)]; [left; left; exact H|left; right; tauto|right; exists w; auto].
Qed.
Lemma testable_In moves v : testable moves v -> In v (unique_R (map mv_p moves)).
Proof. intros (L & _). apply unique_R_In. destruct (arc moves v) as [|m l] eqn:E; [cbn in L; lia|]. assert (I : In m (arc moves v)) by (rewrite E; left; reflexivity). unfold arc in I. apply filter_In in I as [I B]. apply Reqb_true in B. rewrite <- B. now apply in_map. Qed.
Theorem move_flags moves : exists f, eval_move_flags moves = Ok f /\
  ((exists v, testable moves v) /\ (forall v, testable moves v -> spread (arc moves v) <= 0.01) -> f = 1%Z) /\
  (~ ((exists v, testable moves v) /\ (forall v, testable moves v -> spread (arc moves v) <= 0.01)) -> f = 0%Z).
Proof.
  unfold eval_move_flags. destruct (theta_loop_spec moves (unique_R (map mv_p moves)) (false, false)) as (t & m & -> & Ht & Hm). cbn [rbind fst snd] in *.
  assert (A : t = true <-> exists v, testable moves v) by (rewrite Ht; split; [intros [H|(v & _ & T)]; [discriminate|now exists v]|intros (v & T); right; exists v; auto using testable_In]).
  assert (B : m = true <-> exists v, testable moves v /\ 0.01 < spread (arc moves v)) by (rewrite Hm; split; [intros [H|(v & _ & T)]; [discriminate|now exists v]|intros (v & T & S); right; exists v; auto using testable_In]).
  destruct t, m; cbn [andb negb].
  - exists 0%Z. split; [reflexivity|]. split; [|reflexivity]. intros [_ F]. destruct (proj1 B eq_refl) as (v & T & S). specialize (F v T). lra.
  - exists 1%Z. split; [reflexivity|]. split; [reflexivity|]. intros N. destruct N. split; [now apply A|]. intros v T. destruct (Rle_dec (spread (arc moves v)) 0.01) as [|G]; [assumption|]. assert (false = true) by (apply B; exists v; split; [exact T|lra]). discriminate.
  - exists 0%Z. split; [reflexivity|]. split; [|reflexivity]. intros [E _]. apply A in E. discriminate.
  - exists 0%Z. split; [reflexivity|]. split; [|reflexivity]. intros [E _]. apply A in E. discriminate.
Qed.

(** *** Dictionaries and names *)
Lemma lookup_same {V} (d : dict string V) k v : lookup (dset d k v) k = Ok v.
Proof. unfold lookup, dict_getE, dset. now rewrite (dict_get_set_same String.eqb String.eqb_eq). Qed.
Lemma lookup_other {V} (d : dict string V) k j v : j <> k -> lookup (dset d k v) j = lookup d j.
Proof. intros N. unfold lookup, dict_getE, dset. now rewrite (dict_get_set_other String.eqb String.eqb_eq). Qed.
Lemma lookup_dset {V} (d : dict string V) k j v : lookup (dset d k v) j = if String.eqb j k then Ok v else lookup d j.
Proof. destruct (String.eqb_spec j k) as [->|N]; [apply lookup_same|now apply lookup_other]. Qed.
Lemma lookup_keys {V} (d : dict string V) k : In k (map fst d) <-> exists v, lookup d k = Ok v.
Proof.
  unfold lookup, dict_getE. destruct (dict_get String.eqb d k) as [v|] eqn:E.
  - split; [intros _; now exists v|]. intros _. apply (dict_get_In String.eqb String.eqb_eq) in E. now apply (in_map fst) in E.
  - apply (dict_get_None String.eqb String.eqb_eq) in E. split; [tauto|intros (v & H); discriminate].
Qed.
Lemma mem_keys {V} (d : dict string V) k : dict_mem String.eqb d k = true <-> In k (map fst d).
Proof. rewrite lookup_keys. unfold dict_mem, lookup, dict_getE. destruct (dict_get _ d k) as [v|]; [split; [intros _; now exists v|reflexivity]|split; [discriminate|intros (v & H); discriminate]]. Qed.
Lemma dset_keys {V} (d : dict string V) k v j : In j (map fst (dset d k v)) <-> j = k \/ In j (map fst d).
Proof. rewrite !lookup_keys. rewrite lookup_dset. destruct (String.eqb_spec j k) as [->|N]; [split; [left; reflexivity|intros _; now exists v]|]. split; [auto|intros [H|H]; [contradiction|exact H]]. Qed.
Lemma dset_NoDup {V} (d : dict string V) k v : NoDup (map fst d) -> NoDup (map fst (dset d k v)).
Proof. apply dict_set_NoDup, String.eqb_eq. Qed.
Lemma mem_str_In k l : mem_str k l = true <-> In k l.
Proof. unfold mem_str. rewrite existsb_exists. split; [intros (j & Hj & E); apply String.eqb_eq in E; now subst|intros H; exists k; split; [exact H|apply String.eqb_refl]]. Qed.
Lemma mem_str_false k l : mem_str k l = false <-> ~ In k l.
Proof. rewrite <- mem_str_In. destruct (mem_str k l); intuition congruence. Qed.

Lemma str_of_Z_inj a b : str_of_Z a = str_of_Z b -> a = b.
Proof.
  unfold str_of_Z. intros H. apply (f_equal NilZero.int_of_string) in H.
  assert (N : forall z, Z.to_int z <> Decimal.Pos Decimal.Nil /\ Z.to_int z <> Decimal.Neg Decimal.Nil). { intros [|p|p]; cbn; split; try discriminate; intros E; injection E as E; exact (DecimalPos.Unsigned.to_uint_nonnil p E). }
  rewrite !NilZero.isi in H by apply N. injection H as H. now apply DecimalZ.to_int_inj.
Qed.
Lemma append_inj a b c : (a ++ b)%string = (a ++ c)%string -> b = c.
Proof. induction a as [|x a IH]; cbn; [auto|]. intros H. injection H as H. auto. Qed.
Lemma eps_t_inj a b : eps_t a = eps_t b -> a = b.
Proof. unfold eps_t. intros H. apply append_inj in H. now apply str_of_Z_inj. Qed.
Lemma eps_p_inj a b : eps_p a = eps_p b -> a = b.
Proof. unfold eps_p. intros H. apply append_inj in H. now apply str_of_Z_inj. Qed.
Lemma eps_tp a b : eps_t a <> eps_p b.
Proof. unfold eps_t, eps_p. cbn. intros H. discriminate. Qed.
Lemma eps_epsilon s : has_epsilon (eps_t s) = true /\ has_epsilon (eps_p s) = true.
Proof. split; reflexivity. Qed.
Lemma all_no_epsilon k : In k all_keys -> has_epsilon k = false.
Proof. cbn. intros H. repeat (destruct H as [<-|H]; [reflexivity|]). destruct H. Qed.
Lemma eps_not_all s : ~ In (eps_t s) all_keys /\ ~ In (eps_p s) all_keys.
Proof. split; intros H; apply all_no_epsilon in H; discriminate. Qed.
Definition is_eps (k : string) (seqs : list Z) : Prop := exists s, In s seqs /\ (k = eps_t s \/ k = eps_p s).
Lemma is_eps_has k seqs : is_eps k seqs -> has_epsilon k = true.
Proof. intros (s & _ & [->| ->]); reflexivity. Qed.
Lemma all_not_eps k seqs : In k all_keys -> ~ is_eps k seqs.
Proof. intros A E. apply is_eps_has in E. apply all_no_epsilon in A. congruence. Qed.
Lemma add_epsilons_other {V} (v : V) k : forall seqs d, ~ is_eps k seqs -> lookup (add_epsilons v seqs d) k = lookup d k.
Proof.
  unfold add_epsilons. induction seqs as [|s seqs IH]; intros d N; [reflexivity|]. cbn [fold_left]. rewrite IH by (intros (u & Hu & E); apply N; exists u; split; [right|]; assumption).
  rewrite !lookup_other; [reflexivity| |]; intros ->; apply N; exists s; (split; [left; reflexivity|auto]).
Qed.
Lemma add_epsilons_same {V} (v : V) k : forall seqs d, is_eps k seqs -> lookup (add_epsilons v seqs d) k = Ok v.
Proof.
  assert (K : forall seqs d, lookup d k = Ok v -> lookup (add_epsilons v seqs d) k = Ok v).
  { unfold add_epsilons. induction seqs as [|s seqs IH]; intros d H; [exact H|]. cbn [fold_left]. apply IH. rewrite !lookup_dset. destruct (k =? eps_p s); [reflexivity|]. destruct (k =? eps_t s); [reflexivity|exact H]. }
  induction seqs as [|s seqs IH]; intros d E; [destruct E as (s & [] & _)|]. destruct E as (u & [<-|Hu] & E).
  - apply (K seqs). rewrite !lookup_dset. destruct E as [->| ->]; rewrite ?String.eqb_refl; [destruct (_ =? _); reflexivity|reflexivity].
  - apply IH. exists u. split; assumption.
Qed.
Lemma add_epsilons_keys {V} (v : V) seqs d k : In k (map fst (add_epsilons v seqs d)) <-> In k (map fst d) \/ is_eps k seqs.
Proof.
  unfold add_epsilons. revert d. induction seqs as [|s seqs IH]; intros d; cbn [fold_left]; [split; [auto|intros [H|(s & [] & _)]; exact H]|]. rewrite IH, !dset_keys. split.
  - intros [[->|[->|H]]|(u & Hu & E)]; [right; exists s; cbn; auto|right; exists s; cbn; auto|left; exact H|right; exists u; cbn; auto].
  - intros [H|(u & [->|Hu] & E)]; [auto|destruct E as [->| ->]; auto|right; exists u; auto].
Qed.
Lemma add_epsilons_NoDup {V} (v : V) seqs d : NoDup (map fst d) -> NoDup (map fst (add_epsilons v seqs d)).
Proof. unfold add_epsilons. revert d. induction seqs as [|s seqs IH]; intros d H; [exact H|]. cbn [fold_left]. apply IH. now do 2 apply dset_NoDup. Qed.
Lemma sort_str_perm l : Permutation (sort_str l) l.
Proof.
  assert (I : forall k l, Permutation (insert_str k l) (k :: l)) by (intros k l0; induction l0 as [|j l0 IH]; cbn; [reflexivity|]; destruct (String.leb k j); [reflexivity|]; rewrite IH; apply perm_swap).
  induction l as [|k l IH]; cbn; [constructor|]. fold (sort_str l). rewrite I. now constructor.
Qed.
Lemma params_to_fit_In fixed nom k : In k (params_to_fit fixed nom) <-> In k (map fst nom) /\ ~ In k fixed.
Proof. unfold params_to_fit. split; [intros H; apply (Permutation_in _ (sort_str_perm _)), filter_In in H as [H N]; split; [exact H|]; apply mem_str_false; now destruct (mem_str k fixed)|intros [H N]; apply (Permutation_in _ (Permutation_sym (sort_str_perm _))), filter_In; split; [exact H|]; apply mem_str_false in N; now rewrite N]. Qed.
Lemma params_to_fit_NoDup fixed nom : NoDup (map fst nom) -> NoDup (params_to_fit fixed nom).
Proof. intros H. unfold params_to_fit. apply (Permutation_NoDup (Permutation_sym (sort_str_perm _))). now apply NoDup_filter. Qed.

Definition update {V} (d : dict string V) (l : list (string * V)) : dict string V := fold_left (fun d kv => dset d (fst kv) (snd kv)) l d.
Lemma update_other {V} k : forall (l : list (string * V)) d, ~ In k (map fst l) -> lookup (update d l) k = lookup d k.
Proof. unfold update. induction l as [|[j v] l IH]; intros d N; [reflexivity|]. cbn [fold_left fst snd]. rewrite IH by (intros H; apply N; right; exact H). apply lookup_other. intros ->. apply N. left. reflexivity. Qed.
Lemma update_keys {V} k : forall (l : list (string * V)) d, In k (map fst (update d l)) <-> In k (map fst l) \/ In k (map fst d).
Proof. unfold update. induction l as [|[j v] l IH]; intros d; cbn [fold_left fst snd map]; [cbn; tauto|]. rewrite IH, dset_keys. cbn. intuition. Qed.
Lemma update_In {V} k v : forall (l : list (string * V)) d, NoDup (map fst l) -> In (k, v) l -> lookup (update d l) k = Ok v.
Proof.
  induction l as [|[j w] l IH]; intros d ND I; [destruct I|]. cbn in ND. inversion ND as [|? ? NI ND']; subst. change (update d ((j, w) :: l)) with (update (dset d j w) l). destruct I as [E|I]; [|now apply IH].
  injection E as -> ->. rewrite update_other by exact NI. apply lookup_same.
Qed.
Lemma update_fun {V} (q : string -> V) k : forall l d, lookup (update d (combine l (map q l))) k = if mem_str k l then Ok (q k) else lookup d k.
Proof.
  induction l as [|j l IH]; intros d; [reflexivity|]. cbn [map combine]. change (update d ((j, q j) :: combine l (map q l))) with (update (dset d j (q j)) (combine l (map q l))). rewrite IH. cbn [mem_str existsb]. fold (mem_str k l). destruct (mem_str k l); [now rewrite orb_true_r|]. rewrite orb_false_r, lookup_dset. destruct (String.eqb_spec k j) as [->|N]; reflexivity.
Qed.

(** *** Positions *)
Lemma int2loc1_tp t p r1 r2 a b : int2loc1 t p r1 r2 a b = tp2xy (t + a, p + b) (r1, r2).
Proof. reflexivity. Qed.
Lemma model_position_int2loc1 q seqs s t p :
  model_position q seqs s t p =
  let xy := int2loc1 t p (q "LENGTH_R1") (q "LENGTH_R2") (q "OFFSET_T" + if existsb (Z.eqb s) seqs then q (eps_t s) else 0) (q "OFFSET_P" + if existsb (Z.eqb s) seqs then q (eps_p s) else 0) in
  (fst xy + q "OFFSET_X", snd xy + q "OFFSET_Y").
Proof.
  unfold model_position, int2loc1, radians, D2R. cbn [fst snd]. set (et := if existsb (Z.eqb s) seqs then q (eps_t s) else 0). set (ep := if existsb (Z.eqb s) seqs then q (eps_p s) else 0).
  replace (PI * (t + q "OFFSET_T" + et) / 180) with (PI / 180 * (t + (q "OFFSET_T" + et))) by field. replace (PI * (p + q "OFFSET_P" + ep) / 180) with (PI / 180 * (p + (q "OFFSET_P" + ep))) by field. f_equal; ring.
Qed.
Lemma int2loc1_same t p t' r1 r2 a b : same_angle t t' -> int2loc1 t p r1 r2 a b = int2loc1 t' p r1 r2 a b.
Proof. intros S. rewrite !int2loc1_tp. apply Xy2tp.tp2xy_same; [apply same_angle_plus; [exact S|apply same_angle_refl]|apply same_angle_refl]. Qed.

(** The angles are found back, up to turns for theta. *)
Lemma loc2int1_back t p r1 r2 a b :
  0 < r1 -> 0 < r2 -> Rabs (r1 - r2) + tiny < norm2 (int2loc1 t p r1 r2 a b) < r1 + r2 - tiny ->
  0 <= p + b <= 180 -> -20 <= p <= 200 -> (exists k, -180 + / 2 ^ 52 <= t + 360 * IZR k <= 180) ->
  exists t', loc2int1 (fst (int2loc1 t p r1 r2 a b)) (snd (int2loc1 t p r1 r2 a b)) r1 r2 a b = Ok (t', p) /\ same_angle t' t.
Proof.
  intros H1 H2 B Hp Hr (k & Hk). destruct (int2loc1 t p r1 r2 a b) as [x y] eqn:E. cbn [fst snd]. rewrite int2loc1_tp in E.
  unfold loc2int1. rewrite Pos2ptl.loc2ext_point_eq. set (ranges := Pos2ptl.ranges_of a b).
  rewrite Xy2tp.xy2tp_none by assumption. change (norm2 (x, y)) with (hyp x y) in B. rewrite Xy2tp.clamp_inside by exact B. cbn [fst snd orb rmap].
  pose proof Xy2tp.tiny_pos as Tp. pose proof (Rabs_pos (r1 - r2)) as Ra. destruct (atan2_polar y x) as [P1 P2]. set (H := hyp x y) in *. set (an := atan2 y x) in *.
  assert (F : tp2xy (t + a, p + b) (r1, r2) = (H * cos an, H * sin an)) by (rewrite E, <- P1, <- P2; reflexivity).
  assert (Hin : in_ranges (t + 360 * IZR k + a, p + b) ranges).
  { unfold ranges, Pos2ptl.ranges_of, in_ranges, in_interval. cbn [fst snd]. assert (Ee : epsilon = / 2 ^ 52) by (unfold epsilon; f_equal; rewrite pow_IZR; reflexivity). pose proof Pos2ptl.epsilon_small as Es. unfold Rmin, Rmax. unfold default_t_int_range, default_p_int_range. cbn [fst snd]. rewrite Ee in *. repeat destruct (Rle_dec _ _); lra. }
  rewrite Xy2tp.tp2xy_deg in F. injection F as F1 F2. unfold cosdeg, sindeg in F1, F2.
  assert (F1' : r1 * cos (D2R * (t + a)) + r2 * cos (D2R * (t + a) + D2R * (p + b)) = H * cos an) by (rewrite <- (Rmult_plus_distr_l D2R (t + a)); exact F1).
  assert (F2' : r1 * sin (D2R * (t + a)) + r2 * sin (D2R * (t + a) + D2R * (p + b)) = H * sin an) by (rewrite <- (Rmult_plus_distr_l D2R (t + a)); exact F2).
  assert (BH : Rabs (r1 - r2) <= H <= r1 + r2) by lra. assert (H0 : 0 < H) by lra.
  pose proof (Xy2tp.kin_unique_phi H an r1 r2 _ _ H1 H2 H0 BH F1' F2') as K. pose proof (Xy2tp.primary_P H an r1 r2 H1 H2 BH) as EP.
  unfold Xy2tp.config. destruct (primary_angles H an r1 r2) as [T P]. cbn [snd] in EP. cbv zeta in EP. destruct EP as [BP EP].
  pose proof (Xy2tp.wrap_TP_spec (degrees T, degrees P) ranges) as W. destruct (wrap_TP_into_ranges (degrees T, degrees P) ranges) as [[t' p'] f]. cbn [fst snd] in *.
  destruct W as (WR & WF & WT). destruct K as (K1 & K2 & K3 & _).
  assert (Sp : sin (D2R * (p + b)) = sin P).
  { assert (0 <= sin P) by (apply sin_ge_0; lra). assert (0 <= sin (D2R * (p + b))); [|lra]. apply sin_ge_0; unfold D2R; pose proof PI_RGT_0; nra. }
  destruct (K3 Sp) as [K5 K6].
  assert (ST : same_angle (t + a) (degrees T)) by (apply Xy2tp.same_deg_inv; assumption).
  assert (SP : same_angle (p + b) (degrees P)) by (apply Xy2tp.same_deg_inv; assumption).
  assert (Ff : f = false). { destruct f; [|reflexivity]. destruct (WT eq_refl (t + 360 * IZR k + a, p + b)); cbn [fst snd]; [|exact SP|exact Hin]. apply same_angle_trans with (t + a); [|exact ST]. exists k. ring. }
  destruct (WF Ff) as (S1 & S2 & _). exists (t' - a). split.
  - f_equal. f_equal. assert (Sp2 : same_angle p' (p + b)) by (apply same_angle_trans with (degrees P); [exact S2|now apply same_angle_sym]). destruct Sp2 as [j Hj]. destruct WR as [_ WR]. unfold ranges, Pos2ptl.ranges_of, in_interval, default_p_int_range in WR. cbn [fst snd] in WR. rewrite Rmin_left, Rmax_right in WR by lra.
    assert (IZR j < 1) by lra. assert (-1 < IZR j) by lra. apply lt_IZR in H3, H4. replace j with 0%Z in Hj by lia. lra.
  - assert (Q : same_angle t' (t + a)) by (apply same_angle_trans with (degrees T); [exact S1|now apply same_angle_sym]). destruct Q as [j Hj]. exists j. lra.
Qed.
Lemma delta_zero nd : delta_angle1 nd 0 = nd.
Proof.
  assert (E : Rsign 0 = 0) by (unfold Rsign; assert (Rltb 0 0 = false) as -> by (apply Rltb_false; lra); reflexivity).
  pose proof (Pos2ptl.delta_angle1_spec nd 0) as H. cbv zeta in H. rewrite E in H. destruct H as (_ & _ & _ & H & _). apply H. left. reflexivity.
Qed.

(** The vectorised conversions of the code are these, point by point. *)
Lemma int2loc_points l r1 r2 : int2loc (Vec (map (fun a => fst (fst a)) l)) (Vec (map (fun a => snd (fst a)) l)) (Scalar r1) (Scalar r2) (Vec (map (fun a => fst (snd a)) l)) (Vec (map (fun a => snd (snd a)) l)) =
  Ok (map (fun a : (R * R) * (R * R) => fst (int2loc1 (fst (fst a)) (snd (fst a)) r1 r2 (fst (snd a)) (snd (snd a)))) l,
      map (fun a : (R * R) * (R * R) => snd (int2loc1 (fst (fst a)) (snd (fst a)) r1 r2 (fst (snd a)) (snd (snd a)))) l).
Proof.
  set (d := ((0, 0), (0, 0)) : (R * R) * (R * R)). set (n := List.length l).
  assert (M : forall f : (R * R) * (R * R) -> R, map f l = map (fun i => f (nth i l d)) (seq 0 n)) by (intros f; rewrite (Pos2ptl.as_map d l) at 1; rewrite map_map; reflexivity).
  unfold int2loc, int2ext, add_offset. cbn [to_vec]. rewrite !M.
  assert (S : forall (f g : nat -> R), broadcast Rplus (map f (seq 0 n)) (map g (seq 0 n)) = Ok (map (fun i => f i + g i) (seq 0 n))).
  { intros f g. destruct (Pos2ptl.broadcast_gives Rplus (Vec (map f (seq 0 n))) (Vec (map g (seq 0 n))) n f g (Pos2ptl.gives_all n f) (Pos2ptl.gives_all n g)) as (w & E & _ & F). cbn [to_vec] in E. rewrite E. f_equal. apply F. left. cbn. now rewrite map_length, seq_length. }
  rewrite !S. cbn [rbind]. rewrite (Pos2ptl.ext2loc_gives n (fun i => fst (fst (nth i l d)) + fst (snd (nth i l d))) (fun i => snd (fst (nth i l d)) + snd (snd (nth i l d))) (fun _ => r1) (fun _ => r2)); [reflexivity|reflexivity|reflexivity| |]; cbn; auto.
Qed.

(** *** Exact data *)
Lemma expected_truth mode seqs ptf p (q : string -> R) (f : fpoint) :
  (forall k, In k static_keys -> lookup p k = Ok (q k)) -> (forall k, is_eps k seqs -> lookup p k = Ok (q k)) ->
  (mode = Dynamic -> In "SCALE_T" ptf /\ In "SCALE_P" ptf /\ lookup p "SCALE_T" = Ok (q "SCALE_T") /\ lookup p "SCALE_P" = Ok (q "SCALE_P")) ->
  expected_point mode seqs ptf p f = Ok (match mode with Static => model_position q seqs (f_seq f) (f_t f) (f_p f)
    | Dynamic => model_position q seqs (f_seq f) (f_mt f + f_dt f * q "SCALE_T") (f_mp f + f_dp f * q "SCALE_P") end).
Proof.
  intros HS HE HD. unfold expected_point. assert (A : forall tp, rbind (lookup p "OFFSET_T") (fun ot => rbind (lookup p "OFFSET_P") (fun op =>
     rbind (if existsb (Z.eqb (f_seq f)) seqs then rbind (lookup p (eps_t (f_seq f))) (fun et => rbind (lookup p (eps_p (f_seq f))) (fun ep => Ok (ot + et, op + ep))) else Ok (ot, op)) (fun off =>
     rbind (lookup p "LENGTH_R1") (fun r1 => rbind (lookup p "LENGTH_R2") (fun r2 => rbind (lookup p "OFFSET_X") (fun ox => rbind (lookup p "OFFSET_Y") (fun oy =>
     let xy := int2loc1 (fst tp) (snd tp) r1 r2 (fst off) (snd off) in Ok (fst xy + ox, snd xy + oy)))))))) = Ok (model_position q seqs (f_seq f) (fst tp) (snd tp))).
  { intros [t pp]. rewrite model_position_int2loc1. rewrite !HS by (cbn; tauto). cbn [rbind]. destruct (existsb (Z.eqb (f_seq f)) seqs) eqn:E.
    - apply existsb_exists in E as (s & Hs & Es). apply Z.eqb_eq in Es. rewrite !HE by (exists s; split; [exact Hs|]; rewrite Es; auto). cbn [rbind fst snd]. rewrite !HS by (cbn; tauto). reflexivity.
    - cbn [rbind fst snd]. rewrite !HS by (cbn; tauto). cbn [rbind]. rewrite !Rplus_0_r. reflexivity. }
  destruct mode; cbn [rbind].
  - apply (A (f_t f, f_p f)).
  - destruct (HD eq_refl) as (I1 & I2 & E1 & E2). apply mem_str_In in I1, I2. rewrite I1, I2, E1, E2. cbn [andb rbind]. apply (A (f_mt f + f_dt f * q "SCALE_T", f_mp f + f_dp f * q "SCALE_P")).
Qed.
Definition all_zero (r : list (R * R)) : Prop := Forall (fun e => e = (0, 0)) r.
Lemma fdiv_Ok a b c : fdiv a b = Ok c <-> b <> 0 /\ c = a / b.
Proof. unfold fdiv. destruct (Reqb b 0) eqn:E; [apply Reqb_true in E; split; [discriminate|tauto]|apply Reqb_false in E]. split; [intros H; apply Ok_inj in H; auto|intros [_ ->]; reflexivity]. Qed.
Lemma residuals_length mode seqs ptf p0 pts x r : residuals mode seqs ptf p0 pts x = Ok r -> List.length r = List.length pts.
Proof. unfold residuals. cbv zeta. intros H. apply rmapM_Ok_Forall2, Forall2_length in H. now symmetry. Qed.
Definition weighted (eq : (R * R) * fpoint) : res R := rbind (fdiv (fst (fst eq)) (f_xerr (snd eq))) (fun u => rmap (fun v => u ^ 2 + v ^ 2) (fdiv (snd (fst eq)) (f_yerr (snd eq)))).
Lemma weighted_Ok r pts : List.length r = List.length pts -> (exists l, rmapM weighted (combine r pts) = Ok l) <-> Forall (fun f => f_xerr f <> 0 /\ f_yerr f <> 0) pts.
Proof.
  revert pts. induction r as [|e r IH]; intros [|f pts] L; cbn in L; try discriminate; [cbn; split; [constructor|intros _; now exists []]|]. cbn [combine rmapM]. specialize (IH pts ltac:(lia)). split.
  - intros (l & H). destruct (weighted (e, f)) as [w|] eqn:E; [|discriminate]. cbn in H. destruct (rmapM weighted (combine r pts)) as [l'|]; [|discriminate]. constructor; [|apply IH; now exists l'].
    unfold weighted in E. cbn [fst snd] in E. destruct (fdiv (fst e) (f_xerr f)) as [u|] eqn:E1; [|discriminate]. apply fdiv_Ok in E1 as [N1 _]. cbn in E. destruct (fdiv (snd e) (f_yerr f)) as [v|] eqn:E2; [|discriminate]. apply fdiv_Ok in E2 as [N2 _]. auto.
  - intros H. inversion H as [|? ? [N1 N2] H']; subst. apply IH in H' as (l & ->). unfold weighted. cbn [fst snd]. unfold fdiv. apply Reqb_false in N1, N2. rewrite N1, N2. cbn. now eexists.
Qed.
Lemma weighted_zero r pts l : all_zero r -> rmapM weighted (combine r pts) = Ok l -> Rsum l = 0.
Proof.
  revert pts l. induction r as [|e r IH]; intros [|f pts] l Z H; cbn [combine rmapM] in H; try (apply Ok_inj in H; subst; reflexivity).
  inversion Z as [|? ? E Z']; subst. destruct (weighted ((0, 0), f)) as [w|] eqn:Ew; [|discriminate]. cbn [rbind] in H. destruct (rmapM weighted (combine r pts)) as [l'|] eqn:El; [|discriminate]. cbn [rbind] in H. apply Ok_inj in H. subst. specialize (IH pts l' Z' El).
  assert (w = 0). { unfold weighted in Ew. cbn [fst snd] in Ew. destruct (fdiv 0 (f_xerr f)) as [u|] eqn:E1; [|discriminate]. apply fdiv_Ok in E1 as [_ ->]. cbn [rbind] in Ew. destruct (fdiv 0 (f_yerr f)) as [v|] eqn:E2; [|discriminate]. apply fdiv_Ok in E2 as [_ ->]. cbn [rmap] in Ew. apply Ok_inj in Ew. subst. unfold Rdiv. ring. }
  unfold Rsum in *. cbn. lra.
Qed.
Lemma weighted_pos eq w : weighted eq = Ok w -> 0 <= w /\ (w = 0 -> fst eq = (0, 0)).
Proof.
  destruct eq as [[a b] f]. unfold weighted. cbn [fst snd]. destruct (fdiv a (f_xerr f)) as [u|] eqn:E1; [|discriminate]. apply fdiv_Ok in E1 as [N1 ->]. cbn [rbind]. destruct (fdiv b (f_yerr f)) as [v|] eqn:E2; [|discriminate]. apply fdiv_Ok in E2 as [N2 ->]. cbn [rmap]. intros H. apply Ok_inj in H. subst w.
  pose proof (pow2_ge_0 (a / f_xerr f)) as P1. pose proof (pow2_ge_0 (b / f_yerr f)) as P2. split; [lra|]. intros Z.
  assert (Za : a / f_xerr f = 0) by nra. assert (Zb : b / f_yerr f = 0) by nra. apply (f_equal (fun e => e * f_xerr f)) in Za. apply (f_equal (fun e => e * f_yerr f)) in Zb. f_equal; [replace (a / f_xerr f * f_xerr f) with a in Za by (field; exact N1)|replace (b / f_yerr f * f_yerr f) with b in Zb by (field; exact N2)]; lra.
Qed.
Lemma weighted_small r : forall pts l, List.length r = List.length pts -> rmapM weighted (combine r pts) = Ok l -> 0 <= Rsum l /\ (Rsum l <= 0 -> all_zero r).
Proof.
  induction r as [|e r IH]; intros [|f pts] l L H; cbn in L; try discriminate; cbn [combine rmapM] in H; [apply Ok_inj in H; subst; unfold Rsum; cbn; split; [lra|constructor]|].
  destruct (weighted (e, f)) as [w|] eqn:Ew; [|discriminate]. cbn [rbind] in H. destruct (rmapM weighted (combine r pts)) as [l'|] eqn:El; [|discriminate]. cbn [rbind] in H. apply Ok_inj in H. subst. destruct (weighted_pos _ _ Ew) as [P Z]. cbn [fst] in Z. destruct (IH pts l' ltac:(lia) El) as [P' Z']. assert (E : Rsum (w :: l') = w + Rsum l') by reflexivity. rewrite E.
  split; [lra|]. intros S. constructor; [apply Z; lra|apply Z'; lra].
Qed.
Lemma chi2_truth mode seqs ptf p0 pts x x0 v0 r : residuals mode seqs ptf p0 pts x = Ok r -> all_zero r -> compute_chi2 mode seqs ptf p0 pts x0 = Ok v0 -> compute_chi2 mode seqs ptf p0 pts x = Ok 0.
Proof.
  intros Hr Z H0. unfold compute_chi2 in *. fold weighted in *. change (fun eq : R * R * fpoint => rbind (fdiv (fst (fst eq)) (f_xerr (snd eq))) (fun u : R => rmap (fun v : R => u ^ 2 + v ^ 2) (fdiv (snd (fst eq)) (f_yerr (snd eq))))) with weighted in *.
  destruct (residuals mode seqs ptf p0 pts x0) as [r0|] eqn:E0; [|discriminate]. cbn [rbind] in H0. pose proof (residuals_length _ _ _ _ _ _ _ E0) as L0. destruct (rmapM weighted (combine r0 pts)) as [l0|] eqn:El0; [|discriminate].
  pose proof (proj1 (weighted_Ok r0 pts L0) (ex_intro _ l0 El0)) as NZ. rewrite Hr. cbn [rbind]. pose proof (residuals_length _ _ _ _ _ _ _ Hr) as L. destruct (proj2 (weighted_Ok r pts L) NZ) as (l & El). rewrite El. cbn [rbind]. f_equal. now apply (weighted_zero r pts).
Qed.
Lemma chi2_min mode seqs ptf p0 pts x w : compute_chi2 mode seqs ptf p0 pts x = Ok w -> w <= 0 -> exists r, residuals mode seqs ptf p0 pts x = Ok r /\ all_zero r.
Proof.
  intros H Hw. unfold compute_chi2 in *. change (fun eq : R * R * fpoint => rbind (fdiv (fst (fst eq)) (f_xerr (snd eq))) (fun u : R => rmap (fun v : R => u ^ 2 + v ^ 2) (fdiv (snd (fst eq)) (f_yerr (snd eq))))) with weighted in *.
  destruct (residuals mode seqs ptf p0 pts x) as [r|] eqn:E; [|discriminate]. cbn [rbind] in H. pose proof (residuals_length _ _ _ _ _ _ _ E) as L. destruct (rmapM weighted (combine r pts)) as [l|] eqn:El; [|discriminate]. cbn [rbind] in H. apply Ok_inj in H. subst w.
  exists r. split; [reflexivity|]. now apply (weighted_small r pts l).
Qed.
Lemma chi2_pos mode seqs ptf p0 pts x w : compute_chi2 mode seqs ptf p0 pts x = Ok w -> 0 <= w.
Proof.
  unfold compute_chi2. change (fun eq : R * R * fpoint => rbind (fdiv (fst (fst eq)) (f_xerr (snd eq))) (fun u : R => rmap (fun v : R => u ^ 2 + v ^ 2) (fdiv (snd (fst eq)) (f_yerr (snd eq))))) with weighted. destruct (residuals mode seqs ptf p0 pts x) as [r|] eqn:E; [|discriminate]. cbn [rbind]. destruct (rmapM weighted (combine r pts)) as [l|] eqn:El; [|discriminate]. cbn [rbind]. intros H. apply Ok_inj in H. subst w. exact (proj1 (weighted_small r pts l (residuals_length _ _ _ _ _ _ _ E) El)).
Qed.
Lemma argmax_In l w : argmax l = Ok w -> exists v, geti l w = Ok v /\ In v l.
Proof.
  destruct l as [|a l]; [discriminate|]. cbn. intros H. apply Ok_inj in H. subst w.
  assert (G : forall l pre best m, nth_error (pre ++ l) best = Some m -> exists v, nth_error (pre ++ l) (argmax_from best m (List.length pre) l) = Some v).
  { clear. induction l as [|x l IH]; intros pre best m Hb; [exists m; exact Hb|]. cbn [argmax_from]. replace (pre ++ x :: l) with ((pre ++ [x]) ++ l) in * by (rewrite <- app_assoc; reflexivity). replace (Datatypes.S (List.length pre)) with (List.length (pre ++ [x])) by (rewrite app_length; cbn; lia).
    destruct (Rltb m x); apply IH; [|exact Hb]. rewrite nth_error_app1 by (rewrite app_length; cbn; lia). rewrite nth_error_app2 by lia. now rewrite Nat.sub_diag. }
  destruct (G l [a] 0%nat a eq_refl) as (v & Hv). cbn [List.length app] in Hv. exists v. split; [now apply geti_Ok|]. now apply nth_error_In in Hv.
Qed.
Lemma exact_loop minimize k mode seqs ptf p0 x0 b rej cur pts x r o pts' : finds_minimum minimize ->
  residuals mode seqs ptf p0 pts x = Ok r -> all_zero r -> in_bounds x b -> List.length b = List.length x0 ->
  fit_loop minimize (S k) mode seqs ptf p0 x0 b rej cur pts = Ok (o, pts') -> pts' = pts /\ exists r', residuals mode seqs ptf p0 pts (fst o) = Ok r' /\ all_zero r'.
Proof.
  intros FM Hr Z IB LB H. cbn [fit_loop] in H. unfold run_minimize in H. destruct (compute_chi2 mode seqs ptf p0 pts x0) as [v0|] eqn:E0; [|discriminate]. cbn [rbind] in H.
  destruct (FM (compute_chi2 mode seqs ptf p0 pts) x0 b x 0 LB (conj IB (conj (chi2_truth _ _ _ _ _ _ _ _ _ Hr Z E0) (fun y u _ Hu => chi2_pos _ _ _ _ _ _ _ Hu)))) as (_ & Ew & _). destruct (chi2_min _ _ _ _ _ _ _ Ew (Rle_refl 0)) as (r' & Er' & Zr'). rewrite Er' in H. cbn [rbind] in H.
  destruct (argmax _) as [worst|] eqn:Ea; [|discriminate]. cbn [rbind] in H. assert (Done : Ok (minimize (compute_chi2 mode seqs ptf p0 pts) x0 b, pts) = Ok (o, pts') -> pts' = pts /\ exists r', residuals mode seqs ptf p0 pts (fst o) = Ok r' /\ all_zero r'). { intros D. apply Ok_inj in D. injection D as <- <-. split; [reflexivity|]. exists r'. auto. }
  destruct rej; [|exact (Done H)]. cbn [negb] in H. destruct (median _) as [med|]; [|discriminate]. cbn [rbind] in H. destruct (argmax_In _ _ Ea) as (v & Ev & Iv). rewrite Ev in H. cbn [rbind] in H.
  assert (v = 0). { apply in_map_iff in Iv as (e & <- & Ie). unfold all_zero in Zr'. rewrite Forall_forall in Zr'. rewrite (Zr' e Ie). cbn [fst snd]. replace (0 ^ 2 + 0 ^ 2) with 0 by ring. apply sqrt_0. }
  subst v. assert (Rltb 0 0.2 = true) as E by (apply Rltb_true; lra). rewrite E in H. exact (Done H).
Qed.
Lemma exact_rms mode seqs ptf p0 pts n x r v : residuals mode seqs ptf p0 pts x = Ok r -> all_zero r -> compute_rms mode seqs ptf p0 pts n x = Ok v -> v = 0.
Proof.
  intros Hr Z H. unfold compute_rms in H. rewrite Hr in H. cbn [rbind] in H. destruct (fdiv _ _) as [m|] eqn:E; [|discriminate]. apply fdiv_Ok in E as [_ ->]. cbn [rmap] in H. apply Ok_inj in H. subst v.
  replace (sum_sq r) with 0; [unfold Rdiv; rewrite Rmult_0_l; apply sqrt_0|]. symmetry. unfold sum_sq. clear Hr. induction Z as [|e r -> Z IH]; [reflexivity|]. unfold Rsum in *. cbn. cbn in IH. rewrite IH. ring.
Qed.
Lemma exact_rest minimize mode seqs fixed nom1 nom2 bounds pts n ue rej flags q r o : finds_minimum minimize ->
  residuals mode seqs (params_to_fit fixed nom1) nom1 pts (map q (params_to_fit fixed nom1)) = Ok r -> all_zero r ->
  (forall k lh, In k (params_to_fit fixed nom1) -> lookup bounds k = Ok lh -> fst lh <= q k <= snd lh) ->
  fit_rest minimize mode seqs fixed nom1 nom2 bounds pts n ue rej flags = Ok o -> o_rms o = 0.
Proof.
  intros FM Hr Z HB H. unfold fit_rest in H. set (ptf := params_to_fit fixed nom1) in *. destruct (rmapM (lookup nom2) ptf) as [x0|] eqn:Ex0; [|discriminate]. cbn [rbind] in H. destruct (rmapM (lookup bounds) ptf) as [b|] eqn:Eb; [|discriminate]. cbn [rbind] in H.
  destruct (fit_loop _ _ _ _ _ _ _ _ _ _ _) as [[[x h] pts']|] eqn:EL; [|discriminate]. cbn [rbind] in H.
  assert (LB : List.length b = List.length x0) by (apply rmapM_Ok_Forall2 in Ex0, Eb; rewrite <- (Forall2_length _ _ _ Eb); exact (Forall2_length _ _ _ Ex0)).
  assert (IB : in_bounds (map q ptf) b). { apply rmapM_Ok_Forall2 in Eb. unfold in_bounds. clear - Eb HB. induction Eb as [|k lh l b E Eb IH]; [constructor|]. cbn. constructor; [apply HB; [left; reflexivity|exact E]|]. apply IH. intros. apply HB; [right|]; assumption. }
  destruct (exact_loop _ _ _ _ _ _ _ _ _ _ _ _ _ _ _ FM Hr Z IB LB EL) as (-> & r' & Er' & Zr'). cbn [fst] in Er'.
  destruct (rmapM _ fixed) as [fx|]; [|discriminate]. cbn [rbind] in H. cbv zeta in H. destruct (lookup _ "OFFSET_T") as [ot|]; [|discriminate]. cbn [rbind] in H. destruct (compute_rms _ _ _ _ _ _ _) as [rms|] eqn:Er; [|discriminate]. cbn [rbind] in H. destruct (covariance_dict _ _ _ _); [|discriminate]. cbn [rbind] in H. apply Ok_inj in H. subst o. cbn [o_rms]. exact (exact_rms _ _ _ _ _ _ _ _ _ Er' Zr' Er).
Qed.

(** *** The whole fit *)
Definition flat_points (moves : list move) (xerr yerr : option (list R)) : list (R * R * (R * R)) :=
  map (fun me => flat_point (fst me) (snd me)) (combine moves (combine (position_errors xerr (List.length moves)) (position_errors yerr (List.length moves)))).
Definition unit_errs (xerr yerr : option (list R)) : bool := match xerr, yerr with Some _, Some _ => false | _, _ => true end.
Lemma fit_params_cases ls mz moves mode nom bnd keep xe ye rej :
  (~ valid_args moves nom bnd keep xe ye /\ fit_params ls mz moves mode nom bnd keep xe ye rej = (Err AssertionError, (nom, bnd))) \/
  (valid_args moves nom bnd keep xe ye /\
   ((theta_stuck moves /\ fit_params ls mz moves mode nom bnd keep xe ye rej = (Ok (failed 5 0), (nom, bnd))) \/
    (~ theta_stuck moves /\ existsb mv_rehome moves = false /\ fit_params ls mz moves mode nom bnd keep xe ye rej = (Ok (failed 4 0), (nom, bnd))) \/
    (~ theta_stuck moves /\ existsb mv_rehome moves = true /\
     let seqs := sequences_without_rehome moves in let fps := flat_points moves xe ye in
     match mode with
     | Static =>
         let nom1 := add_epsilons 0 seqs nom in let bnd1 := add_epsilons (-200, 200) seqs bnd in let fixed := fixed_keys Static keep nom1 in
         let pts := map (fun mf => static_point (fst mf) (snd mf)) (combine moves fps) in
         (exists e, init_offsets ls pts fixed nom1 = Err e /\ fit_params ls mz moves mode nom bnd keep xe ye rej = (Err e, (nom1, bnd1))) \/
         exists nom2, init_offsets ls pts fixed nom1 = Ok nom2 /\
           fit_params ls mz moves mode nom bnd keep xe ye rej = (fit_rest mz Static seqs fixed nom1 nom2 bnd1 pts (List.length moves) (unit_errs xe ye) rej 0, (nom2, bnd1))
     | Dynamic =>
         fit_params ls mz moves mode nom bnd keep xe ye rej =
         (rbind (dynamic_points nom seqs (combine moves fps)) (fun pts => fit_rest mz Dynamic seqs (fixed_keys Dynamic keep nom) nom nom bnd pts (List.length moves - 1) (unit_errs xe ye) rej 0), (nom, bnd))
     end))).
Proof.
  unfold fit_params. set (good := (_ && _)%bool).
  assert (G : good = true <-> valid_args moves nom bnd keep xe ye).
  { unfold good, valid_args. rewrite !andb_true_iff, !forallb_forall. assert (LO : forall e : option (list R), match e with Some l => (List.length l =? List.length moves)%nat | None => true end = true <-> forall l, e = Some l -> List.length l = List.length moves) by (intros [l|]; [rewrite Nat.eqb_eq; split; [intros H l' E; injection E as <-; exact H|intros H; now apply H]|split; [discriminate|reflexivity]]). rewrite !LO. split.
    - intros [[[[A B] C] D] E]. split; [intros k Hk; split; [apply mem_keys, A, Hk|apply mem_keys, B, Hk]|]. split; [intros k Hk; apply mem_str_In, C, Hk|]. intros l [El|El]; auto.
    - intros (A & B & C). split; [split; [split; [split|]|]|]; [intros k Hk; apply mem_keys, A, Hk|intros k Hk; apply mem_keys, (proj2 (A k Hk))|intros k Hk; apply mem_str_In, B, Hk|intros l El; apply C; auto|intros l El; apply C; auto]. }
  destruct good; cbn [negb]; [right; split; [now apply G|]|left; split; [intros V; apply G in V; discriminate|reflexivity]].
  destruct (move_flags moves) as (f & -> & F1 & F0). fold (theta_stuck moves) in *.
  change (rbind (bit "THETA_STUCK") (fun a => rmap (Z.lor a) (bit "PHI_STUCK"))) with (@Ok Z 3%Z). change (bit "FAILED_FIT") with (@Ok Z 4%Z). cbv iota.
  destruct (Classical_Prop.classic (theta_stuck moves)) as [T|T]; [specialize (F1 T); subst f; left; split; [exact T|reflexivity]|]. specialize (F0 T). subst f. right. change (0 <? Z.land 0 3)%Z with false. cbv iota. change (Z.lor 0 4) with 4%Z.
  destruct (existsb mv_rehome moves) eqn:ER; cbn [negb]; [right; split; [exact T|]; split; [reflexivity|]|left; auto]. cbv zeta. fold (flat_points moves xe ye). fold (unit_errs xe ye). destruct mode.
  - destruct (init_offsets ls _ _ _) as [nom2|e]; [right; exists nom2; auto|left; exists e; auto].
  - reflexivity.
Qed.

Lemma fixed_keys_In mode keep nom k : In k (fixed_keys mode keep nom) <-> In k keep \/ match mode with Static => In k dynamic_keys | Dynamic => In k static_keys \/ (has_epsilon k = true /\ In k (map fst nom)) end.
Proof. unfold fixed_keys. rewrite nodup_In. destruct mode; rewrite ?in_app_iff; [tauto|]. rewrite filter_In. tauto. Qed.
Lemma init_offsets_lookup ls pts fixed nom nom2 k : init_offsets ls pts fixed nom = Ok nom2 -> (In k fixed \/ (k <> "OFFSET_X" /\ k <> "OFFSET_Y")) -> lookup nom2 k = lookup nom k.
Proof.
  unfold init_offsets. intros H Hk. destruct (circle_centers _ _ _) as [cs|]; [|discriminate]. cbn [rbind] in H. destruct cs as [|c cs]; [apply Ok_inj in H; now subst|]. destruct (median (map fst _)) as [ox|]; [|discriminate]. cbn [rbind] in H. destruct (median (map snd _)) as [oy|]; [|discriminate]. cbn [rbind] in H. apply Ok_inj in H. subst nom2.
  assert (X : lookup (if mem_str "OFFSET_X" fixed then nom else dset nom "OFFSET_X" ox) k = lookup nom k). { destruct (mem_str "OFFSET_X" fixed) eqn:E; [reflexivity|]. apply mem_str_false in E. apply lookup_other. destruct Hk as [Hk|[Hk _]]; [intros ->; contradiction|exact Hk]. }
  destruct (mem_str "OFFSET_Y" fixed) eqn:E; [exact X|]. apply mem_str_false in E. rewrite lookup_other; [exact X|]. destruct Hk as [Hk|[_ Hk]]; [intros ->; contradiction|exact Hk].
Qed.
Lemma init_offsets_keys ls pts fixed nom nom2 k : init_offsets ls pts fixed nom = Ok nom2 -> In "OFFSET_X" (map fst nom) -> In "OFFSET_Y" (map fst nom) -> In k (map fst nom2) <-> In k (map fst nom).
Proof.
  unfold init_offsets. intros H IX IY. destruct (circle_centers _ _ _) as [cs|]; [|discriminate]. cbn [rbind] in H. destruct cs as [|c cs]; [apply Ok_inj in H; now subst|]. destruct (median (map fst _)) as [ox|]; [|discriminate]. cbn [rbind] in H. destruct (median (map snd _)) as [oy|]; [|discriminate]. cbn [rbind] in H. apply Ok_inj in H. subst nom2.
  assert (X : forall d : dict string R, In k (map fst (dset d "OFFSET_X" ox)) <-> k = "OFFSET_X" \/ In k (map fst d)) by (intros; apply dset_keys).
  destruct (mem_str "OFFSET_Y" fixed), (mem_str "OFFSET_X" fixed); rewrite ?dset_keys; intuition (subst; auto).
Qed.
Lemma nth_error_combine {A B} (l : list A) (m : list B) i : nth_error (combine l m) i = match nth_error l i, nth_error m i with Some a, Some b => Some (a, b) | _, _ => None end.
Proof. revert m i. induction l as [|a l IH]; intros [|b m] [|i]; cbn; try reflexivity; [now destruct (nth_error l i)|apply IH]. Qed.
Lemma flat_points_In moves xe ye m fp : In (m, fp) (combine moves (flat_points moves xe ye)) -> In m moves /\ fst fp = ptl2flat (mv_x m) (mv_y m).
Proof.
  intros H. apply In_nth_error in H as (i & Hi). rewrite nth_error_combine in Hi. destruct (nth_error moves i) as [m'|] eqn:Em; [|discriminate]. unfold flat_points in Hi. rewrite nth_error_map in Hi. rewrite nth_error_combine, Em in Hi. destruct (nth_error (combine _ _) i) as [e|]; [|discriminate]. cbn in Hi. injection Hi as -> <-. split; [now apply nth_error_In in Em|]. reflexivity.
Qed.

Theorem exact_static ls mz moves nom bnd keep xe ye rej q o st :
  finds_minimum mz -> exact_moves q moves ->
  (forall k v, In k keep -> lookup nom k = Ok v -> q k = v) ->
  (forall k lh, lookup bnd k = Ok lh -> fst lh <= q k <= snd lh) -> (forall s, -200 <= q (eps_t s) <= 200 /\ -200 <= q (eps_p s) <= 200) ->
  fit_params ls mz moves Static nom bnd keep xe ye rej = (Ok o, st) -> o_rms o = 0.
Proof.
  intros FM EX HK HB HE H. destruct (fit_params_cases ls mz moves Static nom bnd keep xe ye rej) as [[_ E]|(V & [[_ E]|[(_ & _ & E)|(_ & _ & C)]])].
  - rewrite E in H. discriminate.
  - rewrite E in H. injection H as <- _. reflexivity.
  - rewrite E in H. injection H as <- _. reflexivity.
  - cbv zeta in C. set (seqs := sequences_without_rehome moves) in *. set (nom1 := add_epsilons 0 seqs nom) in *. set (fixed := fixed_keys Static keep nom1) in *. set (ptf := params_to_fit fixed nom1) in *.
    destruct C as [(e & _ & E)|(nom2 & _ & E)]; rewrite E in H; [discriminate|]. injection H as H _.
    assert (LK : forall k, In k static_keys \/ is_eps k seqs -> lookup (set_params nom1 ptf (map q ptf)) k = Ok (q k)).
    { intros k Hk. unfold set_params. change (lookup (update nom1 (combine ptf (map q ptf))) k = Ok (q k)). rewrite update_fun. destruct (mem_str k ptf) eqn:M; [reflexivity|]. apply mem_str_false in M. destruct Hk as [Hk|Hk].
      - assert (A : In k all_keys) by (unfold all_keys; apply in_app_iff; auto). assert (In k (map fst nom)) as IN by (apply V, A). assert (In k fixed) as F. { destruct (in_dec string_dec k fixed) as [|N]; [assumption|]. destruct M. apply params_to_fit_In. split; [apply add_epsilons_keys; auto|exact N]. }
        apply fixed_keys_In in F as [F|F]; [|cbn in F, Hk; exfalso; clear - F Hk; repeat (destruct F as [<-|F]; [repeat (destruct Hk as [Hk|Hk]; [discriminate|]); exact Hk|]); destruct F].
        unfold nom1. rewrite add_epsilons_other by now apply all_not_eps. apply lookup_keys in IN as (v & Ev). now rewrite Ev, (HK k v F Ev).
      - exfalso. apply M, params_to_fit_In. split; [apply add_epsilons_keys; auto|]. intros F. apply fixed_keys_In in F as [F|F]; [exact (all_not_eps k seqs (proj1 (proj2 V) k F) Hk)|]. refine (all_not_eps k seqs _ Hk). unfold all_keys. apply in_app_iff. auto. }
    set (pts := map (fun mf => static_point (fst mf) (snd mf)) (combine moves (flat_points moves xe ye))) in *.
    assert (R : exists r, residuals Static seqs ptf nom1 pts (map q ptf) = Ok r /\ all_zero r).
    { exists (map (fun _ => (0, 0)) pts). split; [|unfold all_zero; rewrite Forall_map; apply Forall_forall; reflexivity]. unfold residuals. cbv zeta. apply rmapM_Ok_Forall2. assert (IP : forall f, In f pts -> rmap (fun e => (fst e - f_x f, snd e - f_y f)) (expected_point Static seqs ptf (set_params nom1 ptf (map q ptf)) f) = Ok (0, 0)).
      { intros f Hf. unfold pts in Hf. apply in_map_iff in Hf as ([m fp] & <- & Hm). apply flat_points_In in Hm as [Im Ef]. cbn [fst snd]. rewrite (expected_truth _ _ _ _ q) by (intros; try discriminate; apply LK; auto). cbn [rmap]. destruct fp as [[x y] [ex ey]]. cbn [fst] in Ef. unfold static_point. cbn [f_seq f_t f_p f_x f_y]. pose proof (EX m Im) as E1. fold seqs in E1. rewrite <- Ef in E1. rewrite <- E1. cbn [fst snd]. f_equal. f_equal; ring. }
      clear - IP. induction pts as [|f l IH]; [constructor|]. cbn. constructor; [apply IP; left; reflexivity|]. apply IH. intros. apply IP. right. assumption. }
    destruct R as (r & Hr & Z). refine (exact_rest mz _ _ _ _ _ _ _ _ _ _ _ q r o FM Hr Z _ H).
    intros k lh Hk Hl. apply params_to_fit_In in Hk as [Hk _]. apply add_epsilons_keys in Hk. destruct (Classical_Prop.classic (is_eps k seqs)) as [Ep|Ep].
    + rewrite add_epsilons_same in Hl by exact Ep. apply Ok_inj in Hl. subst lh. cbn [fst snd]. destruct Ep as (s & _ & [->| ->]); apply HE.
    + rewrite add_epsilons_other in Hl by exact Ep. now apply HB.
Qed.

Lemma measured_truth nom seqs q m t p :
  (forall k, In k static_keys \/ is_eps k seqs -> lookup nom k = Ok (q k)) -> 0 < q "LENGTH_R1" -> 0 < q "LENGTH_R2" ->
  exact_at q seqs (m, (t, p)) -> measurable q seqs (m, (t, p)) -> exists t', measured_int nom seqs m = Ok (t', p) /\ same_angle t' t.
Proof.
  intros LK R1 R2 E M. unfold exact_at in E. unfold measurable in M. rewrite model_position_int2loc1 in M, E. cbv zeta in M, E. set (et := if existsb (Z.eqb (mv_seq m)) seqs then q (eps_t (mv_seq m)) else 0) in *. set (ep := if existsb (Z.eqb (mv_seq m)) seqs then q (eps_p (mv_seq m)) else 0) in *.
  assert (EI : int2loc1 t p (q "LENGTH_R1") (q "LENGTH_R2") (q "OFFSET_T" + et) (q "OFFSET_P" + ep) = int2loc1 (t + et) (p + ep) (q "LENGTH_R1") (q "LENGTH_R2") (q "OFFSET_T") (q "OFFSET_P")) by (rewrite !int2loc1_tp; f_equal; f_equal; ring).
  rewrite EI in M, E. destruct M as (B & P1 & P2 & K). destruct (loc2int1_back (t + et) (p + ep) (q "LENGTH_R1") (q "LENGTH_R2") (q "OFFSET_T") (q "OFFSET_P")) as (t' & H & S); [assumption|assumption| |assumption|assumption|assumption|].
  { unfold norm2. cbn [fst snd] in B. set (xy := int2loc1 _ _ _ _ _ _) in *. clearbody xy. replace (fst xy + q "OFFSET_X" - q "OFFSET_X") with (fst xy) in B by ring. replace (snd xy + q "OFFSET_Y" - q "OFFSET_Y") with (snd xy) in B by ring. exact B. }
  unfold measured_int. rewrite E. set (xy := int2loc1 _ _ _ _ _ _) in *. rewrite !LK by (left; cbn; tauto). cbn [rbind]. replace (fst xy + q "OFFSET_X" - q "OFFSET_X") with (fst xy) by ring. replace (snd xy + q "OFFSET_Y" - q "OFFSET_Y") with (snd xy) by ring. rewrite H. cbn [rbind].
  exists (t' - et). split.
  - unfold et, ep in *. destruct (existsb (Z.eqb (mv_seq m)) seqs) eqn:EB; [|repeat f_equal; ring]. apply existsb_exists in EB as (s & Hs & Es). apply Z.eqb_eq in Es. subst s. rewrite !LK by (right; exists (mv_seq m); auto). cbn [rbind fst snd]. repeat f_equal; ring.
  - replace t with (t + et - et) by ring. destruct S as [k Sk]. exists k. rewrite Sk. ring.
Qed.

Definition true_point (q : string -> R) (seqs : list Z) (f : fpoint) : Prop := model_position q seqs (f_seq f) (f_mt f + f_dt f * q "SCALE_T") (f_mp f + f_dp f * q "SCALE_P") = (f_x f, f_y f).
Lemma model_position_same q seqs s t t' p : same_angle t t' -> model_position q seqs s t p = model_position q seqs s t' p.
Proof. intros S. rewrite !model_position_int2loc1. cbv zeta. now rewrite (int2loc1_same t p t') by exact S. Qed.
Lemma dynamic_truth nom seqs q : (forall k, In k static_keys \/ is_eps k seqs -> lookup nom k = Ok (q k)) -> 0 < q "LENGTH_R1" -> 0 < q "LENGTH_R2" ->
  forall (l : list (move * (R * R))) fps pts, List.length fps = List.length l -> driven q l -> Forall (exact_at q seqs) l -> Forall (measurable q seqs) l ->
  (forall m fp, In (m, fp) (combine (map fst l) fps) -> fst fp = ptl2flat (mv_x m) (mv_y m)) ->
  dynamic_points nom seqs (combine (map fst l) fps) = Ok pts -> Forall (true_point q seqs) pts.
Proof.
  intros LK R1 R2. induction l as [|[m0 [t0 p0]] l IH]; intros fps pts HL D E M F H; [cbn in H; apply Ok_inj in H; subst; constructor|]. destruct fps as [|fp0 fps]; [discriminate|]. injection HL as HL.
  destruct l as [|[m [t p]] l]; [destruct fps; [|discriminate]; cbn in H; apply Ok_inj in H; subst; constructor|]. destruct fps as [|fp fps]; [discriminate|].
  change (combine (map fst ((m0, (t0, p0)) :: (m, (t, p)) :: l)) (fp0 :: fp :: fps)) with ((m0, fp0) :: combine (map fst ((m, (t, p)) :: l)) (fp :: fps)) in H. set (rest := combine (map fst ((m, (t, p)) :: l)) (fp :: fps)) in *.
  assert (E1 : dynamic_points nom seqs ((m0, fp0) :: rest) = rbind (dynamic_point nom seqs m0 m fp) (fun q => rbind (dynamic_points nom seqs rest) (fun qs => Ok (q :: qs)))) by reflexivity. rewrite E1 in H. clear E1.
  destruct (dynamic_point nom seqs m0 m fp) as [f|] eqn:Ef; [|discriminate]. cbn [rbind] in H. destruct (dynamic_points nom seqs rest) as [fs|] eqn:Efs; [|discriminate]. cbn [rbind] in H. apply Ok_inj in H. subst pts.
  destruct D as (D1 & D2 & D). cbn [fst snd] in D1, D2. inversion E as [|? ? E0 Er]; subst. inversion M as [|? ? M0 Mr]; subst. constructor.
  - unfold dynamic_point in Ef. destruct fp as [[x y] [ex ey]]. destruct (measured_truth nom seqs q m0 t0 p0 LK R1 R2 E0 M0) as (t' & Em & S). rewrite Em in Ef. cbn [rbind fst snd] in Ef. rewrite !delta_zero in Ef. destruct (fdiv (mv_t m - mv_t m0) (mv_gt m)) as [dt|] eqn:Et; [|discriminate]. cbn [rbind] in Ef. destruct (fdiv (mv_p m - mv_p m0) (mv_gp m)) as [dp|] eqn:Ep; [|discriminate]. cbn [rbind] in Ef. apply Ok_inj in Ef. subst f. apply fdiv_Ok in Et as [_ ->]. apply fdiv_Ok in Ep as [_ ->].
    unfold true_point. cbn [f_seq f_mt f_dt f_mp f_dp f_x f_y]. rewrite <- D1, <- D2. replace (p0 + (p - p0)) with p by ring. rewrite (model_position_same _ _ _ (t' + (t - t0)) t). 2:{ replace t with (t0 + (t - t0)) at 2 by ring. apply same_angle_plus; [exact S|apply same_angle_refl]. }
    inversion Er as [|? ? Em1 _]; subst. unfold exact_at in Em1. rewrite <- Em1. symmetry. exact (F m (x, y, (ex, ey)) (or_intror (or_introl eq_refl))).
  - apply (IH (fp :: fps) fs); auto. intros m1 fp1 H1. apply F. right. exact H1.
Qed.
Lemma flat_points_length moves xe ye : (forall l, xe = Some l \/ ye = Some l -> List.length l = List.length moves) -> List.length (flat_points moves xe ye) = List.length moves.
Proof.
  intros H. unfold flat_points. rewrite map_length, combine_length, combine_length. assert (P : forall e, (e = xe \/ e = ye) -> List.length (position_errors e (List.length moves)) = List.length moves). { intros e He. unfold position_errors. destruct e as [l|]; [apply H; destruct He as [<-|<-]; auto|apply repeat_length]. }
  rewrite !P by auto. lia.
Qed.
Lemma residuals_dynamic_fixed seqs ptf p0 pts x r : residuals Dynamic seqs ptf p0 pts x = Ok r -> pts <> [] -> In "SCALE_T" ptf /\ In "SCALE_P" ptf.
Proof.
  intros H N. destruct pts as [|f pts]; [contradiction|]. unfold residuals in H. cbv zeta in H. cbn [rmapM] in H. unfold expected_point in H. destruct (mem_str "SCALE_T" ptf) eqn:A; [|discriminate]. destruct (mem_str "SCALE_P" ptf) eqn:B; [|discriminate]. split; apply mem_str_In; assumption.
Qed.
Lemma chi2_residuals mode seqs ptf p0 pts x v : compute_chi2 mode seqs ptf p0 pts x = Ok v -> exists r, residuals mode seqs ptf p0 pts x = Ok r.
Proof. unfold compute_chi2. destruct (residuals mode seqs ptf p0 pts x) as [r|]; [eauto|discriminate]. Qed.
Lemma fit_rest_start mz mode seqs fixed nom1 nom2 bounds pts n ue rej flags o : fit_rest mz mode seqs fixed nom1 nom2 bounds pts n ue rej flags = Ok o ->
  pts <> [] /\ exists x r, residuals mode seqs (params_to_fit fixed nom1) nom1 pts x = Ok r.
Proof.
  intros H. unfold fit_rest in H. set (ptf := params_to_fit fixed nom1) in *. destruct (rmapM (lookup nom2) ptf) as [x0|]; [|discriminate]. cbn [rbind] in H. destruct (rmapM (lookup bounds) ptf) as [b|] eqn:Eb; [|discriminate]. cbn [rbind] in H.
  cbn [fit_loop] in H. unfold run_minimize in H. destruct (compute_chi2 mode seqs ptf nom1 pts x0) as [v0|] eqn:E0; [|discriminate]. cbn [rbind] in H. apply chi2_residuals in E0 as (r0 & E0). split; [|eauto].
  intros ->. cbn in H. discriminate.
Qed.

Theorem exact_dynamic ls mz (l : list (move * (R * R))) nom bnd keep xe ye rej q o st :
  let moves := map fst l in let seqs := sequences_without_rehome moves in
  finds_minimum mz -> 0 < q "LENGTH_R1" -> 0 < q "LENGTH_R2" ->
  driven q l -> Forall (exact_at q seqs) l -> Forall (measurable q seqs) l ->
  (forall k, In k static_keys \/ is_eps k seqs -> lookup nom k = Ok (q k)) ->
  (forall k lh, lookup bnd k = Ok lh -> fst lh <= q k <= snd lh) ->
  fit_params ls mz moves Dynamic nom bnd keep xe ye rej = (Ok o, st) -> o_rms o = 0.
Proof.
  intros moves seqs FM R1 R2 D E M LK HB H. destruct (fit_params_cases ls mz moves Dynamic nom bnd keep xe ye rej) as [[_ C]|(V & [[_ C]|[(_ & _ & C)|(_ & _ & C)]])].
  - rewrite C in H. discriminate.
  - rewrite C in H. injection H as <- _. reflexivity.
  - rewrite C in H. injection H as <- _. reflexivity.
  - cbv zeta in C. rewrite C in H. fold seqs in H. injection H as H _. destruct (dynamic_points nom seqs (combine moves (flat_points moves xe ye))) as [pts|] eqn:Ep; [|discriminate]. cbn [rbind] in H.
    assert (T : Forall (true_point q seqs) pts). { apply (dynamic_truth nom seqs q LK R1 R2 l (flat_points moves xe ye) pts); auto; [rewrite flat_points_length by apply V; apply map_length|]. intros m fp Hm. exact (proj2 (flat_points_In moves xe ye m fp Hm)). }
    set (fixed := fixed_keys Dynamic keep nom) in *. set (ptf := params_to_fit fixed nom) in *. destruct (fit_rest_start _ _ _ _ _ _ _ _ _ _ _ _ _ H) as (NE & x0 & r0 & E0). fold ptf in E0. destruct (residuals_dynamic_fixed _ _ _ _ _ _ E0 NE) as [ST SP].
    assert (LQ : forall k, In k static_keys \/ is_eps k seqs \/ In k ptf -> lookup (set_params nom ptf (map q ptf)) k = Ok (q k)).
    { intros k Hk. change (lookup (update nom (combine ptf (map q ptf))) k = Ok (q k)). rewrite update_fun. destruct (mem_str k ptf) eqn:Mk; [reflexivity|]. apply mem_str_false in Mk. apply LK. tauto. }
    refine (exact_rest mz _ _ _ _ _ _ _ _ _ _ _ q (map (fun _ => (0, 0)) pts) o FM _ _ _ H).
    + unfold residuals. cbv zeta. apply rmapM_Ok_Forall2. fold ptf. clear - T LQ ST SP. induction T as [|f pts Tf T IH]; [constructor|]. cbn [map]. constructor; [|exact IH].
      rewrite (expected_truth _ _ _ _ q) by (intros; try (split; [exact ST|split; [exact SP|split]]); apply LQ; auto). cbn [rmap]. rewrite Tf. cbn [fst snd]. f_equal. f_equal; ring.
    + unfold all_zero. rewrite Forall_map. apply Forall_forall. reflexivity.
    + intros k lh _ Hl. now apply HB.
Qed.

(** *** The result *)
Lemma update_last {V} k : forall (l : list (string * V)) d d', In k (map fst l) -> lookup (update d l) k = lookup (update d' l) k.
Proof.
  induction l as [|[j v] l IH]; intros d d' H; [destruct H|]. change (lookup (update (dset d j v) l) k = lookup (update (dset d' j v) l) k). destruct (in_dec string_dec k (map fst l)) as [I|N]; [now apply IH|]. destruct H as [H|H]; [|contradiction]. cbn in H. subst j. rewrite !update_other by exact N. now rewrite !lookup_same.
Qed.
Lemma sublist_refl {A} (l : list A) : sublist l l.
Proof. induction l; constructor; assumption. Qed.
Lemma sublist_trans {A} (l : list A) : forall m n, sublist l m -> sublist m n -> sublist l n.
Proof. intros m n H K. revert l H. induction K as [|a m n K IH|a m n K IH]; intros l H; [exact H|inversion H; subst; constructor; now apply IH|constructor; now apply IH]. Qed.
Lemma delete_sublist {A} : forall (l : list A) i, sublist (delete_at l i) l.
Proof. induction l as [|a l IH]; intros [|i]; unfold delete_at; cbn; try (constructor; fail); [constructor; apply sublist_refl|constructor; apply IH]. Qed.
Lemma sublist_map_inv {A B} (f : A -> B) l : forall m, sublist l (map f m) -> exists l', sublist l' m /\ l = map f l'.
Proof.
  intros m. remember (map f m) as fm. intros H. revert m Heqfm. induction H as [|a l n H IH|a l n H IH]; intros m E.
  - destruct m; [|discriminate]. exists []. split; [constructor|reflexivity].
  - destruct m as [|b m]; [discriminate|]. injection E as -> ->. destruct (IH m eq_refl) as (l' & S & ->). exists (b :: l'). split; [now constructor|reflexivity].
  - destruct m as [|b m]; [discriminate|]. injection E as -> ->. destruct (IH m eq_refl) as (l' & S & ->). exists l'. split; [now constructor|reflexivity].
Qed.
Lemma sublist_length {A} (l m : list A) : sublist l m -> (List.length l <= List.length m)%nat.
Proof. induction 1; cbn; lia. Qed.
Lemma sublist_In {A} (l m : list A) x : sublist l m -> In x l -> In x m.
Proof. induction 1; cbn; intuition. Qed.
Lemma fit_loop_end mz mode seqs ptf p0 x0 b rej : same_shape mz -> forall k cur pts o pts', (forall o, cur = Some o -> List.length (fst o) = List.length x0) ->
  fit_loop mz k mode seqs ptf p0 x0 b rej cur pts = Ok (o, pts') -> sublist pts' pts /\ List.length (fst o) = List.length x0 /\ (rej = false -> (0 < k)%nat -> pts' = pts /\ o = mz (compute_chi2 mode seqs ptf p0 pts) x0 b).
Proof.
  intros SS. induction k as [|k IH]; intros cur pts o pts' HC H; cbn [fit_loop] in H.
  - destruct cur as [o'|]; [|discriminate]. apply Ok_inj in H. injection H as <- <-. split; [apply sublist_refl|]. split; [now apply HC|lia].
  - unfold run_minimize in H. destruct (compute_chi2 mode seqs ptf p0 pts x0); [|discriminate]. cbn [rbind] in H. set (o1 := mz _ x0 b) in *. destruct (residuals mode seqs ptf p0 pts (fst o1)) as [r|]; [|discriminate]. cbn [rbind] in H. destruct (argmax _) as [worst|]; [|discriminate]. cbn [rbind] in H.
    assert (Done : Ok (o1, pts) = Ok (o, pts') -> sublist pts' pts /\ List.length (fst o) = List.length x0 /\ (rej = false -> (0 < Datatypes.S k)%nat -> pts' = pts /\ o = o1)). { intros D. apply Ok_inj in D. injection D as <- <-. split; [apply sublist_refl|]. split; [apply SS|auto]. }
    destruct rej; cbn [negb] in H; [|exact (Done H)]. destruct (median _) as [med|]; [|discriminate]. cbn [rbind] in H. destruct (geti _ worst) as [w|]; [|discriminate]. cbn [rbind] in H. destruct (_ || _)%bool; [exact (Done H)|]. destruct (_ <? _)%nat; [discriminate|].
    apply IH in H as (A & B & _); [|intros o' E; injection E as <-; apply SS]. split; [exact (sublist_trans _ _ _ A (delete_sublist pts worst))|]. split; [exact B|discriminate].
Qed.
Lemma combine_keys (l : list string) (x : list R) : List.length x = List.length l -> map fst (combine l x) = l.
Proof. revert x. induction l as [|a l IH]; intros [|v x] H; try discriminate; [reflexivity|]. cbn. f_equal. apply IH. injection H as H. exact H. Qed.

Lemma fit_rest_Ok mz mode seqs fixed nom1 nom2 bounds pts n ue rej flags o : same_shape mz -> fit_rest mz mode seqs fixed nom1 nom2 bounds pts n ue rej flags = Ok o ->
  let ptf := params_to_fit fixed nom1 in
  exists x0 b x h pts' r ot, rmapM (lookup nom2) ptf = Ok x0 /\ rmapM (lookup bounds) ptf = Ok b /\ fit_loop mz 20 mode seqs ptf nom1 x0 b rej None pts = Ok ((x, h), pts') /\
    List.length x = List.length ptf /\ sublist pts' pts /\ (rej = false -> pts' = pts /\ (x, h) = mz (compute_chi2 mode seqs ptf nom1 pts) x0 b) /\
    residuals mode seqs ptf nom1 pts' x = Ok r /\ n <> 0%nat /\ o_rms o = sqrt (sum_sq r / INR n) /\ o_npts o = List.length pts' /\ o_flags o = flags /\
    (forall k, In k fixed -> k <> "OFFSET_T" -> lookup (o_params o) k = lookup nom2 k /\ In k (map fst nom2)) /\
    (forall k, In k ptf -> k <> "OFFSET_T" -> lookup (o_params o) k = lookup (set_params nom1 ptf x) k) /\
    (In "OFFSET_T" fixed -> lookup nom2 "OFFSET_T" = Ok ot) /\ (In "OFFSET_T" ptf -> lookup (set_params nom1 ptf x) "OFFSET_T" = Ok ot) /\ lookup (o_params o) "OFFSET_T" = Ok (wrap_at_180 ot) /\
    (forall k, In k (map fst (o_params o)) <-> In k fixed \/ In k ptf) /\ covariance_dict ptf fixed h (if ue then o_rms o ^ 2 / 2 else 1) = Ok (o_cov o).
Proof.
  intros SS H ptf. unfold fit_rest in H. fold ptf in H. destruct (rmapM (lookup nom2) ptf) as [x0|] eqn:Ex; [|discriminate]. cbn [rbind] in H. destruct (rmapM (lookup bounds) ptf) as [b|] eqn:Eb; [|discriminate]. cbn [rbind] in H.
  destruct (fit_loop _ _ _ _ _ _ _ _ _ _ _) as [[[x h] pts']|] eqn:EL; [|discriminate]. cbn [rbind] in H. destruct (rmapM _ fixed) as [fx|] eqn:Ef; [|discriminate]. cbn [rbind] in H. cbv zeta in H.
  change (fold_left (fun d kv => dset d (fst kv) (snd kv)) fx (fold_left (fun d kv => dset d (fst kv) (snd kv)) (combine ptf x) [])) with (update (update [] (combine ptf x)) fx) in H. set (best := update (update [] (combine ptf x)) fx) in *.
  destruct (lookup best "OFFSET_T") as [ot|] eqn:Eo; [|discriminate]. cbn [rbind] in H. destruct (compute_rms _ _ _ _ _ _ _) as [rms|] eqn:Er; [|discriminate]. cbn [rbind] in H. destruct (covariance_dict _ _ _ _) as [cov|] eqn:Ecov; [|discriminate]. cbn [rbind] in H. apply Ok_inj in H.
  unfold compute_rms in Er. destruct (residuals mode seqs ptf nom1 pts' x) as [r|] eqn:Es; [|discriminate]. cbn [rbind] in Er. destruct (fdiv (sum_sq r) (INR n)) as [v|] eqn:Ed; [|discriminate]. cbn [rmap] in Er. apply Ok_inj in Er. apply fdiv_Ok in Ed as [Nn ->].
  exists x0, b, x, h, pts', r, ot. assert (SN : forall o : list R * list (list R), None = Some o -> List.length (fst o) = List.length x0) by discriminate. destruct (fit_loop_end _ _ _ _ _ _ _ _ SS _ _ _ _ _ SN EL) as (Sub & Lx & Nr).
  assert (Lp : List.length x = List.length ptf). { cbn [fst] in Lx. rewrite Lx. apply rmapM_Ok_Forall2 in Ex. symmetry. exact (Forall2_length _ _ _ Ex). }
  apply rmapM_Ok_Forall2 in Ef. assert (Kf : map fst fx = fixed). { clear - Ef. induction Ef as [|k kv l fx E Ef IH]; [reflexivity|]. cbn. rewrite IH. f_equal. destruct (lookup nom2 k); [|discriminate E]. cbn in E. injection E as <-. reflexivity. }
  assert (Vf : forall k v, In (k, v) fx -> lookup nom2 k = Ok v). { clear - Ef. induction Ef as [|j kv l fx E Ef IH]; intros k v I; [destruct I|]. destruct I as [->|I]; [|now apply IH]. destruct (lookup nom2 j) eqn:Ej; [|discriminate E]. cbn in E. injection E as -> ->. exact Ej. }
  assert (LF : forall k, In k fixed -> lookup best k = lookup nom2 k /\ In k (map fst nom2)).
  { intros k Hk. rewrite <- Kf in Hk. unfold best. generalize (update [] (combine ptf x)) as d. assert (I : In k (map fst nom2)). { apply in_map_iff in Hk as ([k' v] & <- & Hv). apply lookup_keys. exists v. now apply Vf. } intros d. split; [|exact I].
    clear - Hk Vf. revert d. induction fx as [|[j v] fx IH]; intros d; [destruct Hk|]. change (lookup (update (dset d j v) fx) k = lookup nom2 k). destruct (in_dec string_dec k (map fst fx)) as [I|N]; [apply IH; [intros; apply Vf; right; assumption|exact I]|]. destruct Hk as [Hk|Hk]; [|contradiction]. cbn in Hk. subst j. rewrite update_other by exact N. rewrite lookup_same. symmetry. apply Vf. left. reflexivity. }
  assert (LP : forall k, In k ptf -> lookup best k = lookup (set_params nom1 ptf x) k). { intros k Hk. unfold best. rewrite update_other by (rewrite Kf; apply params_to_fit_In in Hk; tauto). apply update_last. now rewrite combine_keys. }
  subst o. cbn [o_params o_rms o_npts o_flags]. split; [reflexivity|]. split; [reflexivity|]. split; [exact EL|]. split; [exact Lp|]. split; [exact Sub|]. split; [intros Hr; apply Nr; [exact Hr|lia]|]. split; [exact Es|]. split; [intros ->; apply Nn; reflexivity|]. split; [now symmetry|]. split; [reflexivity|]. split; [reflexivity|].
  split; [intros k Hk N; rewrite lookup_other by exact N; now apply LF|]. split; [intros k Hk N; rewrite lookup_other by exact N; now apply LP|]. split; [intros Hk; now rewrite <- (proj1 (LF _ Hk))|]. split; [intros Hk; now rewrite <- (LP _ Hk)|]. split; [apply lookup_same|]. split; [|exact Ecov].
  intros k. rewrite dset_keys. unfold best. rewrite !update_keys, Kf, combine_keys by exact Lp. cbn [map In]. split; [intros [->|[?|[?|[]]]]; auto|tauto]. assert (In "OFFSET_T" (map fst best)) as IB by (apply lookup_keys; eauto). unfold best in IB. rewrite !update_keys, Kf, combine_keys in IB by exact Lp. cbn [map In] in IB. tauto.
Qed.

Lemma wrap_at_180_spec a : -180 < wrap_at_180 a <= 180 /\ same_angle (wrap_at_180 a) a.
Proof.
  unfold wrap_at_180. cbv zeta. pose proof (pymod_range a 360 ltac:(lra)) as B. pose proof (Pos2ptl.pymod_same a 1 (or_introl eq_refl)) as S. replace (1 * 360) with 360 in S by ring. destruct (Rltb 180 (pymod a 360)) eqn:E.
  - apply Rltb_true in E. split; [lra|]. destruct S as [k Sk]. exists (k - 1)%Z. rewrite minus_IZR. lra.
  - apply Rltb_false in E. split; [lra|exact S].
Qed.
Lemma model_position_ext q q' seqs s t p : (forall k, In k static_keys -> k <> "OFFSET_T" -> q k = q' k) -> (In s seqs -> q (eps_t s) = q' (eps_t s) /\ q (eps_p s) = q' (eps_p s)) -> same_angle (q "OFFSET_T") (q' "OFFSET_T") ->
  model_position q seqs s t p = model_position q' seqs s t p.
Proof.
  intros A B C. rewrite !model_position_int2loc1. cbv zeta. rewrite (A "LENGTH_R1"), (A "LENGTH_R2"), (A "OFFSET_P"), (A "OFFSET_X"), (A "OFFSET_Y") by (try discriminate; cbn; tauto).
  destruct (existsb (Z.eqb s) seqs) eqn:E.
  - apply existsb_exists in E as (s' & Hs & E). apply Z.eqb_eq in E. subst s'. destruct (B Hs) as [-> ->]. rewrite !int2loc1_tp. rewrite (Xy2tp.tp2xy_same (t + (q "OFFSET_T" + q' (eps_t s))) (p + (q' "OFFSET_P" + q' (eps_p s))) (t + (q' "OFFSET_T" + q' (eps_t s))) (p + (q' "OFFSET_P" + q' (eps_p s)))); [reflexivity| |apply same_angle_refl]. repeat (apply same_angle_plus; try apply same_angle_refl). exact C.
  - rewrite !int2loc1_tp. rewrite (Xy2tp.tp2xy_same (t + (q "OFFSET_T" + 0)) (p + (q' "OFFSET_P" + 0)) (t + (q' "OFFSET_T" + 0)) (p + (q' "OFFSET_P" + 0))); [reflexivity| |apply same_angle_refl]. repeat (apply same_angle_plus; try apply same_angle_refl). exact C.
Qed.
Definition spoints (l : list (move * (R * R))) : list fpoint := map (fun me => static_point (fst me) (flat_point (fst me) (snd me))) l.
Lemma combine_map_r {A B C} (f : A -> B -> C) (l : list A) : forall m, combine l (map (fun ab => f (fst ab) (snd ab)) (combine l m)) = map (fun ab => (fst ab, f (fst ab) (snd ab))) (combine l m).
Proof. induction l as [|a l IH]; intros [|b m]; cbn; try reflexivity. f_equal. apply IH. Qed.
Lemma repeat_map {A B} (v : B) (l : list A) : repeat v (List.length l) = map (fun _ => v) l.
Proof. induction l; cbn; congruence. Qed.
Lemma position_errors_of e (moves : list move) : position_errors e (List.length moves) = match e with Some l => l | None => map (fun _ => 1) moves end.
Proof. destruct e; [reflexivity|]. apply repeat_map. Qed.
Lemma points_of moves xe ye : map (fun mf => static_point (fst mf) (snd mf)) (combine moves (flat_points moves xe ye)) = spoints (combine moves (errors_of xe ye moves)).
Proof. unfold flat_points, spoints, errors_of. rewrite !position_errors_of, combine_map_r, map_map. reflexivity. Qed.
Lemma residuals_static seqs ptf p0 x (q : string -> R) l : (forall k, In k static_keys \/ is_eps k seqs -> lookup (set_params p0 ptf x) k = Ok (q k)) ->
  residuals Static seqs ptf p0 (spoints l) x = Ok (map (fun me => (fst (model_position q seqs (mv_seq (fst me)) (mv_t (fst me)) (mv_p (fst me))) - fst (ptl2flat (mv_x (fst me)) (mv_y (fst me))), snd (model_position q seqs (mv_seq (fst me)) (mv_t (fst me)) (mv_p (fst me))) - snd (ptl2flat (mv_x (fst me)) (mv_y (fst me))))) l).
Proof.
  intros LK. unfold residuals. cbv zeta. induction l as [|[m e] l IH]; [reflexivity|]. cbn [spoints map rmapM]. rewrite (expected_truth _ _ _ _ q) by (intros; try discriminate; apply LK; auto). cbn [rmap rbind]. fold (spoints l). rewrite IH. reflexivity.
Qed.
Lemma chi2_static seqs ptf p0 x (q : string -> R) l : (forall k, In k static_keys \/ is_eps k seqs -> lookup (set_params p0 ptf x) k = Ok (q k)) ->
  Forall (fun f => f_xerr f <> 0 /\ f_yerr f <> 0) (spoints l) -> compute_chi2 Static seqs ptf p0 (spoints l) x = Ok (chi_square q seqs l).
Proof.
  intros LK NZ. unfold compute_chi2. rewrite (residuals_static seqs ptf p0 x q l LK). cbn [rbind]. set (w := fun eq => _). assert (E : rmapM w (combine (map (fun me => (fst (model_position q seqs (mv_seq (fst me)) (mv_t (fst me)) (mv_p (fst me))) - fst (ptl2flat (mv_x (fst me)) (mv_y (fst me))), snd (model_position q seqs (mv_seq (fst me)) (mv_t (fst me)) (mv_p (fst me))) - snd (ptl2flat (mv_x (fst me)) (mv_y (fst me))))) l) (spoints l)) =
    Ok (map (fun me => let '(m, e) := me in
    ((fst (model_position q seqs (mv_seq m) (mv_t m) (mv_p m)) - fst (ptl2flat (mv_x m) (mv_y m))) / fst (flat_errors m e)) ^ 2 +
    ((snd (model_position q seqs (mv_seq m) (mv_t m) (mv_p m)) - snd (ptl2flat (mv_x m) (mv_y m))) / snd (flat_errors m e)) ^ 2) l)); [|rewrite E; reflexivity].
  induction l as [|[m e] l IH]; [reflexivity|]. inversion NZ as [|? ? [N1 N2] NZ']; subst. cbn [spoints map combine rmapM]. change (f_xerr (static_point (fst (m, e)) (flat_point (fst (m, e)) (snd (m, e))))) with (fst (flat_errors m e)) in N1. change (f_yerr (static_point (fst (m, e)) (flat_point (fst (m, e)) (snd (m, e))))) with (snd (flat_errors m e)) in N2.
  fold (spoints l). rewrite (IH NZ'). unfold w. cbn [fst snd]. change (f_xerr (static_point m (flat_point m e))) with (fst (flat_errors m e)). change (f_yerr (static_point m (flat_point m e))) with (snd (flat_errors m e)). rewrite (proj2 (fdiv_Ok _ _ _) (conj N1 eq_refl)). cbn [rbind]. rewrite (proj2 (fdiv_Ok _ _ _) (conj N2 eq_refl)). reflexivity.
Qed.
Lemma fitted_lookup o k v : lookup (o_params o) k = Ok v -> fitted o k = v.
Proof. unfold fitted, lookup, dict_getE. destruct (dict_get _ _ _); [|discriminate]. intros H. now apply Ok_inj in H. Qed.

(** The parameters returned against those of the last optimum *)
Lemma static_params ls mz seqs keep nom nom2 pts0 bnd pts n ue rej flags o : let nom1 := add_epsilons 0 seqs nom in let fixed := fixed_keys Static keep nom1 in let ptf := params_to_fit fixed nom1 in
  (forall k, In k all_keys -> In k (map fst nom)) -> (forall k, In k keep -> In k all_keys) -> init_offsets ls pts0 fixed nom1 = Ok nom2 -> same_shape mz ->
  fit_rest mz Static seqs fixed nom1 nom2 bnd pts n ue rej flags = Ok o ->
  (forall k, In k (map fst (o_params o)) <-> In k (map fst nom) \/ is_eps k seqs) /\
  (forall k, In k keep \/ In k dynamic_keys -> k <> "OFFSET_T" -> lookup (o_params o) k = lookup nom k) /\
  (exists ot, lookup (o_params o) "OFFSET_T" = Ok (wrap_at_180 ot) /\ (In "OFFSET_T" keep -> lookup nom "OFFSET_T" = Ok ot)) /\
  exists x0 b x h pts' r q, rmapM (lookup nom2) ptf = Ok x0 /\ rmapM (lookup bnd) ptf = Ok b /\ sublist pts' pts /\ (rej = false -> pts' = pts /\ (x, h) = mz (compute_chi2 Static seqs ptf nom1 pts) x0 b) /\
    (forall k, In k static_keys \/ is_eps k seqs -> lookup (set_params nom1 ptf x) k = Ok (q k)) /\
    (forall s t p, model_position q seqs s t p = model_position (fitted o) seqs s t p) /\
    residuals Static seqs ptf nom1 pts' x = Ok r /\ n <> 0%nat /\ o_rms o = sqrt (sum_sq r / INR n) /\ o_npts o = List.length pts' /\ o_flags o = flags /\
    fit_loop mz 20 Static seqs ptf nom1 x0 b rej None pts = Ok ((x, h), pts') /\ covariance_dict ptf fixed h (if ue then o_rms o ^ 2 / 2 else 1) = Ok (o_cov o).
Proof.
  intros nom1 fixed ptf HN HK HI SS H. destruct (fit_rest_Ok _ _ _ _ _ _ _ _ _ _ _ _ _ SS H) as (x0 & b & x & h & pts' & r & ot & E0 & Eb & EL & Lx & Sub & Nr & Er & Nn & Rms & Np & Fl & LF & LP & OF & OP & OO & KS & CV). fold ptf in E0, Eb, EL, Lx, Nr, Er, LP, OP, KS.
  assert (Dall : forall k, In k dynamic_keys -> In k all_keys) by (intros; unfold all_keys; apply in_app_iff; auto). assert (Sall : forall k, In k static_keys -> In k all_keys) by (intros; unfold all_keys; apply in_app_iff; auto).
  assert (KF : forall k, In k fixed <-> In k keep \/ In k dynamic_keys) by (intros; apply fixed_keys_In). assert (FA : forall k, In k fixed -> In k all_keys) by (intros k Hk; apply KF in Hk as [?|?]; auto).
  assert (N12 : forall k, In k fixed -> lookup nom2 k = lookup nom k). { intros k Hk. rewrite (init_offsets_lookup _ _ _ _ _ _ HI (or_introl Hk)). apply add_epsilons_other. apply all_not_eps. auto. }
  assert (K1 : forall k, In k (map fst nom1) <-> In k fixed \/ In k ptf). { intros k. unfold ptf. rewrite params_to_fit_In. split; [intros Hk; destruct (in_dec string_dec k fixed); auto|intros [Hk|[Hk _]]; [apply add_epsilons_keys; left; auto|exact Hk]]. }
  split; [intros k; rewrite KS, <- K1; apply add_epsilons_keys|]. split; [intros k Hk Nk; apply KF in Hk; rewrite (proj1 (LF k Hk Nk)); now apply N12|]. split. { exists ot. split; [exact OO|]. intros Hk. assert (In "OFFSET_T" fixed) as Hf by (apply KF; auto). rewrite <- (N12 _ Hf). now apply OF. }
  set (p := set_params nom1 ptf x). set (q := fun k => match dict_get String.eqb p k with Some v => v | None => 0 end).
  assert (LQ : forall k, In k (map fst nom1) -> lookup p k = Ok (q k)). { intros k Hk. assert (In k (map fst p)) as Hp by (apply update_keys; auto). apply lookup_keys in Hp as (v & Hv). rewrite Hv. f_equal. unfold q. unfold lookup, dict_getE in Hv. destruct (dict_get _ _ _); [|discriminate]. now apply Ok_inj in Hv. }
  assert (LS : forall k, In k static_keys \/ is_eps k seqs -> lookup p k = Ok (q k)). { intros k Hk. apply LQ. apply add_epsilons_keys. destruct Hk; auto. }
  assert (Fx : forall k, In k fixed -> lookup p k = lookup nom k). { intros k Hk. unfold p. change (lookup (update nom1 (combine ptf x)) k = lookup nom k). rewrite update_other by (rewrite combine_keys by exact Lx; unfold ptf; rewrite params_to_fit_In; tauto). apply add_epsilons_other, all_not_eps. auto. }
  assert (QE : forall k, k <> "OFFSET_T" -> In k (map fst nom1) -> q k = fitted o k). { intros k Nk Hk. symmetry. apply fitted_lookup. rewrite <- (LQ k Hk). apply K1 in Hk as [Hk|Hk]; [rewrite (proj1 (LF k Hk Nk)), N12 by exact Hk; symmetry; now apply Fx|now apply LP]. }
  exists x0, b, x, h, pts', r, q. repeat (split; [assumption|]). split; [|repeat (split; [assumption|]); assumption].
  intros s t p'. apply model_position_ext.
  - intros k Hk Nk. apply QE; [exact Nk|]. apply add_epsilons_keys. auto.
  - intros Hs. split; apply QE; try (intros E; apply (all_not_eps "OFFSET_T" seqs); [cbn; tauto|rewrite <- E; exists s; auto]); apply add_epsilons_keys; right; exists s; auto.
  - rewrite (fitted_lookup o _ _ OO). assert (q "OFFSET_T" = ot) as ->; [|apply same_angle_sym, wrap_at_180_spec]. assert (In "OFFSET_T" (map fst nom1)) as Hk by (apply add_epsilons_keys; left; apply HN; cbn; tauto). apply Ok_inj. rewrite <- (LQ _ Hk). apply K1 in Hk as [Hk|Hk]; [rewrite Fx, <- N12 by exact Hk; auto|auto].
Qed.

Lemma sublist_map {A B} (f : A -> B) l m : sublist l m -> sublist (map f l) (map f m).
Proof. induction 1; cbn; constructor; assumption. Qed.
Lemma map_fst_combine {A B} (l : list A) : forall m : list B, List.length m = List.length l -> map fst (combine l m) = l.
Proof. induction l as [|a l IH]; intros [|b m] H; try discriminate; [reflexivity|]. cbn. f_equal. apply IH. injection H as H. exact H. Qed.
Lemma errors_of_length xe ye (moves : list move) : (forall l, xe = Some l \/ ye = Some l -> List.length l = List.length moves) -> List.length (errors_of xe ye moves) = List.length moves.
Proof. intros H. unfold errors_of. rewrite combine_length. destruct xe as [a|], ye as [b|]; rewrite ?map_length; rewrite ?(H _ (or_introl eq_refl)), ?(H _ (or_intror eq_refl)); lia. Qed.

Theorem static_fit ls mz moves nom bnd keep xe ye rej o st : same_shape mz -> fit_params ls mz moves Static nom bnd keep xe ye rej = (Ok o, st) -> o_flags o = 0%Z ->
  let seqs := sequences_without_rehome moves in
  (forall k, In k (map fst (o_params o)) <-> In k (map fst nom) \/ is_eps k seqs) /\
  (forall k, In k keep \/ In k dynamic_keys -> k <> "OFFSET_T" -> lookup (o_params o) k = lookup nom k) /\
  (exists ot, lookup (o_params o) "OFFSET_T" = Ok (wrap_at_180 ot) /\ (In "OFFSET_T" keep -> lookup nom "OFFSET_T" = Ok ot)) /\
  exists kept, sublist kept moves /\ (rej = false -> kept = moves) /\ o_npts o = List.length kept /\ moves <> [] /\ o_rms o = sqrt (Rsum (map (misfit (fitted o) seqs) kept) / INR (List.length moves)).
Proof.
  intros SS H F. destruct (fit_params_cases ls mz moves Static nom bnd keep xe ye rej) as [[_ E]|(V & [[_ E]|[(_ & _ & E)|(_ & _ & C)]])].
  1: rewrite E in H; discriminate. 1,2: rewrite E in H; injection H as <- _; discriminate.
  cbv zeta in C. intros seqs. fold seqs in C. destruct C as [(e & _ & E)|(nom2 & EI & E)]; rewrite E in H; [discriminate|]. injection H as H _. destruct V as (V1 & V2 & V3).
  destruct (static_params ls mz seqs keep nom nom2 _ _ _ _ _ _ _ o (fun k Hk => proj1 (V1 k Hk)) V2 EI SS H) as (K & Fx & OT & x0 & b & x & h & pts' & r & q & E0 & Eb & Sub & Nr & LQ & MP & Er & Nn & Rms & Np & Fl & FLp & CV).
  split; [exact K|]. split; [exact Fx|]. split; [exact OT|]. rewrite points_of in Sub, Nr. destruct (sublist_map_inv _ _ _ Sub) as (l & Sl & ->). exists (map fst l). fold (spoints l) in *. rewrite (residuals_static _ _ _ _ q l LQ) in Er. apply Ok_inj in Er. subst r.
  assert (MF : map fst (combine moves (errors_of xe ye moves)) = moves) by (apply map_fst_combine, errors_of_length, V3).
  split; [rewrite <- MF; now apply sublist_map|]. split; [|split; [rewrite Np; unfold spoints; now rewrite !map_length|split; [intros ->; apply Nn; reflexivity|]]].
  - intros Hr. destruct (Nr Hr) as [Ep _]. assert (List.length l = List.length (combine moves (errors_of xe ye moves))) as EL by (apply (f_equal (@List.length _)) in Ep; unfold spoints in Ep; rewrite !map_length in Ep; exact Ep).
    transitivity (map fst (combine moves (errors_of xe ye moves))); [|exact MF]. f_equal. clear - Sl EL. induction Sl as [|a l m Sl IH|a l m Sl IH]; [reflexivity|f_equal; apply IH; injection EL as EL; exact EL|]. apply sublist_length in Sl. cbn in EL. lia.
  - rewrite Rms. f_equal. f_equal. unfold sum_sq. rewrite !map_map. f_equal. apply map_ext. intros [m e]. cbn [fst snd]. unfold misfit. now rewrite MP.
Qed.

Theorem dynamic_fit ls mz moves nom bnd keep xe ye rej o st : same_shape mz -> fit_params ls mz moves Dynamic nom bnd keep xe ye rej = (Ok o, st) -> o_flags o = 0%Z ->
  ~ In "SCALE_T" keep /\ ~ In "SCALE_P" keep /\
  (forall k, In k (map fst (o_params o)) <-> In k (map fst nom)) /\
  (forall k, In k (map fst nom) -> In k keep \/ In k static_keys \/ has_epsilon k = true -> k <> "OFFSET_T" -> lookup (o_params o) k = lookup nom k) /\
  (exists ot, lookup nom "OFFSET_T" = Ok ot /\ lookup (o_params o) "OFFSET_T" = Ok (wrap_at_180 ot)) /\
  st = (nom, bnd).
Proof.
  intros SS H F. destruct (fit_params_cases ls mz moves Dynamic nom bnd keep xe ye rej) as [[_ E]|(V & [[_ E]|[(_ & _ & E)|(_ & _ & C)]])].
  1: rewrite E in H; discriminate. 1,2: rewrite E in H; injection H as <- _; discriminate.
  cbv zeta in C. rewrite C in H. set (seqs := sequences_without_rehome moves) in *. injection H as H Hst. destruct (dynamic_points nom seqs _) as [pts|] eqn:Ep; [|discriminate]. cbn [rbind] in H. destruct V as (V1 & V2 & _).
  destruct (fit_rest_start _ _ _ _ _ _ _ _ _ _ _ _ _ H) as (NE & y & ry & E0). destruct (residuals_dynamic_fixed _ _ _ _ _ _ E0 NE) as [ST SP]. apply params_to_fit_In in ST as [_ ST]. apply params_to_fit_In in SP as [_ SP]. rewrite fixed_keys_In in ST, SP.
  destruct (fit_rest_Ok _ _ _ _ _ _ _ _ _ _ _ _ _ SS H) as (x0 & b & x & h & pts' & r & ot & _ & _ & _ & Lx & _ & _ & _ & _ & _ & _ & _ & LF & LP & OF & OP & OO & KS & CV). split; [tauto|]. split; [tauto|].
  assert (Sall : forall k, In k static_keys -> In k all_keys) by (intros; unfold all_keys; apply in_app_iff; auto).
  split. { intros k. rewrite KS. rewrite params_to_fit_In. split; [intros [Hk|[Hk _]]; [|exact Hk]|intros Hk; destruct (in_dec string_dec k (fixed_keys Dynamic keep nom)); tauto]. apply fixed_keys_In in Hk as [Hk|[Hk|[_ Hk]]]; [apply V1, V2, Hk|apply V1, Sall, Hk|exact Hk]. }
  split. { intros k Kn Hk Nk. apply LF; [|exact Nk]. apply fixed_keys_In. tauto. }
  split; [|auto]. exists ot. split; [|exact OO]. apply OF. apply fixed_keys_In. right. left. cbn. tauto.
Qed.

Lemma chi2_errors mode seqs ptf p0 pts x v : compute_chi2 mode seqs ptf p0 pts x = Ok v -> Forall (fun f => f_xerr f <> 0 /\ f_yerr f <> 0) pts.
Proof.
  unfold compute_chi2. change (fun eq : R * R * fpoint => rbind (fdiv (fst (fst eq)) (f_xerr (snd eq))) (fun u : R => rmap (fun v : R => u ^ 2 + v ^ 2) (fdiv (snd (fst eq)) (f_yerr (snd eq))))) with weighted. destruct (residuals mode seqs ptf p0 pts x) as [r|] eqn:E; [|discriminate]. cbn [rbind]. destruct (rmapM weighted (combine r pts)) as [l|] eqn:El; [|discriminate]. intros _. exact (proj1 (weighted_Ok r pts (residuals_length _ _ _ _ _ _ _ E)) (ex_intro _ l El)).
Qed.
Lemma value_lookup d k : In k (map fst d) -> lookup d k = Ok (value_in d k).
Proof. intros H. apply lookup_keys in H as (v & H). rewrite H. f_equal. unfold value_in. unfold lookup, dict_getE in H. destruct (dict_get _ _ _); [|discriminate]. now apply Ok_inj in H. Qed.
Lemma lookup_in_keys {V} (d : dict string V) k v : lookup d k = Ok v -> In k (map fst d).
Proof. intros. apply lookup_keys. eauto. Qed.
Lemma rmapM_lookup (d : dict string R) l x : rmapM (lookup d) l = Ok x -> x = map (value_in d) l.
Proof.
  intros H. apply rmapM_Ok_Forall2 in H. induction H as [|k v l x E H IH]; [reflexivity|]. cbn. rewrite <- IH. f_equal. rewrite (value_lookup d k) in E by (eapply lookup_in_keys; exact E). now apply Ok_inj in E.
Qed.

(** Values which agree with the nominal ones for the fixed parameters are those of some parameter vector. *)
Lemma admissible_set seqs keep nom (q : string -> R) : let nom1 := add_epsilons 0 seqs nom in let ptf := params_to_fit (fixed_keys Static keep nom1) nom1 in
  (forall k, In k all_keys -> In k (map fst nom)) -> (forall k, In k keep -> In k all_keys) -> (forall k, In k keep -> lookup nom k = Ok (q k)) ->
  forall k, In k static_keys \/ is_eps k seqs -> lookup (set_params nom1 ptf (map q ptf)) k = Ok (q k).
Proof.
  intros nom1 ptf V VK HK k Hk. change (lookup (update nom1 (combine ptf (map q ptf))) k = Ok (q k)). rewrite update_fun. destruct (mem_str k ptf) eqn:M; [reflexivity|]. apply mem_str_false in M.
  assert (Hn : In k (map fst nom1)) by (apply add_epsilons_keys; destruct Hk as [Hk|Hk]; [left; apply V; unfold all_keys; apply in_app_iff; auto|auto]). assert (F : In k (fixed_keys Static keep nom1)). { destruct (in_dec string_dec k (fixed_keys Static keep nom1)) as [|N]; [assumption|]. destruct M. now apply params_to_fit_In. }
  assert (A : In k all_keys) by (apply fixed_keys_In in F as [F|F]; [auto|unfold all_keys; apply in_app_iff; auto]). unfold nom1. rewrite add_epsilons_other by now apply all_not_eps. destruct Hk as [Hk|Hk]; [|destruct (all_not_eps k seqs A Hk)].
  apply fixed_keys_In in F as [F|F]; [now apply HK|]. cbn in F, Hk. exfalso. clear - F Hk. repeat (destruct F as [<-|F]; [repeat (destruct Hk as [Hk|Hk]; [discriminate|]); exact Hk|]). destruct F.
Qed.
(** The start of the optimisation: the module's nominal values after the circle fits *)
Theorem static_descent ls mz moves nom bnd keep xe ye o st : same_shape mz -> never_worse mz -> fit_params ls mz moves Static nom bnd keep xe ye false = (Ok o, st) -> o_flags o = 0%Z ->
  let seqs := sequences_without_rehome moves in let l := combine moves (errors_of xe ye moves) in
  chi_square (fitted o) seqs l <= chi_square (value_in (fst st)) seqs l.
Proof.
  intros SS NW H F. destruct (fit_params_cases ls mz moves Static nom bnd keep xe ye false) as [[_ E]|(V & [[_ E]|[(_ & _ & E)|(_ & _ & C)]])].
  1: rewrite E in H; discriminate. 1,2: rewrite E in H; injection H as <- _; discriminate.
  cbv zeta in C. intros seqs l. fold seqs in C. destruct C as [(e & _ & E)|(nom2 & EI & E)]; rewrite E in H; [discriminate|]. injection H as H <-. cbn [fst]. destruct V as (V1 & V2 & V3). assert (V1' := fun k Hk => proj1 (V1 k Hk)).
  assert (KN2 : forall k, In k (map fst nom2) <-> In k (map fst (add_epsilons 0 seqs nom))) by (intros k; apply (init_offsets_keys _ _ _ _ _ k EI); apply add_epsilons_keys; left; apply V1'; cbn; tauto).
  pose proof (fit_rest_start _ _ _ _ _ _ _ _ _ _ _ _ _ H) as ST.
  destruct (static_params ls mz seqs keep nom nom2 _ _ _ _ _ _ _ o V1' V2 EI SS H) as (K & Fx & OT & x0 & b & x & h & pts' & r & q & E0 & Eb & Sub & Nr & LQ & MP & Er & Nn & Rms & Np & Fl & FLp & CV).
  destruct (Nr eq_refl) as [-> Ex]. rewrite points_of in *. fold l in Er, Ex, H.
  assert (C0 : exists v0, compute_chi2 Static seqs (params_to_fit (fixed_keys Static keep (add_epsilons 0 seqs nom)) (add_epsilons 0 seqs nom)) (add_epsilons 0 seqs nom) (spoints l) x0 = Ok v0).
  { unfold fit_rest in H. rewrite E0 in H. cbn [rbind] in H. rewrite Eb in H. cbn [rbind fit_loop] in H. unfold run_minimize in H. destruct (compute_chi2 Static seqs _ _ (spoints l) x0) as [v0|]; [eauto|discriminate]. }
  destruct C0 as (v0 & C0). pose proof (chi2_errors _ _ _ _ _ _ _ C0) as NZ.
  pose proof (admissible_set seqs keep nom (value_in nom2) V1' V2) as AD. cbv zeta in AD. rewrite <- (rmapM_lookup _ _ _ E0) in AD. specialize (AD (fun k Hk => ltac:(
    rewrite <- (value_lookup nom2 k ltac:(apply KN2, add_epsilons_keys; left; auto)); rewrite (init_offsets_lookup _ _ _ _ _ _ EI (or_introl (proj2 (fixed_keys_In _ _ _ _) (or_introl Hk)))); symmetry; apply add_epsilons_other, all_not_eps; auto))).
  rewrite (chi2_static seqs _ _ x0 (value_in nom2) l AD NZ) in C0. apply Ok_inj in C0.
  destruct (NW _ x0 b _ (chi2_static seqs _ _ x0 (value_in nom2) l AD NZ)) as (w & Ew & Hw). rewrite <- Ex in Ew. cbn [fst] in Ew. rewrite (chi2_static seqs _ _ x q l LQ NZ) in Ew. apply Ok_inj in Ew. rewrite <- Ew in Hw.
  replace (chi_square (fitted o) seqs l) with (chi_square q seqs l); [exact Hw|]. unfold chi_square. f_equal. apply map_ext. intros [m e]. now rewrite MP.
Qed.

(** *** History *)
Lemma fit_rest_bounds mz mode seqs fixed nom1 nom2 b b' pts n ue rej flags : (forall k, In k (map fst nom1) -> lookup b k = lookup b' k) ->
  fit_rest mz mode seqs fixed nom1 nom2 b pts n ue rej flags = fit_rest mz mode seqs fixed nom1 nom2 b' pts n ue rej flags.
Proof.
  intros H. unfold fit_rest. assert (E : rmapM (lookup b) (params_to_fit fixed nom1) = rmapM (lookup b') (params_to_fit fixed nom1)).
  { assert (I : forall k, In k (params_to_fit fixed nom1) -> lookup b k = lookup b' k) by (intros k Hk; apply H; apply params_to_fit_In in Hk; tauto). induction (params_to_fit fixed nom1) as [|k l IH]; [reflexivity|]. cbn. rewrite I by (left; reflexivity). rewrite IH; [reflexivity|]. intros. apply I. right. assumption. }
  now rewrite E.
Qed.
Lemma fit_params_bounds ls mz moves mode nom b b' keep xe ye rej : (forall k, In k all_keys -> In k (map fst b) <-> In k (map fst b')) -> (forall k, In k (map fst nom) -> lookup b k = lookup b' k) ->
  fst (fit_params ls mz moves mode nom b keep xe ye rej) = fst (fit_params ls mz moves mode nom b' keep xe ye rej).
Proof.
  intros HK HL. assert (HV : valid_args moves nom b keep xe ye <-> valid_args moves nom b' keep xe ye). { unfold valid_args. split; intros (A & B & C); (split; [|auto]); intros k Hk; specialize (A k Hk); specialize (HK k Hk); tauto. }
  destruct (fit_params_cases ls mz moves mode nom b keep xe ye rej) as [[N E]|(V & C)]; destruct (fit_params_cases ls mz moves mode nom b' keep xe ye rej) as [[N' E']|(V' & C')]; try tauto; [now rewrite E, E'|].
  destruct C as [[T E]|[(T & R & E)|(T & R & C)]]; destruct C' as [[T' E']|[(T' & R' & E')|(T' & R' & C')]]; try contradiction; try (rewrite R in R'; discriminate); try now rewrite E, E'.
  cbv zeta in C, C'. destruct mode.
  - destruct C as [(e & Ee & E)|(n2 & Ee & E)]; destruct C' as [(e' & Ee' & E')|(n2' & Ee' & E')]; rewrite Ee in Ee'; try discriminate; injection Ee' as <-; rewrite E, E'; [reflexivity|]. cbn [fst]. apply fit_rest_bounds. intros k Hk. apply add_epsilons_keys in Hk.
    destruct (Classical_Prop.classic (is_eps k (sequences_without_rehome moves))) as [Ep|Ep]; [now rewrite !add_epsilons_same by exact Ep|]. rewrite !add_epsilons_other by exact Ep. apply HL. tauto.
  - rewrite C, C'. cbn [fst]. destruct (dynamic_points _ _ _) as [pts|]; [|reflexivity]. cbn [rbind]. apply fit_rest_bounds. exact HL.
Qed.
(** What a fit does to its dictionaries *)
Lemma fit_params_state ls mz moves mode nom b keep xe ye rej : let st := snd (fit_params ls mz moves mode nom b keep xe ye rej) in
  (forall k, In k all_keys -> lookup (snd st) k = lookup b k) /\ (forall k, In k (map fst nom) -> In k (map fst (fst st))) /\ (forall k, In k (map fst b) -> In k (map fst (snd st))) /\
  (forall k, In k all_keys -> k <> "OFFSET_X" -> k <> "OFFSET_Y" -> lookup (fst st) k = lookup nom k) /\
  (mode = Dynamic \/ ~ starts moves nom b keep xe ye -> st = (nom, b)) /\
  (mode = Static -> starts moves nom b keep xe ye -> forall k, In k (map fst (fst st)) <-> In k (map fst nom) \/ is_eps k (sequences_without_rehome moves)).
Proof.
  cbv zeta. destruct (fit_params_cases ls mz moves mode nom b keep xe ye rej) as [[N E]|(V & [[T E]|[(T & R & E)|(T & R & C)]])].
  1-3: rewrite E; cbn [fst snd]; do 4 (split; [auto; fail|]); (split; [reflexivity|]); intros _ (V' & T' & R'); exfalso; first [exact (N V')|exact (T' T)|rewrite R in R'; discriminate].
  assert (SO : starts moves nom b keep xe ye) by (split; [exact V|split; assumption]). cbv zeta in C. destruct mode; [|rewrite C; cbn [fst snd]; do 4 (split; [auto; fail|]); split; [reflexivity|discriminate]].
  set (seqs := sequences_without_rehome moves) in *. assert (KX : forall k, In k all_keys -> In k (map fst (add_epsilons 0 seqs nom))) by (intros; apply add_epsilons_keys; left; now apply V).
  assert (X : exists n2, snd (fit_params ls mz moves Static nom b keep xe ye rej) = (n2, add_epsilons (-200, 200) seqs b) /\ (forall k, In k (map fst n2) <-> In k (map fst nom) \/ is_eps k seqs) /\ (forall k, In k all_keys -> k <> "OFFSET_X" -> k <> "OFFSET_Y" -> lookup n2 k = lookup nom k)).
  { destruct C as [(e & Ee & E)|(n2 & Ee & E)]; rewrite E; cbn [snd]; [exists (add_epsilons 0 seqs nom)|exists n2]; (split; [reflexivity|]).
    - split; [intros; apply add_epsilons_keys|]. intros k Hk _ _. apply add_epsilons_other. now apply all_not_eps.
    - split; [intros k; rewrite (init_offsets_keys _ _ _ _ _ k Ee) by (apply KX; cbn; tauto); apply add_epsilons_keys|]. intros k Hk N1 N2. rewrite (init_offsets_lookup _ _ _ _ _ k Ee) by auto. apply add_epsilons_other. now apply all_not_eps. }
  destruct X as (n2 & -> & X1 & X2). cbn [fst snd]. split; [intros k Hk; apply add_epsilons_other; now apply all_not_eps|]. split; [intros k Hk; apply X1; auto|]. split; [intros k Hk; apply add_epsilons_keys; auto|]. split; [exact X2|]. split; [intros [D|N]; [discriminate|contradiction]|intros _ _; exact X1].
Qed.
Definition call_args (st : module_state) (c : call) : dict string R * dict string (R * R) := (match c_nominals c with Some d => d | None => fst st end, match c_bounds c with Some d => d | None => snd st end).
Lemma do_call_eq ls mz st c : do_call ls mz st c = (fst (fit_params ls mz (c_moves c) (c_mode c) (fst (call_args st c)) (snd (call_args st c)) (c_keep c) (c_xerr c) (c_yerr c) (c_reject c)),
   (match c_nominals c with Some _ => fst st | None => fst (snd (fit_params ls mz (c_moves c) (c_mode c) (fst (call_args st c)) (snd (call_args st c)) (c_keep c) (c_xerr c) (c_yerr c) (c_reject c))) end,
    match c_bounds c with Some _ => snd st | None => snd (snd (fit_params ls mz (c_moves c) (c_mode c) (fst (call_args st c)) (snd (call_args st c)) (c_keep c) (c_xerr c) (c_yerr c) (c_reject c))) end)).
Proof. unfold do_call, call_args. cbn [fst snd]. destruct (fit_params _ _ _ _ _ _ _ _ _ _) as [r [n b]]. reflexivity. Qed.
Lemma call_state ls mz st c : let st' := snd (do_call ls mz st c) in
  (forall k, In k all_keys -> lookup (snd st') k = lookup (snd st) k) /\ (forall k, In k (map fst (fst st)) -> In k (map fst (fst st'))) /\ (forall k, In k (map fst (snd st)) -> In k (map fst (snd st'))).
Proof.
  cbv zeta. rewrite do_call_eq. cbn [fst snd]. destruct (fit_params_state ls mz (c_moves c) (c_mode c) (fst (call_args st c)) (snd (call_args st c)) (c_keep c) (c_xerr c) (c_yerr c) (c_reject c)) as (A & B & C & _). unfold call_args in *. cbn [fst snd] in *. destruct (c_nominals c), (c_bounds c); cbn [fst snd] in *; repeat split; auto.
Qed.
Lemma calls_state ls mz calls : forall st, let st' := fold_left (fun st c => snd (do_call ls mz st c)) calls st in
  (forall k, In k all_keys -> lookup (snd st') k = lookup (snd st) k) /\ (forall k, In k (map fst (fst st)) -> In k (map fst (fst st'))) /\ (forall k, In k (map fst (snd st)) -> In k (map fst (snd st'))).
Proof.
  induction calls as [|c calls IH]; intros st; cbv zeta; cbn [fold_left]; [auto|]. destruct (IH (snd (do_call ls mz st c))) as (A & B & C). destruct (call_state ls mz st c) as (A' & B' & C'). split; [intros k Hk; rewrite A, A'; auto|]. split; auto.
Qed.
Lemma after_keys ls mz calls k : In k all_keys -> In k (map fst (fst (after ls mz calls))) /\ In k (map fst (snd (after ls mz calls))).
Proof. intros Hk. destruct (calls_state ls mz calls fresh) as (_ & B & C). split; [apply B|apply C]; exact Hk. Qed.

Theorem own_nominals ls mz calls c n : c_nominals c = Some n -> (forall k, In k (map fst n) -> In k all_keys) \/ c_bounds c <> None -> fst (do_call ls mz (after ls mz calls) c) = fst (do_call ls mz fresh c).
Proof.
  intros E HN. rewrite !do_call_eq. unfold call_args. rewrite E. cbn [fst snd]. destruct (c_bounds c) as [b|]; [reflexivity|]. destruct HN as [HN|HN]; [|contradiction]. destruct (calls_state ls mz calls fresh) as (A & _ & _). apply fit_params_bounds.
  - intros k Hk. destruct (after_keys ls mz calls k Hk). split; intros _; [exact Hk|assumption].
  - intros k Hk. apply A. now apply HN.
Qed.
Theorem stale_parameter ls mz before c between d s o : same_shape mz ->
  c_nominals c = None -> c_bounds c = None -> c_mode c = Static -> starts (c_moves c) default_values default_bounds (c_keep c) (c_xerr c) (c_yerr c) -> In s (sequences_without_rehome (c_moves c)) ->
  c_nominals d = None -> fst (do_call ls mz (after ls mz (before ++ c :: between)) d) = Ok o -> o_flags o = 0%Z ->
  In (eps_t s) (map fst (o_params o)) /\ In (eps_p s) (map fst (o_params o)).
Proof.
  intros SS CN CB CM ST Is DN H F. set (st := after ls mz (before ++ c :: between)) in *.
  assert (K : forall k, is_eps k (sequences_without_rehome (c_moves c)) -> In k (map fst (fst st))).
  { intros k Hk. unfold st, after. rewrite fold_left_app. cbn [fold_left]. apply calls_state. rewrite do_call_eq. cbn [snd fst]. rewrite CN. set (s0 := fold_left _ before fresh). assert (s0 = after ls mz before) as E0 by reflexivity. clearbody s0.
    destruct (fit_params_state ls mz (c_moves c) (c_mode c) (fst (call_args s0 c)) (snd (call_args s0 c)) (c_keep c) (c_xerr c) (c_yerr c) (c_reject c)) as (_ & _ & _ & _ & _ & X). apply X; [exact CM| |auto]. destruct ST as ((V1 & V2 & V3) & T & R). split; [|auto]. split; [|auto]. intros j Hj. unfold call_args. rewrite CN, CB. cbn [fst snd]. rewrite E0. now apply after_keys. }
  rewrite do_call_eq in H. cbn [fst] in H. unfold call_args in H. rewrite DN in H. cbn [fst snd] in H. destruct (fit_params _ _ _ _ _ _ _ _ _ _) as [r st'] eqn:E. cbn [fst] in H. subst r.
  assert (KO : forall k, In k (map fst (fst st)) -> In k (map fst (o_params o))). { intros k Hk. destruct (c_mode d); [apply (static_fit _ _ _ _ _ _ _ _ _ _ _ SS E F); auto|apply (dynamic_fit _ _ _ _ _ _ _ _ _ _ _ SS E F); exact Hk]. }
  split; apply KO, K; exists s; auto.
Qed.

(** *** Fits which complete *)
Lemma covariance_total ptf fixed h v : List.length h = List.length ptf -> Forall (fun row => List.length row = List.length ptf) h -> exists c, covariance_dict ptf fixed h v = Ok c.
Proof.
  intros L F. unfold covariance_dict. cbv zeta. set (n := List.length ptf) in *. match goal with |- context [rmapM ?f ?l] => destruct (Pos2ptl.rmapM_total f l) as [l' E]; [|rewrite E; eexists; reflexivity] end.
  intros [i j] H. apply in_flat_map in H as (i' & Hi & H). apply in_map_iff in H as (j' & H & Hj). injection H as <- <-. apply in_seq in Hi, Hj. cbn [fst snd].
  destruct (nth_error h i') as [row|] eqn:Er; [|apply nth_error_None in Er; lia]. rewrite (proj2 (geti_Ok _ _ _) Er). cbn [rbind]. rewrite Forall_forall in F. pose proof (F row (nth_error_In _ _ Er)) as LR. destruct (nth_error row j') as [v'|] eqn:Ev; [|apply nth_error_None in Ev; lia]. rewrite (proj2 (geti_Ok _ _ _) Ev). cbn [rbind]. eauto.
Qed.
Lemma chi2_total mode seqs ptf p0 pts x r : residuals mode seqs ptf p0 pts x = Ok r -> Forall (fun f => f_xerr f <> 0 /\ f_yerr f <> 0) pts -> exists v, compute_chi2 mode seqs ptf p0 pts x = Ok v.
Proof.
  intros H NZ. unfold compute_chi2. change (fun eq : R * R * fpoint => rbind (fdiv (fst (fst eq)) (f_xerr (snd eq))) (fun u : R => rmap (fun v : R => u ^ 2 + v ^ 2) (fdiv (snd (fst eq)) (f_yerr (snd eq))))) with weighted. rewrite H. cbn [rbind]. destruct (proj2 (weighted_Ok r pts (residuals_length _ _ _ _ _ _ _ H)) NZ) as (l & ->). cbn [rbind]. eauto.
Qed.
Lemma fit_rest_succeeds mz mode seqs fixed nom1 nom2 bounds pts n ue flags : same_shape mz -> square_hessian mz -> pts <> [] -> n <> 0%nat ->
  (forall k, In k (map fst nom1) -> In k (map fst nom2) /\ In k (map fst bounds)) -> (forall k, In k fixed -> In k (map fst nom1)) -> In "OFFSET_T" (map fst nom1) ->
  (forall x, List.length x = List.length (params_to_fit fixed nom1) -> exists r, residuals mode seqs (params_to_fit fixed nom1) nom1 pts x = Ok r) -> Forall (fun f => f_xerr f <> 0 /\ f_yerr f <> 0) pts ->
  exists o, fit_rest mz mode seqs fixed nom1 nom2 bounds pts n ue false flags = Ok o /\ o_flags o = flags.
Proof.
  intros SS SH NP Nn HN HF HO HR NZ. unfold fit_rest. set (ptf := params_to_fit fixed nom1) in *. assert (PK : forall k, In k ptf -> In k (map fst nom1)) by (intros k Hk; apply params_to_fit_In in Hk; tauto).
  destruct (Pos2ptl.rmapM_total (lookup nom2) ptf) as [x0 E0]; [intros k Hk; apply lookup_keys, HN, PK, Hk|]. rewrite E0. cbn [rbind]. destruct (Pos2ptl.rmapM_total (lookup bounds) ptf) as [b Eb]; [intros k Hk; apply lookup_keys, (proj2 (HN k (PK k Hk)))|]. rewrite Eb. cbn [rbind].
  assert (L0 : List.length x0 = List.length ptf) by (apply rmapM_Ok_Forall2 in E0; symmetry; exact (Forall2_length _ _ _ E0)). destruct (HR x0 L0) as (r0 & R0). destruct (chi2_total _ _ _ _ _ _ _ R0 NZ) as (v0 & C0).
  cbn [fit_loop]. unfold run_minimize. rewrite C0. cbn [rbind]. set (o := mz _ x0 b). assert (LO : List.length (fst o) = List.length ptf) by (unfold o; rewrite SS; exact L0). destruct (HR (fst o) LO) as (r & Rr). rewrite Rr. cbn [rbind]. pose proof (residuals_length _ _ _ _ _ _ _ Rr) as Lr. destruct r as [|e r]; [destruct pts; [contradiction|discriminate]|]. cbn [map argmax rbind negb].
  assert (SO : List.length (snd o) = List.length ptf /\ Forall (fun row => List.length row = List.length ptf) (snd o)) by (rewrite <- L0; apply SH). destruct o as [x h]. cbn [fst snd] in *.
  destruct (Pos2ptl.rmapM_total (fun k => rmap (pair k) (lookup nom2 k)) fixed) as [fx Ef]. { intros k Hk. destruct (proj1 (lookup_keys nom2 k) (proj1 (HN k (HF k Hk)))) as (v & ->). cbn. eauto. } rewrite Ef. cbn [rbind]. cbv zeta.
  change (fold_left (fun d kv => dset d (fst kv) (snd kv)) fx (fold_left (fun d kv => dset d (fst kv) (snd kv)) (combine ptf x) [])) with (update (update [] (combine ptf x)) fx). set (best := update (update [] (combine ptf x)) fx) in *.
  assert (Kf : map fst fx = fixed). { apply rmapM_Ok_Forall2 in Ef. clear - Ef. induction Ef as [|k kv l fx E Ef IH]; [reflexivity|]. cbn. rewrite IH. f_equal. destruct (lookup nom2 k); [|discriminate E]. cbn in E. injection E as <-. reflexivity. }
  assert (OB : In "OFFSET_T" (map fst best)). { unfold best. rewrite !update_keys, Kf, combine_keys by exact LO. destruct (in_dec string_dec "OFFSET_T" fixed); [auto|]. right. left. now apply params_to_fit_In. }
  apply lookup_keys in OB as (ot & Eo). rewrite Eo. cbn [rbind]. unfold compute_rms. rewrite Rr. cbn [rbind]. rewrite (proj2 (fdiv_Ok (sum_sq (e :: r)) (INR n) _) (conj (not_0_INR n Nn) eq_refl)). cbn [rmap rbind].
  destruct (covariance_total ptf fixed h (if ue then sqrt (sum_sq (e :: r) / INR n) ^ 2 / 2 else 1) (proj1 SO) (proj2 SO)) as (c & Ec). rewrite Ec. cbn [rbind]. eexists. split; [reflexivity|]. reflexivity.
Qed.
Lemma residuals_static_total seqs ptf p0 x l : (forall k, In k static_keys \/ is_eps k seqs -> In k (map fst p0)) -> exists r, residuals Static seqs ptf p0 (spoints l) x = Ok r.
Proof. intros H. eexists. apply (residuals_static seqs ptf p0 x (value_in (set_params p0 ptf x))). intros k Hk. apply value_lookup. apply update_keys. auto. Qed.
Lemma arcs_no_circle ls pts : (forall v, (List.length (filter (fun f => Reqb (f_p f) v) pts) < 3)%nat) -> forall vals, circle_centers ls pts vals = Ok [].
Proof. intros H. induction vals as [|v vals IH]; [reflexivity|]. cbn [circle_centers]. cbv zeta. rewrite (proj2 (Nat.ltb_lt _ _) (H v)). exact IH. Qed.
Lemma filter_map_length {A B} (f : A -> B) p l : List.length (filter p (map f l)) = List.length (filter (fun a => p (f a)) l).
Proof. induction l as [|a l IH]; [reflexivity|]. cbn. destruct (p (f a)); cbn; congruence. Qed.
Lemma spoints_arc l v : List.length (filter (fun f => Reqb (f_p f) v) (spoints l)) = List.length (arc (map fst l) v).
Proof. unfold spoints, arc. rewrite !filter_map_length. reflexivity. Qed.

Lemma circle_centers_total ls pts : forall vals, exists cs, circle_centers ls pts vals = Ok cs.
Proof.
  induction vals as [|v vals [cs IH]]; [exists []; reflexivity|]. cbn [circle_centers]. cbv zeta. rewrite IH. destruct (Nat.ltb_spec (List.length (filter (fun f => Reqb (f_p f) v) pts)) 3); [eauto|].
  match goal with |- context [robust_fit_circle ls 4 0.1 ?P] => destruct (Circles.robust_total ls 4 0.1 P) as ([c r] & ok & ->) end; [|cbn; eauto]. intros E. apply map_eq_nil in E. rewrite E in *. cbn in *. lia.
Qed.
Lemma init_offsets_total ls pts fixed nom : exists nom2, init_offsets ls pts fixed nom = Ok nom2.
Proof.
  unfold init_offsets. destruct (circle_centers_total ls pts (unique_R (map f_p pts))) as (cs & ->). cbn [rbind]. destruct cs as [|c cs]; [eauto|]. destruct (Circles.median_some (map fst (c :: cs)) ltac:(discriminate)) as [ox ->]. destruct (Circles.median_some (map snd (c :: cs)) ltac:(discriminate)) as [oy ->]. cbn [rbind]. eauto.
Qed.
Theorem static_completes ls mz moves nom bnd keep xe ye : starts moves nom bnd keep xe ye -> (forall k, In k (map fst nom) -> In k (map fst bnd)) ->
  good_errors (combine moves (errors_of xe ye moves)) -> same_shape mz -> square_hessian mz ->
  exists o st, fit_params ls mz moves Static nom bnd keep xe ye false = (Ok o, st) /\ o_flags o = 0%Z.
Proof.
  intros (V & T & R) HB HE SS SH. destruct (fit_params_cases ls mz moves Static nom bnd keep xe ye false) as [[N E]|(_ & [[T' E]|[(_ & R' & E)|(_ & _ & C)]])]; [contradiction|contradiction|rewrite R in R'; discriminate|]. cbv zeta in C. rewrite points_of in C. set (seqs := sequences_without_rehome moves) in *. set (l := combine moves (errors_of xe ye moves)) in *. destruct V as (V1 & V2 & V3).
  assert (MF : map fst l = moves) by (apply map_fst_combine, errors_of_length, V3).
  assert (MN : moves <> []) by (intros ->; discriminate).
  destruct C as [(e & Ee & _)|(n2 & Ee & E)]; [destruct (init_offsets_total ls (spoints l) (fixed_keys Static keep (add_epsilons 0 seqs nom)) (add_epsilons 0 seqs nom)) as (n2 & En); rewrite Ee in En; discriminate|]. rewrite E.
  assert (IK : forall k, In k all_keys -> In k (map fst (add_epsilons 0 seqs nom))) by (intros k Hk; apply add_epsilons_keys; left; now apply V1).
  edestruct fit_rest_succeeds as (o & Eo & Fo); [exact SS|exact SH| | | | | | | |rewrite Eo; exists o; eexists; split; [reflexivity|exact Fo]].
  - intros Z. apply MN. rewrite <- MF. destruct l; [reflexivity|discriminate].
  - intros Z. apply MN. now apply length_zero_iff_nil.
  - intros k Hk. split; [apply (init_offsets_keys _ _ _ _ _ k Ee); [apply IK; cbn; tauto|apply IK; cbn; tauto|exact Hk]|]. apply add_epsilons_keys. apply add_epsilons_keys in Hk as [Hk|Hk]; auto.
  - intros k Hk. apply IK. apply fixed_keys_In in Hk as [Hk|Hk]; [auto|unfold all_keys; apply in_app_iff; auto].
  - apply IK. cbn. tauto.
  - intros x _. apply residuals_static_total. intros k Hk. apply add_epsilons_keys. destruct Hk as [Hk|Hk]; [left; apply V1; unfold all_keys; apply in_app_iff; auto|auto].
  - unfold spoints. rewrite Forall_map. exact HE.
Qed.

Theorem static_succeeds ls mz moves nom bnd keep xe ye : starts moves nom bnd keep xe ye -> (forall k, In k (map fst nom) -> In k (map fst bnd)) -> (forall v, (List.length (arc moves v) < 3)%nat) ->
  good_errors (combine moves (errors_of xe ye moves)) -> same_shape mz -> square_hessian mz ->
  exists o bnd', fit_params ls mz moves Static nom bnd keep xe ye false = (Ok o, (add_epsilons 0 (sequences_without_rehome moves) nom, bnd')) /\ o_flags o = 0%Z.
Proof.
  intros (V & T & R) HB HA HE SS SH. destruct (fit_params_cases ls mz moves Static nom bnd keep xe ye false) as [[N E]|(_ & [[T' E]|[(_ & R' & E)|(_ & _ & C)]])]; [contradiction|contradiction|rewrite R in R'; discriminate|]. cbv zeta in C. rewrite points_of in C. set (seqs := sequences_without_rehome moves) in *. set (l := combine moves (errors_of xe ye moves)) in *. destruct V as (V1 & V2 & V3).
  assert (MF : map fst l = moves) by (apply map_fst_combine, errors_of_length, V3). assert (IO : init_offsets ls (spoints l) (fixed_keys Static keep (add_epsilons 0 seqs nom)) (add_epsilons 0 seqs nom) = Ok (add_epsilons 0 seqs nom)). { unfold init_offsets. rewrite arcs_no_circle; [reflexivity|]. intros v. rewrite spoints_arc, MF. apply HA. }
  assert (MN : moves <> []) by (intros ->; discriminate).
  destruct C as [(e & Ee & _)|(n2 & Ee & E)]; rewrite IO in Ee; [discriminate|]. injection Ee as <-. rewrite E.
  edestruct fit_rest_succeeds as (o & Eo & Fo); [exact SS|exact SH| | | | | | | |rewrite Eo; exists o; eexists; split; [reflexivity|exact Fo]].
  - intros Z. apply MN. rewrite <- MF. destruct l; [reflexivity|discriminate].
  - intros Z. apply MN. now apply length_zero_iff_nil.
  - intros k Hk. split; [exact Hk|]. apply add_epsilons_keys. apply add_epsilons_keys in Hk as [Hk|Hk]; auto.
  - intros k Hk. apply add_epsilons_keys. left. apply V1. apply fixed_keys_In in Hk as [Hk|Hk]; [auto|unfold all_keys; apply in_app_iff; auto].
  - apply add_epsilons_keys. left. apply V1. cbn. tauto.
  - intros x _. apply residuals_static_total. intros k Hk. apply add_epsilons_keys. destruct Hk as [Hk|Hk]; [left; apply V1; unfold all_keys; apply in_app_iff; auto|auto].
  - unfold spoints. rewrite Forall_map. exact HE.
Qed.
Lemma dynamic_residuals_total seqs ptf p0 pts x : (forall k, In k static_keys \/ is_eps k seqs -> In k (map fst p0)) -> In "SCALE_T" ptf -> In "SCALE_P" ptf -> (forall k, In k ptf -> In k (map fst p0)) -> exists r, residuals Dynamic seqs ptf p0 pts x = Ok r.
Proof.
  intros H ST SP HP. unfold residuals. cbv zeta. apply Pos2ptl.rmapM_total. intros f _. rewrite (expected_truth _ _ _ _ (value_in (set_params p0 ptf x))); [cbn [rmap]; eauto| | |].
  - intros k Hk. apply value_lookup, update_keys. auto.
  - intros k Hk. apply value_lookup, update_keys. auto.
  - intros _. split; [exact ST|]. split; [exact SP|]. split; apply value_lookup, update_keys; auto.
Qed.
Lemma dynamic_points_errors nom seqs : forall l pts, dynamic_points nom seqs l = Ok pts -> Forall (fun mf => fst (snd (snd mf)) <> 0 /\ snd (snd (snd mf)) <> 0) l -> Forall (fun f => f_xerr f <> 0 /\ f_yerr f <> 0) pts.
Proof.
  induction l as [|a l IH]; intros pts H NZ; [cbn in H; apply Ok_inj in H; subst; constructor|]. destruct l as [|[m [[x y] [ex ey]]] l]; [cbn in H; apply Ok_inj in H; subst; constructor|]. inversion NZ as [|? ? _ NZ']; subst. set (rest := (m, (x, y, (ex, ey))) :: l) in *. assert (E1 : dynamic_points nom seqs (a :: rest) = rbind (dynamic_point nom seqs (fst a) m (x, y, (ex, ey))) (fun q => rbind (dynamic_points nom seqs rest) (fun qs => Ok (q :: qs)))) by reflexivity. rewrite E1 in H.
  destruct (dynamic_point _ _ _ _ _) as [f|] eqn:Ef; [|discriminate]. cbn [rbind] in H. destruct (dynamic_points nom seqs rest) as [fs|] eqn:Efs; [|discriminate]. cbn [rbind] in H. apply Ok_inj in H. subst pts. constructor; [|now apply IH]. unfold dynamic_point in Ef. destruct (measured_int _ _ _) as [tp|]; [|discriminate]. cbn [rbind] in Ef. destruct (fdiv _ (mv_gt m)) as [dt|]; [|discriminate]. cbn [rbind] in Ef. destruct (fdiv _ (mv_gp m)) as [dp|]; [|discriminate]. cbn [rbind] in Ef. apply Ok_inj in Ef. subst f. inversion NZ' as [|? ? N _]; subst. exact N.
Qed.
Lemma dynamic_points_length nom seqs : forall l pts, dynamic_points nom seqs l = Ok pts -> List.length pts = (List.length l - 1)%nat.
Proof.
  induction l as [|a l IH]; intros pts H; [cbn in H; apply Ok_inj in H; now subst|]. destruct l as [|b l]; [cbn in H; apply Ok_inj in H; now subst|]. set (rest := b :: l) in *. assert (E1 : dynamic_points nom seqs (a :: rest) = rbind (dynamic_point nom seqs (fst a) (fst b) (snd b)) (fun q => rbind (dynamic_points nom seqs rest) (fun qs => Ok (q :: qs)))) by reflexivity. rewrite E1 in H.
  destruct (dynamic_point _ _ _ _ _) as [f|] eqn:Ef; [|discriminate]. cbn [rbind] in H. destruct (dynamic_points nom seqs rest) as [fs|] eqn:Efs; [|discriminate]. cbn [rbind] in H. apply Ok_inj in H. subst pts. cbn [List.length]. rewrite (IH fs eq_refl). unfold rest. cbn. lia.
Qed.
(** The data of a dynamic fit can be prepared: the arms are within reach and the gear ratios are not zero. *)
Lemma dynamic_points_total nom seqs q : (forall k, In k static_keys \/ is_eps k seqs -> lookup nom k = Ok (q k)) -> 0 < q "LENGTH_R1" -> 0 < q "LENGTH_R2" ->
  forall (l : list (move * (R * R))) fps, List.length fps = List.length l -> Forall (exact_at q seqs) l -> Forall (measurable q seqs) l -> Forall (fun ma => mv_gt (fst ma) <> 0 /\ mv_gp (fst ma) <> 0) l ->
  exists pts, dynamic_points nom seqs (combine (map fst l) fps) = Ok pts.
Proof.
  intros LK R1 R2. induction l as [|[m0 [t0 p0]] l IH]; intros fps HL E M G; [exists []; reflexivity|]. destruct fps as [|fp0 fps]; [discriminate|]. injection HL as HL.
  destruct l as [|[m [t p]] l]; [destruct fps; [|discriminate]; exists []; reflexivity|]. destruct fps as [|fp fps]; [discriminate|].
  change (combine (map fst ((m0, (t0, p0)) :: (m, (t, p)) :: l)) (fp0 :: fp :: fps)) with ((m0, fp0) :: combine (map fst ((m, (t, p)) :: l)) (fp :: fps)). set (rest := combine (map fst ((m, (t, p)) :: l)) (fp :: fps)) in *.
  assert (E1 : dynamic_points nom seqs ((m0, fp0) :: rest) = rbind (dynamic_point nom seqs m0 m fp) (fun q => rbind (dynamic_points nom seqs rest) (fun qs => Ok (q :: qs)))) by reflexivity. rewrite E1. clear E1.
  inversion E as [|? ? E0 Er]; subst. inversion M as [|? ? M0 Mr]; subst. inversion G as [|? ? G0 Gr]; subst. destruct (IH (fp :: fps) HL Er Mr Gr) as (fs & Efs). fold rest in Efs. rewrite Efs. inversion Gr as [|? ? Gm _]; subst. cbn [fst] in Gm.
  unfold dynamic_point. destruct fp as [[x y] [ex ey]]. destruct (measured_truth nom seqs q m0 t0 p0 LK R1 R2 E0 M0) as (t' & Em & S). rewrite Em. cbn [rbind]. rewrite (proj2 (fdiv_Ok _ (mv_gt m) _) (conj (proj1 Gm) eq_refl)). cbn [rbind]. rewrite (proj2 (fdiv_Ok _ (mv_gp m) _) (conj (proj2 Gm) eq_refl)). cbn [rbind]. eauto.
Qed.
Theorem dynamic_succeeds ls mz moves nom bnd keep xe ye pts : starts moves nom bnd keep xe ye -> (forall k, In k (map fst nom) -> In k (map fst bnd)) -> (2 <= List.length moves)%nat ->
  ~ In "SCALE_T" keep -> ~ In "SCALE_P" keep -> (forall k, is_eps k (sequences_without_rehome moves) -> In k (map fst nom)) ->
  dynamic_points nom (sequences_without_rehome moves) (combine moves (flat_points moves xe ye)) = Ok pts ->
  good_errors (combine moves (errors_of xe ye moves)) -> same_shape mz -> square_hessian mz ->
  exists o, fit_params ls mz moves Dynamic nom bnd keep xe ye false = (Ok o, (nom, bnd)) /\ o_flags o = 0%Z.
Proof.
  intros (V & T & R) HB L2 NT NP HS HP HE SS SH. destruct (fit_params_cases ls mz moves Dynamic nom bnd keep xe ye false) as [[N E]|(_ & [[T' E]|[(_ & R' & E)|(_ & _ & C)]])]; [contradiction|contradiction|rewrite R in R'; discriminate|]. cbv zeta in C. rewrite C, HP. cbn [rbind]. set (seqs := sequences_without_rehome moves) in *. destruct V as (V1 & V2 & V3).
  assert (AK : forall k, In k static_keys \/ In k dynamic_keys -> In k (map fst nom)) by (intros; apply V1; unfold all_keys; apply in_app_iff; assumption).
  assert (DP : forall k, In k dynamic_keys -> ~ In k keep -> In k (params_to_fit (fixed_keys Dynamic keep nom) nom)). { intros k Hk Nk. apply params_to_fit_In. split; [apply AK; auto|]. rewrite fixed_keys_In. intros [F|[F|[F _]]]; [contradiction| |]; cbn in Hk; destruct Hk as [<-|[<-|[]]]; try discriminate; cbn in F; repeat (destruct F as [F|F]; [discriminate|]); destruct F. }
  pose proof (dynamic_points_length _ _ _ _ HP) as LP. rewrite combine_length, flat_points_length in LP by exact V3.
  edestruct fit_rest_succeeds as (o & Eo & Fo); [exact SS|exact SH| | | | | | | |rewrite Eo; exists o; split; [reflexivity|exact Fo]].
  - intros ->. cbn in LP. lia.
  - lia.
  - intros k Hk. auto.
  - intros k Hk. apply fixed_keys_In in Hk as [Hk|[Hk|[_ Hk]]]; [apply V1, V2, Hk|apply AK; auto|exact Hk].
  - apply AK. left. cbn. tauto.
  - intros x _. apply dynamic_residuals_total; [intros k [Hk|Hk]; [apply AK; auto|apply HS; auto]|apply DP; [cbn; tauto|exact NT]|apply DP; [cbn; tauto|exact NP]|intros k Hk; apply params_to_fit_In in Hk; tauto].
  - apply (dynamic_points_errors _ _ _ _ HP). clear - HE. unfold good_errors, errors_of in HE. unfold flat_points. rewrite !position_errors_of, combine_map_r. rewrite Forall_map. exact HE.
Qed.
