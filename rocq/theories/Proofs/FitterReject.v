From Verif.Model Require Import Fitter.
From Verif.Proofs Require Import Prelude RealNum Numpy Stats Trig Fitter.
From Verif.Proofs Require Circles.
From Verif.Spec Require Import Fitter FitterReject.
From Coq Require Import Lra Lia String List Permutation Sorted.
Import ListNotations.
Local Open Scope R_scope.
Local Open Scope string_scope.
Local Open Scope list_scope.

(** *** Rejection *)
Lemma argmax_largest l w : argmax l = Ok w -> exists v, nth_error l w = Some v /\ forall x, In x l -> x <= v.
Proof.
  destruct l as [|a l]; [discriminate|]. cbn. intros H. apply Ok_inj in H. subst w.
  assert (G : forall l pre best m, nth_error (pre ++ l) best = Some m -> (forall x, In x pre -> x <= m) -> exists v, nth_error (pre ++ l) (argmax_from best m (List.length pre) l) = Some v /\ forall x, In x (pre ++ l) -> x <= v).
  { clear. induction l as [|x l IH]; intros pre best m Hb M; [exists m; split; [exact Hb|]; rewrite app_nil_r; exact M|]. cbn [argmax_from]. replace (pre ++ x :: l) with ((pre ++ [x]) ++ l) in * by (rewrite <- app_assoc; reflexivity). replace (Datatypes.S (List.length pre)) with (List.length (pre ++ [x])) by (rewrite app_length; cbn; lia).
    destruct (Rltb m x) eqn:E.
    - apply Rltb_true in E. apply IH; [|intros y Hy; apply in_app_iff in Hy as [Hy|[<-|[]]]; [specialize (M y Hy); lra|lra]]. rewrite nth_error_app1 by (rewrite app_length; cbn; lia). rewrite nth_error_app2 by lia. now rewrite Nat.sub_diag.
    - apply Rltb_false in E. apply IH; [exact Hb|]. intros y Hy. apply in_app_iff in Hy as [Hy|[<-|[]]]; auto. }
  apply (G l [a] 0%nat a eq_refl). intros x [<-|[]]. lra.
Qed.
Lemma delete_at_app {A} (pre : list A) a post : delete_at (pre ++ a :: post) (List.length pre) = pre ++ post.
Proof. induction pre as [|x pre IH]; [reflexivity|]. cbn. now rewrite IH. Qed.

Section Loop.
Variables (mz : (list R -> res R) -> list R -> list (R * R) -> list R * list (list R)) (seqs : list Z) (ptf : list string) (p0 : dict string R) (x0 : list R) (b : list (R * R)).
Hypothesis K0 : forall k, In k static_keys \/ is_eps k seqs -> In k (map fst p0).
Definition opt (l : list (move * (R * R))) := mz (compute_chi2 Static seqs ptf p0 (spoints l)) x0 b.
Definition vals (l : list (move * (R * R))) : string -> R := value_in (set_params p0 ptf (fst (opt l))).
Definition far (l : list (move * (R * R))) (me : move * (R * R)) : R := sqrt (misfit (vals l) seqs (fst me)).
Lemma set_values x k : In k static_keys \/ is_eps k seqs -> lookup (set_params p0 ptf x) k = Ok (value_in (set_params p0 ptf x) k).
Proof. intros Hk. apply value_lookup. change (In k (map fst (update p0 (combine ptf x)))). apply update_keys. right. now apply K0. Qed.
Lemma distances l : exists r, residuals Static seqs ptf p0 (spoints l) (fst (opt l)) = Ok r /\ map (fun e => sqrt (fst e ^ 2 + snd e ^ 2)) r = map (far l) l.
Proof. eexists. split; [exact (residuals_static seqs ptf p0 _ (vals l) l (set_values _))|]. rewrite map_map. reflexivity. Qed.
Lemma loop_rejects k : forall cur l o' pts', fit_loop mz k Static seqs ptf p0 x0 b true cur (spoints l) = Ok (o', pts') ->
  exists n last kept, pts' = spoints kept /\ (n <= k)%nat /\ rejects far n l kept /\ ((n < k)%nat -> last = kept /\ settled far kept /\ o' = opt last) /\
    ((0 < k)%nat -> n = k -> o' = opt last /\ rejects far (k - 1) l last /\ rejects far 1 last kept) /\ (k = 0%nat -> cur = Some o' /\ kept = l).
Proof.
  induction k as [|k IH]; intros cur l o' pts' H.
  - cbn [fit_loop] in H. destruct cur as [o1|]; [|discriminate]. apply Ok_inj in H. injection H as <- <-. exists 0%nat, l, l. split; [reflexivity|]. split; [lia|]. split; [constructor|]. split; [lia|]. split; [lia|auto].
  - cbn [fit_loop] in H. unfold run_minimize in H. destruct (compute_chi2 Static seqs ptf p0 (spoints l) x0) as [c0|]; [|discriminate]. cbn [rbind] in H. fold (opt l) in H. destruct (distances l) as (r & Er & Ed). rewrite Er in H. cbn [rbind] in H. rewrite Ed in H.
    destruct (argmax (map (far l) l)) as [worst|] eqn:Ea; [|discriminate]. cbn [rbind negb] in H. destruct (median (map (far l) l)) as [med|] eqn:Em; [|discriminate]. cbn [rbind] in H. destruct (argmax_largest _ _ Ea) as (v & Ev & Hv). rewrite (proj2 (geti_Ok _ _ _) Ev) in H. cbn [rbind] in H.
    destruct (_ || _)%bool eqn:Eok in H.
    + apply Ok_inj in H. injection H as <- <-. exists 0%nat, l, l. split; [reflexivity|]. split; [lia|]. split; [constructor|]. split; [|split; lia]. intros _. split; [reflexivity|]. split; [|reflexivity]. exists med. split; [exact Em|]. apply Bool.orb_true_iff in Eok as [E|E]; apply Rltb_true in E; [left|right]; intros a Ha; specialize (Hv _ (in_map (far l) l a Ha)); lra.
    + apply Bool.orb_false_iff in Eok as [E1 E2]. apply Rltb_false in E1, E2. destruct (_ <? _)%nat; [discriminate|]. rewrite nth_error_map in Ev. destruct (nth_error l worst) as [a|] eqn:Ew; [|discriminate]. cbn in Ev. injection Ev as <-. apply nth_error_split in Ew as (pre & post & -> & <-).
      assert (D : delete_at (spoints (pre ++ a :: post)) (List.length pre) = spoints (pre ++ post)). { unfold spoints. rewrite map_app. cbn [map]. rewrite <- (map_length (fun me => static_point (fst me) (flat_point (fst me) (snd me))) pre) at 1. rewrite delete_at_app. symmetry. apply map_app. }
      rewrite D in H. apply IH in H as (n & last & kept & Ep & Ln & Rj & Lt & Eq & Z0).
      assert (one : forall m l', rejects far m (pre ++ post) l' -> rejects far (S m) (pre ++ a :: post) l'). { intros m l' Rm. apply (rejects_one far pre a post m l' med); auto. intros c Hc. apply Hv. now apply in_map. }
      destruct k as [|k].
      * destruct (Z0 eq_refl) as [E ->]. injection E as <-. exists 1%nat, (pre ++ a :: post), (pre ++ post). split; [exact Ep|]. split; [lia|]. split; [apply one; constructor|]. split; [lia|]. split; [|lia]. intros _ _. split; [reflexivity|]. split; [constructor|apply one; constructor].
      * exists (S n), last, kept. split; [exact Ep|]. split; [lia|]. split; [now apply one|]. split; [intros HL; apply Lt; lia|]. split; [|lia]. intros _ En. injection En as En. destruct (Eq ltac:(lia) En) as (A & B & C). split; [exact A|]. split; [|exact C]. replace (S (S k) - 1)%nat with (S (S k - 1)) by lia. now apply one.
Qed.
End Loop.

Lemma rejects_sublist {A} (f : list A -> A -> R) n l l' : rejects f n l l' -> sublist l' l.
Proof.
  induction 1 as [|pre a post n l' med l _ _ _ _ _ IH]; [apply sublist_refl|]. refine (sublist_trans _ _ _ IH _). unfold l. clear. induction pre; cbn; constructor; auto. apply sublist_refl.
Qed.
Theorem static_rejection ls mz moves nom bnd keep xe ye o st : same_shape mz -> fit_params ls mz moves Static nom bnd keep xe ye true = (Ok o, st) -> o_flags o = 0%Z ->
  let seqs := sequences_without_rehome moves in let all := combine moves (errors_of xe ye moves) in
  exists (q : list (move * (R * R)) -> string -> R) n last kept, let far := fun l me => sqrt (misfit (q l) seqs (fst me)) in
    (n <= 20)%nat /\ rejects far n all kept /\ ((n < 20)%nat -> last = kept /\ settled far kept) /\ (n = 20%nat -> rejects far 19 all last /\ rejects far 1 last kept) /\
    (forall s t p, model_position (fitted o) seqs s t p = model_position (q last) seqs s t p) /\
    o_npts o = List.length kept /\ o_rms o = sqrt (Rsum (map (fun me => misfit (fitted o) seqs (fst me)) kept) / INR (List.length moves)) /\
    (never_worse mz -> forall l, sublist l all -> chi_square (q l) seqs l <= chi_square (value_in (fst st)) seqs l).
Proof.
  intros SS H F. destruct (fit_params_cases ls mz moves Static nom bnd keep xe ye true) as [[_ E]|(V & [[_ E]|[(_ & _ & E)|(_ & _ & C)]])].
  1: rewrite E in H; discriminate. 1,2: rewrite E in H; injection H as <- _; discriminate.
  cbv zeta in C. intros seqs all. fold seqs in C. destruct C as [(e & _ & E)|(nom2 & EI & E)]; rewrite E in H; [discriminate|]. injection H as H <-. cbn [fst]. destruct V as (V1 & V2 & V3). assert (V1' := fun k Hk => proj1 (V1 k Hk)).
  assert (KN2 : forall k, In k (map fst nom2) <-> In k (map fst (add_epsilons 0 seqs nom))) by (intros k; apply (init_offsets_keys _ _ _ _ _ k EI); apply add_epsilons_keys; left; apply V1'; cbn; tauto).
  pose proof H as H0. destruct (static_params ls mz seqs keep nom nom2 _ _ _ _ _ _ _ o V1' V2 EI SS H) as (K & Fx & OT & x0 & b & x & h & pts' & r & q & E0 & Eb & Sub & Nr & LQ & MP & Er & Nn & Rms & Np & Fl & FLp & CV).
  set (nom1 := add_epsilons 0 seqs nom) in *. set (ptf := params_to_fit (fixed_keys Static keep nom1) nom1) in *. rewrite points_of in FLp. fold all in FLp.
  assert (K0 : forall k, In k static_keys \/ is_eps k seqs -> In k (map fst nom1)). { intros k Hk. apply add_epsilons_keys. destruct Hk as [Hk|Hk]; [left; apply V1'; unfold all_keys; apply in_app_iff; auto|auto]. }
  destruct (loop_rejects mz seqs ptf nom1 x0 b K0 20 None all (x, h) pts' FLp) as (n & last & kept & -> & Ln & Rj & Lt & Eq & _).
  assert (EO : (x, h) = opt mz seqs ptf nom1 x0 b last) by (destruct (Nat.lt_ge_cases n 20) as [L|L]; [apply Lt, L|apply Eq; lia]).
  exists (vals mz seqs ptf nom1 x0 b), n, last, kept. cbv zeta. split; [exact Ln|]. split; [exact Rj|]. split; [intros L; destruct (Lt L) as (A & B & _); auto|]. split; [intros L; destruct (Eq ltac:(lia) L) as (_ & A & B); auto|]. split; [|split; [|split]].
  - intros s t p. rewrite <- MP. assert (QV : forall k, In k static_keys \/ is_eps k seqs -> q k = vals mz seqs ptf nom1 x0 b last k). { intros k Hk. apply Ok_inj. rewrite <- (LQ k Hk). unfold vals. rewrite <- EO. cbn [fst]. exact (set_values seqs ptf nom1 K0 x k Hk). }
    apply model_position_ext; [intros k Hk _; apply QV; auto|intros Hs; split; apply QV; right; exists s; auto|rewrite (QV "OFFSET_T") by (left; cbn; tauto); apply same_angle_refl].
  - rewrite Np. unfold spoints. apply map_length.
  - rewrite (residuals_static _ _ _ _ q kept LQ) in Er. apply Ok_inj in Er. subst r. rewrite Rms. f_equal. f_equal. unfold sum_sq. rewrite !map_map. f_equal. apply map_ext. intros [m e]. cbn [fst snd]. unfold misfit. now rewrite MP.
  - intros NW l Sl. assert (C0 : exists v0, compute_chi2 Static seqs ptf nom1 (spoints all) x0 = Ok v0).
    { cbn [fit_loop] in FLp. unfold run_minimize in FLp. destruct (compute_chi2 Static seqs ptf nom1 (spoints all) x0) as [v0|]; [eauto|discriminate]. }
    destruct C0 as (v0 & C0). assert (NZ : Forall (fun f => f_xerr f <> 0 /\ f_yerr f <> 0) (spoints l)). { apply chi2_errors in C0. rewrite Forall_forall in C0 |- *. intros f Hf. apply C0. apply (sublist_In _ _ _ (sublist_map _ _ _ Sl) Hf). }
    pose proof (admissible_set seqs keep nom (value_in nom2) V1' V2) as AD. cbv zeta in AD. fold nom1 in AD. fold ptf in AD. rewrite <- (rmapM_lookup _ _ _ E0) in AD. specialize (AD (fun k Hk => ltac:(
      rewrite <- (value_lookup nom2 k ltac:(apply KN2, add_epsilons_keys; left; auto)); rewrite (init_offsets_lookup _ _ _ _ _ _ EI (or_introl (proj2 (fixed_keys_In _ _ _ _) (or_introl Hk)))); symmetry; apply add_epsilons_other, all_not_eps; auto))).
    destruct (NW _ x0 b _ (chi2_static seqs _ _ x0 (value_in nom2) l AD NZ)) as (w & Ew & Hw). fold (opt mz seqs ptf nom1 x0 b l) in Ew. rewrite (chi2_static seqs _ _ _ (vals mz seqs ptf nom1 x0 b l) l (set_values seqs ptf nom1 K0 _) NZ) in Ew. apply Ok_inj in Ew. rewrite <- Ew in Hw. exact Hw.
Qed.

(** *** Covariances *)
Lemma Forall2_from_l {A B} (P : A -> B -> Prop) l m a : Forall2 P l m -> In a l -> exists b, In b m /\ P a b.
Proof. induction 1 as [|x y l m Hp _ IH]; [intros []|]. intros [<-|I]; [exists y; split; [now left|exact Hp]|]. destruct (IH I) as (b & J & Q). exists b. split; [now right|exact Q]. Qed.
Lemma Forall2_from_r {A B} (P : A -> B -> Prop) l m b : Forall2 P l m -> In b m -> exists a, In a l /\ P a b.
Proof. induction 1 as [|x y l m Hp _ IH]; [intros []|]. intros [<-|I]; [exists x; split; [now left|exact Hp]|]. destruct (IH I) as (a & J & Q). exists a. split; [now right|exact Q]. Qed.
Lemma dot_split a : forall a' b b', no_dot a -> no_dot a' -> (a ++ "." ++ b)%string = (a' ++ "." ++ b')%string -> a = a' /\ b = b'.
Proof.
  induction a as [|c a IH]; intros [|c' a'] b b' N N' E; cbn in E.
  - injection E as E. auto.
  - injection E as E _. exfalso. apply N'. left. auto.
  - injection E as E _. exfalso. apply N. left. auto.
  - injection E as <- E. destruct (IH a' b b') as [<- <-]; auto; intros J; [apply N|apply N']; right; exact J.
Qed.
Lemma cov_name_inj a a' b b' : no_dot a -> no_dot a' -> cov_name a b = cov_name a' b' -> a = a' /\ b = b'.
Proof. intros N N' E. unfold cov_name in E. apply append_inj in E. now apply dot_split. Qed.
Lemma update_consistent {V} k v : forall (l : list (string * V)) d, In (k, v) l -> (forall u, In (k, u) l -> u = v) -> lookup (update d l) k = Ok v.
Proof.
  induction l as [|[j u] l IH]; intros d J U; [destruct J|]. change (lookup (update (dset d j u) l) k = Ok v). destruct (in_dec string_dec k (map fst l)) as [I|N].
  - apply in_map_iff in I as ([k' w] & E & I). cbn in E. subst k'. apply IH; [|intros u' Hu; apply U; now right]. now rewrite <- (U w (or_intror I)).
  - rewrite update_other by exact N. destruct J as [J|J]; [injection J as -> ->; apply lookup_same|]. exfalso. apply N. now apply (in_map fst) in J.
Qed.
Lemma zeros k : forall fixed (d : dict string R), lookup (fold_left (fun d j => dset d (cov_name j j) 0) fixed d) k = if in_dec string_dec k (map (fun j => cov_name j j) fixed) then Ok 0 else lookup d k.
Proof.
  induction fixed as [|j fixed IH]; intros d; [reflexivity|]. cbn [fold_left]. rewrite IH. cbn [map]. destruct (in_dec string_dec k (map _ fixed)) as [I|I], (in_dec string_dec k (cov_name j j :: map _ fixed)) as [J|J]; try reflexivity.
  - exfalso. apply J. now right.
  - destruct J as [<-|J]; [apply lookup_same|contradiction].
  - apply lookup_other. intros ->. apply J. now left.
Qed.
Lemma covariance_entries ptf fixed h s c : covariance_dict ptf fixed h s = Ok c -> NoDup ptf -> (forall k, In k ptf -> ~ In k fixed) -> (forall k, In k ptf \/ In k fixed -> no_dot k) ->
  (forall i j a b, (i <= j)%nat -> nth_error ptf i = Some a -> nth_error ptf j = Some b -> exists row v, nth_error h i = Some row /\ nth_error row j = Some v /\ lookup c (cov_name a b) = Ok (2 * v * s)) /\
  (forall k, In k fixed -> lookup c (cov_name k k) = Ok 0).
Proof.
  intros H ND DJ Dot. unfold covariance_dict in H. cbv zeta in H. match type of H with rbind (rmapM ?f ?l) _ = _ => set (F := f) in *; set (pairs := l) in * end. destruct (rmapM F pairs) as [l|] eqn:El; [|discriminate]. cbn [rbind] in H. apply Ok_inj in H. subst c.
  change (fold_left (fun d k => dset d ("COV." ++ k ++ "." ++ k)%string 0) fixed (fold_left (fun d kv => dset d (fst kv) (snd kv)) l [])) with (fold_left (fun d j => dset d (cov_name j j) 0) fixed (update [] l)).
  split.
  - intros i j a b Lij Ea Eb. apply rmapM_Ok_Forall2 in El. rewrite zeros. destruct (in_dec _ _ _) as [I|_].
    { exfalso. apply in_map_iff in I as (k & E & Hk). apply cov_name_inj in E as [-> _]; [|apply Dot; auto|apply Dot; left; exact (nth_error_In _ _ Ea)]. exact (DJ _ (nth_error_In _ _ Ea) Hk). }
    assert (Hp : forall i' j', In (i', j') pairs <-> (i' <= j' < List.length ptf)%nat).
    { intros i' j'. unfold pairs. rewrite in_flat_map. split.
      - intros (i0 & Hi & Hj). apply in_map_iff in Hj as (j0 & E & Hj). injection E as -> ->. apply in_seq in Hi, Hj. lia.
      - intros L. exists i'. split; [apply in_seq; lia|]. apply in_map. apply in_seq. lia. }
    assert (Lj : (j < List.length ptf)%nat) by (apply nth_error_Some; congruence).
    assert (G : forall ij kv, F ij = Ok kv -> exists row v, nth_error h (fst ij) = Some row /\ nth_error row (snd ij) = Some v /\ kv = (cov_name (nth (fst ij) ptf "") (nth (snd ij) ptf ""), v * 2 * s)).
    { intros [i' j'] kv E. unfold F in E. cbn [fst snd] in *. destruct (geti h i') as [row|] eqn:Er; [|discriminate]. cbn [rbind] in E. destruct (geti row j') as [v|] eqn:Ev; [|discriminate]. cbn [rbind] in E. apply Ok_inj in E. subst kv. apply geti_Ok in Er, Ev. exists row, v. auto. }
    assert (Na : forall k x, nth_error ptf k = Some x -> nth k ptf "" = x) by (intros k x E; now apply nth_error_nth).
    destruct (Forall2_from_l _ _ _ _ El (proj2 (Hp i j) (conj Lij Lj))) as (kv & Ikv & Ekv). destruct (G _ _ Ekv) as (row & v & Er & Ev & ->). cbn [fst snd] in *. rewrite (Na _ _ Ea), (Na _ _ Eb) in Ikv. exists row, v. split; [exact Er|]. split; [exact Ev|]. replace (2 * v * s) with (v * 2 * s) by ring. apply update_consistent; [exact Ikv|].
    intros u Hu. destruct (Forall2_from_r _ _ _ _ El Hu) as ([i' j'] & Hij & Eij). apply Hp in Hij. destruct (G _ _ Eij) as (row' & v' & Er' & Ev' & E). cbn [fst snd] in *. assert (E1 := f_equal fst E). assert (E2 := f_equal snd E). cbn [fst snd] in E1, E2. subst u. clear E. rename E1 into E.
    destruct (nth_error ptf i') as [a'|] eqn:Ea'; [|apply nth_error_None in Ea'; lia]. destruct (nth_error ptf j') as [b'|] eqn:Eb'; [|apply nth_error_None in Eb'; lia]. rewrite (Na _ _ Ea'), (Na _ _ Eb') in E.
    assert (EE : a = a' /\ b = b') by (apply cov_name_inj; [apply Dot; left; eapply nth_error_In; eassumption|apply Dot; left; eapply nth_error_In; eassumption|exact E]). destruct EE as [<- <-]. rewrite NoDup_nth_error in ND. assert (i = i') by (apply ND; [lia|congruence]). assert (j = j') by (apply ND; [lia|congruence]). subst. congruence.
  - intros k Hk. rewrite zeros. destruct (in_dec _ _ _) as [_|N]; [reflexivity|]. exfalso. apply N. now apply (in_map (fun j => cov_name j j)).
Qed.
Lemma with_values_In k : forall names v d, List.length v = List.length names -> (In k names -> exists i, nth_error names i = Some k /\ nth_error v i = Some (with_values names v d k)) /\ (~ In k names -> with_values names v d k = d k).
Proof.
  induction names as [|a names IH]; intros [|x v] d L; try discriminate; cbn [with_values]; [split; [intros []|reflexivity]|]. injection L as L. destruct (IH v d L) as [A B]. destruct (String.eqb_spec k a) as [->|N].
  - split; [intros _; exists 0%nat; auto|intros C; exfalso; apply C; now left].
  - split; [intros [->|I]; [contradiction|]; destruct (A I) as (i & P); exists (S i); exact P|intros C; apply B; intros I; apply C; now right].
Qed.
Lemma set_params_values nom1 ptf v d k : NoDup ptf -> List.length v = List.length ptf -> (~ In k ptf -> lookup nom1 k = Ok (d k)) -> lookup (set_params nom1 ptf v) k = Ok (with_values ptf v d k).
Proof.
  intros ND L Hd. change (lookup (update nom1 (combine ptf v)) k = Ok (with_values ptf v d k)). destruct (with_values_In k ptf v d L) as [A B]. destruct (in_dec string_dec k ptf) as [I|N].
  - destruct (A I) as (i & Ei & Ev). apply update_In; [rewrite combine_keys; [exact ND|exact L]|]. apply (nth_error_In _ i). rewrite nth_error_combine, Ei, Ev. reflexivity.
  - rewrite update_other by (rewrite combine_keys; [exact N|exact L]). rewrite (B N). now apply Hd.
Qed.
Lemma sort_str_sorted l : Sorted (fun a b => String.leb a b = true) (sort_str l).
Proof.
  induction l as [|k l IH]; cbn; [constructor|]. assert (G : forall m, Sorted (fun a b => String.leb a b = true) m -> Sorted (fun a b => String.leb a b = true) (insert_str k m)); [|apply G; exact IH].
  clear. induction m as [|j m IH]; intros Hs; cbn; [repeat constructor|]. destruct (String.leb k j) eqn:E; [constructor; [exact Hs|constructor; exact E]|]. inversion Hs as [|? ? Hs' Hd]; subst. constructor; [now apply IH|]. assert (J : String.leb j k = true) by (destruct (String.leb_total j k) as [T|T]; [exact T|congruence]).
  destruct m as [|i m]; cbn; [constructor; exact J|]. destruct (String.leb k i); constructor; [exact J|]. inversion Hd. assumption.
Qed.
Theorem static_covariance ls mz moves nom bnd keep xe ye rej o st : same_shape mz -> NoDup (map fst nom) -> fit_params ls mz moves Static nom bnd keep xe ye rej = (Ok o, st) -> o_flags o = 0%Z ->
  (forall k, In k (map fst (o_params o)) -> no_dot k) ->
  let seqs := sequences_without_rehome moves in let all := combine moves (errors_of xe ye moves) in let scale := if unit_errs xe ye then o_rms o ^ 2 / 2 else 1 in
  exists free last f x0 b, alphabetical free /\ NoDup free /\ (forall k, In k free <-> In k (map fst (o_params o)) /\ ~ In k (keep ++ dynamic_keys)) /\ sublist last all /\ (rej = false -> last = all) /\
    (forall v c, List.length v = List.length free -> f v = Ok c -> c = chi_square (with_values free v (value_in nom)) seqs last) /\
    x0 = map (value_in (fst st)) free /\ Forall2 (fun k lh => lookup (snd st) k = Ok lh) free b /\
    (forall i a, nth_error free i = Some a -> a <> "OFFSET_T" -> nth_error (fst (mz f x0 b)) i = Some (fitted o a)) /\
    (forall i j a a', (i <= j)%nat -> nth_error free i = Some a -> nth_error free j = Some a' -> exists row v, nth_error (snd (mz f x0 b)) i = Some row /\ nth_error row j = Some v /\ lookup (o_cov o) (cov_name a a') = Ok (2 * v * scale)) /\
    (forall k, In k (keep ++ dynamic_keys) -> lookup (o_cov o) (cov_name k k) = Ok 0).
Proof.
  intros SS ND H F Dot. destruct (fit_params_cases ls mz moves Static nom bnd keep xe ye rej) as [[_ E]|(V & [[_ E]|[(_ & _ & E)|(_ & _ & C)]])].
  1: rewrite E in H; discriminate. 1,2: rewrite E in H; injection H as <- _; discriminate.
  cbv zeta in C. intros seqs all scale. fold seqs in C. destruct C as [(e & _ & E)|(nom2 & EI & E)]; rewrite E in H; [discriminate|]. injection H as H <-. cbn [fst snd]. destruct V as (V1 & V2 & V3). assert (V1' := fun k Hk => proj1 (V1 k Hk)).
  destruct (fit_rest_Ok _ _ _ _ _ _ _ _ _ _ _ _ _ SS H) as (x0 & b & x & h & pts' & r & ot & E0 & Eb & EL & Lx & Sub & Nr & Er & Nn & Rms & Np & Fl & LF & LP & OF & OP & OO & KS & CV).
  set (nom1 := add_epsilons 0 seqs nom) in *. set (fixed := fixed_keys Static keep nom1) in *. set (ptf := params_to_fit fixed nom1) in *. rewrite points_of in EL, Nr. fold all in EL, Nr.
  assert (K0 : forall k, In k static_keys \/ is_eps k seqs -> In k (map fst nom1)). { intros k Hk. apply add_epsilons_keys. destruct Hk as [Hk|Hk]; [left; apply V1'; unfold all_keys; apply in_app_iff; auto|auto]. }
  assert (KF : forall k, In k fixed <-> In k (keep ++ dynamic_keys)) by (intros k; rewrite in_app_iff; apply fixed_keys_In).
  assert (NDp : NoDup ptf) by (apply params_to_fit_NoDup, add_epsilons_NoDup, ND).
  assert (HL : exists last, sublist last all /\ (rej = false -> last = all) /\ (x, h) = opt mz seqs ptf nom1 x0 b last).
  { destruct rej; [|exists all; split; [apply sublist_refl|]; split; [reflexivity|]; apply Nr; reflexivity]. destruct (loop_rejects mz seqs ptf nom1 x0 b K0 20 None all (x, h) pts' EL) as (n & last & kept & -> & Ln & Rj & Lt & Eq & _).
    exists last. split; [|split; [discriminate|]]; (destruct (Nat.lt_ge_cases n 20) as [L|L]; [destruct (Lt L) as (A & _ & B)|destruct (Eq ltac:(lia) ltac:(lia)) as (B & A & _)]); try exact B; [rewrite A; exact (rejects_sublist _ _ _ _ Rj)|exact (rejects_sublist _ _ _ _ A)]. }
  destruct HL as (last & Sl & Al & EO). exists ptf, last, (compute_chi2 Static seqs ptf nom1 (spoints last)), x0, b. fold (opt mz seqs ptf nom1 x0 b last). rewrite <- EO. cbn [fst snd].
  split; [apply sort_str_sorted|]. split; [exact NDp|]. split. { intros k. rewrite KS, <- KF. unfold ptf. rewrite params_to_fit_In. tauto. } split; [exact Sl|]. split; [exact Al|]. split; [|split; [now apply rmapM_lookup|split; [now apply rmapM_Ok_Forall2|split]]].
  - intros v c Lv Ec. pose proof (chi2_errors _ _ _ _ _ _ _ Ec) as NZ. rewrite (chi2_static seqs ptf nom1 v (with_values ptf v (value_in nom)) last) in Ec; [now apply Ok_inj in Ec| |exact NZ]. intros k Hk. apply set_params_values; [exact NDp|exact Lv|]. intros Nk.
    assert (Fk : In k fixed). { destruct (in_dec string_dec k fixed) as [|N]; [assumption|]. destruct Nk. apply params_to_fit_In. auto. } assert (A : In k all_keys) by (apply KF, in_app_iff in Fk as [Fk|Fk]; [auto|unfold all_keys; apply in_app_iff; auto]). unfold nom1. rewrite add_epsilons_other by now apply all_not_eps. apply value_lookup. now apply V1'.
  - intros i a Ei Na. assert (Ia : In a ptf) by exact (nth_error_In _ _ Ei). destruct (nth_error x i) as [v|] eqn:Ex; [|apply nth_error_None in Ex; assert (i < List.length ptf)%nat by (apply nth_error_Some; congruence); lia]. f_equal. symmetry. apply fitted_lookup. rewrite (LP a Ia Na). change (lookup (update nom1 (combine ptf x)) a = Ok v). apply update_In; [rewrite combine_keys; auto|]. apply (nth_error_In _ i). rewrite nth_error_combine, Ei, Ex. reflexivity.
  - destruct (covariance_entries ptf fixed h scale (o_cov o) CV NDp) as [A B]; [intros k Hk; apply params_to_fit_In in Hk; tauto|intros k Hk; apply Dot, KS; tauto|]. split; [exact A|]. intros k Hk. apply B. now apply KF.
Qed.

(** *** Starting values *)
Lemma spoints_arc_xy l v : map (fun f => (f_x f, f_y f)) (filter (fun f => Reqb (f_p f) v) (spoints l)) = map (fun m => ptl2flat (mv_x m) (mv_y m)) (arc (map fst l) v).
Proof.
  unfold spoints, arc. induction l as [|[m e] l IH]; [reflexivity|]. cbn [map filter fst snd]. change (f_p (static_point m (flat_point m e))) with (mv_p m). destruct (Reqb (mv_p m) v); [|exact IH]. cbn [map]. rewrite IH. f_equal.
Qed.
Lemma circle_centers_arcs ls l : forall phis cs, circle_centers ls (spoints l) phis = Ok cs -> cs = arc_centers ls (map fst l) phis.
Proof.
  induction phis as [|v phis IH]; intros cs H; [apply Ok_inj in H; now subst|]. cbn [circle_centers] in H. cbv zeta in H. unfold arc_centers. cbn [flat_map]. fold (arc_centers ls (map fst l) phis). rewrite spoints_arc_xy, spoints_arc in H.
  destruct (Nat.leb_spec 3 (List.length (arc (map fst l) v))) as [L|L].
  - rewrite (proj2 (Nat.ltb_ge _ _) L) in H. destruct (robust_fit_circle _ _ _ _) as [[[c r] ok]|e].
    + destruct (circle_centers ls (spoints l) phis) as [cs'|]; [|discriminate]. cbn [rbind] in H. apply Ok_inj in H. subst cs. rewrite (IH cs' eq_refl) at 1. reflexivity.
    + destruct e; try discriminate. now apply IH.
  - rewrite (proj2 (Nat.ltb_lt _ _) L) in H. now apply IH.
Qed.
Lemma unique_R_NoDup l : NoDup (unique_R l).
Proof.
  assert (G : StronglySorted Rlt (unique_R l)).
  { induction l as [|a l IH]; [constructor|]. change (StronglySorted Rlt (insert_unique_R a (unique_R l))). revert IH. generalize (unique_R l). clear l. induction l as [|y l IH]; intros Hs; cbn; [repeat constructor|]. inversion Hs as [|? ? Hs' Hf]; subst.
    destruct (Rltb a y) eqn:E; [apply Rltb_true in E; constructor; [exact Hs|constructor; [exact E|revert Hf; apply Forall_impl; intros; lra]]|]. apply Rltb_false in E. destruct (Reqb a y) eqn:E'; [exact Hs|]. constructor; [now apply IH|]. apply Reqb_false in E'. apply Forall_forall. intros x Hx.
    assert (I : forall m, In x (insert_unique_R a m) -> x = a \/ In x m). { clear. induction m as [|z m IH]; cbn; [intros [->|[]]; auto|]. destruct (Rltb a z); [intros [->|J]; auto|]. destruct (Reqb a z); [auto|]. intros [->|J]; [auto|]. destruct (IH J); auto. }
    destruct (I _ Hx) as [->|J]; [lra|]. rewrite Forall_forall in Hf. now apply Hf. }
  induction G as [|a m G IH Hf]; constructor; [|exact IH]. intros J. rewrite Forall_forall in Hf. specialize (Hf a J). lra.
Qed.
Lemma init_offsets_values ls l fixed nom nom2 : init_offsets ls (spoints l) fixed nom = Ok nom2 -> exists phis, NoDup phis /\ (forall v, In v phis <-> In v (map mv_p (map fst l))) /\ let cs := arc_centers ls (map fst l) phis in
  (cs = [] -> nom2 = nom) /\ (cs <> [] -> exists ox oy, median (map fst cs) = Ok ox /\ median (map snd cs) = Ok oy /\ (~ In "OFFSET_X" fixed -> lookup nom2 "OFFSET_X" = Ok ox) /\ (~ In "OFFSET_Y" fixed -> lookup nom2 "OFFSET_Y" = Ok oy)).
Proof.
  unfold init_offsets. intros H. exists (unique_R (map f_p (spoints l))). split; [apply unique_R_NoDup|]. split; [intros v; rewrite unique_R_In; unfold spoints; rewrite !map_map; tauto|]. destruct (circle_centers ls (spoints l) _) as [cs0|] eqn:E; [|discriminate]. apply circle_centers_arcs in E. cbn [rbind] in H. cbv zeta. rewrite <- E. clear E. destruct cs0 as [|c cs'].
  - split; [intros _; now apply Ok_inj in H|]. intros N. now destruct N.
  - split; [discriminate|]. intros _. destruct (median (map fst _)) as [ox|] eqn:Ex; [|discriminate]. cbn [rbind] in H. destruct (median (map snd _)) as [oy|] eqn:Ey; [|discriminate]. cbn [rbind] in H. apply Ok_inj in H. exists ox, oy. split; [reflexivity|]. split; [reflexivity|]. subst nom2. split; intros N; apply mem_str_false in N.
    + rewrite N. destruct (mem_str "OFFSET_Y" fixed); [apply lookup_same|]. rewrite lookup_other by discriminate. apply lookup_same.
    + rewrite N. apply lookup_same.
Qed.
Theorem static_start ls mz moves nom bnd keep xe ye rej o st : fit_params ls mz moves Static nom bnd keep xe ye rej = (Ok o, st) -> o_flags o = 0%Z ->
  let seqs := sequences_without_rehome moves in
  (forall k, In k (map fst (fst st)) <-> In k (map fst nom) \/ is_eps k seqs) /\ (forall s, In s seqs -> value_in (fst st) (eps_t s) = 0 /\ value_in (fst st) (eps_p s) = 0) /\
  (forall k, In k all_keys -> k <> "OFFSET_X" /\ k <> "OFFSET_Y" \/ In k keep -> value_in (fst st) k = value_in nom k) /\
  exists phis, NoDup phis /\ (forall v, In v phis <-> In v (map mv_p moves)) /\ let cs := arc_centers ls moves phis in
    (cs = [] -> value_in (fst st) "OFFSET_X" = value_in nom "OFFSET_X" /\ value_in (fst st) "OFFSET_Y" = value_in nom "OFFSET_Y") /\
    (cs <> [] -> ~ In "OFFSET_X" keep -> median (map fst cs) = Ok (value_in (fst st) "OFFSET_X")) /\ (cs <> [] -> ~ In "OFFSET_Y" keep -> median (map snd cs) = Ok (value_in (fst st) "OFFSET_Y")).
Proof.
  intros H F. destruct (fit_params_cases ls mz moves Static nom bnd keep xe ye rej) as [[_ E]|(V & [[_ E]|[(_ & _ & E)|(_ & _ & C)]])].
  1: rewrite E in H; discriminate. 1,2: rewrite E in H; injection H as <- _; discriminate.
  cbv zeta in C. intros seqs. fold seqs in C. destruct C as [(e & _ & E)|(nom2 & EI & E)]; rewrite E in H; [discriminate|]. injection H as H <-. cbn [fst snd]. destruct V as (V1 & V2 & V3). assert (V1' := fun k Hk => proj1 (V1 k Hk)).
  set (nom1 := add_epsilons 0 seqs nom) in *. set (fixed := fixed_keys Static keep nom1) in *. rewrite points_of in EI. set (all := combine moves (errors_of xe ye moves)) in *.
  assert (Em : map fst all = moves) by (apply map_fst_combine, errors_of_length, V3).
  assert (VE : forall (d d' : dict string R) k, lookup d k = lookup d' k -> value_in d k = value_in d' k). { intros d d' k L. unfold lookup, dict_getE in L. unfold value_in. destruct (dict_get String.eqb d k), (dict_get String.eqb d' k); try discriminate L; [now apply Ok_inj in L|reflexivity]. }
  assert (VO : forall (d : dict string R) k v, lookup d k = Ok v -> value_in d k = v). { intros d k v L. unfold lookup, dict_getE in L. unfold value_in. destruct (dict_get String.eqb d k); [now apply Ok_inj in L|discriminate]. }
  assert (FK : forall k, In k fixed <-> In k keep \/ In k dynamic_keys) by (intros; apply fixed_keys_In).
  assert (IX : forall k, In k all_keys -> In k (map fst nom1)) by (intros k Hk; apply add_epsilons_keys; left; now apply V1').
  split; [intros k; unfold nom1 in *; rewrite (init_offsets_keys _ _ _ _ _ k EI) by (apply IX; cbn; tauto); apply add_epsilons_keys|]. split; [|split].
  - intros s Hs. split; apply VO; (rewrite (init_offsets_lookup _ _ _ _ _ _ EI) by (right; split; discriminate)); apply add_epsilons_same; exists s; auto.
  - intros k A Hk. apply VE. rewrite (init_offsets_lookup _ _ _ _ _ _ EI) by (destruct Hk as [Hk|Hk]; [right; exact Hk|left; apply FK; auto]). apply add_epsilons_other. now apply all_not_eps.
  - destruct (init_offsets_values _ _ _ _ _ EI) as (phis & ND & Hp & E1 & E2). rewrite Em in *. exists phis. split; [exact ND|]. split; [exact Hp|]. cbv zeta. split; [intros Ec; rewrite (E1 Ec); split; apply VE, add_epsilons_other, all_not_eps; cbn; tauto|].
    split; intros Nc Nk; destruct (E2 Nc) as (ox & oy & Ox & Oy & Lx & Ly); [rewrite Ox|rewrite Oy]; f_equal; symmetry; apply VO; [apply Lx|apply Ly]; rewrite FK; intros [J|J]; try contradiction; cbn in J; destruct J as [J|[J|[]]]; discriminate.
Qed.
