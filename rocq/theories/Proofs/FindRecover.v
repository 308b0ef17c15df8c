From Verif.Model Require Import FindFiducials.
From Verif.Spec Require Import Numpy Match LinAlg SimpleCorr FindFiducials.
From Verif.Proofs Require Import Prelude Numpy RealNum FindFiducials FindTables.
From Verif.Proofs Require Match MatchTriangles MatchRecover MatchPositioners SimpleCorr.
From Coq Require Import Lra Lia.
Local Open Scope R_scope.
Local Open Scope list_scope.

Lemma distance_nonneg p q : 0 <= distance p q.
Proof. apply sqrt_pos. Qed.
Lemma distance_self p : distance p p = 0.
Proof. unfold distance. rewrite <- sqrt_0. f_equal. ring. Qed.
Lemma distance_zero p q : distance p q = 0 -> p = q.
Proof.
  unfold distance. intros H. apply sqrt_eq_0 in H; [|apply Rplus_le_le_0_compat; apply pow2_ge_0]. destruct p as [a b], q as [c d]; cbn [fst snd] in H.
  assert ((a - c) ^ 2 = 0 /\ (b - d) ^ 2 = 0) as [H1 H2] by (pose proof (pow2_ge_0 (a - c)); pose proof (pow2_ge_0 (b - d)); lra).
  f_equal; apply Rminus_diag_uniq; [revert H1|revert H2]; generalize (a - c) (b - d); intros; nra.
Qed.
Lemma distance_pos p q : p <> q -> 0 < distance p q.
Proof. intros H. destruct (distance_nonneg p q) as [|E]; [assumption|]. symmetry in E. apply distance_zero in E. contradiction. Qed.
Lemma classic_eq (p q : point) : p = q \/ p <> q.
Proof. destruct p as [a b], q as [c d]. destruct (Req_EM_T a c) as [->|N]; [|right; congruence]. destruct (Req_EM_T b d) as [->|N]; [now left|right; congruence]. Qed.
Lemma distance_sym p q : distance p q = distance q p.
Proof. unfold distance. f_equal. ring. Qed.

(** *** Matching when the right partner is clearly the nearest *)
Section Pairs.
Variable argsort : forall K, (K -> K -> bool) -> list K -> list nat.
Hypothesis argsort_ok : is_argsort argsort.
Variable query2 : list point -> point -> edist * nat.
Hypothesis query2_ok : nearest_query query2.

Definition partners (xy1 xy2 : list point) (g : point -> point) : Prop :=
  forall f, In f xy2 -> In (g f) xy1 /\ (forall f', In f' xy2 -> f' <> f -> distance (g f) f < distance (g f) f') /\ (forall p, In p xy1 -> p <> g f -> distance (g f) f < distance p f).

Lemma pairs_spec xy1 xy2 g : NoDup xy1 -> NoDup xy2 -> xy2 <> [] -> partners xy1 xy2 g ->
  exists ind dis, match_same_system argsort query2 xy1 xy2 true = Ok (ind, dis) /\ length ind = length xy1 /\ length dis = length xy1 /\
    (forall k z, nth_error ind k = Some z -> z = (-1)%Z \/ exists i f, z = Z.of_nat i /\ nth_error xy2 i = Some f /\ nth_error xy1 k = Some (g f) /\ nth_error dis k = Some (Some (distance (g f) f))) /\
    (forall i f, nth_error xy2 i = Some f -> exists k, nth_error ind k = Some (Z.of_nat i)).
Proof.
  intros N1 N2 Hne P. destruct (Match.match_same_system_spec argsort argsort_ok query2 query2_ok xy1 xy2 Hne) as (ind & dis & E & Li & Ld & M1 & M2 & M3).
  exists ind, dis. split; [exact E|]. split; [exact Li|]. split; [exact Ld|].
  (* the entry of [g f] finds [f], and it is the closest *)
  assert (B : forall i f, nth_error xy2 i = Some f -> exists k, nth_error ind k = Some (Z.of_nat i) /\ nth_error xy1 k = Some (g f)).
  { intros i f Hf. destruct (P f) as (Hin & Hf' & Hp); [eapply nth_error_In; eauto|]. apply In_nth_error in Hin as [k0 Hk0].
    destruct (M3 _ _ Hk0) as (j & q & k' & p' & Ej & Hq & Hk' & Hp' & Hd).
    destruct query2_ok as [_ Q]. destruct (Q xy2 (g f) Hne) as (j' & q' & Eq & Hq' & _ & Near). rewrite Eq in Ej. cbn in Ej. subst j'. assert (q' = q) by congruence. subst q'.
    assert (q = f). { destruct (classic_eq q f) as [|Nq]; [assumption|]. exfalso. specialize (Near f (nth_error_In _ _ Hf)). specialize (Hf' q (nth_error_In _ _ Hq) Nq). lra. }
    subst q. assert (j = i). { rewrite NoDup_nth_error in N2. apply N2; [apply nth_error_Some; congruence|congruence]. } subst j.
    exists k'. split; [exact Hk'|]. rewrite Hp'. f_equal. destruct (classic_eq p' (g f)) as [|Np]; [assumption|]. exfalso. specialize (Hp p' (nth_error_In _ _ Hp') Np). lra. }
  split; [|intros i f Hf; destruct (B _ _ Hf) as (k & Hk & _); eauto].
  intros k z Hz. destruct (nth_error_length ind xy1 k z Li Hz) as [p Hp]. destruct (nth_error_length xy1 dis k p (eq_sym Ld) Hp) as [e He].
  destruct (M1 _ _ _ _ Hp Hz He) as [[-> _]|(j & q & -> & Hq & -> & _)]; [now left|right]. exists j, q. split; [reflexivity|]. split; [exact Hq|].
  destruct (B _ _ Hq) as (k' & Hk' & Hg). assert (k' = k) by (eapply M2; eauto). subst k'. assert (p = g q) by congruence. subst p. auto.
Qed.

(** *** One pass of the fit *)
Definition coefficients (g : point -> point) (ax ay : list R) : Prop := length ax = 3%nat /\ length ay = 3%nat /\ nth 1 ax 0 + nth 2 ay 0 <> 0 /\ forall p, g p = affine ax ay p.
Definition not_on_a_line (l : list point) : Prop := forall a b c, (forall p, In p l -> a + b * fst p + c * snd p = 0) -> a = 0 /\ b = 0 /\ c = 0.

Lemma exact_fit data g ax ay : coefficients g ax ay -> not_collinear data -> (forall d, In d data -> snd d = g (fst d)) ->
  exists corr, corr_fit simplecorr_init (xs1 data) (ys1 data) (xs2 data) (ys2 data) false = Ok corr /\ forall p, corr_apply corr p = g p.
Proof.
  intros (Lx & Ly & Tr & G) N D. destruct (SimpleCorr.fit_affine_spec data simplecorr_init N) as (ax' & ay' & Fx & Fy & _ & F).
  assert (ax' = ax). { eapply SimpleCorr.least_squares_exact; [exact Fx|exact Lx|]. intros s Hs. unfold x_samples in Hs. apply in_map_iff in Hs as (d & <- & Hd). cbn [fst snd]. rewrite (D d Hd), G.
    destruct ax as [|a0 [|a1 [|a2 [|]]]]; try discriminate. unfold affine. cbn. ring. }
  assert (ay' = ay). { eapply SimpleCorr.least_squares_exact; [exact Fy|exact Ly|]. intros s Hs. unfold y_samples in Hs. apply in_map_iff in Hs as (d & <- & Hd). cbn [fst snd]. rewrite (D d Hd), G.
    destruct ay as [|a0 [|a1 [|a2 [|]]]]; try discriminate. unfold affine. cbn. ring. }
  subst ax' ay'. destruct (F Tr) as (corr & E & A & _). exists corr. split; [exact E|]. intros p. rewrite G. apply A. right. exists 0%Z. cbn. ring.
Qed.

Lemma step n xy1 xy2 g ax ay saved : NoDup xy1 -> NoDup xy2 -> xy2 <> [] -> partners xy1 xy2 g -> coefficients g ax ay -> not_on_a_line xy2 ->
  (forall f, In f xy2 -> distance (g f) f < 10) ->
  refine argsort query2 (S n) xy1 xy2 saved = Ok (map g xy2) \/ exists m, refine argsort query2 (S n) xy1 xy2 saved = refine argsort query2 n xy1 (map g xy2) m.
Proof.
  intros N1 N2 Hne P C NL Close. destruct (pairs_spec xy1 xy2 g N1 N2 Hne P) as (ind & dis & E & Li & Ld & M & B).
  cbn [refine]. rewrite E. cbn [rbind]. set (mdist := median_distance ind dis). set (maxd := match n with O => 10 | S _ => _ end).
  assert (Hmax : 10 <= maxd) by (unfold maxd; destruct n; [lra|destruct mdist; [apply Rmax_l|lra]]). clearbody maxd.
  set (sel := where_ _ _).
  assert (SEL : forall k, In k sel <-> exists i f, nth_error ind k = Some (Z.of_nat i) /\ nth_error xy2 i = Some f /\ nth_error xy1 k = Some (g f)).
  { intros k. unfold sel. rewrite where_spec. split.
    - intros ([z d] & Hk & T). apply combine_nth2 in Hk as [Hz Hd]. apply andb_prop in T as [T0 T1]. apply Z.leb_le in T0. destruct (M _ _ Hz) as [->|(i & f & -> & Hf & Hg & _)]; [lia|]. eauto.
    - intros (i & f & Hz & Hf & Hg). destruct (M _ _ Hz) as [?|(i' & f' & Ei & Hf' & Hg' & Hd)]; [lia|]. apply Nat2Z.inj in Ei. subst i'. assert (f' = f) by congruence. subst f'.
      exists (Z.of_nat i, Some (distance (g f) f)). split; [apply combine_nth2; auto|]. rewrite (proj2 (Z.leb_le 0 _)) by lia. cbn. apply Rltb_true. specialize (Close f (nth_error_In _ _ Hf)). lra. }
  clearbody sel.
  assert (TK : exists ind2 a b, take ind sel = Ok ind2 /\ take xy2 (map Z.to_nat ind2) = Ok a /\ take xy1 sel = Ok b /\ b = map g a /\ length a = length sel /\
    (forall k, In k sel -> forall i f, nth_error ind k = Some (Z.of_nat i) -> nth_error xy2 i = Some f -> In f a)).
  { assert (HS : forall k, In k sel -> exists i f, nth_error ind k = Some (Z.of_nat i) /\ nth_error xy2 i = Some f /\ nth_error xy1 k = Some (g f)) by (intros k; apply SEL). clear SEL.
    induction sel as [|k sel IH]; [exists [], [], []; cbn; repeat (split; [reflexivity|]); intros ? []|].
    destruct IH as (ind2 & a & b & E1 & E2 & E3 & Eb & La & Ha); [intros; apply HS; now right|]. destruct (HS k (or_introl eq_refl)) as (i & f & Hz & Hf & Hg).
    exists (Z.of_nat i :: ind2), (f :: a), (g f :: b). unfold take in *. cbn [rmapM map]. unfold geti in *. rewrite Hz, Hg, Nat2Z.id, Hf. cbn [rbind]. rewrite E1, E2, E3. split; [reflexivity|]. split; [reflexivity|]. split; [reflexivity|].
    split; [now rewrite Eb|]. split; [cbn; congruence|]. intros k' [<-|Hk'] i' f' Hz' Hf'; [left|right; exact (Ha _ Hk' _ _ Hz' Hf')]. rewrite Hz in Hz'. injection Hz' as Hz'. apply Nat2Z.inj in Hz'. congruence. }
  destruct TK as (ind2 & a & b & -> & E2 & E3 & -> & La & Ha). cbn [rbind]. rewrite E2. cbn [rbind]. rewrite E3. cbn [rbind].
  set (data := map (fun f => (f, g f)) a).
  assert (HD : forall f, In f xy2 -> In f a). { intros f Hf. apply In_nth_error in Hf as [i Hi]. destruct (B _ _ Hi) as [k Hk]. apply (Ha k) with (i := i); [|exact Hk|exact Hi]. apply SEL. destruct (M _ _ Hk) as [?|(i' & f' & Ei & Hf' & Hg' & _)]; [lia|]. apply Nat2Z.inj in Ei. subst i'. eauto. }
  destruct (exact_fit data g ax ay C) as (corr & Ef & Hc).
  { intros u v w H. apply NL. intros p Hp. specialize (H (p, g p)). cbn [fst] in H. apply H. unfold data. apply in_map_iff. eauto. }
  { intros d Hd. unfold data in Hd. apply in_map_iff in Hd as (f & <- & _). reflexivity. }
  replace (map fst a) with (xs1 data) by (unfold xs1, data; rewrite map_map; reflexivity). replace (map snd a) with (ys1 data) by (unfold ys1, data; rewrite map_map; reflexivity).
  replace (map fst (map g a)) with (xs2 data) by (unfold xs2, data; rewrite !map_map; reflexivity). replace (map snd (map g a)) with (ys2 data) by (unfold ys2, data; rewrite !map_map; reflexivity).
  rewrite Ef. cbn [rbind]. rewrite (map_ext _ _ Hc). destruct mdist as [m|]; [|eauto]. destruct (Rltb _ _); eauto.
Qed.

Lemma identity_coefficients : coefficients (fun p => p) [0; 1; 0] [0; 0; 1].
Proof. split; [reflexivity|]. split; [reflexivity|]. split; [cbn; lra|]. intros [x y]. unfold affine. cbn. f_equal; ring. Qed.
Lemma self_partners xy1 xy2 : (forall f, In f xy2 -> In f xy1) -> partners xy1 xy2 (fun p => p).
Proof.
  intros H f Hf. split; [auto|]. rewrite distance_self. split; intros; apply distance_pos; congruence.
Qed.
Lemma refine_fixed n : forall xy1 xy2 saved, NoDup xy1 -> NoDup xy2 -> xy2 <> [] -> (forall f, In f xy2 -> In f xy1) -> not_on_a_line xy2 -> refine argsort query2 n xy1 xy2 saved = Ok xy2.
Proof.
  induction n as [|n IH]; intros xy1 xy2 saved N1 N2 Hne H NL; [reflexivity|].
  destruct (step n xy1 xy2 (fun p => p) _ _ saved N1 N2 Hne (self_partners _ _ H) identity_coefficients NL) as [E|[m E]].
  - intros f _. rewrite distance_self. lra.
  - now rewrite map_id in E.
  - rewrite map_id in E. rewrite E. now apply IH.
Qed.
Lemma refine_exact n xy1 xy2 g ax ay saved : NoDup xy1 -> NoDup xy2 -> xy2 <> [] -> partners xy1 xy2 g -> coefficients g ax ay -> not_on_a_line xy2 ->
  (forall f, In f xy2 -> distance (g f) f < 10) -> NoDup (map g xy2) -> not_on_a_line (map g xy2) -> refine argsort query2 (S n) xy1 xy2 saved = Ok (map g xy2).
Proof.
  intros N1 N2 Hne P C NL Close N3 NL'. destruct (step n xy1 xy2 g ax ay saved N1 N2 Hne P C NL Close) as [E|[m E]]; [exact E|]. rewrite E. apply refine_fixed; try assumption.
  - destruct xy2; [contradiction|discriminate].
  - intros q Hq. apply in_map_iff in Hq as (f & <- & Hf). apply P. exact Hf.
Qed.

(** *** The final matching *)
Lemma match_self xy1 xy2 : NoDup xy1 -> NoDup xy2 -> xy1 <> [] -> (forall f, In f xy2 -> In f xy1) ->
  exists ind dis, match_same_system argsort query2 xy2 xy1 true = Ok (ind, dis) /\ length ind = length xy2 /\ length dis = length xy2 /\
    forall k f, nth_error xy2 k = Some f -> exists j, nth_error ind k = Some (Z.of_nat j) /\ nth_error xy1 j = Some f /\ nth_error dis k = Some (Some 0).
Proof.
  intros N1 N2 Hne H. destruct (Match.match_same_system_spec argsort argsort_ok query2 query2_ok xy2 xy1 Hne) as (ind & dis & E & Li & Ld & M1 & M2 & M3).
  exists ind, dis. split; [exact E|]. split; [exact Li|]. split; [exact Ld|]. intros k f Hf. destruct (M3 _ _ Hf) as (j & q & k' & p' & Ej & Hq & Hk' & Hp' & Hd).
  destruct query2_ok as [_ Q]. destruct (Q xy1 f Hne) as (j' & q' & Eq & Hq' & _ & Near). rewrite Eq in Ej. cbn in Ej. subst j'. assert (q' = q) by congruence. subst q'.
  specialize (Near f (H f (nth_error_In _ _ Hf))). rewrite distance_self in Near. assert (f = q) by (apply distance_zero; pose proof (distance_nonneg f q); lra). subst q.
  rewrite distance_self in Hd. assert (p' = f) by (apply distance_zero; pose proof (distance_nonneg p' f); lra). subst p'.
  assert (k' = k). { rewrite NoDup_nth_error in N2. apply N2; [apply nth_error_Some; congruence|congruence]. } subst k'.
  exists j. split; [exact Hk'|]. split; [exact Hq|]. destruct (nth_error_length ind dis k (Z.of_nat j) ltac:(congruence) Hk') as [e He].
  destruct (M1 _ _ _ _ Hf Hk' He) as [[? _]|(j' & q & Ej & Hq'' & -> & _)]; [lia|]. apply Nat2Z.inj in Ej. subst j'. assert (q = f) by congruence. subst q. now rewrite He, distance_self.
Qed.
End Pairs.
