From Verif.Model Require Import AverageCoord.
From Verif.Spec Require Import LinAlg Match SimpleCorr AverageCoord Trig.
From Verif.Proofs Require Import Numpy RealNum.
From Verif.Proofs Require Match SimpleCorr.
From Coq Require Import Lra Sorted Classical_Prop.
Local Open Scope R_scope.

Lemma geti_map {A B} (g : A -> B) l i : geti (map g l) i = rmap g (geti l i).
Proof. unfold geti. rewrite nth_error_map. destruct (nth_error l i); reflexivity. Qed.
Lemma take_map {A B} (g : A -> B) l idx : take (map g l) idx = rmap (map g) (take l idx).
Proof.
  unfold take. induction idx as [|i idx IH]; [reflexivity|]. cbn [rmapM]. rewrite geti_map.
  destruct (geti l i); cbn [rmap rbind]; [|reflexivity]. rewrite IH. destruct (rmapM (geti l) idx); reflexivity.
Qed.
Lemma exists_map {B} (b0 : B) l v : NoDup l -> length l = length v -> exists m : nat -> B, map m l = v.
Proof.
  revert v. induction l as [|a l IH]; intros [|b v] N L; try discriminate; [exists (fun _ => b0); reflexivity|].
  apply NoDup_cons_iff in N as [Na N]. injection L as L. destruct (IH v N L) as [m E].
  exists (fun k => if Nat.eqb k a then b else m k). cbn. rewrite Nat.eqb_refl. f_equal. rewrite <- E. apply map_ext_in. intros k Hk.
  destruct (Nat.eqb_spec k a); [subst; contradiction|reflexivity].
Qed.
Lemma sorted_take S S' ok : StronglySorted lt ok -> StronglySorted lt S -> Forall2 (fun i a => nth_error S i = Some a) ok S' -> StronglySorted lt S'.
Proof.
  intros So SS F. induction F as [|i a ok S' Hi F IH]; [constructor|]. apply StronglySorted_inv in So as [So Fo]. constructor; [now apply IH|].
  assert (Q : forall i j a b, (i < j)%nat -> nth_error S i = Some a -> nth_error S j = Some b -> (a < b)%nat).
  { clear -SS. induction SS as [|x S SS IH F]; intros i j a b L Hi Hj; [destruct i; discriminate|]. destruct j; [lia|]. cbn in Hj. destruct i.
    - injection Hi as <-. rewrite Forall_forall in F. apply F. eapply nth_error_In; eauto.
    - cbn in Hi. apply (IH i j); [lia|assumption|assumption]. }
  rewrite Forall_forall in *. intros b Hb. apply In_nth_error in Hb as [n Hn]. destruct (nth_error_length S' ok n b) as [j Hj]; [symmetry; eapply Forall2_length; eauto|exact Hn|].
  pose proof (Forall2_nth _ _ _ F _ _ _ Hj Hn) as Hb. cbn beta in Hb. eapply Q; [|exact Hi|exact Hb]. apply Fo. eapply nth_error_In; eauto.
Qed.

Lemma in_combine_nth t first d : In d (combine t first) -> exists k, (k < length first)%nat /\ d = (spot t k, spot first k).
Proof.
  revert first. induction t as [|a t IH]; intros [|b first] H; cbn in H; try tauto. destruct H as [<-|H].
  - exists 0%nat. split; [cbn; lia|reflexivity].
  - destruct (IH _ H) as (k & Hk & ->). exists (S k). split; [cbn; lia|reflexivity].
Qed.

Section Average.
Variable argsort : forall K, (K -> K -> bool) -> list K -> list nat.
Hypothesis argsort_ok : is_argsort argsort.
Variable query2 : list point -> point -> edist * nat.
Hypothesis query_ok : nearest_query query2.

(** The state after the images: everything is a function of the surviving spot numbers. *)
Definition state_of (first : list point) (S : list nat) (gs : list (nat -> point)) : list point * list nat * list (list point) :=
  (map (spot first) S, S, map (fun g => map g S) gs).

Lemma rows_take gs S S' ok : take S ok = Ok S' -> rmapM (fun row => take row ok) (map (fun g : nat -> point => map g S) gs) = Ok (map (fun g => map g S') gs).
Proof.
  intros E. induction gs as [|g gs IH]; [reflexivity|]. cbn [map rmapM]. rewrite take_map, E. cbn [rmap rbind]. now rewrite IH.
Qed.

Lemma add_table_spec first S gs t st' : NoDup S -> add_table argsort query2 (state_of first S gs) t = Ok st' ->
  exists S' m ax ay, paired first t S S' m /\
    let data := map (fun k => (spot t (m k), spot first k)) S' in
    not_collinear data /\ least_squares 3 (x_samples data) ax /\ least_squares 3 (y_samples data) ay /\
    st' = state_of first S' (gs ++ [fun k => affine ax ay (spot t (m k))]).
Proof.
  intros ND. unfold state_of, add_table. destruct (match_same_system argsort query2 (map (spot first) S) t true) as [[ind dis]|] eqn:EM; cbn [rbind]; [|discriminate].
  set (ok := where_ matched_entry (combine ind dis)).
  destruct (take ind ok) as [i2|] eqn:E2; cbn [rbind]; [|discriminate].
  rewrite take_map. destruct (take S ok) as [S'|] eqn:ES; cbn [rbind rmap]; [|discriminate].
  destruct (take t (map Z.to_nat i2)) as [t'|] eqn:Et; cbn [rbind]; [|discriminate].
  rewrite (rows_take gs S S' ok ES). cbn [rbind].
  destruct (corr_fit _ _ _ _ _ _) as [corr|] eqn:EC; cbn [rbind]; [|discriminate]. intros E. injection E as <-.
  pose proof (proj1 (take_Ok _ _ _) E2) as F2. pose proof (proj1 (take_Ok _ _ _) ES) as FS. pose proof (proj1 (take_Ok _ _ _) Et) as Ft.
  pose proof (Forall2_length _ _ _ F2) as L2. pose proof (Forall2_length _ _ _ FS) as LS. pose proof (Forall2_length _ _ _ Ft) as Lt. rewrite map_length in Lt.
  assert (ND' : NoDup S').
  { apply NoDup_nth_error. intros i j Hi E. destruct (nth_error S' i) as [k|] eqn:Ei; [|apply nth_error_None in Ei; lia]. symmetry in E.
    destruct (nth_error_length S' ok i k (eq_sym LS) Ei) as [a Ha], (nth_error_length S' ok j k (eq_sym LS) E) as [b Hb].
    pose proof (Forall2_nth _ _ _ FS _ _ _ Ha Ei) as Qa. pose proof (Forall2_nth _ _ _ FS _ _ _ Hb E) as Qb. cbn beta in *.
    assert (a = b). { rewrite NoDup_nth_error in ND. apply ND; [apply nth_error_Some; congruence|congruence]. } subst b.
    assert (Nok : NoDup ok) by apply where_NoDup. rewrite NoDup_nth_error in Nok. apply Nok; [apply nth_error_Some; congruence|congruence]. }
  destruct (exists_map 0%nat S' (map Z.to_nat i2) ND' ltac:(rewrite map_length; lia)) as [m Em].
  assert (Et' : t' = map (fun k => spot t (m k)) S').
  { change (fun k => spot t (m k)) with (fun k => (fun j => nth j t (0, 0)) (m k)). rewrite <- (map_map m (fun j => nth j t (0, 0))), Em. clear -Ft. induction Ft as [|i a l l' H Ft IH]; [reflexivity|]. cbn. f_equal; [|exact IH]. symmetry. now apply nth_error_nth. }
  set (data := map (fun k => (spot t (m k), spot first k)) S').
  assert (C1 : map fst t' = xs1 data /\ map snd t' = ys1 data /\ map fst (map (spot first) S') = xs2 data /\ map snd (map (spot first) S') = ys2 data).
  { rewrite Et'. unfold xs1, ys1, xs2, ys2, data. rewrite !map_map. repeat split. }
  destruct C1 as (C1 & C2 & C3 & C4). rewrite C1, C2, C3, C4 in EC.
  assert (NC : not_collinear data).
  { apply NNPP. intros N. rewrite SimpleCorr.fit_collinear in EC by exact N. discriminate. }
  destruct (SimpleCorr.fit_affine_spec data simplecorr_init NC) as (ax & ay & Lx & Ly & B & G).
  destruct (Req_dec (nth 1 ax 0 + nth 2 ay 0) 0) as [T|T]; [rewrite (B T) in EC; discriminate|].
  destruct (G T) as (c' & E' & A & _). rewrite EC in E'. injection E' as <-.
  assert (A' : forall p, corr_apply corr p = affine ax ay p). { apply A. right. exists 0%Z. cbn. lra. } clear A.
  exists S', m, ax, ay. cbv zeta. fold data. split; [|split; [exact NC|]; split; [exact Lx|]; split; [exact Ly|]].
  2: { rewrite map_app. cbn [map]. f_equal. f_equal. f_equal. rewrite Et', map_map. apply map_ext. intros k. apply A'. }
  (* the pairing *)
  assert (Tn : t <> []).
  { intros ->. assert (S' = []). { destruct S' as [|k S']; [reflexivity|]. destruct i2 as [|z i2]; [cbn in LS; cbn in L2; lia|]. cbn [map] in Ft. inversion Ft as [|x y l l' H]; subst. destruct (Z.to_nat z); discriminate. }
    subst S'. destruct (NC 1 0 0) as [N _]; [intros d []|lra]. }
  destruct (Match.match_same_system_spec argsort argsort_ok query2 query_ok (map (spot first) S) t Tn) as (ind' & dis' & EM' & Li & Ld & M1 & M2 & M3).
  rewrite EM in EM'. injection EM' as <- <-. rewrite map_length in Li, Ld.
  assert (OK : forall i, In i ok <-> exists k j, nth_error S i = Some k /\ nth_error ind i = Some (Z.of_nat j) /\ nth_error dis i = Some (Some (distance (spot first k) (spot t j))) /\
                 (j < length t)%nat /\ nearest t (spot first k) (spot t j) /\ distance (spot first k) (spot t j) < 5).
  { intros i. unfold ok. rewrite where_spec. split.
    - intros ([z e] & Hc & Hm). assert (Hz : nth_error ind i = Some z /\ nth_error dis i = Some e).
      { clear -Hc. revert dis i Hc. induction ind as [|x ind IH]; intros dis [|i] H; destruct dis as [|y dis]; cbn in *; try discriminate; [injection H as <- <-; auto|auto]. }
      destruct Hz as [Hz He]. destruct (nth_error_length ind S i z Li Hz) as [k Hk].
      unfold matched_entry in Hm. cbn [fst snd] in Hm. apply andb_prop in Hm as [Hz0 Hd]. destruct e as [d|]; [|discriminate]. apply Rltb_true in Hd.
      destruct (M1 i (spot first k) z (Some d)) as [[_ N]|(j & q & -> & Hq & Ed & Hn)]; [rewrite nth_error_map, Hk; reflexivity|exact Hz|exact He|discriminate|].
      injection Ed as ->. assert (Eq : q = spot t j) by (symmetry; now apply nth_error_nth). subst q. exists k, j. repeat split; try assumption. 1: apply nth_error_Some; congruence. all: apply Hn.
    - intros (k & j & Hk & Hj & He & Lj & Hn & H5). exists (Z.of_nat j, Some (distance (spot first k) (spot t j))). split.
      + clear -Hj He. revert dis i Hj He. induction ind as [|x ind IH]; intros dis [|i] Hj He; destruct dis as [|y dis]; cbn in *; try discriminate; [injection Hj as ->; injection He as ->; reflexivity|auto].
      + unfold matched_entry. cbn [fst snd]. rewrite (proj2 (Rltb_true _ _) H5), andb_true_r. lia. }
  assert (MK : forall i k j, In i ok -> nth_error S i = Some k -> nth_error ind i = Some (Z.of_nat j) -> In k S' /\ m k = j).
  { intros i k j Hi Hk Hj. apply In_nth_error in Hi as [n Hn]. destruct (nth_error_length ok S' n i LS Hn) as [k' Hk'], (nth_error_length ok i2 n i L2 Hn) as [z Hz].
    pose proof (Forall2_nth _ _ _ FS _ _ _ Hn Hk') as Q1. pose proof (Forall2_nth _ _ _ F2 _ _ _ Hn Hz) as Q2. cbn beta in *.
    assert (k' = k) by congruence. assert (z = Z.of_nat j) by congruence. subst. split; [eapply nth_error_In; eauto|].
    assert (Q : nth_error (map m S') n = Some (m k)) by (rewrite nth_error_map, Hk'; reflexivity). rewrite Em, nth_error_map, Hz in Q. cbn in Q. rewrite Nat2Z.id in Q. congruence. }
  assert (KM : forall k, In k S' -> exists i, In i ok /\ nth_error S i = Some k).
  { intros k Hk. apply In_nth_error in Hk as [n Hn]. destruct (nth_error_length S' ok n k (eq_sym LS) Hn) as [i Hi]. exists i. split; [eapply nth_error_In; eauto|]. exact (Forall2_nth _ _ _ FS _ _ _ Hi Hn). }
  assert (KX : forall k, In k S' -> exists i, In i ok /\ nth_error S i = Some k /\ nth_error ind i = Some (Z.of_nat (m k)) /\ (m k < length t)%nat /\ nearest t (spot first k) (spot t (m k)) /\ distance (spot first k) (spot t (m k)) < 5).
  { intros k Hk. destruct (KM k Hk) as (i & Hi & HS). exists i. split; [exact Hi|]. split; [exact HS|]. pose proof (proj1 (OK i) Hi) as (k' & j & HS' & Hj & _ & L' & N' & D').
    assert (k' = k) by congruence. subst k'. destruct (MK i k j Hi HS Hj) as [_ ->]. tauto. }
  constructor.
  - intros k Hk. destruct (KM k Hk) as (i & _ & H). eapply nth_error_In; eauto.
  - intros SS. eapply sorted_take; [exact (where_sorted matched_entry (combine ind dis))|exact SS|exact FS].
  - intros k Hk. destruct (KX k Hk) as (i & _ & _ & _ & H). exact H.
  - intros k k' Hk Hk' E. destruct (KX k Hk) as (i & _ & Hi & Hm & _), (KX k' Hk') as (i' & _ & Hi' & Hm' & _). rewrite <- E in Hm'. pose proof (M2 _ _ _ Hm Hm'). subst i'. congruence.
  - intros k Hk Hn. apply In_nth_error in Hk as [i Hi].
    destruct (M3 i (spot first k)) as (j & q & i' & p' & Eq & Hq & Hj & Hp' & Hd); [rewrite nth_error_map, Hi; reflexivity|].
    assert (Eq' : q = spot t j) by (symmetry; now apply nth_error_nth). subst q.
    destruct query_ok as [_ QQ]. destruct (QQ t (spot first k) Tn) as (j' & q & Ej & Hq' & Nq). rewrite Ej in Eq. cbn in Eq. subst j'. assert (q = spot t j) by congruence. subst q.
    destruct (Rlt_dec (distance (spot first k) (spot t j)) 5) as [H5|H5].
    + right. rewrite nth_error_map in Hp'. destruct (nth_error S i') as [k'|] eqn:Ek'; [|discriminate]. injection Hp' as <-.
      destruct (nth_error_length ind dis i' _ ltac:(lia) Hj) as [e He].
      destruct (M1 i' (spot first k') (Z.of_nat j) e) as [[N _]|(j2 & q2 & E2' & Hq2 & Ee & N2)]; [rewrite nth_error_map, Ek'; reflexivity|exact Hj|exact He|lia|].
      assert (j2 = j) by lia. subst j2. assert (q2 = spot t j) by congruence. subst q2.
      assert (Hok : In i' ok). { apply OK. exists k', j. subst e. repeat split; try assumption; [apply nth_error_Some; congruence|apply N2|apply N2|lra]. }
      destruct (MK i' k' j Hok Ek' Hj) as [Hk' Hm]. exists k'. rewrite Hm. split; [exact Hk'|]. split; [|split; [exact Nq|exact Hd]]. intros ->. contradiction.
    + left. intros q Hin. destruct Nq as [_ Nq]. specialize (Nq q Hin). lra.
Qed.

Lemma averaging_sorted first images S gs : averaging first images S gs -> StronglySorted lt S.
Proof.
  induction 1 as [|images S gs t S' m ax ay A IH P data NC Lx Ly]; [|now apply P].
  assert (Q : forall n a, StronglySorted lt (seq a n)).
  { induction n; intros a; [constructor|]. cbn. constructor; [apply IHn|]. apply Forall_forall. intros x Hx. apply in_seq in Hx. lia. }
  apply Q.
Qed.
Lemma averaging_incl first images S gs : averaging first images S gs -> forall k, In k S -> (k < length first)%nat.
Proof.
  induction 1 as [|images S gs t S' m ax ay A IH P data NC Lx Ly]; intros k Hk; [apply in_seq in Hk; lia|]. apply IH. now apply P.
Qed.

Lemma add_tables_spec first images : forall done S gs st', averaging first done S gs ->
  add_tables argsort query2 (state_of first S gs) images = Ok st' ->
  exists S' gs', averaging first (done ++ images) S' gs' /\ st' = state_of first S' gs'.
Proof.
  induction images as [|t images IH]; intros done S gs st' A E.
  - cbn in E. injection E as <-. rewrite app_nil_r. eauto.
  - cbn [add_tables] in E. destruct (add_table _ _ _ t) as [st|] eqn:E1; cbn [rbind] in E; [|discriminate].
    apply add_table_spec in E1 as (S' & m & ax & ay & P & NC & Lx & Ly & ->); [|apply sorted_lt_NoDup; eapply averaging_sorted; eauto].
    destruct (IH (done ++ [t]) _ _ _ (averaging_next _ _ _ _ _ _ _ _ _ A P NC Lx Ly) E) as (S2 & gs2 & A2 & E2). rewrite <- app_assoc in A2. eauto.
Qed.

Lemma set_each_spec {A} (l : list A) ivs l' : NoDup (map fst ivs) -> set_each l ivs = Ok l' ->
  length l' = length l /\ (forall i v, In (i, v) ivs -> nth_error l' i = Some v) /\ (forall i, ~ In i (map fst ivs) -> nth_error l' i = nth_error l i).
Proof.
  revert l. induction ivs as [|[i v] ivs IH]; intros l N E.
  - cbn in E. injection E as <-. split; [reflexivity|]. split; [intros ? ? []|reflexivity].
  - cbn in N. apply NoDup_cons_iff in N as [Ni N]. cbn in E. destruct (seti l i v) as [l1|] eqn:E1; cbn in E; [|discriminate].
    destruct (seti_spec _ _ _ _ E1) as (S1 & S2 & S3 & S4). destruct (IH _ N E) as (I1 & I2 & I3). split; [congruence|]. split.
    + intros j w [H|H]; [injection H as <- <-; rewrite I3; [exact S3|exact Ni]|now apply I2].
    + intros j Hj. cbn in Hj. rewrite I3 by tauto. apply S4. intros ->. tauto.
Qed.
Lemma set_each_total {A} (l : list A) ivs : (forall i, In i (map fst ivs) -> (i < length l)%nat) -> exists l', set_each l ivs = Ok l'.
Proof.
  revert l. induction ivs as [|[i v] ivs IH]; intros l H; cbn; [eauto|].
  destruct (seti_Ok l i v) as [l1 E]; [apply H; now left|]. rewrite E. cbn. apply IH. intros j Hj. destruct (seti_spec _ _ _ _ E) as [-> _]. apply H. now right.
Qed.

Lemma column_means_spec gs S : column_means (length S) (map (fun g : nat -> point => map g S) gs) = map (fun k => mean_points (map (fun g => g k) gs)) S.
Proof.
  unfold column_means. assert (Q : forall T, T = map (fun j => nth j T 0%nat) (seq 0 (length T))).
  { induction T as [|a T IH]; [reflexivity|]. cbn. f_equal. rewrite <- seq_shift, map_map. exact IH. }
  transitivity (map (fun k => mean_points (map (fun g => g k) gs)) (map (fun j => nth j S 0%nat) (seq 0 (length S)))); [|now rewrite <- Q]. rewrite map_map. apply map_ext_in. intros j Hj. apply in_seq in Hj. f_equal. rewrite map_map. apply map_ext. intros g.
  rewrite (nth_indep _ (0, 0) (g 0%nat)) by (rewrite map_length; lia). apply map_nth.
Qed.

Lemma initial_state first : (first, seq 0 (length first), [first]) = state_of first (seq 0 (length first)) [spot first].
Proof.
  assert (E : first = map (spot first) (seq 0 (length first))).
  { unfold spot. induction first as [|a l IH]; [reflexivity|]. cbn [length seq map nth]. f_equal. rewrite <- seq_shift, map_map. exact IH. }
  unfold state_of. cbn [map]. now rewrite <- E.
Qed.

Theorem average_spec {A} (table1 : list (A * point)) others t' :
  average_coordinates argsort query2 (table1 :: others) = Ok t' ->
  exists S gs, averaging (map snd table1) (map (map snd) others) S gs /\ length t' = length table1 /\
    (forall k row xy, nth_error table1 k = Some (row, xy) ->
       (In k S -> nth_error t' k = Some (row, mean_position (map (fun g => g k) gs))) /\
       (~ In k S -> nth_error t' k = Some (row, xy))).
Proof.
  unfold average_coordinates. rewrite (initial_state (map snd table1)).
  destruct (add_tables _ _ _ _) as [st|] eqn:E; cbn [rbind]; [|discriminate].
  apply (add_tables_spec (map snd table1) _ []) in E as (S & gs & AV & ->); [|constructor]. cbn [app] in AV. unfold state_of.
  rewrite column_means_spec. destruct (set_each _ _) as [xy|] eqn:Es; cbn [rbind]; [|discriminate]. intros H. injection H as <-.
  assert (LS : length S = length (map (fun k => mean_points (map (fun g => g k) gs)) S)) by now rewrite map_length.
  assert (Fst : map fst (combine S (map (fun k => mean_points (map (fun g => g k) gs)) S)) = S).
  { clear. induction S; cbn; congruence. }
  apply set_each_spec in Es as (L & E1 & E2); [|rewrite Fst; apply sorted_lt_NoDup; eapply averaging_sorted; eauto]. rewrite Fst in E2. rewrite map_length in L.
  exists S, gs. split; [exact AV|]. split; [rewrite combine_length, map_length; lia|]. intros k row p Hk.
  assert (CB : forall q, nth_error xy k = Some q -> nth_error (combine (map fst table1) xy) k = Some (row, q)).
  { clear -Hk. revert xy k Hk. induction table1 as [|[a b] l IH]; intros xy [|k] Hk q Hq; destruct xy as [|c xy]; cbn in *; try discriminate; [congruence|]. now apply IH. }
  split; intros HS; apply CB.
  - apply E1. clear -HS. induction S as [|a S IH]; [destruct HS|]. cbn. destruct HS as [->|HS]; [left; reflexivity|right; auto].
  - rewrite E2 by exact HS. rewrite nth_error_map, Hk. reflexivity.
Qed.

(** Averages with one table: nothing changes. *)
Theorem average_single {A} (table1 : list (A * point)) : average_coordinates argsort query2 [table1] = Ok table1.
Proof.
  destruct (average_coordinates argsort query2 [table1]) as [t'|e] eqn:E.
  - destruct (average_spec _ _ _ E) as (S & gs & AV & L & H). f_equal. apply nth_error_ext. intros k.
    destruct (nth_error table1 k) as [[row xy]|] eqn:Ek.
    + destruct (H k row xy Ek) as [H1 H2]. inversion AV as [|images S0 gs0 t S' m ax ay A0 P data NC Lx Ly EI]; subst; [|destruct images; discriminate].
      rewrite H1; [|apply in_seq; rewrite map_length; split; [lia|apply nth_error_Some; congruence]]. f_equal. f_equal. unfold mean_position. cbn.
      assert (spot (map snd table1) k = xy) as ->. { unfold spot. apply nth_error_nth. rewrite nth_error_map, Ek. reflexivity. }
      destruct xy as [x y]. cbn. f_equal; lra.
    + apply nth_error_None in Ek. apply nth_error_None. lia.
  - exfalso. unfold average_coordinates in E. cbn [map add_tables rbind] in E. destruct (set_each_total (map snd table1) (combine (seq 0 (length (map snd table1))) (column_means (length (seq 0 (length (map snd table1)))) [map snd table1]))) as [l' E'].
    + intros i Hi. apply in_map_iff in Hi as ([i' v] & <- & Hi). apply in_combine_l in Hi. apply in_seq in Hi. cbn. lia.
    + rewrite E' in E. discriminate.
Qed.

(** Images of the same spots. *)
Lemma where_all {A} (f : A -> bool) l : (forall a, In a l -> f a = true) -> where_ f l = seq 0 (length l).
Proof.
  unfold where_. generalize 0%nat. induction l as [|a l IH]; intros n H; [reflexivity|]. cbn. rewrite H by now left. f_equal. apply IH. intros b Hb. apply H. now right.
Qed.
Lemma take_all {A} (l : list A) : take l (seq 0 (length l)) = Ok l.
Proof.
  apply take_Ok. assert (Q : forall pre, Forall2 (fun i a => nth_error (pre ++ l) i = Some a) (seq (length pre) (length l)) l).
  { induction l as [|a l IH]; intros pre; [constructor|]. cbn [length seq]. constructor.
    - rewrite nth_error_app2 by lia. now rewrite Nat.sub_diag.
    - specialize (IH (pre ++ [a])). rewrite app_length in IH. cbn in IH. rewrite Nat.add_1_r in IH. rewrite <- app_assoc in IH. exact IH. }
  exact (Q []).
Qed.

Lemma paired_self first t (gs : list (nat -> point)) :
  aligned first t -> 
  exists ind dis, match_same_system argsort query2 first t true = Ok (ind, dis) /\ ind = map Z.of_nat (seq 0 (length first)) /\
    where_ matched_entry (combine ind dis) = seq 0 (length first).
Proof.
  intros [L NC (ax & ay & La & Lb & T & E) Near]. 
  assert (Tn : t <> []).
  { intros ->. destruct (NC 1 0 0) as [N _]; [|lra]. intros d Hd. destruct first; [|discriminate L]. destruct Hd. }
  destruct (Match.match_same_system_spec argsort argsort_ok query2 query_ok first t Tn) as (ind & dis & EM & Li & Ld & M1 & M2 & M3).
  assert (Nr : forall k j, (k < length first)%nat -> (j < length t)%nat -> nearest t (spot first k) (spot t j) -> j = k).
  { intros k j Hk Hj [_ N]. destruct (Nat.eq_dec j k) as [|Hne]; [assumption|exfalso]. destruct (Near k j) as [A B]; [lia|exact Hj|]. specialize (B (not_eq_sym Hne)).
    specialize (N (spot t k) ltac:(unfold spot; apply nth_In; lia)). lra. }
  assert (Sp : forall k, (k < length first)%nat -> nth_error first k = Some (spot first k)) by (intros; now apply nth_error_nth').
  assert (SpT : forall j q, nth_error t j = Some q -> q = spot t j) by (intros; symmetry; now apply nth_error_nth).
  assert (I : forall k, (k < length first)%nat -> nth_error ind k = Some (Z.of_nat k) /\ nth_error dis k = Some (Some (distance (spot first k) (spot t k)))).
  { intros k Hk. destruct (M3 k (spot first k) (Sp k Hk)) as (j & q & k' & p' & Ej & Hq & Hj & Hp' & _).
    assert (Hj' : (j < length t)%nat) by (apply nth_error_Some; congruence).
    assert (Qj : j = k).
    { apply Nr; [exact Hk|exact Hj'|]. destruct query_ok as [_ QQ]. destruct (QQ t (spot first k) Tn) as (j' & q' & E' & Hq' & N'). rewrite E' in Ej. cbn in Ej. subst j'. rewrite <- (SpT _ _ Hq'). exact N'. }
    clear Ej. subst j. assert (Hk' : (k' < length first)%nat) by (apply nth_error_Some; congruence).
    destruct (nth_error_length ind dis k' _ ltac:(lia) Hj) as [e He].
    destruct (M1 k' p' _ e Hp' Hj He) as [[N _]|(j & q' & Ej' & Hq' & Ee & N')]; [lia|]. assert (j = k) by lia. subst j.
    rewrite (SpT _ _ Hq') in *. rewrite Sp in Hp' by exact Hk'. injection Hp' as <-. pose proof (Nr k' k Hk' Hj' N') as Q. subst k'. subst e. auto. }
  exists ind, dis. split; [exact EM|]. split.
  - apply nth_error_ext. intros k. rewrite nth_error_map. destruct (lt_dec k (length first)) as [Hk|Hk].
    + destruct (I k Hk) as [-> _]. rewrite (nth_error_nth' (seq 0 (length first)) 0%nat) by (rewrite seq_length; exact Hk). rewrite seq_nth by exact Hk. reflexivity.
    + rewrite (proj2 (nth_error_None ind k)) by lia. rewrite (proj2 (nth_error_None (seq 0 (length first)) k)) by (rewrite seq_length; lia). reflexivity.
  - rewrite where_all; [rewrite combine_length; f_equal; lia|]. intros [z e] Hin. apply In_nth_error in Hin as [k Hk].
    assert (Hk' : (k < length first)%nat). { assert (k < length (combine ind dis))%nat by (apply nth_error_Some; congruence). rewrite combine_length in H. lia. }
    assert (Hz : nth_error ind k = Some z /\ nth_error dis k = Some e).
    { clear -Hk. revert dis k Hk. induction ind as [|x ind IH]; intros dis [|i] H; destruct dis as [|y dis]; cbn in *; try discriminate; [injection H as <- <-; auto|auto]. }
    destruct (I k Hk') as [Iz Ie]. destruct Hz as [Hz He]. rewrite Iz in Hz. rewrite Ie in He. injection Hz as <-. injection He as <-.
    unfold matched_entry. cbn [fst snd]. rewrite (proj2 (Rltb_true _ _)); [|apply (Near k k); lia]. rewrite andb_true_r. lia.
Qed.

Lemma spots_all (l : list point) : map (spot l) (seq 0 (length l)) = l.
Proof. unfold spot. induction l as [|a l IH]; [reflexivity|]. cbn [length seq map nth]. f_equal. rewrite <- seq_shift, map_map. exact IH. Qed.

Lemma add_table_aligned first t gs : aligned first t ->
  add_table argsort query2 (state_of first (seq 0 (length first)) gs) t = Ok (state_of first (seq 0 (length first)) (gs ++ [spot first])).
Proof.
  intros A. destruct (paired_self first t gs A) as (ind & dis & EM & Ei & Ew). destruct A as [L NC (ax & ay & La & Lb & T & E) Near].
  unfold state_of, add_table. rewrite spots_all, EM. cbn [rbind]. rewrite Ew.
  assert (Li : length ind = length first) by (rewrite Ei, map_length, seq_length; reflexivity).
  assert (TA : forall B (l : list B), length l = length first -> take l (seq 0 (length first)) = Ok l) by (intros B l <-; apply take_all).
  rewrite (TA _ ind Li). cbn [rbind]. rewrite (TA _ first eq_refl). cbn [rbind]. rewrite (TA _ _ (seq_length _ _)). cbn [rbind].
  rewrite Ei, map_map. rewrite (map_ext _ (fun k => k)) by (intros; apply Nat2Z.id). rewrite map_id. rewrite (TA _ t (eq_sym L)). cbn [rbind].
  rewrite (rows_take gs (seq 0 (length first)) (seq 0 (length first)) _ (TA _ _ (seq_length _ _))). cbn [rbind].
  set (data := map (fun k => (spot t k, spot first k)) (seq 0 (length first))).
  assert (C1 : map fst t = xs1 data /\ map snd t = ys1 data /\ map fst first = xs2 data /\ map snd first = ys2 data).
  { unfold xs1, ys1, xs2, ys2, data. rewrite !map_map. cbn [fst snd]. rewrite <- (map_map (spot t) fst), <- (map_map (spot t) snd), <- (map_map (spot first) fst), <- (map_map (spot first) snd).
    rewrite spots_all. rewrite L, spots_all. auto. }
  destruct C1 as (-> & -> & -> & ->).
  assert (NC' : not_collinear data).
  { intros a b c H. apply NC. intros d Hd. apply in_combine_nth in Hd. destruct Hd as (k & Hk & ->). cbn [fst]. apply (H (spot t k, spot first k)). unfold data. apply in_map_iff. exists k. split; [reflexivity|]. apply in_seq. lia. }
  destruct (SimpleCorr.fit_affine_spec data simplecorr_init NC') as (bx & b_y & Lx & Ly & _ & G).
  assert (bx = ax). { eapply SimpleCorr.least_squares_exact; [exact Lx|exact La|]. intros s Hs. unfold x_samples, data in Hs. rewrite map_map in Hs. apply in_map_iff in Hs as (k & <- & Hk). apply in_seq in Hk. cbn [fst snd]. rewrite <- (E k) by lia. reflexivity. }
  assert (b_y = ay). { eapply SimpleCorr.least_squares_exact; [exact Ly|exact Lb|]. intros s Hs. unfold y_samples, data in Hs. rewrite map_map in Hs. apply in_map_iff in Hs as (k & <- & Hk). apply in_seq in Hk. cbn [fst snd]. rewrite <- (E k) by lia. reflexivity. }
  subst bx b_y. destruct (G T) as (c' & -> & F & _). cbn [rbind]. f_equal. f_equal. rewrite map_app. cbn [map]. f_equal. f_equal.
  rewrite (map_ext _ (affine ax ay)) by (apply F; right; exists 0%Z; cbn; lra). rewrite <- (spots_all t), map_map, <- L. apply map_ext_in. intros k Hk. apply in_seq in Hk. apply E. lia.
Qed.

Theorem average_aligned {A} (table1 : list (A * point)) others :
  (forall t, In t others -> aligned (map snd table1) (map snd t)) -> average_coordinates argsort query2 (table1 :: others) = Ok table1.
Proof.
  intros H. unfold average_coordinates. rewrite (initial_state (map snd table1)). set (first := map snd table1) in *.
  assert (Q : forall ts, (forall t, In t ts -> aligned first t) -> forall n, exists n', (0 < n')%nat /\
    add_tables argsort query2 (state_of first (seq 0 (length first)) (repeat (spot first) (S n))) ts = Ok (state_of first (seq 0 (length first)) (repeat (spot first) n'))).
  { induction ts as [|t ts IH]; intros Ha n; [exists (S n); split; [lia|reflexivity]|]. cbn [add_tables]. rewrite add_table_aligned by (apply Ha; now left). cbn [rbind].
    rewrite <- repeat_cons. change (spot first :: repeat (spot first) (S n)) with (repeat (spot first) (S (S n))). apply IH. intros u Hu. apply Ha. now right. }
  destruct (Q (map (map snd) others)) with (n := 0%nat) as (n' & Hn & E).
  { intros t Ht. apply in_map_iff in Ht as (u & <- & Hu). now apply H. }
  change [spot first] with (repeat (spot first) 1). rewrite E. cbn [rbind]. unfold state_of. rewrite column_means_spec.
  assert (M : map (fun k => mean_points (map (fun g => g k) (repeat (spot first) n'))) (seq 0 (length first)) = first).
  { transitivity (map (spot first) (seq 0 (length first))); [|apply spots_all]. apply map_ext. intros k. unfold mean_points.
    rewrite !map_map, !map_length, repeat_length. assert (R : forall f : point -> R, Rsum (map (fun x => f (x k)) (repeat (spot first) n')) = INR n' * f (spot first k)).
    { intros f. clear. induction n' as [|n IH]; [cbn; lra|]. rewrite S_INR. cbn [repeat map]. unfold Rsum in *. cbn [fold_right]. rewrite IH. lra. }
    rewrite !R. assert (INR n' <> 0) by (apply not_0_INR; lia). destruct (spot first k) as [a b]. cbn [fst snd]. f_equal; field; assumption. }
  rewrite M. assert (SE : forall l : list point, set_each l (combine (seq 0 (length l)) l) = Ok l).
  { intros l. destruct (set_each_total l (combine (seq 0 (length l)) l)) as [l' El].
    - intros i Hi. apply in_map_iff in Hi as ([i' v] & <- & Hi). apply in_combine_l, in_seq in Hi. cbn. lia.
    - rewrite El. f_equal. destruct (set_each_spec _ _ _ ltac:(fold (enum l); rewrite enum_fst; apply seq_NoDup) El) as (L & E1 & E2). apply nth_error_ext. intros k.
      destruct (nth_error l k) as [v|] eqn:Ek; [apply E1; fold (enum l); now apply enum_In|]. rewrite E2; [exact Ek|]. fold (enum l). rewrite enum_fst. intros Hin. apply in_seq in Hin. apply nth_error_None in Ek. lia. }
  rewrite SE. cbn [rbind]. f_equal. unfold first. clear. induction table1 as [|[a b] l IH]; [reflexivity|]. cbn. now rewrite IH.
Qed.
End Average.
