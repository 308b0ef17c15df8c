From Verif.Model Require Import FindFiducials.
From Verif.Spec Require Import Numpy Match FindFiducials.
From Verif.Proofs Require Import Prelude Numpy RealNum.
From Verif.Proofs Require Match MatchTriangles MatchPositioners SimpleCorr.
From Coq Require Import Lra Lia Sorted Classical_Prop.
Local Open Scope Z_scope.
Local Open Scope list_scope.

Lemma take_where {A} (f : A -> bool) (l : list A) : take l (where_ f l) = Ok (filter f l).
Proof. destruct (MatchPositioners.where_take f l) as (r & E & <- & _). exact E. Qed.

(** *** Clearing of ambiguous pinhole numbers *)
Lemma fold_clear L ds ls : fold_left (fun ls d => map (clear_id L d) ls) ds ls = map (fun l => fold_left (fun l d => clear_id L d l) ds l) ls.
Proof. revert ls. induction ds as [|d ds IH]; intros ls; cbn [fold_left]; [now rewrite map_id|]. rewrite IH, map_map. reflexivity. Qed.
Lemma clear_other L ds l : fst l <> L -> fold_left (fun l d => clear_id L d l) ds l = l.
Proof.
  intros H. induction ds as [|d ds IH]; cbn [fold_left]; [reflexivity|]. unfold clear_id at 2. destruct (fst l =? L) eqn:E; [apply Z.eqb_eq in E; contradiction|]. exact IH.
Qed.
Lemma clear_zero L ds : fold_left (fun l d => clear_id L d l) ds (L, 0) = (L, 0).
Proof. induction ds as [|d ds IH]; cbn [fold_left]; [reflexivity|]. unfold clear_id at 2. cbn [fst snd]. destruct (_ && _)%bool; exact IH. Qed.
Lemma clear_in L ds id : In id ds -> fold_left (fun l d => clear_id L d l) ds (L, id) = (L, 0).
Proof.
  induction ds as [|d ds IH]; intros []; cbn [fold_left]; unfold clear_id at 2; cbn [fst snd]; rewrite Z.eqb_refl; cbn [andb].
  - subst d. rewrite Z.eqb_refl. apply clear_zero.
  - destruct (id =? d); [apply clear_zero|now apply IH].
Qed.
Lemma clear_out L ds id : ~ In id ds -> fold_left (fun l d => clear_id L d l) ds (L, id) = (L, id).
Proof.
  induction ds as [|d ds IH]; intros H; cbn [fold_left]; [reflexivity|]. unfold clear_id at 2. cbn [fst snd]. rewrite Z.eqb_refl. cbn [andb].
  destruct (Z.eqb_spec id d); [exfalso; apply H; left; congruence|]. apply IH. intros ?. apply H. now right.
Qed.

Lemma count_positive d l : 0 < d -> count (Z.eqb d) (filter (Z.ltb 0) l) = count (Z.eqb d) l.
Proof.
  intros H. unfold count. f_equal. induction l as [|a l IH]; [reflexivity|]. cbn [filter]. destruct (0 <? a) eqn:E; cbn [filter].
  - destruct (d =? a); cbn [length]; congruence.
  - destruct (Z.eqb_spec d a); [subst a; lia|exact IH].
Qed.
Lemma count_two d l m m' : nth_error l m = Some d -> nth_error l m' = Some d -> m <> m' -> 1 < count (Z.eqb d) l.
Proof. intros H H' N. destruct (Z.lt_ge_cases 1 (count (Z.eqb d) l)) as [?|?]; [assumption|]. exfalso. apply N. eapply MatchTriangles.count_le_one; eauto. Qed.
Lemma count_other d l m : 1 < count (Z.eqb d) l -> nth_error l m = Some d -> exists m', m' <> m /\ nth_error l m' = Some d.
Proof.
  unfold count. revert m. induction l as [|a l IH]; intros m H Hm; [destruct m; discriminate|]. cbn [filter] in H. destruct m as [|m]; cbn in Hm.
  - injection Hm as ->. rewrite Z.eqb_refl in H. cbn [length] in H. destruct (filter (Z.eqb d) l) as [|b r] eqn:E; [cbn in H; lia|].
    assert (Hb : In b (filter (Z.eqb d) l)) by (rewrite E; now left). apply filter_In in Hb as [Hb Hd]. apply Z.eqb_eq in Hd. subst b.
    apply In_nth_error in Hb as [m' Hm']. exists (S m'). split; [lia|exact Hm'].
  - destruct (Z.eqb_spec d a) as [->|N]; [exists 0%nat; split; [lia|reflexivity]|]. destruct (IH m H Hm) as (m' & N' & E). exists (S m'). split; [lia|exact E].
Qed.
Lemma in_duplicates ids d : In d (filter (fun d => 1 <? count (Z.eqb d) (filter (Z.ltb 0) ids)) (unique (filter (Z.ltb 0) ids))) <-> 0 < d /\ 1 < count (Z.eqb d) ids.
Proof.
  rewrite filter_In, unique_In, filter_In, !Z.ltb_lt. split.
  - intros ((Hi & H0) & H). rewrite count_positive in H by exact H0. auto.
  - intros (H0 & H). rewrite count_positive by exact H0. split; [|exact H]. split; [|exact H0]. unfold count in H. destruct (filter (Z.eqb d) ids) as [|b r] eqn:E; [cbn in H; lia|].
    assert (Hb : In b (filter (Z.eqb d) ids)) by (rewrite E; now left). apply filter_In in Hb as [Hb Hd]. apply Z.eqb_eq in Hd. now subst b.
Qed.

Lemma combine3_nth {A B C} (l : list A) (l' : list B) (l'' : list C) m a b c :
  nth_error (combine (combine l l') l'') m = Some (a, b, c) <-> nth_error l m = Some a /\ nth_error l' m = Some b /\ nth_error l'' m = Some c.
Proof.
  revert l l' l''. induction m as [|m IH]; intros [|x l] [|y l'] [|z l'']; cbn; try (split; [discriminate|intros (? & ? & ?); discriminate]).
  - split; [intros [= -> -> ->]; auto|intros ([= ->] & [= ->] & [= ->]); reflexivity].
  - apply IH.
Qed.

Section Label.
Variable argsort : forall K, (K -> K -> bool) -> list K -> list nat.
Hypothesis argsort_ok : is_argsort argsort.
Variable query3 : list descr -> descr -> edist * nat.
Variables (sep : R) (xy : list point) (measured : list (list (edist * nat))) (pinholes fiducials : list pinhole).
Definition neighbours (near : list (edist * nat)) : list nat := map snd (filter (fun q => below (fst q) sep) near).
Hypothesis near_ok : forall i near, nth_error measured i = Some near -> NoDup (neighbours near).

Definition at_location (L : Z) : list pinhole := filter (fun p => Z.eqb (p_location p) L) pinholes.
(** How spot [k] was marked with location [loc] and number [id]. *)
Definition traced (ij : nat * nat) (k : nat) (loc id : Z) : Prop :=
  exists f near xy1 ind dis m j p, nth_error fiducials (snd ij) = Some f /\ p_location f = loc /\ nth_error measured (fst ij) = Some near /\
    take xy (neighbours near) = Ok xy1 /\ match_arbitrary argsort query3 xy1 (map p_pix (at_location loc)) = Ok (ind, dis) /\
    nth_error (neighbours near) m = Some k /\ nth_error ind m = Some (Z.of_nat j) /\ nth_error (at_location loc) j = Some p /\
    (id = p_id p \/ id = 0 /\ 0 < p_id p /\ exists j' p', j' <> j /\ nth_error (at_location loc) j' = Some p' /\ p_id p' = p_id p).

Lemma label_one_spec labels ij labels' f : nth_error fiducials (snd ij) = Some f -> (forall k loc id, nth_error labels k = Some (loc, id) -> loc <> p_location f) ->
  label_one argsort query3 sep xy measured pinholes fiducials labels ij = Ok labels' ->
  length labels' = length labels /\
  (forall k loc id, nth_error labels' k = Some (loc, id) -> nth_error labels k = Some (loc, id) /\ loc <> p_location f \/ loc = p_location f /\ traced ij k loc id) /\
  (forall k k' id, 0 < id -> nth_error labels' k = Some (p_location f, id) -> nth_error labels' k' = Some (p_location f, id) -> k = k').
Proof.
  intros Hf HL. unfold label_one. unfold geti at 1. rewrite Hf. cbn [rbind]. set (L := p_location f) in *.
  destruct (geti measured (fst ij)) as [near|] eqn:En; cbn [rbind]; [|discriminate]. apply geti_Ok in En. pose proof (near_ok _ _ En) as ND.
  fold (neighbours near). set (pi1 := neighbours near) in *.
  destruct (take xy pi1) as [xy1|] eqn:Ex; cbn [rbind]; [|discriminate].
  rewrite take_where. cbn [rbind]. fold (at_location L). set (ph := at_location L) in *.
  destruct (match_arbitrary argsort query3 xy1 (map p_pix ph)) as [[ind dis]|] eqn:EM; cbn [rbind]; [|discriminate].
  destruct (MatchTriangles.match_arbitrary_valid argsort argsort_ok query3 _ _ _ _ EM) as (Li & _ & V & INJ).
  destruct (rmapM _ ind) as [ids|] eqn:EI; cbn [rbind]; [|discriminate]. apply rmapM_Ok_Forall2 in EI.
  assert (Lx : length xy1 = length pi1). { apply take_Ok in Ex. symmetry. eapply Forall2_length; eauto. }
  assert (Lid : length ids = length ind). { symmetry. eapply Forall2_length; eauto. }
  set (matched := filter _ _).
  destruct (set_each labels _) as [labels1|] eqn:ES; cbn [rbind]; [|discriminate]. intros E.
  set (dups := filter _ (unique _)) in E.
  assert (E' : labels' = map (fun l => fold_left (fun l d => clear_id L d l) dups l) labels1).
  { rewrite <- fold_clear. injection E as <-. reflexivity. } clear E. subst labels'.
  (* what was matched *)
  assert (MI : forall k id z, In (k, id, z) matched <-> exists m, nth_error pi1 m = Some k /\ nth_error ids m = Some id /\ nth_error ind m = Some z /\ 0 <= z).
  { intros k id z. unfold matched. rewrite filter_In. cbn [snd]. rewrite Z.leb_le. split.
    - intros [H Hz]. apply In_nth_error in H as [m Hm]. exists m.
      apply combine3_nth in Hm. tauto.
    - intros (m & H1 & H2 & H3 & Hz). split; [|exact Hz]. apply nth_error_In with (n := m). now apply combine3_nth. }
  assert (NDm : NoDup (map fst (map (fun '(k, id, _) => (k, (L, id))) matched))).
  { rewrite map_map. unfold matched. assert (Lp : length ind = length pi1) by lia. clear -ND Lid Lp. clearbody pi1. revert ids ind Lid Lp. induction pi1 as [|a pi1 IH]; intros ids ind Lid Lp; [constructor|].
    destruct ids as [|b ids]; [constructor|]. destruct ind as [|c ind]; [constructor|]. apply NoDup_cons_iff in ND as [Na ND].
    cbn [combine filter snd]. specialize (IH ND ids ind ltac:(cbn in Lid; lia) ltac:(cbn in Lp; lia)).
    destruct (0 <=? c); [|exact IH]. cbn [map fst]. constructor; [|exact IH]. intros H. apply Na. apply in_map_iff in H as (((k & i) & z) & E & H). cbn in E. subst k.
    apply filter_In in H as [H _]. apply in_combine_l in H. apply in_combine_l in H. exact H. }
  destruct (MatchTriangles.set_each_spec _ _ _ ES) as (S1 & S2 & S3).
  assert (LAB : forall k loc id, nth_error labels1 k = Some (loc, id) -> (exists z, In (k, id, z) matched /\ loc = L) \/ (nth_error labels k = Some (loc, id) /\ loc <> L)).
  { intros k loc id H. destruct (in_dec Nat.eq_dec k (map fst (map (fun '(k, id, _) => (k, (L, id))) matched))) as [Hk|Hk].
    - left. apply in_map_iff in Hk as ([k' v] & E & Hk). cbn in E. subst k'. rewrite (S3 _ _ NDm Hk) in H. injection H as ->. apply in_map_iff in Hk as (((k' & id') & z) & E & Hk). injection E as -> -> ->. exists z. auto.
    - right. rewrite S2 in H by exact Hk. split; [exact H|]. eapply HL; eauto. }
  assert (IDS : forall m id z, nth_error ids m = Some id -> nth_error ind m = Some z -> 0 <= z -> exists j p, z = Z.of_nat j /\ nth_error ph j = Some p /\ id = p_id p).
  { intros m id z Hid Hz H0. pose proof (Forall2_nth _ _ _ EI _ _ _ Hz Hid) as H. cbn beta in H. rewrite (proj2 (Z.leb_le 0 z) H0) in H.
    destruct (geti ph (Z.to_nat z)) as [p|] eqn:Ep; [|discriminate]. injection H as <-. apply geti_Ok in Ep. exists (Z.to_nat z), p. split; [lia|auto]. }
  assert (NEG : forall m id z, nth_error ids m = Some id -> nth_error ind m = Some z -> z < 0 -> id = 0).
  { intros m id z Hid Hz H0. pose proof (Forall2_nth _ _ _ EI _ _ _ Hz Hid) as H. cbn beta in H. destruct (0 <=? z) eqn:E; [lia|]. congruence. }
  split; [rewrite map_length; exact S1|]. split.
  - intros k loc id H. rewrite nth_error_map in H. destruct (nth_error labels1 k) as [[loc1 id1]|] eqn:E1; [|discriminate]. injection H as H.
    destruct (LAB _ _ _ E1) as [(z & Hm & ->)|[Hk Hne]].
    + right. apply MI in Hm as (m & H1 & H2 & H3 & H4). destruct (IDS _ _ _ H2 H3 H4) as (j & p & -> & Hp & ->).
      destruct (in_dec Z.eq_dec (p_id p) dups) as [Hd|Hd].
      * rewrite clear_in in H by exact Hd. injection H as <- <-. split; [reflexivity|]. apply in_duplicates in Hd as [Hd0 Hd]. destruct (count_other _ _ m Hd H2) as (m' & Nm & Hm').
        destruct (nth_error_length ids ind m' _ Lid Hm') as [z' Hz']. destruct (Z.lt_ge_cases z' 0) as [Hn|Hn]; [pose proof (NEG _ _ _ Hm' Hz' Hn); lia|].
        destruct (IDS _ _ _ Hm' Hz' Hn) as (j' & p' & -> & Hp' & Ep'). exists f, near, xy1, ind, dis, m, j, p.
        repeat match goal with |- _ /\ _ => split; [first [assumption|reflexivity]|] end. right. split; [reflexivity|]. split; [exact Hd0|]. exists j', p'. split; [|auto]. intros ->. exact (Nm (INJ m' m j Hz' H3)).
      * rewrite clear_out in H by exact Hd. injection H as <- <-. split; [reflexivity|]. exists f, near, xy1, ind, dis, m, j, p.
        repeat match goal with |- _ /\ _ => split; [first [assumption|reflexivity]|] end. now left.
    + rewrite clear_other in H by exact Hne. injection H as <- <-. now left.
  - assert (U : forall k id, 0 < id -> nth_error (map (fun l => fold_left (fun l d => clear_id L d l) dups l) labels1) k = Some (L, id) -> ~ In id dups /\ exists m, nth_error pi1 m = Some k /\ nth_error ids m = Some id).
    { intros k id Hid H. rewrite nth_error_map in H. destruct (nth_error labels1 k) as [[loc1 id1]|] eqn:E1; [|discriminate]. injection H as H.
      destruct (LAB _ _ _ E1) as [(z & Hm & ->)|[Hk Hne]].
      - destruct (in_dec Z.eq_dec id1 dups) as [Hd|Hd].
        + rewrite clear_in in H by exact Hd. injection H as <-. lia.
        + rewrite clear_out in H by exact Hd. injection H as <-. split; [exact Hd|]. apply MI in Hm as (m & H1 & H2 & _). eauto.
      - rewrite clear_other in H by exact Hne. injection H as -> _. contradiction. }
    intros k k' id Hid Hk Hk'. destruct (U _ _ Hid Hk) as (N & m & Hm & Hi). destruct (U _ _ Hid Hk') as (_ & m' & Hm' & Hi').
    destruct (Nat.eq_dec m m') as [->|Nm]; [congruence|]. exfalso. apply N. apply in_duplicates. split; [exact Hid|]. exact (count_two _ _ _ _ Hi Hi' Nm).
Qed.

Lemma label_all_spec l : forall done labels labels',
  (forall ij, In ij l -> exists f, nth_error fiducials (snd ij) = Some f /\ p_location f <> -1) ->
  NoDup (map (fun ij => option_map p_location (nth_error fiducials (snd ij))) (done ++ l)) ->
  (forall k loc id, nth_error labels k = Some (loc, id) -> (loc, id) = (-1, 0) \/ exists ij, In ij done /\ traced ij k loc id) ->
  (forall k k' loc id, 0 < id -> nth_error labels k = Some (loc, id) -> nth_error labels k' = Some (loc, id) -> k = k') ->
  label_all argsort query3 sep xy measured pinholes fiducials labels l = Ok labels' ->
  length labels' = length labels /\
  (forall k loc id, nth_error labels' k = Some (loc, id) -> (loc, id) = (-1, 0) \/ exists ij, In ij (done ++ l) /\ traced ij k loc id) /\
  (forall k k' loc id, 0 < id -> nth_error labels' k = Some (loc, id) -> nth_error labels' k' = Some (loc, id) -> k = k').
Proof.
  induction l as [|ij l IH]; intros done labels labels' HF ND H1 H2 E.
  - cbn in E. injection E as <-. rewrite app_nil_r. auto.
  - cbn [label_all] in E. destruct (label_one _ _ _ _ _ _ _ labels ij) as [l1|] eqn:E1; cbn [rbind] in E; [|discriminate].
    destruct (HF ij (or_introl eq_refl)) as (f & Hf & Hn).
    assert (NL : forall k loc id, nth_error labels k = Some (loc, id) -> loc <> p_location f).
    { intros k loc id Hk ->. destruct (H1 _ _ _ Hk) as [Eq|(ij' & Hin & T)]; [injection Eq as Eq _; contradiction|].
      destruct T as (f' & _ & _ & _ & _ & _ & _ & _ & Hf' & EL & _). rewrite map_app in ND. cbn [map] in ND. apply NoDup_remove_2 in ND. apply ND. apply in_or_app. left.
      rewrite Hf. cbn. apply in_map_iff. exists ij'. rewrite Hf'. cbn. rewrite EL. auto. }
    destruct (label_one_spec _ _ _ _ Hf NL E1) as (L1 & T1 & U1).
    destruct (IH (done ++ [ij]) l1 labels') as (L2 & T2 & U2).
    + intros ij' H'. apply HF. now right.
    + rewrite <- app_assoc. exact ND.
    + intros k loc id Hk. destruct (T1 _ _ _ Hk) as [[Hk' _]|[-> T]].
      * destruct (H1 _ _ _ Hk') as [?|(ij' & Hin & T)]; [now left|]. right. exists ij'. split; [apply in_or_app; now left|exact T].
      * right. exists ij. split; [apply in_or_app; right; now left|exact T].
    + intros k k' loc id Hid Hk Hk'. destruct (Z.eq_dec loc (p_location f)) as [->|N]; [eapply U1; eauto|].
      destruct (T1 _ _ _ Hk) as [[Hk1 _]|[? _]]; [|contradiction]. destruct (T1 _ _ _ Hk') as [[Hk1' _]|[? _]]; [|contradiction]. eapply H2; eauto.
    + exact E.
    + rewrite <- app_assoc in T2. cbn [app] in T2. split; [congruence|]. split; [exact T2|exact U2].
Qed.
End Label.

(** *** Candidates *)
Local Open Scope R_scope.
Lemma below_true d m : below d m = true <-> exists x, d = Some x /\ x < m.
Proof. destruct d as [x|]; cbn; [rewrite Rltb_true|]; split; [eauto|intros (y & [= <-] & H); exact H|discriminate|intros (y & ? & _); discriminate]. Qed.

Section Candidates.
Variable query4 : list point -> R -> point -> list (edist * nat).
Hypothesis query_ok : near_query query4.

Lemma found_In r j : In j (found r) <-> exists d, In (Some d, j) r.
Proof.
  unfold found. rewrite in_map_iff. split.
  - intros ([[d|] j'] & E & H); cbn in E; subst j'; apply filter_In in H as [H F]; [eauto|discriminate].
  - intros (d & H). exists (Some d, j). split; [reflexivity|]. apply filter_In. auto.
Qed.
Lemma neighbours_found sep xy p : neighbours sep (query4 xy sep p) = found (query4 xy sep p).
Proof.
  unfold neighbours, found. f_equal. destruct (query_ok xy sep p) as (_ & _ & H & _). cbv zeta in H. revert H. generalize (query4 xy sep p). intros r H.
  apply filter_ext_in. intros [[d|] j] Hin; cbn; [|reflexivity]. apply Rltb_true. destruct (H _ _ Hin) as (_ & _ & _ & ?). assumption.
Qed.
Lemma count_found sep xy p : count (fun q => below (fst q) sep) (query4 xy sep p) = Z.of_nat (length (found (query4 xy sep p))).
Proof. rewrite <- neighbours_found. unfold neighbours, count. now rewrite map_length. Qed.
Lemma found_le sep xy p : (length (found (query4 xy sep p)) <= 4)%nat.
Proof. destruct (query_ok xy sep p) as (L & _). cbv zeta in L. rewrite <- L. unfold found. rewrite map_length. apply filter_length_le. Qed.
Lemma found_close sep xy p k : In k (found (query4 xy sep p)) -> exists q, nth_error xy k = Some q /\ distance p q < sep.
Proof. intros H. apply found_In in H as (d & H). destruct (query_ok xy sep p) as (_ & _ & Q & _). destruct (Q _ _ H) as (q & Hq & -> & Hd). eauto. Qed.
Lemma crowded_found sep xy p : crowded xy sep p <-> length (found (query4 xy sep p)) = 4%nat.
Proof.
  destruct (query_ok xy sep p) as (L & ND & Q & C). cbv zeta in *. split.
  - intros (ks & NDk & Lk & H). destruct (Nat.eq_dec (length (found (query4 xy sep p))) 4) as [|N]; [assumption|]. exfalso.
    assert (I : incl ks (found (query4 xy sep p))).
    { intros k Hk. destruct (in_dec Nat.eq_dec k (found (query4 xy sep p))) as [|Hn]; [assumption|]. destruct (H k Hk) as (q & Hq & Hd). destruct (C _ _ Hq Hd Hn) as [E _]. contradiction. }
    apply NoDup_incl_length in I; [|exact NDk]. pose proof (found_le sep xy p). lia.
  - intros E. exists (found (query4 xy sep p)). split; [exact ND|]. split; [exact E|]. intros k Hk. now apply found_close.
Qed.
Lemma candidates_spec sep xy i : In i (where_ (fun near => (4 <=? count (fun q => below (fst q) sep) near)%Z) (map (query4 xy sep) xy)) <-> exists c, nth_error xy i = Some c /\ crowded xy sep c.
Proof.
  rewrite where_spec. split.
  - intros (near & H & C). rewrite nth_error_map in H. destruct (nth_error xy i) as [c|]; [|discriminate]. injection H as <-. exists c. split; [reflexivity|].
    apply crowded_found. rewrite count_found in C. pose proof (found_le sep xy c). apply Z.leb_le in C. lia.
  - intros (c & H & C). exists (query4 xy sep c). rewrite nth_error_map, H. split; [reflexivity|]. rewrite count_found. apply crowded_found in C. rewrite C. reflexivity.
Qed.
End Candidates.

(** *** The iterative fit *)
Lemma corr_affine c : affine_map (corr_apply c).
Proof.
  unfold corr_apply, mat2, rot2deg. set (C := cosdeg _). set (S := sindeg _).
  exists (c_dx c), (c_sxx c * C + c_sxy c * S), (c_sxy c * C - c_sxx c * S), (c_dy c), (c_sxy c * C + c_syy c * S), (c_syy c * C - c_sxy c * S).
  intros [x y]. cbn [fst snd]. f_equal; ring.
Qed.
Lemma affine_id : affine_map (fun p => p).
Proof. exists 0, 1, 0, 0, 0, 1. intros [x y]. cbn. f_equal; ring. Qed.
Lemma affine_comp A B : affine_map A -> affine_map B -> affine_map (fun p => A (B p)).
Proof.
  intros (a & b & c & d & e & f & HA) (a' & b' & c' & d' & e' & f' & HB).
  exists (a + b * a' + c * d'), (b * b' + c * e'), (b * c' + c * f'), (d + e * a' + f * d'), (e * b' + f * e'), (e * c' + f * f').
  intros [x y]. rewrite HA, HB. cbn [fst snd]. f_equal; ring.
Qed.
Lemma corr_fit_nil c : corr_fit c [] [] [] [] false = Err LinAlgError.
Proof. apply (SimpleCorr.fit_collinear []). intros N. destruct (N 1 0 0) as [H _]; [intros d []|lra]. Qed.

Section Refine.
Variable argsort : forall K, (K -> K -> bool) -> list K -> list nat.
Variable query2 : list point -> point -> edist * nat.
Lemma refine_affine n : forall xy1 xy2 saved r, refine argsort query2 n xy1 xy2 saved = Ok r -> exists A, affine_map A /\ r = map A xy2.
Proof.
  induction n as [|n IH]; intros xy1 xy2 saved r; cbn [refine].
  - intros [= <-]. exists (fun p => p). split; [apply affine_id|]. now rewrite map_id.
  - destruct (match_same_system _ _ _ _ _) as [[ind dis]|]; cbn [rbind]; [|discriminate].
    set (mdist := median_distance ind dis). clearbody mdist. set (sel := where_ _ _). clearbody sel.
    destruct (take ind sel) as [ind2|]; cbn [rbind]; [|discriminate]. destruct (take xy2 _) as [a|]; cbn [rbind]; [|discriminate].
    destruct (take xy1 sel) as [b|]; cbn [rbind]; [|discriminate]. destruct (corr_fit _ _ _ _ _ _) as [corr|]; cbn [rbind]; [|discriminate].
    intros H.
    assert (G : r = map (corr_apply corr) xy2 \/ exists s, refine argsort query2 n xy1 (map (corr_apply corr) xy2) s = Ok r).
    { destruct mdist as [m|]; [|eauto]. destruct (Rltb _ _); [|eauto]. injection H as <-. now left. }
    destruct G as [->|(s & G)]; [exists (corr_apply corr); split; [apply corr_affine|reflexivity]|].
    destruct (IH _ _ _ _ G) as (A & HA & ->). exists (fun p => A (corr_apply corr p)). split; [apply affine_comp; [exact HA|apply corr_affine]|]. apply map_map.
Qed.
Lemma refine_nil n xy2 saved : refine argsort query2 (S n) [] xy2 saved = Err LinAlgError.
Proof. cbn [refine]. unfold match_same_system. cbn -[corr_fit]. rewrite corr_fit_nil. reflexivity. Qed.
End Refine.

(** *** The whole search, for given tables *)
Lemma combine_snd {A B} (l : list A) (m : list B) : length l = length m -> map snd (combine l m) = m.
Proof. revert m. induction l as [|a l IH]; intros [|b m] E; try discriminate; [reflexivity|]. cbn. f_equal. apply IH. now injection E. Qed.
Lemma combine_nth2 {A B} n : forall (l : list A) (m : list B) a b, nth_error (combine l m) n = Some (a, b) <-> nth_error l n = Some a /\ nth_error m n = Some b.
Proof. induction n as [|n IH]; intros [|x l] [|y m] a b; cbn; try (split; [discriminate|intros []; discriminate]); [|apply IH]. split; [intros [= -> ->]; auto|intros [[= ->] [= ->]]; reflexivity]. Qed.
Lemma locations_NoDup fiducials sel : NoDup (map p_location fiducials) -> NoDup sel -> (forall j, In j sel -> nth_error fiducials j <> None) ->
  NoDup (map (fun j => option_map p_location (nth_error fiducials j)) sel).
Proof.
  intros ND. induction 1 as [|j l Hj _ IH]; intros H; cbn [map]; constructor; [|apply IH; intros; apply H; now right].
  intros Hin. apply in_map_iff in Hin as (j' & E & Hin). destruct (nth_error fiducials j') as [f'|] eqn:E'; [|exact (H j' (or_intror Hin) E')].
  destruct (nth_error fiducials j) as [f|] eqn:E0; [|exact (H j (or_introl eq_refl) E0)]. injection E as E. apply Hj. replace j with j'; [exact Hin|].
  rewrite NoDup_nth_error in ND. apply ND; [rewrite map_length; apply nth_error_Some; congruence|]. rewrite !nth_error_map, E', E0. cbn. congruence.
Qed.
Section FindWith.
Variable argsort : forall K, (K -> K -> bool) -> list K -> list nat.
Hypothesis argsort_ok : is_argsort argsort.
Variable query2 : list point -> point -> edist * nat.
Hypothesis query2_ok : nearest_query query2.
Variable query3 : list descr -> descr -> edist * nat.
Variable query4 : list point -> R -> point -> list (edist * nat).
Hypothesis query4_ok : near_query query4.

Lemma find_with_spec sep pinholes fiducials xy marks :
  NoDup (map p_location fiducials) -> (forall f, In f fiducials -> p_location f <> (-1)%Z) ->
  find_with argsort query2 query3 query4 sep pinholes fiducials xy = Ok marks ->
  exists labels A, marks = map marks_of labels /\ length labels = length xy /\ affine_map A /\
    (forall k loc id, nth_error labels k = Some (loc, id) -> (loc, id) = (-1, 0)%Z \/
       exists i j c f, nth_error xy i = Some c /\ nth_error fiducials j = Some f /\ nearest_crowded xy sep (A (p_pix f)) c /\ distance (A (p_pix f)) c < 10 /\
         traced argsort query3 sep xy (map (query4 xy sep) xy) pinholes fiducials (i, j) k loc id) /\
    (forall k k' loc id, (0 < id)%Z -> nth_error labels k = Some (loc, id) -> nth_error labels k' = Some (loc, id) -> k = k').
Proof.
  intros NDL HL. unfold find_with. set (measured := map (query4 xy sep) xy). set (cand := where_ _ measured).
  assert (CS : forall i, In i cand <-> exists c, nth_error xy i = Some c /\ crowded xy sep c) by (intros i; apply candidates_spec; exact query4_ok).
  assert (CN : NoDup cand) by apply where_NoDup. clearbody cand.
  destruct (take xy cand) as [xy1|] eqn:Ex; cbn [rbind]; [|discriminate]. apply take_Ok in Ex.
  destruct (refine _ _ 20 _ _ _) as [xy2|] eqn:ER; cbn [rbind]; [|discriminate].
  assert (N1 : xy1 <> []). { intros ->. rewrite refine_nil in ER. discriminate. }
  destruct (refine_affine _ _ _ _ _ _ _ ER) as (A & HA & ->). clear ER.
  destruct (Match.match_same_system_spec argsort argsort_ok query2 query2_ok (map A (map p_pix fiducials)) xy1 N1) as (ind & dis & EM & Li & Ld & M1 & M2 & _).
  rewrite EM. cbn [rbind]. set (sel := where_ _ _).
  destruct (take ind sel) as [ind1|] eqn:Ei; cbn [rbind]; [|discriminate]. apply take_Ok in Ei.
  destruct (take cand (map Z.to_nat ind1)) as [idx1|] eqn:Ec; cbn [rbind]; [|discriminate]. apply take_Ok in Ec.
  destruct (label_all _ _ _ _ _ _ _ _ _) as [labels|] eqn:EL; cbn [rbind]; [|discriminate]. intros [= <-].
  (* the matched pairs *)
  assert (PAIR : forall i j, In (i, j) (combine idx1 sel) -> exists c f, nth_error xy i = Some c /\ nth_error fiducials j = Some f /\ nearest_crowded xy sep (A (p_pix f)) c /\ distance (A (p_pix f)) c < 10).
  { intros i j H. apply In_nth_error in H as [n Hn].
    assert (Hn1 : nth_error idx1 n = Some i /\ nth_error sel n = Some j).
    { now apply combine_nth2. }
    destruct Hn1 as [Hi Hj]. destruct (nth_error_length sel ind1 n j (Forall2_length _ _ _ Ei) Hj) as [z Hz].
    pose proof (Forall2_nth _ _ _ Ei _ _ _ Hj Hz) as Qz. cbn beta in Qz.
    assert (Qi : nth_error cand (Z.to_nat z) = Some i). { refine (Forall2_nth _ _ _ Ec n _ _ _ Hi). now rewrite nth_error_map, Hz. }
    assert (Hs : In j sel) by (eapply nth_error_In; eauto). apply where_spec in Hs as ([z' d] & Hc & T). apply andb_prop in T as [T0 T1]. apply Z.leb_le in T0. apply below_true in T1 as (x & -> & Hx).
    assert (Hc' : nth_error ind j = Some z' /\ nth_error dis j = Some (Some x)).
    { now apply combine_nth2. }
    destruct Hc' as [Hz' Hd]. assert (z' = z) by congruence. subst z'.
    destruct (nth_error_length ind (map A (map p_pix fiducials)) j z Li Hz') as [q Hq]. rewrite map_map, nth_error_map in Hq. destruct (nth_error fiducials j) as [f|] eqn:Ef; [|discriminate]. injection Hq as <-.
    destruct (M1 j (A (p_pix f)) z (Some x)) as [[_ N]|(m & q & -> & Hq & Ed & Nq)]; [rewrite map_map, nth_error_map, Ef; reflexivity|exact Hz'|exact Hd|discriminate|].
    injection Ed as ->. rewrite Nat2Z.id in Qi. pose proof (Forall2_nth _ _ _ Ex _ _ _ Qi Hq) as Hc0. cbn beta in Hc0.
    exists q, f. split; [exact Hc0|]. split; [reflexivity|]. split; [|exact Hx]. split; [eapply nth_error_In; eauto|].
    destruct (proj1 (CS i) (nth_error_In _ _ Qi)) as (c & Hc1 & Cr). assert (c = q) by congruence. subst c. split; [exact Cr|].
    intros c' Hc' Cr'. apply Nq. apply In_nth_error in Hc' as [n' Hn']. pose proof (proj2 (CS n') (ex_intro _ c' (conj Hn' Cr'))) as Hin.
    apply In_nth_error in Hin as [t Ht]. destruct (nth_error_length cand xy1 t n' (Forall2_length _ _ _ Ex) Ht) as [q' Hq']. pose proof (Forall2_nth _ _ _ Ex _ _ _ Ht Hq') as E'. cbn beta in E'.
    assert (q' = c') by congruence. subst q'. eapply nth_error_In; eauto. }
  assert (Lc : length idx1 = length sel) by (rewrite <- (Forall2_length _ _ _ Ec), map_length, <- (Forall2_length _ _ _ Ei); reflexivity).
  destruct (label_all_spec argsort argsort_ok query3 sep xy measured pinholes fiducials) with (l := combine idx1 sel) (done := @nil (nat * nat)) (labels := map (fun _ : point => (-1, 0)%Z) xy) (labels' := labels) as (L1 & T1 & U1).
  - intros i near Hn. unfold measured in Hn. rewrite nth_error_map in Hn. destruct (nth_error xy i) as [c|]; [|discriminate]. injection Hn as <-. rewrite neighbours_found by exact query4_ok. apply query4_ok.
  - intros [i j] H. destruct (PAIR _ _ H) as (c & f & _ & Hf & _). exists f. split; [exact Hf|]. apply HL. eapply nth_error_In; eauto.
  - cbn [app]. rewrite <- (map_map snd (fun j => option_map p_location (nth_error fiducials j))), combine_snd by exact Lc. apply locations_NoDup; [exact NDL|apply where_NoDup|].
    intros j Hj. apply In_nth_error in Hj as [n Hn]. destruct (nth_error_length sel idx1 n j (eq_sym Lc) Hn) as [i Hi].
    destruct (PAIR i j) as (c & f & _ & Hf & _); [|congruence]. apply nth_error_In with (n := n). now apply combine_nth2.
  - intros k loc id H. rewrite nth_error_map in H. destruct (nth_error xy k); [|discriminate]. injection H as <- <-. now left.
  - intros k k' loc id H0 H. rewrite nth_error_map in H. destruct (nth_error xy k); [|discriminate]. injection H as <- <-. lia.
  - exact EL.
  - exists labels, A. split; [reflexivity|]. split; [rewrite L1; apply map_length|]. split; [exact HA|]. split; [|exact U1].
    intros k loc id H. destruct (T1 _ _ _ H) as [|([i j] & Hin & T)]; [now left|]. right. destruct (PAIR _ _ Hin) as (c & f & Hc & Hf & Hn & Hd). exists i, j, c, f. auto.
Qed.
End FindWith.
