(** bin/detect_and_match_moving_positioners: spots that moved, and the positioners they belong to (C115). *)
From Verif.Model Require Import DetectMoving.
From Verif.Spec Require Import Numpy Match.
From Verif.Proofs Require Import Prelude RealNum Numpy Match KDTree.
From Coq Require Import Lra Lia.
Local Open Scope R_scope.
Local Open Scope list_scope.

(** [b], before, and [a], after the moves, are images of a spot that moved by an accepted distance. *)
Definition moved_spot fvc2fp (o : limits) (pairs : list (R * R * (R * R))) (a : R * R) : Prop :=
  exists b, In (a, b) pairs /\ min_move o < distance (fvc2fp a) (fvc2fp b) < max_move o.
(** The positioners that were moved. *)
Definition movers (metrology : list device) (moved : list string) : list device := filter (fun d => existsb (String.eqb (d_id d)) moved) metrology.

Lemma dist_distance p q : separation p q = distance p q.
Proof. unfold separation, distance. f_equal. ring. Qed.
Lemma dist_distance' p q : separation p q = distance q p.
Proof. reflexivity. Qed.
Lemma detected_In fvc2fp o pairs a : In a (detected fvc2fp o pairs) <-> moved_spot fvc2fp o pairs a.
Proof.
  unfold detected, moved_spot. rewrite in_map_iff. split.
  - intros ([x b] & <- & H). apply filter_In in H as [I H]. rewrite dist_distance in H. apply andb_prop in H as [H1 H2]. apply Rltb_true in H1, H2. exists b. auto.
  - intros (b & I & H1 & H2). exists (a, b). split; [reflexivity|]. apply filter_In. split; [exact I|]. rewrite dist_distance. apply andb_true_intro. split; apply Rltb_true; assumption.
Qed.
Lemma combine_nth_error {A B} (l : list A) : forall (m : list B) n x y, nth_error (combine l m) n = Some (x, y) <-> nth_error l n = Some x /\ nth_error m n = Some y.
Proof. induction l as [|a l IH]; intros [|b m] [|n] x y; cbn; try (split; [discriminate|intros [? ?]; discriminate]); [split; [intros [= -> ->]; auto|intros [[= ->] [= ->]]; reflexivity]|apply IH]. Qed.
Lemma Forall2_nth {A B} (P : A -> B -> Prop) l m : Forall2 P l m -> forall n, match nth_error l n, nth_error m n with Some a, Some b => P a b | None, None => True | _, _ => False end.
Proof. induction 1 as [|a b l m H F IH]; intros [|n]; cbn; auto. apply IH. Qed.

(** The rows of the output, and what becomes of each spot that moved. *)
Theorem C115_rows argsort query2 fvc2fp fp2ptl o metrology moved pairs : is_argsort argsort -> nearest_query query2 -> let spots := movers metrology moved in spots <> [] ->
  exists out, report argsort query2 fvc2fp fp2ptl o metrology moved pairs = Ok out /\ out <> Some [] /\
  let rows := match out with Some l => l | None => [] end in
  (forall r, In r rows -> In (r_device r) spots /\ moved_spot fvc2fp o pairs (r_pix r) /\ r_fp r = fvc2fp (r_pix r) /\
     nearest (map d_xy spots) (r_fp r) (d_xy (r_device r)) /\ min_dist o < distance (r_fp r) (d_xy (r_device r)) < max_radius o /\
     r_ptl r = fp2ptl (d_petal (r_device r)) (r_fp r) /\ r_qs r = xy2qs (fst (r_ptl r)) (snd (r_ptl r)) /\ r_flags r = 4%Z) /\
  (NoDup (map d_id metrology) -> NoDup (map (fun r => d_id (r_device r)) rows) /\
     forall r a, In r rows -> moved_spot fvc2fp o pairs a -> (forall d, In d spots -> d <> r_device r -> distance (fvc2fp a) (d_xy (r_device r)) < distance (fvc2fp a) (d_xy d)) ->
     distance (r_fp r) (d_xy (r_device r)) <= distance (fvc2fp a) (d_xy (r_device r))) /\
  (forall a, moved_spot fvc2fp o pairs a -> exists d a', In d spots /\ nearest (map d_xy spots) (fvc2fp a) (d_xy d) /\ moved_spot fvc2fp o pairs a' /\
     distance (fvc2fp a') (d_xy d) <= distance (fvc2fp a) (d_xy d) /\ (min_dist o < distance (fvc2fp a') (d_xy d) < max_radius o -> exists r, In r rows /\ r_device r = d /\ r_pix r = a')).
Proof.
  intros Ha Hq spots Ne. unfold report. fold (movers metrology moved). fold spots. set (pix := detected fvc2fp o pairs). set (cs := map d_xy spots). set (fps := map fvc2fp pix). unfold match_centres.
  set (qs := map (query2 cs) fps). set (ds := map fst qs). set (ind0 := map (fun di => Z.of_nat (snd di)) qs).
  assert (Nc : cs <> []) by (unfold cs; destruct spots; [congruence|discriminate]).
  assert (Q : forall k a, nth_error pix k = Some a -> exists j d, nth_error spots j = Some d /\ nearest cs (fvc2fp a) (d_xy d) /\ nth_error ind0 k = Some (Z.of_nat j) /\ nth_error ds k = Some (Some (distance (fvc2fp a) (d_xy d)))).
  { intros k a Ea. destruct Hq as [_ Hq]. destruct (Hq cs (fvc2fp a) Nc) as (j & q & Eq & Ej & Nq). unfold cs in Ej. rewrite nth_error_map in Ej. destruct (nth_error spots j) as [d|] eqn:Ed; [|discriminate]. cbn in Ej. injection Ej as <-. exists j, d. split; [exact Ed|]. split; [exact Nq|].
    unfold ind0, ds, qs, fps. rewrite !nth_error_map, Ea. cbn. rewrite Eq. auto. }
  assert (L0 : length ds = length ind0) by (unfold ds, ind0; now rewrite !map_length). assert (Lp : length ind0 = length pix) by (unfold ind0, qs, fps; now rewrite !map_length).
  destruct (dedupe_spec argsort Ha ds ind0 L0) as (ind & E & L & H1 & H2). { intros k z. unfold ind0. rewrite nth_error_map. destruct (nth_error qs k); cbn; [|discriminate]. intros [= <-]. lia. }
  rewrite E. cbn [rbind]. set (matched := combine ind ds). set (good := where_ _ matched).
  assert (G : forall k, In k good <-> exists a j d, nth_error pix k = Some a /\ nth_error spots j = Some d /\ nearest cs (fvc2fp a) (d_xy d) /\ nth_error ind k = Some (Z.of_nat j) /\ distance (fvc2fp a) (d_xy d) < max_radius o).
  { intros k. unfold good. rewrite where_spec. split.
    - intros ([z e] & Em & H). apply andb_prop in H as [Hz He]. apply Z.leb_le in Hz. apply combine_nth_error in Em as [Ei Ed]. destruct (H1 _ _ Ei) as [->|Ei0]; [lia|]. destruct (nth_error pix k) as [a|] eqn:Ea.
      + destruct (Q k a Ea) as (j & d & Ej & Nd & Ei' & Ed'). rewrite Ei0 in Ei'. injection Ei' as ->. rewrite Ed in Ed'. injection Ed' as ->. cbn in He. apply Rltb_true in He. exists a, j, d. auto.
      + exfalso. apply nth_error_None in Ea. assert (k < length ind0)%nat by (apply nth_error_Some; congruence). lia.
    - intros (a & j & d & Ea & Ej & Nd & Ei & Hd). destruct (Q k a Ea) as (j' & d' & Ej' & Nd' & Ei' & Ed'). destruct (H1 _ _ Ei) as [X|X]; [lia|]. rewrite Ei' in X. injection X as X. apply Nat2Z.inj in X. subst j'. rewrite Ej in Ej'. injection Ej' as <-. exists (Z.of_nat j, Some (distance (fvc2fp a) (d_xy d))). split; [now apply combine_nth_error|]. cbn. apply andb_true_intro. split; [apply Z.leb_le; lia|]. now apply Rltb_true. }
  assert (Lm : length matched = length pix) by (unfold matched; rewrite combine_length; lia).
  assert (Gl : Forall (fun k => (k < length pix)%nat) good) by (apply Forall_forall; intros k I; apply G in I as (a & _ & _ & Ea & _); apply nth_error_Some; congruence).
  destruct (take_total (map fst matched) good) as [idx Ei]; [rewrite map_length, Lm; exact Gl|]. rewrite Ei. cbn [rbind]. destruct (take_total pix good Gl) as [px Ep]. rewrite Ep. cbn [rbind]. apply take_Ok in Ei, Ep.
  assert (Idx : Forall2 (fun k z => nth_error ind k = Some z) good idx). { eapply Forall2_impl; [|exact Ei]. cbn. intros k z H. rewrite nth_error_map in H. destruct (nth_error matched k) as [[z' e]|] eqn:Em; [|discriminate]. cbn in H. injection H as ->. now apply combine_nth_error in Em as [? _]. }
  assert (Rel : Forall2 (fun z k => exists j d, z = Z.of_nat j /\ nth_error spots j = Some d /\ nth_error ind k = Some z) idx good).
  { clear - Idx G. assert (G' : forall k, In k good -> exists j d, nth_error spots j = Some d /\ nth_error ind k = Some (Z.of_nat j)) by (intros k I; apply G in I as (a & j & d & _ & A & _ & B & _); eauto). clear G. induction Idx as [|k z good idx H F IH]; constructor; [|apply IH; intros; apply G'; now right]. destruct (G' k (or_introl eq_refl)) as (j & d & A & B). rewrite H in B. injection B as ->. exists j, d. auto. }
  destruct (take_total spots (map Z.to_nat idx)) as [ss Es]. { apply Forall_forall. intros i I. apply in_map_iff in I as (z & <- & I). clear - Rel I. induction Rel as [|z' k idx good (j & d & -> & A & _) F IH]; [destruct I|]. destruct I as [<-|I]; [rewrite Nat2Z.id; apply nth_error_Some; congruence|auto]. }
  rewrite Es. cbn [rbind]. apply take_Ok in Es. set (rows := map _ (combine ss px)). set (sel := filter _ rows).
  eexists. split; [reflexivity|]. split; [destruct sel; discriminate|]. cbv zeta. assert (SR : match match sel with [] => None | _ => Some sel end with Some l => l | None => [] end = sel) by now destruct sel. rewrite SR. clear SR.
  assert (RI : forall r, In r rows <-> exists k a j d, nth_error pix k = Some a /\ nth_error spots j = Some d /\ nearest cs (fvc2fp a) (d_xy d) /\ nth_error ind k = Some (Z.of_nat j) /\ distance (fvc2fp a) (d_xy d) < max_radius o /\ r = row_of fvc2fp fp2ptl d a).
  { intros r. unfold rows. rewrite in_map_iff. split.
    - intros ([d a] & <- & I). apply In_nth_error in I as [n En]. apply combine_nth_error in En as [Ed Ea]. pose proof (Forall2_nth _ _ _ Es n) as X. rewrite Ed, nth_error_map in X. destruct (nth_error idx n) as [z|] eqn:Ez; cbn in X; [|contradiction].
      pose proof (Forall2_nth _ _ _ Idx n) as Y. rewrite Ez in Y. destruct (nth_error good n) as [k|] eqn:Ek; [|contradiction]. pose proof (Forall2_nth _ _ _ Ep n) as W. rewrite Ek, Ea in W. apply nth_error_In, G in Ek as (a' & j & d' & A1 & A2 & A3 & A4 & A5). rewrite W in A1. injection A1 as <-. rewrite Y in A4. injection A4 as ->. rewrite Nat2Z.id, A2 in X. injection X as ->. exists k, a, j, d. auto 10.
    - intros (k & a & j & d & A1 & A2 & A3 & A4 & A5 & ->). assert (I : In k good) by (apply G; exists a, j, d; auto). apply In_nth_error in I as [n Ek]. pose proof (Forall2_nth _ _ _ Idx n) as Y. rewrite Ek in Y. destruct (nth_error idx n) as [z|] eqn:Ez; [|contradiction]. rewrite A4 in Y. injection Y as <-.
      pose proof (Forall2_nth _ _ _ Es n) as X. rewrite nth_error_map, Ez in X. cbn in X. rewrite Nat2Z.id, A2 in X. destruct (nth_error ss n) as [d'|] eqn:Ed; [|contradiction]. injection X as <-. pose proof (Forall2_nth _ _ _ Ep n) as W. rewrite Ek, A1 in W. destruct (nth_error px n) as [a'|] eqn:Ea; [|contradiction]. injection W as <-.
      exists (d, a). split; [reflexivity|]. apply (nth_error_In _ n). now apply combine_nth_error. }
  split; [|split].
  - intros r I. apply filter_In in I as [I Hm]. apply Rltb_true in Hm. rewrite dist_distance' in Hm. apply RI in I as (k & a & j & d & A1 & A2 & A3 & A4 & A5 & ->). cbn [row_of r_device r_fp r_pix r_ptl r_qs r_flags] in *. split; [now apply nth_error_In in A2|]. split; [apply nth_error_In in A1; now apply detected_In|]. repeat (split; [solve [reflexivity|exact A3|split; assumption]|]). reflexivity.
  - intros ND. assert (NS : NoDup (map d_id spots)). { clear - ND. unfold spots, movers. induction metrology as [|d l IH]; [constructor|]. cbn [map] in ND. inversion ND as [|? ? Nd ND']; subst. cbn [filter]. destruct (existsb _ moved); [|auto]. cbn [map]. constructor; [|auto]. intros I. apply Nd. apply in_map_iff in I as (x & Ex & I). apply filter_In in I as [I _]. apply in_map_iff. eauto. }
    assert (NI : NoDup idx). { apply NoDup_nth_error. intros n n' Hn En. apply nth_error_Some in Hn. destruct (nth_error idx n) as [z|] eqn:Ez; [|congruence]. symmetry in En. pose proof (Forall2_nth _ _ _ Rel n) as X. pose proof (Forall2_nth _ _ _ Rel n') as Y. rewrite Ez in X. rewrite En in Y. destruct (nth_error good n) as [k|] eqn:Ek; [|contradiction]. destruct (nth_error good n') as [k'|] eqn:Ek'; [|contradiction]. destruct X as (j & d & -> & _ & X). destruct Y as (_ & _ & _ & _ & Y).
      assert (k = k') as <-. { destruct (H1 _ _ X) as [F|F]; [lia|]. destruct (H2 _ _ F) as (k0 & _ & _ & U & _). now rewrite (U _ X), (U _ Y). }
      pose proof (where_NoDup (fun '(z, d) => ((0 <=? z)%Z && nearer d (max_radius o))%bool) matched) as NG. fold good in NG. rewrite NoDup_nth_error in NG. apply NG; [apply nth_error_Some; congruence|congruence]. }
    assert (NDs : NoDup (map d_id ss)). { assert (Z0 : forall z, In z idx -> (0 <= z)%Z) by (intros z I; clear - Rel I; induction Rel as [|z' k idx good (j & d & -> & _) F IH]; [destruct I|]; destruct I as [<-|I]; [lia|auto]). clear - Es NI NS Z0. apply NoDup_nth_error. intros n n' Hn En. rewrite map_length in Hn. rewrite !nth_error_map in En. apply nth_error_Some in Hn. destruct (nth_error ss n) as [d|] eqn:Ed; [|congruence]. cbn in En. destruct (nth_error ss n') as [d'|] eqn:Ed'; [|discriminate]. cbn in En. injection En as En.
      pose proof (Forall2_nth _ _ _ Es n) as X. pose proof (Forall2_nth _ _ _ Es n') as Y. rewrite Ed, nth_error_map in X. rewrite Ed', nth_error_map in Y. destruct (nth_error idx n) as [z|] eqn:Ez; [|contradiction]. destruct (nth_error idx n') as [z'|] eqn:Ez'; [|contradiction]. cbn in X, Y.
      assert (Z.to_nat z = Z.to_nat z'). { rewrite NoDup_nth_error in NS. apply NS; [rewrite map_length; apply nth_error_Some; congruence|]. rewrite !nth_error_map, X, Y. cbn. congruence. }
      assert (z = z') by (apply nth_error_In in Ez, Ez'; apply Z0 in Ez, Ez'; lia). subst z'. rewrite NoDup_nth_error in NI. apply NI; [apply nth_error_Some; congruence|congruence]. }
    assert (Er : map (fun r => d_id (r_device r)) rows = map d_id ss). { assert (length ss = length px) by (apply Forall2_length in Es, Ep, Idx; rewrite map_length in Es; lia). unfold rows. clear - H. revert px H. induction ss as [|d ss IH]; intros [|p px] H; try discriminate; [reflexivity|]. cbn. f_equal. apply IH. now injection H. }
    split.
    2: { intros r a I Ma Hd. apply filter_In in I as [I _]. apply RI in I as (k & b & j & d & A1 & A2 & A3 & A4 & A5 & ->). cbn [row_of r_device r_fp] in *. apply detected_In in Ma. fold pix in Ma. apply In_nth_error in Ma as [i Ea]. destruct (Q i a Ea) as (j' & d' & Ej & [Id' Nd] & Ei0 & Ed).
      assert (d_id d' = d_id d). { destruct (string_dec (d_id d') (d_id d)) as [|N]; [assumption|]. exfalso. assert (X : distance (fvc2fp a) (d_xy d) < distance (fvc2fp a) (d_xy d')) by (apply Hd; [now apply nth_error_In in Ej|congruence]). assert (Y : In (d_xy d) cs) by (unfold cs; apply in_map; now apply nth_error_In in A2). apply Nd in Y. lra. }
      assert (j' = j). { rewrite NoDup_nth_error in NS. apply NS; [rewrite map_length; apply nth_error_Some; congruence|]. rewrite !nth_error_map, Ej, A2. cbn. congruence. }
      subst j'. rewrite A2 in Ej. injection Ej as <-. destruct (H2 _ _ Ei0) as (k' & B1 & B2 & B3 & B4). assert (k = k') as <- by now apply B3. destruct (Q k b A1) as (j' & d'' & Ej' & _ & Ei' & Ed'). rewrite B1 in Ei'. injection Ei' as X. apply Nat2Z.inj in X. subst j'. rewrite A2 in Ej'. injection Ej' as <-. specialize (B4 _ _ Ed Ed'). cbn in B4. apply Rltb_false in B4. lra. }
    rewrite <- Er in NDs. clear - NDs. unfold sel. induction rows as [|r rows IH]; [constructor|]. cbn [map] in NDs. inversion NDs as [|? ? N1 N2]; subst. cbn [filter]. destruct (Rltb _ _); [|auto]. cbn [map]. constructor; [|auto]. intros I. apply N1. apply in_map_iff in I as (x & Ex & I). apply filter_In in I as [I _]. apply in_map_iff. eauto.
  - intros a Ma. apply detected_In in Ma. fold pix in Ma. apply In_nth_error in Ma as [k Ea]. destruct (Q k a Ea) as (j & d & Ej & Nd & Ei0 & Ed). destruct (H2 _ _ Ei0) as (k' & B1 & B2 & _ & B4). assert (exists a', nth_error pix k' = Some a') as [a' Ea'] by (assert (k' < length ind0)%nat by (apply nth_error_Some; congruence); destruct (nth_error pix k') eqn:X; [eauto|apply nth_error_None in X; lia]).
    destruct (Q k' a' Ea') as (j' & d' & Ej' & Nd' & Ei' & Ed'). rewrite B1 in Ei'. injection Ei' as X. apply Nat2Z.inj in X. subst j'. rewrite Ej in Ej'. injection Ej' as <-. specialize (B4 _ _ Ed Ed'). cbn in B4. apply Rltb_false in B4. exists d, a'. split; [now apply nth_error_In in Ej|]. split; [exact Nd|]. split; [apply detected_In; fold pix; now apply nth_error_In in Ea'|]. split; [lra|].
    intros [M1 M2]. exists (row_of fvc2fp fp2ptl d a'). split; [|split; reflexivity]. apply filter_In. split; [apply RI; exists k', a', j, d; auto 10|]. apply Rltb_true. rewrite dist_distance'. exact M1.
Qed.
Print Assumptions C115_rows.
(** Without a moved positioner in the metrology nothing is written. *)
Theorem C115_none argsort query2 fvc2fp fp2ptl o metrology moved pairs : is_argsort argsort -> nearest_query query2 -> movers metrology moved = [] ->
  report argsort query2 fvc2fp fp2ptl o metrology moved pairs = Ok None.
Proof.
  intros Ha [Hq _] E. unfold report. fold (movers metrology moved). rewrite E. cbn [map]. set (pix := detected fvc2fp o pairs). unfold match_centres. set (qs := map (query2 []) (map fvc2fp pix)). set (ds := map fst qs). set (ind0 := map (fun di => Z.of_nat (snd di)) qs).
  destruct (dedupe_spec argsort Ha ds ind0) as (ind & -> & L & _ & _). { unfold ds, ind0. now rewrite !map_length. } { intros k z. unfold ind0. rewrite nth_error_map. destruct (nth_error qs k); cbn; [|discriminate]. intros [= <-]. lia. }
  cbn [rbind]. assert (G : where_ (fun '(z, d) => ((0 <=? z)%Z && nearer d (max_radius o))%bool) (combine ind ds) = []).
  { destruct (where_ _ _) as [|k g] eqn:W; [reflexivity|]. exfalso. assert (I : In k (k :: g)) by now left. rewrite <- W in I. apply where_spec in I as ([z e] & Ec & H). apply combine_nth_error in Ec as [_ Ed]. apply nth_error_In in Ed. unfold ds, qs in Ed. rewrite map_map in Ed. apply in_map_iff in Ed as (p & Ep & _). rewrite Hq in Ep. cbn in Ep. subst e. apply andb_prop in H as [_ H]. discriminate. }
  rewrite G. reflexivity.
Qed.
Print Assumptions C115_none.
(** The spots after and before the moves are paired one to one, each with its nearest one; the earlier ones are then corrected. *)
Theorem C115_pairs argsort query2 after before m : is_argsort argsort -> nearest_query query2 -> before <> [] -> pair_spots argsort query2 after before = Ok m ->
  exists ij l corr, NoDup (map fst ij) /\ NoDup (map snd ij) /\
    Forall2 (fun '(i, j) '(p, q) => nth_error after i = Some p /\ nth_error before j = Some q /\ nearest before p q) ij l /\
    corr_fit simplecorr_init (map (fun pq => fst (snd pq)) l) (map (fun pq => snd (snd pq)) l) (map (fun pq => fst (fst pq)) l) (map (fun pq => snd (fst pq)) l) false = Ok corr /\
    m = map (fun '(p, q) => (p, corr_apply corr q)) l /\
    forall p, In p after -> exists p' q, In (p', q) l /\ nearest before p q /\ distance p' q <= distance p q.
Proof.
  intros Ha Hq Nb E. unfold pair_spots in E. destruct (match_same_system_spec argsort Ha query2 Hq after before Nb) as (ind & dis & Em & L & Ld & S1 & S2 & S3). rewrite Em in E. cbn [rbind] in E. set (ok := where_ (Z.leb 0) ind) in *.
  destruct (take after ok) as [p1|] eqn:E1; [|discriminate]. cbn [rbind] in E. destruct (take ind ok) as [i2|] eqn:E2; [|discriminate]. cbn [rbind] in E. destruct (take before (map Z.to_nat i2)) as [p2|] eqn:E3; [|discriminate]. cbn [rbind] in E. apply take_Ok in E1, E2, E3.
  assert (Ent : forall i p z, nth_error after i = Some p -> nth_error ind i = Some z -> z = (-1)%Z \/ exists j q, z = Z.of_nat j /\ nth_error before j = Some q /\ nearest before p q).
  { intros i p z Hp Hz. assert (exists e, nth_error dis i = Some e) as [e He] by (assert (i < length ind)%nat by (apply nth_error_Some; congruence); destruct (nth_error dis i) eqn:X; [eauto|apply nth_error_None in X; lia]). destruct (S1 i p z e Hp Hz He) as [[-> _]|(j & q & -> & A & _ & B)]; [now left|right; eauto]. }
  assert (Lk : length ok = length p1 /\ length ok = length i2 /\ length i2 = length p2) by (apply Forall2_length in E1, E2, E3; rewrite map_length in E3; lia).
  set (l := combine p1 p2). set (ij := combine ok (map Z.to_nat i2)). destruct (corr_fit _ _ _ _ _ _) as [corr|] eqn:Ec; [|discriminate]. cbn [rbind] in E. injection E as <-.
  assert (F1 : map fst l = p1 /\ map snd l = p2). { unfold l. destruct Lk as (A & B & C). assert (H : length p1 = length p2) by lia. clear - H. revert p2 H. induction p1 as [|a p1 IH]; intros [|b p2] H; try discriminate; [split; reflexivity|]. injection H as H. destruct (IH p2 H) as [X Y]. cbn. now rewrite X, Y. }
  assert (F2 : map fst ij = ok /\ map snd ij = map Z.to_nat i2). { unfold ij. destruct Lk as (A & B & C). assert (H : length ok = length (map Z.to_nat i2)) by (rewrite map_length; lia). clear - H. revert H. generalize (map Z.to_nat i2). induction ok as [|a ok IH]; intros [|b i2'] H; try discriminate; [split; reflexivity|]. injection H as H. destruct (IH i2' H) as [X Y]. cbn. now rewrite X, Y. }
  assert (Pt : forall n i, nth_error ok n = Some i -> exists p q j, nth_error p1 n = Some p /\ nth_error i2 n = Some (Z.of_nat j) /\ nth_error p2 n = Some q /\ nth_error after i = Some p /\ nth_error ind i = Some (Z.of_nat j) /\ nth_error before j = Some q /\ nearest before p q).
  { intros n i Hi. pose proof (Forall2_nth _ _ _ E1 n) as X. pose proof (Forall2_nth _ _ _ E2 n) as Y. pose proof (Forall2_nth _ _ _ E3 n) as Z0. rewrite nth_error_map in Z0. rewrite Hi in X, Y. destruct (nth_error p1 n) as [p|]; [|contradiction]. destruct (nth_error i2 n) as [z|]; [|contradiction]. cbn in Z0. destruct (nth_error p2 n) as [q|]; [|contradiction].
    apply nth_error_In, where_spec in Hi as (z' & Hz' & P0). rewrite Y in Hz'. injection Hz' as <-. apply Z.leb_le in P0. destruct (Ent i p z X Y) as [->|(j & q' & -> & A & B)]; [lia|]. rewrite Nat2Z.id, A in Z0. injection Z0 as <-. exists p, q', j. auto 10. }
  exists ij, l, corr. destruct F1 as [Fa Fb], F2 as [Fc Fd]. split; [rewrite Fc; apply where_NoDup|]. split.
  { rewrite Fd. apply NoDup_nth_error. intros n n' Hn En. rewrite map_length in Hn. rewrite !nth_error_map in En. assert (exists i, nth_error ok n = Some i) as [i Hi] by (destruct (nth_error ok n) eqn:X; [eauto|apply nth_error_None in X; lia]). destruct (Pt n i Hi) as (p & q & j & _ & A & _ & _ & B & _). rewrite A in En. cbn in En. destruct (nth_error i2 n') as [z'|] eqn:Ez; [|discriminate].
    assert (exists i', nth_error ok n' = Some i') as [i' Hi'] by (assert (n' < length i2)%nat by (apply nth_error_Some; congruence); destruct (nth_error ok n') eqn:X; [eauto|apply nth_error_None in X; lia]). destruct (Pt n' i' Hi') as (p' & q' & j' & _ & A' & _ & _ & B' & _). rewrite Ez in A'. injection A' as ->. cbn in En. injection En as En. rewrite !Nat2Z.id in En. subst j'. assert (i = i') as <- by (eapply S2; eassumption). pose proof (where_NoDup (Z.leb 0) ind) as NG. fold ok in NG. rewrite NoDup_nth_error in NG. apply NG; [apply nth_error_Some; congruence|congruence]. }
  split.
  { assert (H : forall n, match nth_error ij n, nth_error l n with Some (i, j), Some (p, q) => nth_error after i = Some p /\ nth_error before j = Some q /\ nearest before p q | None, None => True | _, _ => False end).
    { intros n. unfold ij, l. destruct (nth_error ok n) as [i|] eqn:Hi.
      - destruct (Pt n i Hi) as (p & q & j & A1 & A2 & A3 & A4 & A5 & A6 & A7). assert (nth_error (combine ok (map Z.to_nat i2)) n = Some (i, j)) as -> by (apply combine_nth_error; rewrite nth_error_map, A2; cbn; rewrite Nat2Z.id; auto). assert (nth_error (combine p1 p2) n = Some (p, q)) as -> by (apply combine_nth_error; auto). auto.
      - apply nth_error_None in Hi. assert (nth_error (combine ok (map Z.to_nat i2)) n = None) as -> by (apply nth_error_None; rewrite combine_length; lia). assert (nth_error (combine p1 p2) n = None) as -> by (apply nth_error_None; rewrite combine_length; lia). exact I. }
    clear - H. revert H. generalize ij l. clear. induction ij as [|[i j] ij IH]; intros [|[p q] l] H; [constructor|specialize (H 0%nat); contradiction|specialize (H 0%nat); contradiction|]. constructor; [exact (H 0%nat)|]. apply IH. intros n. exact (H (S n)). }
  split; [rewrite <- Ec, <- Fa, <- Fb, !map_map; reflexivity|]. split.
  { rewrite <- Fa, <- Fb. clearbody l. clear. induction l as [|[p q] l IH]; [reflexivity|]. cbn. f_equal. exact IH. }
  intros p Ip. apply In_nth_error in Ip as [k Hp]. destruct (S3 k p Hp) as (j & q & k' & p' & Ej & Eq & Ek' & Hp' & Hd). assert (Ik : In k' ok) by (apply where_spec; exists (Z.of_nat j); split; [exact Ek'|apply Z.leb_le; lia]). apply In_nth_error in Ik as [n Hn]. destruct (Pt n k' Hn) as (p'' & q' & j' & A1 & A2 & A3 & A4 & A5 & A6 & A7). rewrite Hp' in A4. injection A4 as <-. rewrite Ek' in A5. injection A5 as X. apply Nat2Z.inj in X. subst j'. rewrite Eq in A6. injection A6 as <-.
  exists p', q. split; [apply (nth_error_In _ n); now apply combine_nth_error|]. split; [|exact Hd]. destruct Hq as [_ Hq]. destruct (Hq before p Nb) as (i0 & q0 & A & B & C). rewrite A in Ej. cbn in Ej. subst i0. rewrite Eq in B. injection B as <-. exact C.
Qed.
Print Assumptions C115_pairs.
Definition default_limits : limits := {| max_radius := 7; min_move := 0.05; max_move := 0.5; min_dist := 3 |}.
Definition alone : list device := [{| d_id := "M00001"; d_petal := 0; d_xy := (0, 0) |}].
Lemma distance_axis x y : distance (x, 0) (y, 0) = Rabs (x - y).
Proof. unfold distance. cbn [fst snd]. replace ((x - y) ^ 2 + (0 - 0) ^ 2) with ((x - y)²) by (unfold Rsqr; ring). apply sqrt_Rsqr_abs. Qed.
Example C115_example argsort query2 fp2ptl : is_argsort argsort -> nearest_query query2 ->
  exists r, report argsort query2 (fun p => p) fp2ptl default_limits alone ["M00001"%string] [((5, 0), (5.1, 0)); ((4, 0), (4.2, 0)); ((3.5, 0), (3.5, 0))] = Ok (Some [r]) /\ r_pix r = (4, 0).
Proof.
  intros Ha Hq. set (pairs := [_; _; _]). destruct (C115_rows argsort query2 (fun p => p) fp2ptl default_limits alone ["M00001"%string] pairs Ha Hq) as (out & E & No & R1 & R2 & R3); [discriminate|]. change (movers alone ["M00001"%string]) with alone in *. rewrite E. clear E.
  assert (MV : forall a, moved_spot (fun p => p) default_limits pairs a <-> a = (5, 0) \/ a = (4, 0)).
  { intros a. unfold moved_spot, pairs. cbn [In default_limits min_move max_move]. split.
    - intros (b & [H|[H|[H|[]]]] & D); apply (f_equal fst) in H as Ha'; apply (f_equal snd) in H as Hb'; cbn in Ha', Hb'; subst; auto. rewrite distance_axis in D. rewrite Rminus_diag_eq, Rabs_R0 in D by reflexivity. lra.
    - intros [->| ->]; [exists (5.1, 0)|exists (4.2, 0)]; (split; [auto|]); rewrite distance_axis, Rabs_left by lra; lra. }
  destruct (R2 ltac:(repeat constructor; intros [])) as [ND Cl].
  assert (X : exists r, In r (match out with Some l => l | None => [] end) /\ r_pix r = (4, 0)).
  { destruct (R3 (4, 0) (proj2 (MV _) (or_intror eq_refl))) as (d & a' & [<-|[]] & _ & Ma & Hd & Hr). cbn [alone d_xy] in *. apply MV in Ma as [->| ->]; rewrite !distance_axis, !Rabs_right in Hd by lra; [lra|]. destruct Hr as (r & I & _ & Hp); [rewrite distance_axis, Rabs_right by lra; cbn; lra|]. eauto. }
  destruct X as (r & I & Hp). exists r. split; [|exact Hp]. destruct out as [[|r1 [|r2 l]]|]; try destruct I as [<-|I]; try (destruct I; fail); try reflexivity; try contradiction.
  - exfalso. assert (In (r_device r1) alone /\ In (r_device r2) alone) as [[X|[]] [Y|[]]] by (split; apply R1; cbn; auto). cbn in ND. inversion ND as [|? ? N _]; subst. apply N. left. now rewrite <- X, <- Y.
  - exfalso. assert (In (r_device r1) alone /\ In (r_device r2) alone) as [[X|[]] [Y|[]]] by (split; apply R1; cbn; auto). cbn in ND. inversion ND as [|? ? N _]; subst. apply N. left. now rewrite <- X, <- Y.
Qed.
(** A spot that moved, near enough to the only positioner and far enough from its centre, is not reported when another one is nearer. *)
Theorem C115_reported_refuted : exists metrology moved pairs a, (exists d, movers metrology moved = [d] /\ min_dist default_limits < distance a (d_xy d) < max_radius default_limits) /\ moved_spot (fun p => p) default_limits pairs a /\
  forall argsort query2 fp2ptl, is_argsort argsort -> nearest_query query2 -> report argsort query2 (fun p => p) fp2ptl default_limits metrology moved pairs = Ok None.
Proof.
  exists alone, ["M00001"%string], [((5, 0), (5.1, 0)); ((1, 0), (1.2, 0))], (5, 0). change (movers alone ["M00001"%string]) with alone. split; [eexists; split; [reflexivity|]; cbn [d_xy]; rewrite distance_axis, Rabs_right by lra; cbn; lra|]. set (pairs := [_; _]).
  assert (MV : forall a, moved_spot (fun p => p) default_limits pairs a <-> a = (5, 0) \/ a = (1, 0)).
  { intros a. unfold moved_spot, pairs. cbn [In default_limits min_move max_move]. split.
    - intros (b & [H|[H|[]]] & D); apply (f_equal fst) in H as Ha'; cbn in Ha'; subst; auto.
    - intros [->| ->]; [exists (5.1, 0)|exists (1.2, 0)]; (split; [auto|]); rewrite distance_axis, Rabs_left by lra; lra. }
  split; [apply MV; now left|]. intros argsort query2 fp2ptl Ha Hq. destruct (C115_rows argsort query2 (fun p => p) fp2ptl default_limits alone ["M00001"%string] pairs Ha Hq) as (out & E & No & R1 & R2 & R3); [discriminate|]. change (movers alone ["M00001"%string]) with alone in *. rewrite E. clear E. destruct (R2 ltac:(repeat constructor; intros [])) as [ND Cl].
  destruct out as [[|r l]|]; [contradiction| |reflexivity]. exfalso. destruct (R1 r (or_introl eq_refl)) as ([Dv|[]] & M & Fp & _ & [Hd1 Hd2] & _). specialize (Cl r (1, 0) (or_introl eq_refl) (proj2 (MV _) (or_intror eq_refl))). rewrite <- Dv in *. cbn [d_xy] in *. rewrite Fp in *. apply MV in M as [M|M]; rewrite M in *.
  - rewrite !distance_axis, !Rabs_right in Cl by lra. cbn in Cl. specialize (Cl ltac:(intros d [<-|[]] Nd; congruence)). lra.
  - rewrite distance_axis, Rabs_right in Hd1 by lra. cbn in Hd1. lra.
Qed.
Print Assumptions C115_reported_refuted.
