From Verif.Model Require Import Match.
From Verif.Spec Require Import Match.
From Verif.Proofs Require Import Numpy RealNum.
From Coq Require Import Permutation Sorted Lra.

Section Same.
Variable argsort : forall K, (K -> K -> bool) -> list K -> list nat.
Hypothesis argsort_ok : is_argsort argsort.

Lemma drop_others_spec d ind i2 k1 :
  length d = length ind -> nth_error ind k1 = Some i2 ->
  exists ind' k0, drop_others argsort d ind i2 = Ok ind' /\ length ind' = length ind /\
    nth_error ind k0 = Some i2 /\ nth_error ind' k0 = Some i2 /\
    (forall k, nth_error ind k = Some i2 -> k <> k0 -> nth_error ind' k = Some (-1)) /\
    (forall k, nth_error ind k <> Some i2 -> nth_error ind' k = nth_error ind k) /\
    (forall k dk d0, nth_error ind k = Some i2 -> nth_error d k = Some dk -> nth_error d k0 = Some d0 ->
       edist_ltb dk d0 = false).
Proof.
  intros Hl Hk1. unfold drop_others. set (jj := where_ (Z.eqb i2) ind).
  assert (J : forall k, In k jj <-> nth_error ind k = Some i2).
  { intros k. unfold jj. rewrite where_spec. split.
    - intros (a & H1 & H2). apply Z.eqb_eq in H2. congruence.
    - intros H. exists i2. split; [exact H|apply Z.eqb_refl]. }
  assert (Jl : forall k, In k jj -> (k < length ind)%nat) by (intros k H; apply J in H; apply nth_error_Some; congruence).
  assert (Jn : NoDup jj) by apply where_NoDup.
  destruct (Nat.ltb 1 (length jj)) eqn:E.
  - destruct (take_total d jj) as [djj Ed].
    { apply Forall_forall. intros k Hk. rewrite Hl. auto. }
    rewrite Ed. cbn [rbind]. apply take_Ok in Ed.
    assert (Ld : length djj = length jj) by (symmetry; eapply Forall2_length; eauto).
    pose proof (argsort_ok edist edist_ltb djj edist_ltb_weak) as SP. set (kk := argsort edist edist_ltb djj) in *.
    pose proof (sorting_perm_length _ _ _ SP) as Lk.
    destruct kk as [|m0 rest] eqn:Ekk; [cbn in Lk; apply Nat.ltb_lt in E; lia|]. cbn [skipn].
    assert (B : forall m, In m (m0 :: rest) -> (m < length jj)%nat).
    { intros m Hm. rewrite <- Ld. eapply sorting_perm_lt; eauto. }
    destruct (take_total jj rest) as [oth Eo].
    { apply Forall_forall. intros m Hm. apply B. now right. }
    rewrite Eo. cbn [rbind]. apply take_Ok in Eo.
    destruct (nth_error jj m0) as [k0|] eqn:E0; [|apply nth_error_None in E0; specialize (B m0 (or_introl eq_refl)); lia].
    assert (O : forall k, In k oth <-> In k jj /\ k <> k0).
    { intros k. split.
      - intros Hi. apply In_nth_error in Hi as [n Hn].
        destruct (nth_error_length oth rest n k) as [m Hm]; [symmetry; eapply Forall2_length; eauto|exact Hn|].
        pose proof (Forall2_nth _ _ _ Eo _ _ _ Hm Hn) as A. cbn beta in A. split; [eapply nth_error_In; eauto|].
        intros ->. assert (m = m0).
        { rewrite NoDup_nth_error in Jn. apply Jn; [apply B; right; eapply nth_error_In; eauto|congruence]. }
        subst m. apply sorting_perm_NoDup in SP. inversion SP as [|? ? Hx _]; subst. apply Hx. eapply nth_error_In; eauto.
      - intros [Hi Hne]. apply In_nth_error in Hi as [m Hm].
        assert (Hml : (m < length djj)%nat) by (rewrite Ld; apply nth_error_Some; congruence).
        assert (In m (m0 :: rest)) as [<-|Hr] by (eapply sorting_perm_In; eauto); [congruence|].
        apply In_nth_error in Hr as [n Hn].
        destruct (nth_error_length rest oth n m) as [k' Hk']; [eapply Forall2_length; eauto|exact Hn|].
        pose proof (Forall2_nth _ _ _ Eo _ _ _ Hn Hk') as A. cbn beta in A. assert (k' = k) by congruence. subst.
        eapply nth_error_In; eauto. }
    destruct (set_all_Ok ind oth (-1)) as [ind' Ei].
    { apply Forall_forall. intros k Hk. apply O in Hk as [Hk _]. auto. }
    destruct (set_all_spec _ _ _ _ Ei) as (S1 & S2 & S3).
    exists ind', k0. split; [exact Ei|]. split; [exact S1|].
    assert (Hk0 : nth_error ind k0 = Some i2) by (apply J; eapply nth_error_In; eauto).
    split; [exact Hk0|]. split; [rewrite S3; [exact Hk0|]; intros H; apply O in H; tauto|].
    split; [intros k H1 H2; apply S2, O; split; [now apply J|exact H2]|].
    split; [intros k H; apply S3; intros Hk; apply O in Hk as [Hk _]; apply J in Hk; contradiction|].
    intros k dk d0 Hk Hdk Hd0. apply J, In_nth_error in Hk as [m Hm].
    assert (Gm : nth_error djj m = Some dk).
    { destruct (nth_error_length jj djj m k) as [x Hx]; [now symmetry|exact Hm|].
      pose proof (Forall2_nth _ _ _ Ed _ _ _ Hm Hx) as A. cbn beta in A. congruence. }
    assert (G0 : nth_error djj m0 = Some d0).
    { destruct (nth_error_length jj djj m0 k0) as [x Hx]; [now symmetry|exact E0|].
      pose proof (Forall2_nth _ _ _ Ed _ _ _ E0 Hx) as A. cbn beta in A. congruence. }
    assert (In m (m0 :: rest)) as [<-|Hr] by (eapply sorting_perm_In; eauto; apply nth_error_Some; congruence).
    + assert (dk = d0) by congruence. subst. apply edist_ltb_weak.
    + destruct SP as [_ SS]. inversion SS as [|? ? _ F]; subst. rewrite Forall_forall in F. exact (F m Hr _ _ G0 Gm).
  - exists ind, k1. split; [reflexivity|].
    assert (U : forall k, nth_error ind k = Some i2 -> k = k1).
    { apply Nat.ltb_ge in E. intros k Hk. apply J in Hk, Hk1. destruct jj as [|x [|y l]]; cbn in *; try lia; intuition congruence. }
    repeat split; auto.
    + intros k H1 H2. apply U in H1. contradiction.
    + intros k dk d0 Hk H1 H2. apply U in Hk. subst k. assert (dk = d0) by congruence. subst. apply edist_ltb_weak.
Qed.

Lemma drop_loop_spec d ind0 :
  length d = length ind0 -> (forall k z, nth_error ind0 k = Some z -> 0 <= z) ->
  forall us ind done, NoDup us -> length ind = length ind0 ->
    (forall z, In z us -> In z ind0) -> (forall z, In z us -> ~ In z done) -> (forall z, In z done -> 0 <= z) ->
    (forall k z, nth_error ind k = Some z -> z = -1 \/ nth_error ind0 k = Some z) ->
    (forall k z, ~ In z done -> nth_error ind0 k = Some z -> nth_error ind k = Some z) ->
    (forall k z, In z done -> nth_error ind0 k = Some z ->
       exists k', nth_error ind0 k' = Some z /\ nth_error ind k' = Some z /\
         (forall k2, nth_error ind k2 = Some z -> k2 = k') /\
         forall dk d', nth_error d k = Some dk -> nth_error d k' = Some d' -> edist_ltb dk d' = false) ->
    exists ind', drop_loop argsort d ind us = Ok ind' /\ length ind' = length ind0 /\
      (forall k z, nth_error ind' k = Some z -> z = -1 \/ nth_error ind0 k = Some z) /\
      (forall k z, In z done \/ In z us -> nth_error ind0 k = Some z ->
       exists k', nth_error ind0 k' = Some z /\ nth_error ind' k' = Some z /\
         (forall k2, nth_error ind' k2 = Some z -> k2 = k') /\
         forall dk d', nth_error d k = Some dk -> nth_error d k' = Some d' -> edist_ltb dk d' = false).
Proof.
  intros Hd Hpos. induction us as [|i2 us IH]; intros ind done Hnd Hl Hin Hdis Hdpos H1 H2 H3.
  - exists ind. split; [reflexivity|]. repeat split; auto. intros k z [Hz|[]]. now apply H3.
  - cbn [drop_loop]. inversion Hnd as [|? ? Hni Hnd']; subst.
    assert (In i2 ind0) as HI by (apply Hin; now left). apply In_nth_error in HI as [k1 Hk1].
    assert (Hk1' : nth_error ind k1 = Some i2) by (apply H2; [apply Hdis; now left|exact Hk1]).
    destruct (drop_others_spec d ind i2 k1) as (ind' & k0 & E & L & A0 & A1 & A2 & A3 & A4); [congruence|exact Hk1'|].
    rewrite E. cbn [rbind].
    assert (Hi2 : 0 <= i2) by eauto.
    assert (D : forall k z, nth_error ind k = Some z \/ nth_error ind k <> Some z).
    { intros k z. destruct (nth_error ind k) as [y|]; [|right; discriminate].
      destruct (Z.eq_dec y z); [left|right]; congruence. }
    assert (EQ : forall k, nth_error ind k = Some i2 <-> nth_error ind0 k = Some i2).
    { intros k. split; intros H; [destruct (H1 _ _ H); [lia|assumption]|apply H2; [apply Hdis; now left|exact H]]. }
    destruct (IH ind' (i2 :: done)) as (ind'' & E' & L' & B1 & B2).
    + exact Hnd'.
    + congruence.
    + intros z Hz. apply Hin. now right.
    + intros z Hz [<-|Hz2]; [contradiction|]. apply (Hdis z); [now right|exact Hz2].
    + intros z [<-|Hz]; auto.
    + intros k z Hz. destruct (D k i2) as [H|H].
      * destruct (Nat.eq_dec k k0) as [->|Hne]; [|rewrite (A2 _ H Hne) in Hz; injection Hz as <-; now left].
        rewrite A1 in Hz. injection Hz as <-. right. now apply EQ.
      * rewrite A3 in Hz by exact H. auto.
    + intros k z Hz Hk. cbn in Hz. rewrite A3; [apply H2; tauto|].
      intros Hk'. apply EQ in Hk'. assert (z = i2) by congruence. subst. tauto.
    + intros k z Hz Hk. destruct (Z.eq_dec z i2) as [->|Hne].
      * exists k0. split; [now apply EQ|]. split; [exact A1|]. split.
        -- intros k2 Hk2. destruct (Nat.eq_dec k2 k0) as [->|Hne]; [reflexivity|exfalso].
           destruct (D k2 i2) as [H|H]; [rewrite (A2 _ H Hne) in Hk2; injection Hk2; lia|].
           rewrite A3 in Hk2 by exact H. contradiction.
        -- intros dk d' Hdk Hd'. exact (A4 k dk d' (proj2 (EQ k) Hk) Hdk Hd').
      * destruct Hz as [->|Hz]; [congruence|]. destruct (H3 k z Hz Hk) as (k' & C1 & C2 & C3 & C4).
        assert (N : forall k2, nth_error ind' k2 = Some z <-> nth_error ind k2 = Some z).
        { intros k2. destruct (D k2 i2) as [H|H]; [|now rewrite A3].
          destruct (Nat.eq_dec k2 k0) as [->|Hn2]; [rewrite A1, H; tauto|]. rewrite (A2 _ H Hn2), H.
          assert (0 <= z) by auto. split; intros [= HH]; [lia|congruence]. }
        exists k'. split; [exact C1|]. split; [now apply N|]. split; [|exact C4]. intros k2 Hk2. apply C3, N, Hk2.
    + exists ind''. split; [exact E'|]. split; [exact L'|]. split; [exact B1|].
      intros k z Hz. apply B2. cbn in *. tauto.
Qed.

Lemma dedupe_spec d ind0 :
  length d = length ind0 -> (forall k z, nth_error ind0 k = Some z -> 0 <= z) ->
  exists ind,
    (if 0 <? count (Z.leb 0) ind0 - count (Z.leb 0) (unique ind0)
     then drop_loop argsort d ind0 (unique ind0) else Ok ind0) = Ok ind /\ length ind = length ind0 /\
    (forall k z, nth_error ind k = Some z -> z = -1 \/ nth_error ind0 k = Some z) /\
    (forall k z, nth_error ind0 k = Some z ->
       exists k', nth_error ind0 k' = Some z /\ nth_error ind k' = Some z /\
         (forall k2, nth_error ind k2 = Some z -> k2 = k') /\
         forall dk d', nth_error d k = Some dk -> nth_error d k' = Some d' -> edist_ltb dk d' = false).
Proof.
  intros Hd Hpos.
  assert (ALL : forall l, (forall z, In z l -> 0 <= z) -> count (Z.leb 0) l = Z.of_nat (length l)).
  { clear. intros l H. unfold count. f_equal. induction l as [|a l IH]; cbn; [reflexivity|].
    assert (0 <= a) by (apply H; now left). replace (0 <=? a) with true by (symmetry; now apply Z.leb_le).
    cbn. f_equal. apply IH. intros z Hz; apply H; now right. }
  assert (P0 : forall z, In z ind0 -> 0 <= z) by (intros z Hz; apply In_nth_error in Hz as [k Hk]; eauto).
  rewrite !ALL; [|intros z Hz; apply P0, unique_In, Hz|exact P0].
  destruct (0 <? _) eqn:E.
  - destruct (drop_loop_spec d ind0 Hd Hpos (unique ind0) ind0 []) as (ind' & E' & L & B1 & B2); auto.
    + apply unique_NoDup.
    + intros z; apply unique_In.
    + intros z [].
    + intros k z [].
    + exists ind'. repeat split; auto. intros k z Hz. apply B2; [|exact Hz]. right. apply unique_In. eapply nth_error_In; eauto.
  - apply Z.ltb_ge in E. exists ind0. split; [reflexivity|]. split; [reflexivity|]. split; [auto|].
    assert (ND : NoDup ind0).
    { apply (@NoDup_incl_NoDup _ (unique ind0)); [apply unique_NoDup|lia|]. intros z; apply unique_In. }
    intros k z Hz. exists k. repeat split; auto.
    + intros k2 H2. rewrite NoDup_nth_error in ND. apply ND; [apply nth_error_Some; congruence|congruence].
    + intros dk d' H1 H2. assert (dk = d') by congruence. subst. apply edist_ltb_weak.
Qed.

Lemma distance_dist2d p q : distance p q = dist2d p q.
Proof. unfold distance, dist2d, sq_dist. f_equal. ring. Qed.

Variable query2 : list point -> point -> edist * nat.
Hypothesis query_ok : nearest_query query2.

Lemma match_same_system_spec xy1 xy2 :
  xy2 <> [] ->
  exists ind dis, match_same_system argsort query2 xy1 xy2 true = Ok (ind, dis) /\
    length ind = length xy1 /\ length dis = length xy1 /\
    (forall k p z e, nth_error xy1 k = Some p -> nth_error ind k = Some z -> nth_error dis k = Some e ->
       (z = -1 /\ e = None) \/
       exists j q, z = Z.of_nat j /\ nth_error xy2 j = Some q /\ e = Some (distance p q) /\ nearest xy2 p q) /\
    (forall k k' j, nth_error ind k = Some (Z.of_nat j) -> nth_error ind k' = Some (Z.of_nat j) -> k = k') /\
    (forall k p, nth_error xy1 k = Some p ->
       exists j q k' p', snd (query2 xy2 p) = j /\ nth_error xy2 j = Some q /\
         nth_error ind k' = Some (Z.of_nat j) /\ nth_error xy1 k' = Some p' /\ (distance p' q <= distance p q)%R).
Proof.
  intros Hne. unfold match_same_system.
  set (qs := map (query2 xy2) xy1). set (d := map fst qs). set (ind0 := map (fun di => Z.of_nat (snd di)) qs).
  destruct (dedupe_spec d ind0) as (ind & E & L & H1 & H2).
  { unfold d, ind0. now rewrite !map_length. }
  { intros k z. unfold ind0. rewrite nth_error_map. destruct (nth_error qs k); cbn; [|discriminate]. intros [= <-]. lia. }
  rewrite E. cbn [rbind]. eexists; eexists; split; [reflexivity|].
  assert (L0 : length ind = length xy1) by (rewrite L; unfold ind0, qs; now rewrite !map_length).
  assert (Ld : length d = length xy1) by (unfold d, qs; now rewrite !map_length).
  split; [exact L0|]. split; [rewrite map_length, combine_length; lia|].
  destruct query_ok as [_ Q].
  assert (N : forall k p, nth_error xy1 k = Some p ->
     exists j q, query2 xy2 p = (Some (distance p q), j) /\ nth_error xy2 j = Some q /\ nearest xy2 p q /\
       nth_error ind0 k = Some (Z.of_nat j) /\ nth_error d k = Some (Some (distance p q))).
  { intros k p Hp. destruct (Q xy2 p Hne) as (j & q & Eq & Ej & En). exists j, q.
    split; [exact Eq|]. split; [exact Ej|]. split; [exact En|].
    unfold ind0, d, qs. rewrite !nth_error_map, Hp. cbn. rewrite Eq. auto. }
  assert (X1 : forall k z, nth_error ind k = Some z -> exists p, nth_error xy1 k = Some p).
  { intros k z Hz. apply (nth_error_length ind xy1 k z); assumption. }
  split; [|split].
  - intros k p z e Hp Hz He. destruct (N k p Hp) as (j & q & Eq & Ej & En & Ei & Ed).
    assert (e = if z <? 0 then None else Some (distance p q)).
    { rewrite nth_error_map in He.
      assert (C : forall (l : list Z) (m : list edist) n x y, nth_error l n = Some x -> nth_error m n = Some y -> nth_error (combine l m) n = Some (x, y)).
      { clear. induction l as [|a l IH]; intros [|b m] [|n] x y; cbn; try discriminate; [congruence|apply IH]. }
      pose proof (C _ _ _ _ _ Hz Ed) as C1. rewrite C1 in He. cbn in He. congruence. }
    destruct (H1 _ _ Hz) as [->|Hz0]; [left; auto|]. rewrite Ei in Hz0. injection Hz0 as <-.
    right. exists j, q. repeat split; auto; try apply En. subst e. destruct (Z.of_nat j <? 0) eqn:F; [apply Z.ltb_lt in F; lia|reflexivity].
  - intros k k' j Hk Hk'. destruct (H1 _ _ Hk) as [F|F]; [lia|].
    destruct (H2 _ _ F) as (k0 & _ & _ & U & _). rewrite (U _ Hk), (U _ Hk'). reflexivity.
  - intros k p Hp. destruct (N k p Hp) as (j & q & Eq & Ej & En & Ei & Ed).
    destruct (H2 _ _ Ei) as (k' & A1 & A2 & _ & A4). destruct (X1 _ _ A2) as [p' Hp'].
    exists j, q, k', p'. rewrite Eq. repeat split; auto.
    destruct (N k' p' Hp') as (j' & q' & Eq' & Ej' & En' & Ei' & Ed').
    rewrite A1 in Ei'. injection Ei' as Ej2. apply Nat2Z.inj in Ej2. subst j'. rewrite Ej in Ej'. injection Ej' as <-.
    specialize (A4 _ _ Ed Ed'). cbn in A4. now apply Rltb_false in A4.
Qed.

Lemma match_same_system_plain xy1 xy2 :
  xy2 <> [] ->
  exists ind dis, match_same_system argsort query2 xy1 xy2 false = Ok (ind, dis) /\
    length ind = length xy1 /\ length dis = length xy1 /\
    (forall k p z e, nth_error xy1 k = Some p -> nth_error ind k = Some z -> nth_error dis k = Some e ->
       exists j q, z = Z.of_nat j /\ nth_error xy2 j = Some q /\ e = Some (distance p q) /\ nearest xy2 p q).
Proof.
  intros Hne. unfold match_same_system. cbn [rbind]. eexists; eexists; split; [reflexivity|].
  split; [now rewrite !map_length|]. split; [rewrite map_length, combine_length, !map_length; lia|].
  intros k p z e Hp Hz He. destruct query_ok as [_ Q]. destruct (Q xy2 p Hne) as (j & q & Eq & Ej & En).
  rewrite !nth_error_map, Hp in Hz. cbn in Hz. rewrite Eq in Hz. injection Hz as <-.
  exists j, q. repeat split; auto; try apply En.
  rewrite nth_error_map in He.
  assert (C : forall (l : list Z) (m : list edist) n x y, nth_error l n = Some x -> nth_error m n = Some y -> nth_error (combine l m) n = Some (x, y)).
  { clear. induction l as [|a l IH]; intros [|b m] [|n] x y; cbn; try discriminate; [congruence|apply IH]. }
  rewrite (C _ _ k (Z.of_nat j) (Some (distance p q))) in He.
  - cbn in He. destruct (Z.of_nat j <? 0) eqn:F; [apply Z.ltb_lt in F; lia|congruence].
  - rewrite !nth_error_map, Hp. cbn. now rewrite Eq.
  - rewrite !nth_error_map, Hp. cbn. now rewrite Eq.
Qed.

(** An empty second catalogue: a single entry is reported as matched to entry 0. *)
Lemma match_same_system_empty p :
  match_same_system argsort query2 [p] [] true = Ok ([0], [None]).
Proof. destruct query_ok as [Q _]. unfold match_same_system. cbn. rewrite Q. reflexivity. Qed.
End Same.
