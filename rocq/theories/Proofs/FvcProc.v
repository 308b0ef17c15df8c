From Verif.Model Require Import FvcProc.
From Verif.Spec Require Import Numpy Match.
From Verif.Proofs Require Import Prelude Numpy RealNum FindFiducials.
From Verif.Proofs Require Match Fitter PyString.
From Coq Require Import Lra Lia.
Local Open Scope R_scope.
Local Open Scope list_scope.

(** *** Values stored at the selected entries *)
Section Rank.
Context {A : Type} (f : A -> bool).
(** Number of selected entries before entry [k]. *)
Definition rank (l : list A) (k : nat) : nat := length (filter f (firstn k l)).
Lemma rank_nth l : forall k a, nth_error l k = Some a -> f a = true -> nth_error (filter f l) (rank l k) = Some a.
Proof.
  unfold rank. induction l as [|b l IH]; intros [|k] a H F; cbn in *; try discriminate.
  - injection H as ->. now rewrite F.
  - destruct (f b); cbn; auto.
Qed.
Lemma rank_onto l : forall i a, nth_error (filter f l) i = Some a -> exists k, nth_error l k = Some a /\ f a = true /\ rank l k = i.
Proof.
  unfold rank. induction l as [|b l IH]; intros i a H; cbn in H; [destruct i; discriminate|]. destruct (f b) eqn:Fb.
  - destruct i as [|i]; cbn in H; [injection H as ->; exists 0%nat; auto|]. destruct (IH i a H) as (k & Hk & Fa & E). exists (S k). cbn. rewrite Fb. cbn. auto.
  - destruct (IH i a H) as (k & Hk & Fa & E). exists (S k). cbn. rewrite Fb. auto.
Qed.
Lemma rank_inj l : forall k k' a a', nth_error l k = Some a -> nth_error l k' = Some a' -> f a = true -> f a' = true -> rank l k = rank l k' -> k = k'.
Proof.
  unfold rank. induction l as [|b l IH]; intros [|k] [|k'] a a' H H' F F' E; cbn in *; try discriminate; try reflexivity.
  - injection H as ->. rewrite F in E. discriminate.
  - injection H' as ->. rewrite F' in E. discriminate.
  - f_equal. destruct (f b); cbn in E; eapply IH; eauto.
Qed.
Lemma put_where_length l : forall vs, length (put_where (map f l) vs l) = length l.
Proof. induction l as [|b l IH]; intros vs; cbn; [reflexivity|]. destruct (f b); [destruct vs|]; cbn; now rewrite IH. Qed.
Lemma put_where_other l : forall vs k a, nth_error l k = Some a -> f a = false -> nth_error (put_where (map f l) vs l) k = Some a.
Proof.
  induction l as [|b l IH]; intros vs [|k] a H F; cbn in *; try discriminate.
  - injection H as ->. now rewrite F.
  - destruct (f b); [destruct vs|]; cbn; auto.
Qed.
Lemma put_where_rank l : forall vs k a, length vs = length (filter f l) -> nth_error l k = Some a -> f a = true -> nth_error (put_where (map f l) vs l) k = nth_error vs (rank l k).
Proof.
  unfold rank. induction l as [|b l IH]; intros vs [|k] a L H F; cbn in *; try discriminate.
  - injection H as ->. rewrite F in *. destruct vs; [discriminate|reflexivity].
  - destruct (f b); cbn in *; [destruct vs as [|v vs]; [discriminate|]; cbn; apply IH with (a := a); auto|apply IH with (a := a); auto].
Qed.
End Rank.

(** *** Matching of the fibres *)
Section Fibers.
Variable argsort : forall K, (K -> K -> bool) -> list K -> list nat.
Hypothesis argsort_ok : is_argsort argsort.
Variable query2 : list point -> point -> edist * nat.
Hypothesis query2_ok : nearest_query query2.

Lemma match_fibers_spec max exp rows : exp <> [] -> exists rows' partner, match_fibers argsort query2 max exp rows = Ok rows' /\ length rows' = length rows /\
  (forall k r, nth_error rows k = Some r -> exists r', nth_error rows' k = Some r' /\
     match partner k with
     | Some j => r_location r = (-1)%Z /\ exists e, nth_error exp j = Some e /\ r' = with_expected r e /\ nearest (map e_fp exp) (r_fp r) (e_fp e) /\ distance (r_fp r) (e_fp e) < max
     | None => r' = r /\ (r_location r = (-1)%Z -> exists j e, nth_error exp j = Some e /\ nearest (map e_fp exp) (r_fp r) (e_fp e) /\
         (max <= distance (r_fp r) (e_fp e) \/ exists k' r2, partner k' = Some j /\ nth_error rows k' = Some r2 /\ distance (r_fp r2) (e_fp e) <= distance (r_fp r) (e_fp e)))
     end) /\
  (forall k k' j, partner k = Some j -> partner k' = Some j -> k = k').
Proof.
  intros Ne. set (f := fun r => Z.eqb (r_location r) (-1)). set (fibers := filter f rows).
  destruct (Match.match_same_system_spec argsort argsort_ok query2 query2_ok (map r_fp fibers) (map e_fp exp)) as (ind & dis & E & Li & Ld & H1 & H2 & H3); [destruct exp; [contradiction|discriminate]|].
  rewrite map_length in Li, Ld.
  assert (B : exists l, rmapM (fun '(r, (z, d)) => if (below d max && (0 <=? z)%Z)%bool then rmap (with_expected r) (geti exp (Z.to_nat z)) else Ok r) (combine fibers (combine ind dis)) = Ok l /\ length l = length fibers /\
    forall i r z d, nth_error fibers i = Some r -> nth_error ind i = Some z -> nth_error dis i = Some d ->
      exists r', nth_error l i = Some r' /\ if (below d max && (0 <=? z)%Z)%bool then exists e, nth_error exp (Z.to_nat z) = Some e /\ r' = with_expected r e else r' = r).
  { assert (G : forall i r z d, nth_error fibers i = Some r -> nth_error ind i = Some z -> nth_error dis i = Some d -> (0 <= z)%Z -> nth_error exp (Z.to_nat z) <> None).
    { intros i r z d Hr Hz Hd Pz. destruct (H1 i (r_fp r) z d) as [[-> _]|(j & q & -> & Hj & _)]; [rewrite nth_error_map, Hr; reflexivity|exact Hz|exact Hd|lia|]. rewrite Nat2Z.id. rewrite nth_error_map in Hj. destruct (nth_error exp j); [discriminate|discriminate]. }
    clear H1 H2 H3 E. clearbody fibers. revert ind dis Li Ld G. induction fibers as [|r fs IH]; intros [|z ind] [|d dis] Li Ld G; try discriminate.
    - exists []. split; [reflexivity|]. split; [reflexivity|]. intros [|i] r z d; discriminate.
    - destruct (IH ind dis) as (l & El & Ll & Hl); [cbn in Li; lia|cbn in Ld; lia|intros i; exact (G (S i))|]. cbn [combine]. 
      assert (X : exists r', (if (below d max && (0 <=? z)%Z)%bool then rmap (with_expected r) (geti exp (Z.to_nat z)) else Ok r) = Ok r' /\ if (below d max && (0 <=? z)%Z)%bool then exists e, nth_error exp (Z.to_nat z) = Some e /\ r' = with_expected r e else r' = r).
      { destruct (below d max && (0 <=? z)%Z)%bool eqn:C; [|eauto]. apply andb_prop in C as [_ C]. apply Z.leb_le in C. specialize (G 0%nat r z d eq_refl eq_refl eq_refl C). unfold geti. destruct (nth_error exp (Z.to_nat z)) as [e|]; [|contradiction]. cbn. eauto. }
      destruct X as (r' & Er & Hr). exists (r' :: l). cbn [rmapM]. rewrite Er. cbn [rbind]. rewrite El. split; [reflexivity|]. split; [cbn; lia|].
      intros [|i] r0 z0 d0 A1 A2 A3; [injection A1 as ->; injection A2 as ->; injection A3 as ->; exists r'; auto|]. exact (Hl i r0 z0 d0 A1 A2 A3). }
  destruct B as (l & El & Ll & Hl).
  set (partner := fun k => match nth_error rows k with Some r => if f r then match nth_error ind (rank f rows k), nth_error dis (rank f rows k) with Some z, Some d => if (below d max && (0 <=? z)%Z)%bool then Some (Z.to_nat z) else None | _, _ => None end else None | None => None end).
  assert (P : forall k j, partner k = Some j -> exists r, nth_error rows k = Some r /\ f r = true /\ nth_error ind (rank f rows k) = Some (Z.of_nat j)).
  { intros k j Hk. unfold partner in Hk. destruct (nth_error rows k) as [r|]; [|discriminate]. exists r. split; [reflexivity|]. destruct (f r); [|discriminate]. split; [reflexivity|]. destruct (nth_error ind _) as [z|]; [|discriminate]. destruct (nth_error dis _) as [d|]; [|discriminate].
    destruct (below d max && (0 <=? z)%Z)%bool eqn:C; [|discriminate]. injection Hk as <-. apply andb_prop in C as [_ C]. apply Z.leb_le in C. f_equal. lia. }
  exists (put_where (map f rows) l rows), partner. split; [unfold match_fibers; fold f; fold fibers; rewrite E; cbn [rbind]; rewrite El; reflexivity|]. split; [apply put_where_length|]. split.
  - intros k r Hk. destruct (f r) eqn:Fr.
    + pose proof (rank_nth f rows k r Hk Fr) as Hf. fold fibers in Hf.
      destruct (nth_error_length fibers ind (rank f rows k) r (eq_sym Li) Hf) as [z Hz]. destruct (nth_error_length fibers dis (rank f rows k) r (eq_sym Ld) Hf) as [d Hd].
      destruct (Hl _ _ _ _ Hf Hz Hd) as (r' & Hr' & C). exists r'. split; [rewrite (put_where_rank f rows l k r Ll Hk Fr); exact Hr'|].
      assert (EL : r_location r = (-1)%Z) by now apply Z.eqb_eq. unfold partner at 1. rewrite Hk, Fr, Hz, Hd.
      destruct (H1 (rank f rows k) (r_fp r) z d) as [[-> ->]|(j & q & -> & Hj & -> & Nq)]; [rewrite nth_error_map, Hf; reflexivity|exact Hz|exact Hd| |].
      * cbn [below andb] in *. split; [exact C|]. intros _. destruct (H3 (rank f rows k) (r_fp r)) as (j & q & i' & p' & Ej & Hj & Hi' & Hp' & Hd'); [rewrite nth_error_map, Hf; reflexivity|].
        rewrite nth_error_map in Hj. destruct (nth_error exp j) as [e|] eqn:Ee; [|discriminate]. injection Hj as <-. exists j, e. split; [exact Ee|]. destruct query2_ok as [_ Q]. destruct (Q (map e_fp exp) (r_fp r)) as (i0 & q0 & EQ & Hi0 & N0); [destruct exp; [contradiction|discriminate]|].
        rewrite EQ in Ej. cbn in Ej. subst i0. rewrite nth_error_map, Ee in Hi0. injection Hi0 as <-. split; [exact N0|].
        rewrite nth_error_map in Hp'. destruct (nth_error fibers i') as [r2|] eqn:E2; [|discriminate]. injection Hp' as <-. destruct (rank_onto f rows i' r2 E2) as (k' & Hk' & F2 & Rk).
        destruct (Rlt_dec (distance (r_fp r2) (e_fp e)) max) as [Lt|Ge]; [|left; lra]. right. exists k', r2. split; [|auto]. unfold partner. rewrite Hk', F2, Rk, Hi'.
        destruct (nth_error_length fibers dis i' r2 (eq_sym Ld) E2) as [d2 Hd2]. rewrite Hd2. destruct (H1 i' (r_fp r2) (Z.of_nat j) d2) as [[X _]|(j2 & q2 & Ej2 & Hj2 & -> & _)]; [rewrite nth_error_map, E2; reflexivity|exact Hi'|exact Hd2|lia|].
        assert (j2 = j) by lia. subst j2. rewrite nth_error_map, Ee in Hj2. injection Hj2 as <-. cbn [below]. rewrite (proj2 (Rltb_true _ _)) by exact Lt. rewrite (proj2 (Z.leb_le 0 _)) by lia. cbn. now rewrite Nat2Z.id.
      * rewrite nth_error_map in Hj. destruct (nth_error exp j) as [e|] eqn:Ee; [|discriminate]. injection Hj as <-. cbn [below] in *. rewrite (proj2 (Z.leb_le 0 _)) in * by lia. rewrite Bool.andb_true_r in *. rewrite Nat2Z.id in *. destruct (Rltb (distance (r_fp r) (e_fp e)) max) eqn:Cm.
        -- apply Rltb_true in Cm. destruct C as (e' & He' & ->). split; [exact EL|]. exists e. split; [exact Ee|]. split; [congruence|]. auto.
        -- apply Rltb_false in Cm. split; [exact C|]. intros _. exists j, e. split; [exact Ee|]. split; [exact Nq|]. now left.
    + exists r. split; [now apply put_where_other|]. unfold partner at 1. rewrite Hk, Fr. split; [reflexivity|]. intros X. unfold f in Fr. rewrite X in Fr. discriminate.
  - intros k k' j Hk Hk'. destruct (P _ _ Hk) as (r & R1 & F1 & I1). destruct (P _ _ Hk') as (r' & R2 & F2 & I2). apply (rank_inj f rows k k' r r' R1 R2 F1 F2). exact (H2 _ _ _ I1 I2).
Qed.
End Fibers.

(** *** Stages of [process] *)
Section Stages.
Variable argsort : forall K, (K -> K -> bool) -> list K -> list nat.
Variable query2 : list point -> point -> edist * nat.
Variable query3 : list descr -> descr -> edist * nat.
Variable query4 : list point -> R -> point -> list (edist * nat).
Variable minimize : (R * R * R * R -> res R) -> R * R * R * R -> res (R * R * R * R).

(** The rows after the match of the fibres. *)
Definition spots_of (xy : list point) (marks : list marks) : list spot :=
  map (fun '(p, m) => {| s_location := k_location m; s_pinhole := k_pinhole m; s_pix := p |}) (combine xy marks).
Definition measured_rows (detected : list (point * point)) (marks : list marks) (cols : list (point * option metro)) : list row :=
  map (fun '((p, e), m, (fp, mt)) =>
     {| r_pix := p; r_location := k_location m; r_petal_loc := k_petal_loc m; r_device_loc := k_device_loc m; r_pinhole := k_pinhole m; r_fp := fp;
        r_metro := match mt with Some mt => m_fp mt | None => (0, 0) end; r_exp := e; r_radec := None |}) (combine (combine detected marks) cols).
Definition matched_rows (g : settings) (cache : tables) (detected : list (point * point)) : res (option (list row)) :=
  rbind (fst (findfiducials argsort query2 query3 query4 cache (map to_device (g_metrology g)) (g_input_tx g) (g_mm g) (map fst detected))) (fun marks =>
   if (count (fun m => Z.eqb (k_pinhole m) 4) marks <? 3)%Z then Ok None else
   rbind (fit argsort minimize (g_init_tx g) (spots_of (map fst detected) marks) (map to_metro (g_metrology g)) true (g_zbfit g) (g_fixed_scale g) (g_fixed_rotation g)) (fun '(_, _, cols) =>
   rbind (match cols with Some c => Ok c | None => Err KeyError end) (fun cols =>
   rbind (get_expected_pos (match g_expected g with Some t => t | None => metrology_table (g_metrology g) end)) (fun expected_pos =>
   rmap Some (match_fibers argsort query2 (g_max_match_distance g) expected_pos (measured_rows detected marks cols)))))).
Definition finish (g : settings) (rows : list row) : res (list row) :=
  rbind (match g_expected g, g_turbulence g with Some _, Some correct => correct_turbulence correct rows | _, _ => Ok rows end) (fun rows =>
  match g_field_model g with Some f => add_radec f (map take_metro rows) | None => Ok (map take_metro rows) end).
Lemma process_stages g cache detected : fst (process argsort query2 query3 query4 minimize g cache detected) =
  rbind (matched_rows g cache detected) (fun o => match o with None => Ok None | Some rows => rmap Some (finish g rows) end).
Proof.
  unfold process, matched_rows. destruct (findfiducials _ _ _ _ _ _ _ _ _) as [[marks|e] c]; cbn [rbind fst]; [|reflexivity]. destruct (_ <? 3)%Z; [reflexivity|].
  change (map _ (combine (map fst detected) marks)) with (spots_of (map fst detected) marks). destruct (fit _ _ _ _ _ _ _ _ _) as [[[t' gd] [cols|]]|e]; cbn [rbind]; [|reflexivity|reflexivity].
  destruct (get_expected_pos _) as [exp|e]; cbn [rbind]; [|reflexivity]. change (map _ (combine (combine detected marks) cols)) with (measured_rows detected marks cols).
  destruct (match_fibers _ _ _ _ _) as [rows|e]; cbn [rbind rmap]; [|reflexivity]. unfold finish. destruct (match g_expected g with Some _ => _ | None => _ end) as [rows'|e]; cbn [rbind]; [|reflexivity].
  destruct (g_field_model g) as [fm|]; cbn [rbind rmap]; [|reflexivity]. destruct (add_radec _ _) as [rows2|e]; reflexivity.
Qed.
Lemma matched_rows_inv g cache detected rows : matched_rows g cache detected = Ok (Some rows) -> exists marks t' gd cols expected,
  fst (findfiducials argsort query2 query3 query4 cache (map to_device (g_metrology g)) (g_input_tx g) (g_mm g) (map fst detected)) = Ok marks /\
  (3 <= length (filter (fun m => Z.eqb (k_pinhole m) 4) marks))%nat /\
  fit argsort minimize (g_init_tx g) (spots_of (map fst detected) marks) (map to_metro (g_metrology g)) true (g_zbfit g) (g_fixed_scale g) (g_fixed_rotation g) = Ok (t', gd, Some cols) /\
  get_expected_pos (match g_expected g with Some t => t | None => metrology_table (g_metrology g) end) = Ok expected /\
  match_fibers argsort query2 (g_max_match_distance g) expected (measured_rows detected marks cols) = Ok rows.
Proof.
  unfold matched_rows. intros H. destruct (fst (findfiducials _ _ _ _ _ _ _ _ _)) as [marks|e]; cbn [rbind] in H; [|discriminate]. destruct (count _ marks <? 3)%Z eqn:C; [discriminate|]. apply Z.ltb_ge in C. unfold count in C.
  destruct (fit _ _ _ _ _ _ _ _ _) as [[[t' gd] [cols|]]|e] eqn:F; cbn [rbind] in H; try discriminate. destruct (get_expected_pos _) as [exp|e]; cbn [rbind] in H; [|discriminate].
  destruct (match_fibers _ _ _ _ _) as [rows'|e] eqn:M; cbn [rmap] in H; [|discriminate]. injection H as ->. exists marks, t', gd, cols, exp. repeat split; auto. lia.
Qed.

Lemma matched_rows_intro g cache detected rows marks t' gd cols expected :
  fst (findfiducials argsort query2 query3 query4 cache (map to_device (g_metrology g)) (g_input_tx g) (g_mm g) (map fst detected)) = Ok marks ->
  (3 <= length (filter (fun m => Z.eqb (k_pinhole m) 4) marks))%nat ->
  fit argsort minimize (g_init_tx g) (spots_of (map fst detected) marks) (map to_metro (g_metrology g)) true (g_zbfit g) (g_fixed_scale g) (g_fixed_rotation g) = Ok (t', gd, Some cols) ->
  get_expected_pos (match g_expected g with Some t => t | None => metrology_table (g_metrology g) end) = Ok expected ->
  match_fibers argsort query2 (g_max_match_distance g) expected (measured_rows detected marks cols) = Ok rows ->
  matched_rows g cache detected = Ok (Some rows).
Proof.
  intros E1 L E2 E3 E4. unfold matched_rows. rewrite E1. cbn [rbind]. unfold count. rewrite (proj2 (Z.ltb_ge _ _)) by lia. rewrite E2. cbn [rbind]. rewrite E3. cbn [rbind]. rewrite E4. reflexivity.
Qed.
End Stages.

(** *** Corrected positions and sky positions *)
Lemma put_where_combine {A B} (f : A -> bool) (h : A -> B -> A) l bs : length bs = length (filter f l) ->
  forall k a, nth_error l k = Some a -> f a = true -> exists b, nth_error bs (rank f l k) = Some b /\ nth_error (put_where (map f l) (map (fun '(a, b) => h a b) (combine (filter f l) bs)) l) k = Some (h a b).
Proof.
  intros L k a H F. pose proof (rank_nth f l k a H F) as Ha. destruct (nth_error_length _ bs _ _ (eq_sym L) Ha) as [b Hb]. exists b. split; [exact Hb|].
  rewrite (put_where_rank f l _ k a) by (auto; rewrite map_length, combine_length; lia). rewrite nth_error_map, Fitter.nth_error_combine, Ha, Hb. reflexivity.
Qed.

(** *** Names of the outputs *)
Local Open Scope string_scope.
Lemma length_app_s a b : String.length (a ++ b) = (String.length a + String.length b)%nat.
Proof. induction a as [|c a IH]; cbn; [reflexivity|now rewrite IH]. Qed.
Lemma app_inj_s a : forall a' b b', String.length a = String.length a' -> a ++ b = a' ++ b' -> a = a'.
Proof. induction a as [|c a IH]; intros [|c' a'] b b' L E; cbn in *; try discriminate; [reflexivity|]. injection E as -> E. f_equal. apply (IH a' b b'); [lia|exact E]. Qed.
Lemma replace_length old s : forall k, exists c n, forall w, String.length (replace_from old w k s) = (c + n * String.length w)%nat.
Proof.
  induction s as [|a s IH]; intros k; [exists 0%nat, 0%nat; intros w; reflexivity|]. destruct k as [|k]; cbn [replace_from].
  - destruct (String.prefix old (String a s)).
    + destruct (IH (String.length old - 1)%nat) as (c & n & H). exists c, (S n). intros w. rewrite length_app_s, H. lia.
    + destruct (IH 0%nat) as (c & n & H). exists (S c), n. intros w. cbn. now rewrite H.
  - apply IH.
Qed.
Lemma replace_length_some old s a b : s = a ++ old ++ b -> old <> "" -> exists c n, forall w, String.length (replace_from old w 0 s) = (c + S n * String.length w)%nat.
Proof.
  intros -> N. induction a as [|x a IH].
  - destruct old as [|y old]; [contradiction|]. change ("" ++ String y old ++ b) with (String y (old ++ b)). cbn [replace_from]. replace (String.prefix (String y old) (String y (old ++ b))) with true by (symmetry; apply PyString.prefix_app; exists b; reflexivity).
    destruct (replace_length (String y old) (old ++ b) (String.length (String y old) - 1)%nat) as (c & n & H). exists c, n. intros w. rewrite length_app_s, H. lia.
  - cbn [append replace_from]. destruct (String.prefix old _).
    + destruct (replace_length old (a ++ old ++ b) (String.length old - 1)%nat) as (c & n & H). exists c, n. intros w. rewrite length_app_s, H. lia.
    + destruct IH as (c & n & H). exists (S c), n. intros w. cbn. now rewrite H.
Qed.
Lemma replace_inj old s a b w w' : s = a ++ old ++ b -> old <> "" -> replace old w s = replace old w' s -> w = w'.
Proof.
  unfold replace. intros E N H. assert (L : String.length w = String.length w').
  { destruct (replace_length_some old s a b E N) as (c & n & Hl). pose proof (f_equal String.length H) as G. rewrite !Hl in G. nia. }
  subst s. induction a as [|x a IH].
  - destruct old as [|y old]; [contradiction|]. change ("" ++ String y old ++ b) with (String y (old ++ b)) in H. cbn [replace_from] in H. replace (String.prefix (String y old) (String y (old ++ b))) with true in H by (symmetry; apply PyString.prefix_app; exists b; reflexivity).
    exact (app_inj_s _ _ _ _ L H).
  - cbn [append replace_from] in H. destruct (String.prefix old _); [exact (app_inj_s _ _ _ _ L H)|]. injection H as H. auto.
Qed.
Lemma endswith_inv suf s : endswith suf s = true -> exists a, s = a ++ suf.
Proof.
  induction s as [|c s IH]; cbn [endswith]; intros H; apply Bool.orb_prop in H as [H|H].
  - apply String.eqb_eq in H. subst. now exists "".
  - discriminate.
  - apply String.eqb_eq in H. subst. now exists "".
  - destruct (IH H) as [a ->]. now exists (String c a).
Qed.
Lemma outname_inj o e e' : endswith ".csv" (f_outfile o) = true -> f_sequence o = true -> outname o e = outname o e' -> e = e'.
Proof.
  intros H S E. destruct (endswith_inv _ _ H) as [a Ea]. unfold outname in E. rewrite S in E. assert (X : "-" ++ e ++ ".csv" = "-" ++ e' ++ ".csv") by (apply (replace_inj ".csv" (f_outfile o) a "" _ _); [now rewrite PyString.app_nil_s|discriminate|exact E]).
  cbn in X. injection X as X. exact (PyString.app_inv_tail_s _ _ _ X).
Qed.

Local Close Scope string_scope.
(** *** The loop over the tables of spots *)
Section Run.
Variable argsort : forall K, (K -> K -> bool) -> list K -> list nat.
Variable query2 : list point -> point -> edist * nat.
Variable query3 : list descr -> descr -> edist * nat.
Variable query4 : list point -> R -> point -> list (edist * nat).
Variable minimize : (R * R * R * R -> res R) -> R * R * R * R -> res (R * R * R * R).
Notation process := (process argsort query2 query3 query4 minimize).
Notation run := (run argsort query2 query3 query4 minimize).
Definition call_of (g : settings) (xy : list (point * point)) : call := {| a_metrology := map to_device (g_metrology g); a_tx := g_input_tx g; a_mm := g_mm g; a_xy := map fst xy |}.
Lemma process_cache g cache xy : snd (process g cache xy) = snd (call_with argsort query2 query3 query4 cache (call_of g xy)).
Proof. unfold process, call_with, call_of. cbn. destruct (findfiducials _ _ _ _ _ _ _ _ _) as [r c]. reflexivity. Qed.
Lemma after_snoc calls c : after argsort query2 query3 query4 (calls ++ [c]) = snd (call_with argsort query2 query3 query4 (after argsort query2 query3 query4 calls) c).
Proof. unfold after. rewrite fold_left_app. reflexivity. Qed.
Definition kept (o : fopts) (l : list (string * list (point * point))) := filter (fun e => negb (outside o (Z.of_nat (List.length (snd e))))) l.

Lemma run_spec o g : f_nomatch o = false -> forall l calls fs r cache fs', NoDup (map (fun e => outname o (fst e)) l) ->
  run o g (after argsort query2 query3 query4 calls) fs l = (r, cache, fs') ->
  let state i := after argsort query2 query3 query4 (calls ++ map (fun e => call_of g (snd e)) (kept o (firstn i l))) in
  exists n, (n <= List.length l)%nat /\
    match r with
    | Ok c => (c = 0%Z /\ n = List.length l) \/ (c = 13%Z /\ exists ext xy, nth_error l n = Some (ext, xy) /\ outside o (Z.of_nat (List.length xy)) = false /\ fst (process g (state n) xy) = Ok None)
    | Err e => exists ext xy, nth_error l n = Some (ext, xy) /\ outside o (Z.of_nat (List.length xy)) = false /\ fst (process g (state n) xy) = Err e
    end /\
    (forall i ext xy, nth_error l i = Some (ext, xy) -> (i < n)%nat -> outside o (Z.of_nat (List.length xy)) = false ->
       exists rows, fst (process g (state i) xy) = Ok (Some rows) /\ fs' (outname o ext) = Some (Rows rows)) /\
    (forall q, (forall i ext xy, nth_error l i = Some (ext, xy) -> (i < n)%nat -> outside o (Z.of_nat (List.length xy)) = false -> q <> outname o ext) -> fs' q = fs q).
Proof.
  intros Nm. induction l as [|[ext xy] l IH]; intros calls fs r cache fs' Nd H state; cbn [FvcProc.run] in H.
  - injection H as <- <- <-. exists 0%nat. split; [cbn; lia|]. split; [left; auto|]. split; [intros i e x Hi; destruct i; discriminate|auto].
  - rewrite Nm in H. inversion Nd as [|? ? Nin Nd']; subst. destruct (outside o (Z.of_nat (List.length xy))) eqn:O.
    + destruct (IH calls fs r cache fs' Nd' H) as (n & Ln & Hr & Hw & Hq). clear IH H.
      assert (St : forall i, state (S i) = after argsort query2 query3 query4 (calls ++ map (fun e => call_of g (snd e)) (kept o (firstn i l)))) by (intros i; unfold state, kept; cbn [firstn filter snd]; rewrite O; reflexivity).
      exists (S n). split; [cbn; lia|]. split; [|split].
      * destruct r as [c|e]; [destruct Hr as [[-> ->]|(-> & e & x & He & Oe & Pe)]; [left; auto|right; split; [reflexivity|]; exists e, x; rewrite St; auto]|destruct Hr as (e0 & x & He & Oe & Pe); exists e0, x; rewrite St; auto].
      * intros [|i] e x Hi Li Oi; [injection Hi as <- <-; congruence|]. rewrite St. apply (Hw i e x Hi); [lia|exact Oi].
      * intros q Q. apply Hq. intros i e x Hi Li Oi. apply (Q (S i) e x Hi); [lia|exact Oi].
    + pose proof (process_cache g (after argsort query2 query3 query4 calls) xy) as Ec.
      assert (S0 : state 0%nat = after argsort query2 query3 query4 calls) by (unfold state; cbn [firstn kept filter map]; rewrite app_nil_r; reflexivity).
      destruct (process g (after argsort query2 query3 query4 calls) xy) as [r1 c1] eqn:Ep. cbn [snd] in Ec. rewrite <- after_snoc in Ec. destruct r1 as [[rows|]|e1].
      * rewrite Ec in H. destruct (IH (calls ++ [call_of g xy]) _ r cache fs' Nd' H) as (n & Ln & Hr & Hw & Hq). clear IH H.
        assert (St : forall i, state (S i) = after argsort query2 query3 query4 ((calls ++ [call_of g xy]) ++ map (fun e => call_of g (snd e)) (kept o (firstn i l)))) by (intros i; unfold state, kept; cbn [firstn filter snd]; rewrite O; cbn [negb map snd]; rewrite <- app_assoc; reflexivity).
        exists (S n). split; [cbn; lia|]. split; [|split].
        -- destruct r as [c|e]; [destruct Hr as [[-> ->]|(-> & e & x & He & Oe & Pe)]; [left; auto|right; split; [reflexivity|]; exists e, x; rewrite St; auto]|destruct Hr as (e0 & x & He & Oe & Pe); exists e0, x; rewrite St; auto].
        -- intros [|i] e x Hi Li Oi.
           ++ injection Hi as <- <-. exists rows. split; [rewrite S0, Ep; reflexivity|]. rewrite Hq; [unfold put; now rewrite String.eqb_refl|]. intros i e x Hi _ _ E. apply Nin. apply in_map_iff. exists (e, x). split; [symmetry; exact E|eapply nth_error_In; eauto].
           ++ rewrite St. apply (Hw i e x Hi); [lia|exact Oi].
        -- intros q Q. rewrite Hq; [|intros i e x Hi Li Oi; apply (Q (S i) e x Hi); [lia|exact Oi]]. unfold put. destruct (String.eqb_spec q (outname o ext)) as [E|]; [|reflexivity]. exfalso. apply (Q 0%nat ext xy eq_refl); [lia|exact O|exact E].
      * injection H as <- _ <-. exists 0%nat. split; [cbn; lia|]. split; [right; split; [reflexivity|]; exists ext, xy; rewrite S0, Ep; auto|]. split; [intros; lia|auto].
      * injection H as <- _ <-. exists 0%nat. split; [cbn; lia|]. split; [exists ext, xy; rewrite S0, Ep; auto|]. split; [intros; lia|auto].
Qed.
End Run.
