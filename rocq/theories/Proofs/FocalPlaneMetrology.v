From Coq Require Import Lra Lia.
From Verif.Model Require Import FocalPlaneMetrology.
From Verif.Spec Require Import FocalPlaneMetrology.
From Verif.Proofs Require Import Prelude RealNum Numpy Ptl2fp.
From Verif.Props Require Import Ptl2fp.
Local Open Scope R_scope.
Local Open Scope list_scope.

Lemma pinhole_spec parse_int pid n : pinhole_number parse_int pid = Ok n -> pinhole_text parse_int pid n.
Proof.
  unfold pinhole_number, pinhole_text. destruct pid as [|c r]; [discriminate|]. destruct (Ascii.eqb_spec c "M") as [->|N].
  - destruct r as [|c' r]; [discriminate|]. intros H. left. now exists c', r.
  - intros H. right. split; [discriminate|]. split; [intros r' E; injection E as E _; contradiction|]. destruct (parse_int (String c r)) as [m|e]; [left; congruence|]. destruct e; try discriminate. right. split; [reflexivity|congruence].
Qed.
Lemma radius_spec v : Rltb 1 (radius v) = true <-> let '(x, y, _) := v in 1 < x ^ 2 + y ^ 2.
Proof.
  destruct v as [[x y] z]. unfold radius. rewrite Rltb_true. assert (P : 0 <= x ^ 2 + y ^ 2) by (pose proof (pow2_ge_0 x); pose proof (pow2_ge_0 y); lra). split; intros H.
  - apply Rnot_le_lt. intros N. apply sqrt_le_1 in N; [|exact P|lra]. rewrite sqrt_1 in N. lra.
  - rewrite <- sqrt_1. apply sqrt_lt_1; lra.
Qed.
Lemma forall2_nth {A B} (P : A -> B -> Prop) : forall l m, length l = length m -> (forall i a b, nth_error l i = Some a -> nth_error m i = Some b -> P a b) -> Forall2 P l m.
Proof.
  induction l as [|a l IH]; destruct m as [|b m]; intros L H; try discriminate; constructor; [exact (H 0%nat a b eq_refl eq_refl)|]. apply IH; [cbn in L; lia|]. intros i a' b' E F. exact (H (S i) a' b' E F).
Qed.
Lemma base_spec parse_int d t spots : petal_spots parse_int d t = Ok spots ->
  exists used, sublist (fun u => (u_petal u < 10)%Z /\ off_axis u) t used /\ Forall2 (from_petal parse_int d) used spots.
Proof.
  unfold petal_spots. set (t1 := filter _ t). destruct (rmapM _ t1) as [t2|] eqn:E; [|discriminate]. cbn [rbind]. set (t3 := filter _ t2). intros H.
  assert (A : Forall2 (fun u p => exists n, p = (u, n) /\ pinhole_text parse_int (u_pinhole u) n) t1 t2).
  { apply rmapM_Ok_Forall2 in E. clear H t3. induction E as [|u p l m Q F IH]; [constructor|]. constructor; [|exact IH]. destruct (pinhole_number parse_int (u_pinhole u)) as [n|] eqn:N; [|discriminate]. cbn [rmap] in Q. injection Q as <-. exists n. split; [reflexivity|]. now apply pinhole_spec. }
  assert (B : sublist (fun u => (u_petal u < 10)%Z /\ off_axis u) t (map fst t3) /\ Forall (fun p => (u_petal (fst p) < 10)%Z /\ off_axis (fst p) /\ pinhole_text parse_int (u_pinhole (fst p)) (snd p)) t3).
  { clear E H. unfold t3. clear t3. unfold t1 in A. clear t1. revert t2 A. induction t as [|u t IH]; cbn [filter]; intros t2 A.
    - inversion A; subst. split; constructor.
    - destruct (Z.ltb_spec (u_petal u) 10) as [L|L].
      + inversion A as [|? p ? t2' [n [Fp Np]] A']; subst. destruct (IH _ A') as [S G]. cbn [filter]. destruct (Rltb 1 (radius (u_ptl u))) eqn:Rd.
        * apply radius_spec in Rd. assert (O : off_axis u) by (unfold off_axis; exact Rd). cbn [map fst]. split; constructor; auto.
        * split; [|exact G]. constructor; [|exact S]. intros [_ O]. unfold off_axis in O. apply radius_spec in O. congruence.
      + destruct (IH _ A) as [S G]. split; [|exact G]. constructor; [lia|exact S]. }
  destruct B as [B1 B2]. exists (map fst t3). split; [exact B1|]. clear A E B1.
  assert (L : length (map (fun '(u, _) => u_ptl u) t3) = length (map (fun '((u, _) : umt * Z) => u_petal u) t3)) by (now rewrite !map_length).
  destruct (apply_ptl2fp d _ _) as [fp|] eqn:F; [|discriminate]. cbn [rbind] in H. injection H as <-.
  assert (K : forall loc, In loc (map (fun '((u, _) : umt * Z) => u_petal u) t3) -> exists a, dict_get Z.eqb d loc = Some a).
  { intros loc I. destruct (dict_get Z.eqb d loc) as [a|] eqn:D; [now exists a|]. rewrite (C24_unknown_petal d _ _ loc L I D) in F. discriminate. }
  destruct (C24_each_row_own_petal d _ _ L K) as (out & F' & Lo & S). rewrite F in F'. injection F' as <-. rewrite map_length in Lo.
  apply forall2_nth; [rewrite !map_length, combine_length; lia|]. intros i u s Hu Hs.
  rewrite nth_error_map in Hu. destruct (nth_error t3 i) as [[u' n]|] eqn:T; [|discriminate]. cbn in Hu. injection Hu as ->.
  pose proof (nth_error_In _ _ T) as I. rewrite Forall_forall in B2. apply B2 in I as (P1 & P2 & P3). cbn [fst snd] in *.
  destruct (u_ptl u) as [[x y] z] eqn:U. destruct (S i (u_petal u) x y z) as (v & V1 & V2); [rewrite nth_error_map, T; reflexivity|rewrite nth_error_map, T; cbn; now rewrite U|].
  rewrite nth_error_map in Hs. assert (C : nth_error (combine t3 fp) i = Some ((u, n), v)).
  { clearbody t3. clear - T V1. revert t3 fp T V1. induction i as [|i IH]; intros [|p t3] [|q fp] T V1; try discriminate; cbn in *; [congruence|]. now apply IH. }
  rewrite C in Hs. cbn in Hs. injection Hs as <-. unfold from_petal. cbn. rewrite U. repeat split; try assumption.
Qed.
(** *** The patch *)
Lemma same_place_spec p s loc pin : at_place loc pin p = true -> same_place p s = at_place loc pin s.
Proof.
  unfold at_place, same_place. destruct (s_location p) as [lp|]; [|discriminate]. intros H. apply andb_prop in H as [H1 H2]. apply Z.eqb_eq in H1, H2. subst. reflexivity.
Qed.
Lemma other_place p s loc pin : at_place loc pin p = false -> same_place p s = true -> at_place loc pin s = false.
Proof.
  unfold at_place, same_place. destruct (s_location s) as [ls|]; [|discriminate]. destruct (s_location p) as [lp|]; [|discriminate]. intros H E. apply andb_prop in E as [E1 E2]. apply Z.eqb_eq in E1, E2. rewrite E1, E2 in *. first [exact H|rewrite <- E1, <- E2 in H; exact H].
Qed.
Lemma filter_map_same (f : spot -> spot) (P : spot -> bool) l : (forall s, In s l -> P (f s) = P s) -> filter P (map f l) = map f (filter P l).
Proof. induction l as [|s l IH]; intros H; [reflexivity|]. cbn [map filter]. rewrite (H s (or_introl eq_refl)). rewrite IH by (intros u I; apply H; now right). now destruct (P s). Qed.
Definition step (nr : bool) (ks : list spot) (p : spot) : list spot := match ks with [] => [p] | _ => if nr then ks else map (fun _ => p) ks end.
Lemma existsb_filter {A} (P : A -> bool) l : existsb P l = match filter P l with [] => false | _ => true end.
Proof. induction l as [|a l IH]; [reflexivity|]. cbn. destruct (P a); [reflexivity|exact IH]. Qed.
Lemma filter_ext_in' {A} (P Q : A -> bool) l : (forall s, In s l -> P s = Q s) -> filter P l = filter Q l.
Proof. induction l as [|s l IH]; intros H; [reflexivity|]. cbn. rewrite (H s (or_introl eq_refl)), IH by (intros u I; apply H; now right). reflexivity. Qed.
Lemma patch_one_key nr spots p loc pin : filter (at_place loc pin) (patch_one nr spots p) = if at_place loc pin p then step nr (filter (at_place loc pin) spots) p else filter (at_place loc pin) spots.
Proof.
  unfold patch_one. destruct (at_place loc pin p) eqn:K.
  - rewrite existsb_filter. rewrite (filter_ext_in' (same_place p) (at_place loc pin)) by (intros s _; now apply same_place_spec). unfold step. destruct (filter (at_place loc pin) spots) as [|k ks] eqn:E.
    + rewrite filter_app, E. cbn [filter app]. now rewrite K.
    + destruct nr; [exact E|]. rewrite filter_map_same.
      * rewrite <- E. clear E. induction spots as [|s l IH]; [reflexivity|]. cbn [filter]. destruct (at_place loc pin s) eqn:S; [|exact IH]. cbn [map]. rewrite IH. now rewrite (same_place_spec p s loc pin K), S.
      * intros s _. destruct (same_place p s) eqn:S; [|reflexivity]. rewrite (same_place_spec p s loc pin K) in S. now rewrite S.
  - destruct (existsb (same_place p) spots).
    + destruct nr; [reflexivity|]. rewrite filter_map_same.
      * clear - K. induction spots as [|s l IH]; [reflexivity|]. cbn [filter]. destruct (at_place loc pin s) eqn:S; [|exact IH]. cbn [map]. rewrite IH. destruct (same_place p s) eqn:E; [|reflexivity]. rewrite (other_place p s loc pin K E) in S. discriminate.
      * intros s _. destruct (same_place p s) eqn:S; [|reflexivity]. now rewrite K, (other_place p s loc pin K S).
    + rewrite filter_app. cbn [filter]. rewrite K. now rewrite app_nil_r.
Qed.
Lemma patch_key nr loc pin : forall patch spots, filter (at_place loc pin) (apply_patch nr patch spots) = fold_left (step nr) (filter (at_place loc pin) patch) (filter (at_place loc pin) spots).
Proof.
  unfold apply_patch. induction patch as [|p patch IH]; intros spots; [reflexivity|]. cbn [fold_left filter]. rewrite IH, patch_one_key. destruct (at_place loc pin p); reflexivity.
Qed.
Lemma fold_step nr : forall ps ks, fold_left (step nr) ps ks =
  match ks, ps with [], [] => [] | [], p :: r => [if nr then p else last ps p] | _, [] => ks | _, p :: r => if nr then ks else map (fun _ => last ps p) ks end.
Proof.
  assert (G : forall ps ks, ks <> [] -> fold_left (step nr) ps ks = match ps with [] => ks | p :: r => if nr then ks else map (fun _ => last ps p) ks end).
  { induction ps as [|p ps IH]; intros ks N; [reflexivity|]. cbn [fold_left]. assert (S : step nr ks p = if nr then ks else map (fun _ => p) ks) by (destruct ks; [contradiction|reflexivity]). rewrite S.
    rewrite IH by (destruct nr; [exact N|destruct ks; [contradiction|discriminate]]). destruct ps as [|q ps]; [reflexivity|]. destruct nr; [reflexivity|]. rewrite map_map. apply map_ext. intros _.
    cbn [last]. assert (X : forall (l : list spot) a b c, last (a :: l) b = last (a :: l) c) by (induction l as [|e l I]; intros a b c; [reflexivity|apply (I e b c)]). apply X. }
  intros ps [|k ks].
  - destruct ps as [|p ps]; [reflexivity|]. cbn [fold_left step]. rewrite G by discriminate. destruct ps as [|q ps]; [destruct nr; reflexivity|]. destruct nr; [reflexivity|]. cbn [map]. f_equal.
    cbn [last]. assert (X : forall (l : list spot) a b c, last (a :: l) b = last (a :: l) c) by (induction l as [|e l I]; intros a b c; [reflexivity|apply (I e b c)]). apply X.
  - apply G. discriminate.
Qed.
Lemma patch_unplaced nr : forall patch spots, filter unplaced (apply_patch nr patch spots) = filter unplaced spots ++ filter unplaced patch.
Proof.
  unfold apply_patch. induction patch as [|p patch IH]; intros spots; [now rewrite app_nil_r|]. cbn [fold_left]. rewrite IH. cbn [filter].
  assert (E : filter unplaced (patch_one nr spots p) = filter unplaced spots ++ (if unplaced p then [p] else [])).
  { unfold patch_one. destruct (existsb (same_place p) spots) eqn:X.
    - assert (unplaced p = false) as ->.
      { apply existsb_exists in X as (s & _ & S). unfold same_place, unplaced in *. destruct (s_location s), (s_location p); try discriminate. reflexivity. }
      rewrite app_nil_r. destruct nr; [reflexivity|]. clear X. induction spots as [|s l I]; [reflexivity|]. cbn [map filter]. rewrite I. destruct (same_place p s) eqn:S; [|reflexivity].
      unfold same_place, unplaced in *. destruct (s_location s), (s_location p); try discriminate. reflexivity.
    - rewrite filter_app. reflexivity. }
  rewrite E, <- app_assoc. f_equal. now destruct (unplaced p).
Qed.
Lemma patch_prefix nr : forall patch spots, exists tail, apply_patch nr patch spots = map (fun s => if nr then s else last (filter (fun p => same_place p s) patch) s) spots ++ tail.
Proof.
  unfold apply_patch. induction patch as [|p patch IH]; intros spots.
  - exists []. cbn. rewrite app_nil_r. symmetry. rewrite <- (map_id spots) at 2. apply map_ext. intros s. now destruct nr.
  - cbn [fold_left]. destruct (IH (patch_one nr spots p)) as (tail & ->).
    assert (Q : exists t', patch_one nr spots p = map (fun s => if nr then s else if same_place p s then p else s) spots ++ t').
    { unfold patch_one. destruct (existsb (same_place p) spots) eqn:X; [exists []|exists [p]].
      - rewrite app_nil_r. destruct nr; [now rewrite map_id|reflexivity].
      - f_equal. rewrite <- (map_id spots) at 1. apply map_ext_in. intros s I. destruct nr; [reflexivity|]. destruct (same_place p s) eqn:S; [|reflexivity]. exfalso. assert (existsb (same_place p) spots = true) by (apply existsb_exists; now exists s). congruence. }
    destruct Q as (t' & ->). rewrite map_app, map_map, <- app_assoc. eexists. f_equal. apply map_ext. intros s. destruct nr; [reflexivity|]. cbn [filter]. destruct (same_place p s) eqn:S; [|reflexivity].
    assert (E : filter (fun q => same_place q p) patch = filter (fun q => same_place q s) patch).
    { apply filter_ext_in'. intros q _. unfold same_place in *. destruct (s_location s) as [ls|]; [|discriminate]. destruct (s_location p) as [lp|]; [|discriminate]. apply andb_prop in S as [S1 S2]. apply Z.eqb_eq in S1, S2. subst. rewrite S2. reflexivity. }
    rewrite E. destruct (filter (fun q => same_place q s) patch) as [|a l]; [reflexivity|]. cbn [last]. assert (X : forall (l : list spot) a b c, last (a :: l) b = last (a :: l) c) by (clear; induction l as [|e l I]; intros a b c; [reflexivity|apply (I e b c)]). apply X.
Qed.
(** *** Guide cameras *)
Lemma tweak_spec d g s : tweak d g = Ok s -> added d g s.
Proof.
  destruct g as [r b]. unfold tweak, added. cbn [fst snd]. destruct b; [|intros E; now injection E]. destruct (s_fp r) as [[x y] z] eqn:F. cbn [fst snd]. destruct (fp2ptl d (s_petal r) x y (Some z)) as [[[[xp yp] zp]|]|]; try discriminate.
  cbn [rbind]. intros E. injection E as <-. exists xp, yp, zp. split; [reflexivity|]. unfold with_ptl. now rewrite F.
Qed.
Lemma kept_spec gp : forall spots, fold_left (fun l (g : spot * bool) => if snd g then filter (fun s => negb (camera_of (s_petal (fst g)) s)) l else l) gp spots =
  filter (fun s => negb (existsb (fun g => snd g && camera_of (s_petal (fst g)) s)%bool gp)) spots.
Proof.
  induction gp as [|g gp IH]; intros spots; cbn [fold_left existsb].
  - induction spots as [|s l I]; [reflexivity|]. cbn [filter negb]. f_equal. exact I.
  - rewrite IH. destruct g as [r b]. cbn [fst snd]. destruct b; [|reflexivity]. clear IH. induction spots as [|s l I]; [reflexivity|]. cbn [filter]. destruct (camera_of (s_petal r) s); cbn [negb andb orb]; [exact I|]. cbn [filter]. destruct (existsb _ gp); cbn [negb]; now rewrite I.
Qed.
Lemma filter_sublist {A} (P : A -> bool) (Q : A -> Prop) l : (forall a, P a = true <-> Q a) -> sublist Q l (filter P l).
Proof. intros H. induction l as [|a l IH]; [constructor|]. cbn. destruct (P a) eqn:E; constructor; auto; [now apply H|]. intros K. apply H in K. congruence. Qed.
Lemma gfa_spec d gp spots out : apply_gfa_patch d gp spots = Ok out -> exists kept rows, out = kept ++ rows /\ sublist (fun s => ~ replaced gp s) spots kept /\ Forall2 (added d) gp rows.
Proof.
  unfold apply_gfa_patch. destruct (rmapM (tweak d) gp) as [rows|] eqn:E; [|discriminate]. cbn [rmap]. intros H. injection H as <-. rewrite kept_spec. eexists _, rows. split; [reflexivity|]. split.
  - apply filter_sublist. intros s. rewrite Bool.negb_true_iff. split.
    + intros F (T & g & I & P). assert (X : existsb (fun g => snd g && camera_of (s_petal (fst g)) s)%bool gp = true); [|congruence]. apply existsb_exists. exists (g, true). split; [exact I|]. cbn [fst snd andb]. unfold camera_of. rewrite T, P, Z.eqb_refl. reflexivity.
    + intros N. apply Bool.not_true_iff_false. intros X. apply existsb_exists in X as ([g b] & I & X). cbn [fst snd] in X. apply andb_prop in X as [-> X]. unfold camera_of in X. apply andb_prop in X as [X1 X2]. apply String.eqb_eq in X1. apply Z.eqb_eq in X2. apply N. split; [exact X1|]. exists g. split; [exact I|congruence].
  - apply rmapM_Ok_Forall2 in E. induction E as [|g s l m Q F IH]; [constructor|]. constructor; [now apply tweak_spec|exact IH].
Qed.
(** *** Cheat patch *)
Definition hits (c : spot) (spots : list spot) : list spot := filter (same_corner c) spots.
Lemma moved_corner c m s : same_corner c (moved_to m s) = same_corner c s.
Proof. unfold moved_to. destruct (s_fp m) as [[? ?] ?], (s_fp s) as [[? ?] ?]. reflexivity. Qed.
Lemma moved_xy c s : moved_to c s = with_xy s (fst (fst (s_fp c))) (snd (fst (s_fp c))).
Proof. unfold moved_to, with_xy. destruct (s_fp c) as [[? ?] ?], (s_fp s) as [[? ?] ?]. reflexivity. Qed.
Lemma same_corner_spec c s : same_corner c s = true <-> corner_of c s.
Proof. unfold same_corner, corner_of. rewrite !Bool.andb_true_iff, String.eqb_eq, !Z.eqb_eq. tauto. Qed.
Lemma where_from_ge {A} (f : A -> bool) : forall l k j, In j (where_from f k l) -> (k <= j)%nat.
Proof. induction l as [|a l IH]; intros k j H; [destruct H|]. cbn in H. destruct (f a); [destruct H as [->|H]; [lia|]|]; apply IH in H; lia. Qed.
Lemma where_from_length {A} (f : A -> bool) : forall l k, length (where_from f k l) = length (filter f l).
Proof. induction l as [|a l IH]; intros k; [reflexivity|]. cbn. destruct (f a); cbn; now rewrite IH. Qed.
Lemma untouched (g : spot -> spot) : forall l k j, (j < k)%nat -> map (fun '(i, s) => if Nat.eqb i j then g s else s) (combine (seq k (length l)) l) = l.
Proof. induction l as [|a l IH]; intros k j H; [reflexivity|]. cbn. destruct (Nat.eqb_spec k j); [lia|]. rewrite IH by lia. reflexivity. Qed.
Lemma set_at f (g : spot -> spot) : forall l k j, where_from f k l = [j] -> map (fun '(i, s) => if Nat.eqb i j then g s else s) (combine (seq k (length l)) l) = map (fun s => if f s then g s else s) l.
Proof.
  induction l as [|a l IH]; intros k j H; [discriminate|]. cbn in H |- *. destruct (f a) eqn:F.
  - injection H as -> H. rewrite Nat.eqb_refl. rewrite untouched by lia. f_equal. clear IH. revert H. generalize (S j). induction l as [|b l IH]; intros k H; [reflexivity|]. cbn in H |- *. destruct (f b); [discriminate|]. f_equal. exact (IH _ H).
  - assert (I : In j (where_from f (S k) l)) by (rewrite H; now left). apply where_from_ge in I. destruct (Nat.eqb_spec k j); [lia|]. f_equal. exact (IH _ _ H).
Qed.
Definition move (s c : spot) : spot := if same_corner c s then moved_to c s else s.
Lemma cheat_one_spec spots c : cheat_one spots c = match filter (same_corner c) spots with [] => Err IndexError | [_] => Ok (map (fun s => move s c) spots) | _ => Err ValueError end.
Proof.
  unfold cheat_one. pose proof (where_from_length (same_corner c) spots 0) as L. fold (where_ (same_corner c) spots) in L. destruct (filter (same_corner c) spots) as [|a [|b r]]; cbn [length] in L.
  - destruct (where_ _ spots); [reflexivity|discriminate].
  - destruct (where_ (same_corner c) spots) as [|j [|? ?]] eqn:W; try discriminate. cbn. f_equal. exact (set_at _ _ _ _ _ W).
  - rewrite L. reflexivity.
Qed.
Lemma move_corner s m c : same_corner c (move s m) = same_corner c s.
Proof. unfold move. destruct (same_corner m s); [apply moved_corner|reflexivity]. Qed.
Lemma hits_move m c : forall spots, length (filter (same_corner c) (map (fun s => move s m) spots)) = length (filter (same_corner c) spots).
Proof. induction spots as [|s l IH]; [reflexivity|]. cbn [map filter]. rewrite move_corner. destruct (same_corner c s); cbn [length]; now rewrite IH. Qed.
Lemma cheats_ok : forall cheats spots, (forall c, In c cheats -> length (filter (same_corner c) spots) = 1%nat) -> apply_cheats cheats spots = Ok (map (fun s => fold_left move cheats s) spots).
Proof.
  induction cheats as [|c r IH]; intros spots H; cbn [apply_cheats fold_left]; [now rewrite map_id|]. rewrite cheat_one_spec. pose proof (H c (or_introl eq_refl)) as L. destruct (filter (same_corner c) spots) as [|a [|b l]]; try discriminate. cbn [rbind].
  rewrite IH; [now rewrite map_map|]. intros c' I. rewrite hits_move. apply H. now right.
Qed.
Lemma cheats_one : forall cheats spots out, apply_cheats cheats spots = Ok out -> forall c, In c cheats -> length (filter (same_corner c) spots) = 1%nat.
Proof.
  induction cheats as [|c r IH]; intros spots out H c' I; [destruct I|]. cbn [apply_cheats] in H. rewrite cheat_one_spec in H. destruct (filter (same_corner c) spots) as [|a [|b l]] eqn:F; try discriminate. cbn [rbind] in H. destruct I as [<-|I]; [now rewrite F|]. rewrite <- (hits_move c c'). exact (IH _ _ H _ I).
Qed.
Lemma move_same s : forall cheats, exists x y, fold_left move cheats s = with_xy s x y.
Proof.
  assert (W : exists x y, s = with_xy s x y) by (destruct s as [? ? ? ? ? [[x y] z] ?]; now exists x, y).
  intros cheats. induction cheats as [|c r IH] using rev_ind; [exact W|]. rewrite fold_left_app. cbn [fold_left]. destruct IH as (x & y & ->). unfold move. destruct (same_corner c _); [|now exists x, y]. rewrite moved_xy. eexists _, _. reflexivity.
Qed.
Lemma cheated_spec s : forall cheats, cheated s cheats (fold_left move cheats s).
Proof.
  intros cheats. induction cheats as [|c r IH] using rev_ind; [constructor; intros c []|]. rewrite fold_left_app. cbn [fold_left]. destruct (move_same s r) as (x & y & E). destruct (same_corner c s) eqn:F.
  - assert (move (fold_left move r s) c = with_xy s (fst (fst (s_fp c))) (snd (fst (s_fp c)))) as ->.
    { rewrite E. unfold move. assert (same_corner c (with_xy s x y) = same_corner c s) as -> by reflexivity. rewrite F, moved_xy. reflexivity. }
    apply (cheat_last s r c []); [now apply same_corner_spec|intros ? []].
  - assert (N : ~ corner_of c s) by (intros K; apply same_corner_spec in K; congruence). assert (move (fold_left move r s) c = fold_left move r s) as ->.
    { rewrite E. unfold move. assert (same_corner c (with_xy s x y) = same_corner c s) as -> by reflexivity. now rewrite F. }
    destruct IH as [r H|a c' b H1 H2].
    + constructor. intros c' I. apply in_app_or in I as [I|[<-|[]]]; auto.
    + rewrite <- app_assoc. cbn [app]. constructor; [exact H1|]. intros k I. apply in_app_or in I as [I|[<-|[]]]; auto.
Qed.
Definition only_one (c : spot) (spots : list spot) : Prop := exists a s b, spots = a ++ s :: b /\ corner_of c s /\ Forall (fun s => ~ corner_of c s) a /\ Forall (fun s => ~ corner_of c s) b.
Lemma no_hit c l : filter (same_corner c) l = [] <-> Forall (fun s => ~ corner_of c s) l.
Proof.
  induction l as [|s l IH]; [split; [constructor|reflexivity]|]. cbn. destruct (same_corner c s) eqn:F.
  - split; [discriminate|]. intros H. inversion H as [|? ? N]; subst. exfalso. apply N. now apply same_corner_spec.
  - rewrite IH. split; intros H; [constructor; [|exact H]|now inversion H]. intros K. apply same_corner_spec in K. congruence.
Qed.
Lemma one_hit c l : length (filter (same_corner c) l) = 1%nat <-> only_one c l.
Proof.
  split.
  - induction l as [|s l IH]; [discriminate|]. cbn. destruct (same_corner c s) eqn:F; cbn [length]; intros H.
    + exists [], s, l. split; [reflexivity|]. split; [now apply same_corner_spec|]. split; [constructor|]. apply no_hit. destruct (filter _ l); [reflexivity|discriminate].
    + destruct (IH H) as (a & u & b & -> & K & A & B). exists (s :: a), u, b. split; [reflexivity|]. split; [exact K|]. split; [|exact B]. constructor; [|exact A]. intros Q. apply same_corner_spec in Q. congruence.
  - intros (a & s & b & -> & K & A & B). apply no_hit in A, B. apply same_corner_spec in K. rewrite filter_app. cbn [filter]. now rewrite K, A, B.
Qed.
(** *** The numbers of the devices *)
Lemma find_first {A} (f : A -> bool) l x : find f l = Some x -> exists a b, l = a ++ x :: b /\ f x = true /\ forall y, In y a -> f y = false.
Proof.
  induction l as [|y l IH]; [discriminate|]. cbn. destruct (f y) eqn:F; intros H.
  - injection H as <-. exists [], l. split; [reflexivity|]. split; [exact F|]. intros ? [].
  - destruct (IH H) as (a & b & -> & Fx & Q). exists (y :: a), b. split; [reflexivity|]. split; [exact Fx|]. intros z [<-|I]; auto.
Qed.
Lemma ids_spec devices s i p : ids_of devices s = Ok i -> petal_id_of devices s = Ok p -> with_ids devices s {| o_spot := placed s; o_ids := i; o_petal_id := p |}.
Proof.
  intros Hi Hp. unfold with_ids. cbn [o_spot o_ids o_petal_id].
  split; [|split; [|split]].
  - intros T. unfold ids_of in Hi. assert (numbered s = true) as N by (unfold numbered; destruct T as [-> |[-> | ->]]; reflexivity). rewrite N in Hi. destruct (s_location s) as [loc|]; [|discriminate]. unfold device_at in Hi. destruct (find _ (rev devices)) as [k|] eqn:F; [|discriminate]. cbn [rmap] in Hi. injection Hi as <-.
    apply find_first in F as (a & b & E & Fk & Q). exists (rev b), k, (rev a). split; [rewrite <- (rev_involutive devices), E, rev_app_distr; cbn [rev]; now rewrite <- app_assoc|]. apply Z.eqb_eq in Fk. split; [now rewrite Fk|]. split; [reflexivity|]. intros k' I X. injection X as X. apply in_rev in I. apply Q in I. apply Z.eqb_neq in I. congruence.
  - intros N1 N2 N3. unfold ids_of in Hi. assert (numbered s = false) as N. { unfold numbered. apply String.eqb_neq in N1, N2, N3. now rewrite N1, N2, N3. } rewrite N in Hi. now injection Hi.
  - unfold petal_id_of in Hp. destruct (find _ devices) as [k|] eqn:F; [|discriminate]. injection Hp as <-. apply find_first in F as (a & b & E & Fk & Q). apply Z.eqb_eq in Fk. exists a, k, b. split; [exact E|]. split; [exact Fk|]. split; [reflexivity|]. intros k' I. apply Q in I. now apply Z.eqb_neq in I.
  - unfold placed. destruct (s_device s) as [k|] eqn:D; [|repeat split]. destruct (Z.leb_spec 0 k) as [L|L].
    + repeat (split; [reflexivity|]). split; [intros _; now split|lia].
    + repeat (split; [reflexivity|]). split; [lia|]. intros _. now split.
Qed.
Lemma add_ids_spec devices spots out : add_ids devices spots = Ok out -> Forall2 (with_ids devices) spots out.
Proof.
  unfold add_ids. destruct (rmapM (ids_of devices) spots) as [ids|] eqn:E1; [|discriminate]. cbn [rbind]. destruct (rmapM (petal_id_of devices) spots) as [pids|] eqn:E2; [|discriminate]. cbn [rbind]. intros H. injection H as <-.
  apply rmapM_Ok_Forall2 in E1, E2. revert pids E2. induction E1 as [|s i l m Q F IH]; intros pids E2; inversion E2 as [|? p ? r Hp E2']; subst; cbn [combine map]; constructor; [now apply ids_spec|]. now apply IH.
Qed.
