(** C60, C83: turbulence correction with local polynomials. *)
From Verif.Model Require Import TurbulencePol.
From Verif.Proofs Require Import Prelude RealNum Stats LinAlg Numpy Pos2ptl Turbulence TurbulencePol Lstsq.
From Coq Require Import Reals Lra.
From Verif.Spec Require Import LinAlg Polynomial.
Local Open Scope R_scope.

(** C60. For each degree the rows are the monomials of degree 1 to n, once each; a row holds the derivative with respect to x at all points, then the one with respect to y. *)
Theorem C60_rows : forall pts n, exists es P, getpoly pts n = Ok P /\ NoDup es /\ (forall a b, In (a, b) es <-> (1 <= a + b <= n)%nat) /\ length es = length P /\
  forall k a b row, nth_error es k = Some (a, b) -> nth_error P k = Some row -> length row = (2 * length pts)%nat /\
  forall i x y, nth_error pts i = Some (x, y) -> derivable_pt_lim (fun t => t ^ a * y ^ b) x (nth i row 0) /\ derivable_pt_lim (fun t => x ^ a * t ^ b) y (nth (length pts + i) row 0).
Proof.
  intros pts n. exists (exponents n), (map (poly_row pts) (exponents n)). split; [apply getpoly_eq|]. split; [apply exponents_NoDup|]. split; [apply exponents_In|]. split; [now rewrite map_length|].
  intros k a b row Hk Hr. rewrite nth_error_map, Hk in Hr. cbn in Hr. injection Hr as <-. split; [unfold poly_row; rewrite app_length, !map_length; lia|]. intros i x y Hi. assert (Li : (i < length pts)%nat) by (apply nth_error_Some; congruence). assert (Ei : nth i pts (0, 0) = (x, y)) by now apply nth_error_nth.
  change (nth i (map (fun q => INR a * fst q ^ lowered a * snd q ^ b) pts ++ map (fun q => INR b * fst q ^ a * snd q ^ lowered b) pts) 0) with (nth i (poly_row pts (a, b)) 0). change (nth (length pts + i) (map (fun q => INR a * fst q ^ lowered a * snd q ^ b) pts ++ map (fun q => INR b * fst q ^ a * snd q ^ lowered b) pts) 0) with (nth (length pts + i) (poly_row pts (a, b)) 0).
  rewrite !poly_row_nth by lia. destruct (Nat.ltb_spec i (length pts)); [|lia]. destruct (Nat.ltb_spec (length pts + i) (length pts)); [lia|]. replace (length pts + i - length pts)%nat with i by lia. rewrite Ei.
  destruct (gradient_eq [(1, (a, b))] (x, y)) as [Gx Gy]. cbn [fst snd] in Gx, Gy. unfold gradX, gradY, Rsum in Gx, Gy. cbn [map fold_right] in Gx, Gy. rewrite Rplus_0_r in Gx, Gy.
  split; [intros e He; destruct (Gx e He) as (d & Hd)|intros e He; destruct (Gy e He) as (d & Hd)]; exists d; intros h Nh Lh; specialize (Hd h Nh Lh); unfold value in Hd; cbn [fold_right fst snd] in Hd.
  - replace ((x + h) ^ a * y ^ b - x ^ a * y ^ b) with (1 * ((x + h) ^ a * y ^ b) + 0 - (1 * (x ^ a * y ^ b) + 0)) by ring. exact Hd.
  - replace (x ^ a * (y + h) ^ b - x ^ a * y ^ b) with (1 * (x ^ a * (y + h) ^ b) + 0 - (1 * (x ^ a * y ^ b) + 0)) by ring. exact Hd.
Qed.
Print Assumptions C60_rows.
(** The rows for a smaller degree come first, so that cutting the table, as [predictor] does, is the same as computing it. *)
Theorem C60_prefix : forall pts n m P, (m <= n)%nat -> getpoly pts n = Ok P -> getpoly pts m = Ok (firstn (((m + 1) * (m + 2)) / 2 - 1) P).
Proof. intros pts n m P H. rewrite !getpoly_eq. intros E. apply Ok_inj in E. subst P. change (((m + 1) * (m + 2)) / 2 - 1)%nat with (npoly m). now rewrite firstn_map, exponents_prefix. Qed.
Print Assumptions C60_prefix.
(** Every combination of the rows is the gradient of one polynomial, and all polynomials of the degree are obtained. *)
Theorem C60_gradient : forall pts n P, getpoly pts n = Ok P ->
  (forall c, length c = length P -> exists T, degree_le n T /\ forall i p, nth_error pts i = Some p -> gradient T p (combination c (map (fun r => nth i r 0) P), combination c (map (fun r => nth (length pts + i) r 0) P))) /\
  (forall T, degree_le n T -> exists c, length c = length P /\ forall i p, nth_error pts i = Some p -> gradient T p (combination c (map (fun r => nth i r 0) P), combination c (map (fun r => nth (length pts + i) r 0) P))).
Proof.
  intros pts n P E. rewrite getpoly_eq in E. apply Ok_inj in E. subst P. rewrite map_length, exponents_length.
  assert (G : forall c i p, length c = npoly n -> nth_error pts i = Some p -> combination c (map (fun r => nth i r 0) (map (poly_row pts) (exponents n))) = gradX (combine c (exponents n)) p /\ combination c (map (fun r => nth (length pts + i) r 0) (map (poly_row pts) (exponents n))) = gradY (combine c (exponents n)) p).
  { intros c i p L Hi. assert (Li : (i < length pts)%nat) by (apply nth_error_Some; congruence). rewrite !combination_dot, !(dot_comm c). change (map (fun r => nth i r 0) (map (poly_row pts) (exponents n))) with (column (map (poly_row pts) (exponents n)) i). change (map (fun r => nth (length pts + i) r 0) (map (poly_row pts) (exponents n))) with (column (map (poly_row pts) (exponents n)) (length pts + i)).
    rewrite !column_dot by (rewrite ?exponents_length; lia). unfold component. destruct (Nat.ltb_spec i (length pts)); [|lia]. destruct (Nat.ltb_spec (length pts + i) (length pts)); [lia|]. replace (length pts + i - length pts)%nat with i by lia. now rewrite (nth_error_nth pts i _ Hi). }
  split.
  - intros c L. exists (combine c (exponents n)). split; [apply degree_coeffs|]. intros i p Hi. destruct (G c i p L Hi) as [-> ->]. apply gradient_eq.
  - intros T HT. destruct (to_coeffs n T HT) as (c & L & Ec). exists c. split; [exact L|]. intros i p Hi. destruct (G c i p L Hi) as [-> ->]. destruct (Ec p) as [-> ->]. apply gradient_eq.
Qed.
Print Assumptions C60_gradient.
Example C60_example : getpoly [(2, 3); (0, 0)] 2 = Ok [[0; 0; 1; 1]; [1; 1; 0; 0]; [0; 0; 6; 0]; [3; 0; 2; 0]; [4; 0; 0; 0]].
Proof. rewrite getpoly_eq. cbn. unfold lowered. cbn. repeat f_equal; ring. Qed.

(** *** C83 *)
Definition near (win : R) (p q : R * R) : Prop := sqrt ((fst p - fst q) ^ 2 + (snd p - snd q) ^ 2) <= win.
(** the indices of the points of [X0] within [win] of [p], in any order *)
Definition is_ball (ball : list (R * R) -> R * R -> R -> list nat) : Prop := forall X0 p win, NoDup (ball X0 p win) /\ forall j, In j (ball X0 p win) <-> exists q, nth_error X0 j = Some q /\ near win p q.
Definition minus (p q : R * R) : R * R := (fst p - fst q, snd p - snd q).

(** list of the neighbours of spot [i], with the offset of the spot *)
Lemma correct_one_cases lstsq ball rows win last i me : is_lstsq lstsq -> is_ball ball -> nth_error rows i = Some me -> near win (fst me) (snd me) ->
  exists a b na nb, ball (map snd rows) (fst me) win = a ++ i :: b /\ NoDup (a ++ i :: b) /\ Forall2 (fun j r => nth_error rows j = Some r) a na /\ Forall2 (fun j r => nth_error rows j = Some r) b nb /\
  let nr := na ++ me :: nb in let pts := map (fun r => minus (fst r) (fst me)) nr in let dxy := map (fun r => fst (minus (fst r) (snd r))) nr ++ map (fun r => snd (minus (fst r) (snd r))) nr in
  length pts = (length a + S (length b))%nat /\
  correct_one lstsq ball rows win last i = rbind (rfold (try_degree lstsq pts dxy (repeat true (length a) ++ false :: repeat true (length b))) [4; 3; 2; 1]%nat (1000000000, last, None)) (fun st => match snd (fst st) with Some xy => Ok xy | None => Err NameError end).
Proof.
  intros Hl Hb Hi Hn. destruct (Hb (map snd rows) (fst me) win) as [ND HIn]. assert (I : In i (ball (map snd rows) (fst me) win)). { apply HIn. exists (snd me). rewrite nth_error_map, Hi. auto. }
  assert (All : forall j, In j (ball (map snd rows) (fst me) win) -> exists r, nth_error rows j = Some r). { intros j Hj. apply HIn in Hj as (q & Hq & _). rewrite nth_error_map in Hq. destruct (nth_error rows j) as [r|]; [eauto|discriminate]. }
  destruct (in_split _ _ I) as (a & b & E). rewrite E in *.
  assert (F : forall l, (forall j, In j l -> exists r, nth_error rows j = Some r) -> exists nl, Forall2 (fun j r => nth_error rows j = Some r) l nl). { induction l as [|j l IH]; intros H; [exists []; constructor|]. destruct (H j (or_introl eq_refl)) as (r & Hr). destruct IH as (nl & Hnl); [intros; apply H; now right|]. exists (r :: nl). now constructor. }
  destruct (F a) as (na & Fa); [intros; apply All, in_or_app; auto|]. destruct (F b) as (nb & Fb); [intros; apply All, in_or_app; right; now right|]. exists a, b, na, nb. split; [reflexivity|]. split; [exact ND|]. split; [exact Fa|]. split; [exact Fb|]. cbv zeta.
  pose proof (Forall2_length _ _ _ Fa) as La. pose proof (Forall2_length _ _ _ Fb) as Lb. split; [rewrite map_length, app_length; cbn; lia|]. unfold correct_one, geti at 1. rewrite Hi. cbn [rbind]. rewrite E.
  assert (M : rmapM (geti rows) (a ++ i :: b) = Ok (na ++ me :: nb)). { assert (FF : Forall2 (fun j r => nth_error rows j = Some r) (a ++ i :: b) (na ++ me :: nb)) by (apply Forall2_app; [exact Fa|constructor; assumption]). clear - FF. induction FF as [|j r l nl Hj FF IH]; [reflexivity|]. cbn. unfold geti at 1. rewrite Hj. cbn. now rewrite IH. }
  destruct (a ++ i :: b) as [|z l] eqn:El; [now destruct a|]. rewrite <- El in *. rewrite M. cbn [rbind]. rewrite tofit_split by exact ND. reflexivity.
Qed.

(** the loop over the spots *)
Lemma loop_Ok lstsq ball rows win l : forall st out, rfold (fun st i => rmap (fun xy => (fst st ++ [xy], Some xy)) (correct_one lstsq ball rows win (snd st) i)) l st = Ok out ->
  exists xs, fst out = fst st ++ xs /\ length xs = length l /\ forall k i xy, nth_error l k = Some i -> nth_error xs k = Some xy -> exists last, correct_one lstsq ball rows win last i = Ok xy /\ (last = match k with O => snd st | S k' => nth_error xs k' end).
Proof.
  induction l as [|i l IH]; intros st out H; cbn [rfold] in H.
  - apply Ok_inj in H. subst out. exists []. rewrite app_nil_r. repeat split. intros [|k]; discriminate.
  - destruct (correct_one _ _ _ _ _ i) as [xy|] eqn:E; [|discriminate]. cbn [rmap rbind] in H. apply IH in H as (xs & E1 & L & H). cbn [fst snd] in *. exists (xy :: xs). split; [now rewrite E1, <- app_assoc|]. split; [cbn; lia|].
    intros [|k] j xy' Hj Hx; cbn in Hj, Hx.
    + injection Hj as <-. injection Hx as <-. exists (snd st). auto.
    + destruct (H k j xy' Hj Hx) as (last & Ec & El). exists last. split; [exact Ec|]. destruct k; exact El.
Qed.
Lemma nth_error_seq n i : (i < n)%nat -> nth_error (seq 0 n) i = Some i.
Proof. intros H. rewrite (nth_error_nth' _ 0%nat) by now rewrite seq_length. now rewrite seq_nth. Qed.
Lemma correct_Ok lstsq ball rows win out i me : correct_with_pol lstsq ball rows win = Ok out -> nth_error rows i = Some me ->
  length out = length rows /\ exists last xy, correct_one lstsq ball rows win last i = Ok xy /\ nth_error out i = Some (minus (fst me) xy) /\
  match i with O => last = None | S i' => exists me' xy', nth_error rows i' = Some me' /\ nth_error out i' = Some (minus (fst me') xy') /\ last = Some xy' end.
Proof.
  intros H Hi. unfold correct_with_pol in H. destruct (rfold _ _ _) as [st|] eqn:E; [|discriminate]. cbn in H. apply Ok_inj in H. apply loop_Ok in E as (xs & E1 & L & E). cbn [fst snd app] in *. rewrite seq_length in L. assert (Li : (i < length rows)%nat) by (apply nth_error_Some; congruence).
  assert (O : forall k r xy, nth_error rows k = Some r -> nth_error xs k = Some xy -> nth_error out k = Some (minus (fst r) xy)). { intros k r xy Hr Hx. subst out. rewrite E1, nth_error_map. rewrite (nth_error_nth' _ (r, xy)) by (rewrite combine_length, L, Nat.min_id; apply nth_error_Some; congruence). rewrite combine_nth by lia. rewrite (nth_error_nth rows k r Hr), (nth_error_nth xs k xy Hx). reflexivity. }
  split; [subst out; rewrite map_length, combine_length, E1; lia|]. destruct (nth_error xs i) as [xy|] eqn:Hx; [|apply nth_error_None in Hx; lia]. destruct (E i i xy (nth_error_seq _ _ Li) Hx) as (last & Ec & El). exists last, xy. split; [exact Ec|]. split; [now apply O|].
  destruct i as [|i]; [exact El|]. destruct (nth_error rows i) as [me'|] eqn:Hr; [|apply nth_error_None in Hr; lia]. destruct (nth_error xs i) as [xy'|] eqn:Hx'; [|apply nth_error_None in Hx'; lia]. exists me', xy'. split; [reflexivity|]. split; [now apply O|exact El].
Qed.
(** A spot measured farther than [win] from where it is expected makes the call fail. *)
Theorem C83_far : forall lstsq ball rows win out, is_ball ball -> correct_with_pol lstsq ball rows win = Ok out -> length out = length rows /\ Forall (fun r => near win (fst r) (snd r)) rows.
Proof.
  intros lstsq ball rows win out Hb H. split.
  - destruct rows as [|r rows]; [cbn in H; apply Ok_inj in H; now subst|]. exact (proj1 (correct_Ok _ _ _ _ _ 0%nat r H eq_refl)).
  - apply Forall_forall. intros me J. apply In_nth_error in J as (i & Hi). destruct (correct_Ok _ _ _ _ _ _ _ H Hi) as (_ & last & xy & Ec & _). unfold correct_one, geti at 1 in Ec. rewrite Hi in Ec. cbn [rbind] in Ec. destruct (Hb (map snd rows) (fst me) win) as [ND HIn]. set (ids := ball _ _ _) in *. clearbody ids.
    destruct (in_dec Nat.eq_dec i ids) as [I|NI]. { apply HIn in I as (q & Hq & N). rewrite nth_error_map, Hi in Hq. cbn in Hq. injection Hq as <-. exact N. }
    exfalso. destruct ids as [|j ids'] eqn:El; [discriminate|]. rewrite <- El in *. destruct (rmapM (geti rows) ids) as [nr|] eqn:M; [|discriminate].
    assert (Ln : length nr = length ids) by (symmetry; apply rmapM_Ok_Forall2 in M; exact (Forall2_length _ _ _ M)). replace (map (fun k => negb (Nat.eqb k i)) ids) with (repeat true (length nr)) in Ec.
    2: { clear - NI Ln. rewrite Ln. clear Ln. induction ids as [|x l IH]; [reflexivity|]. cbn. destruct (Nat.eqb_spec x i); [subst; exfalso; apply NI; now left|]. cbn. f_equal. apply IH. intros X. apply NI. now right. }
    cbn [rbind rfold] in Ec. unfold try_degree at 1 in Ec. unfold predictor at 1 in Ec. rewrite getpoly_eq in Ec. cbn [rbind] in Ec.
    set (pts := map _ nr) in Ec. assert (Lp : length pts = length nr) by (unfold pts; apply map_length). rewrite (filter_none (fun s => negb (nth s (repeat true (length nr) ++ repeat true (length nr)) false))) in Ec.
    2: { intros s Hs. apply in_seq in Hs. rewrite <- repeat_app, nth_repeat_lt by lia. reflexivity. }
    repeat match type of Ec with context [lstsq ?a ?b] => destruct (lstsq a b); cbn [rbind rmap] in Ec; [|discriminate] end. discriminate.
Qed.
Print Assumptions C83_far.

Lemma sample_facts (rows : list (R * R * (R * R))) i (me : R * R * (R * R)) ids nr s : Forall2 (fun j r => nth_error rows j = Some r) ids nr -> (s < 2 * length ids)%nat ->
  let pts := map (fun r => minus (fst r) (fst me)) nr in let dxy := map (fun r => fst (minus (fst r) (snd r))) nr ++ map (fun r => snd (minus (fst r) (snd r))) nr in
  exists j r, nth_error (ids ++ ids) s = Some j /\ In j ids /\ nth_error rows j = Some r /\ nth s (map (fun k => negb (Nat.eqb k i)) ids ++ map (fun k => negb (Nat.eqb k i)) ids) false = negb (Nat.eqb j i) /\
  (if (s <? length ids)%nat then nth s pts (0, 0) else nth (s - length ids) pts (0, 0)) = minus (fst r) (fst me) /\ nth s dxy 0 = if (s <? length ids)%nat then fst (minus (fst r) (snd r)) else snd (minus (fst r) (snd r)).
Proof.
  intros F Hs. cbv zeta. assert (L := Forall2_length _ _ _ F). assert (G : forall k, (k < length ids)%nat -> exists j r, nth_error ids k = Some j /\ nth_error nr k = Some r /\ nth_error rows j = Some r). { clear Hs. induction F as [|j r ids nr Hj F IH]; intros k Hk; [cbn in Hk; lia|]. destruct k as [|k]; [exists j, r; auto|]. cbn. apply IH; [cbn in L; lia|cbn in Hk; lia]. }
  rewrite <- map_app. destruct (Nat.ltb_spec s (length ids)) as [C|C].
  - destruct (G s C) as (j & r & Hj & Hr & E). exists j, r. assert (Hj' : nth_error (ids ++ ids) s = Some j) by now rewrite nth_error_app1. split; [exact Hj'|]. split; [now apply nth_error_In in Hj|]. split; [exact E|]. split; [|split].
    + apply nth_error_nth. now rewrite nth_error_map, Hj'.
    + apply nth_error_nth. now rewrite nth_error_map, Hr.
    + apply nth_error_nth. rewrite nth_error_app1 by (rewrite map_length; lia). now rewrite nth_error_map, Hr.
  - destruct (G (s - length ids)%nat) as (j & r & Hj & Hr & E); [lia|]. exists j, r. assert (Hj' : nth_error (ids ++ ids) s = Some j) by now rewrite nth_error_app2. split; [exact Hj'|]. split; [now apply nth_error_In in Hj|]. split; [exact E|]. split; [|split].
    + apply nth_error_nth. now rewrite nth_error_map, Hj'.
    + apply nth_error_nth. now rewrite nth_error_map, Hr.
    + apply nth_error_nth. rewrite nth_error_app2 by (rewrite map_length; lia). rewrite map_length, <- L. now rewrite nth_error_map, Hr.
Qed.
Lemma one_exact : forall lstsq ball rows win last i me T, is_lstsq lstsq -> is_ball ball -> nth_error rows i = Some me -> near win (fst me) (snd me) ->
  let ids := ball (map snd rows) (fst me) win in degree_le 4 T ->
  (forall j r, In j ids -> j <> i -> nth_error rows j = Some r -> gradient T (minus (fst r) (fst me)) (minus (fst r) (snd r))) ->
  (forall f, (f < 3)%nat -> forall T', degree_le 4 T' ->
     (forall s j r g, nth_error (ids ++ ids) s = Some j -> j <> i -> (s mod 3)%nat <> f -> nth_error rows j = Some r -> gradient T' (minus (fst r) (fst me)) g -> (if (s <? length ids)%nat then fst g else snd g) = 0) ->
     forall j r, In j ids -> nth_error rows j = Some r -> gradient T' (minus (fst r) (fst me)) (0, 0)) ->
  correct_one lstsq ball rows win last i = Ok (gradX T (0, 0), gradY T (0, 0)).
Proof.
  intros lstsq ball rows win last i me T Hl Hb Hi Hn ids HT Hex Hdet.
  destruct (correct_one_cases lstsq ball rows win last i me Hl Hb Hi Hn) as (a & b & na & nb & Ei & ND & Fa & Fb & C). fold ids in Ei. rewrite Ei in *. clear ids Ei. set (ids := a ++ i :: b) in *. set (nr := na ++ me :: nb) in *. cbv zeta in C. set (pts := map (fun r => minus (fst r) (fst me)) nr) in *. set (dxy := map _ nr ++ map _ nr) in *. destruct C as [Lp C].
  assert (F : Forall2 (fun j r => nth_error rows j = Some r) ids nr) by (apply Forall2_app; [exact Fa|now constructor]). assert (Li : length ids = length pts) by (unfold ids; rewrite app_length; cbn; lia).
  assert (SF := fun s => sample_facts rows i me ids nr s F). cbv zeta in SF. fold pts dxy in SF. unfold ids in SF. rewrite (tofit_split i a b ND) in SF. fold ids in SF. rewrite Li in SF.
  assert (Hexact : forall s, (s < 2 * length pts)%nat -> nth s ((repeat true (length a) ++ false :: repeat true (length b)) ++ repeat true (length a) ++ false :: repeat true (length b)) false = true -> nth s dxy 0 = component T pts s).
  { intros s Hs Bs. destruct (SF s Hs) as (j & r & Hj & Ij & Hr & Et & Ep & Ed). rewrite Et in Bs. assert (Nj : j <> i) by (intros ->; rewrite Nat.eqb_refl in Bs; discriminate). specialize (Hex j r Ij Nj Hr). apply gradient_unique in Hex. rewrite Ed. unfold component. destruct (s <? length pts)%nat; rewrite Ep, Hex; reflexivity. }
  assert (Hd : forall f, (f < 3)%nat -> determined pts (length a) (length b) f).
  { intros f Hf T' D' Z s Hs. destruct (SF s Hs) as (j & r & Hj & Ij & Hr & Et & Ep & Ed). specialize (Hdet f Hf T' D'). assert (G : gradient T' (minus (fst r) (fst me)) (0, 0)).
    { apply (Hdet) with (j := j); [|exact Ij|exact Hr]. intros s' j' r' g Hj' Nj' Ms Hr' G'. assert (Hs' : (s' < 2 * length pts)%nat) by (rewrite <- Li; replace (2 * length ids)%nat with (length (ids ++ ids)) by (rewrite app_length; lia); apply nth_error_Some; congruence).
      destruct (SF s' Hs') as (j2 & r2 & Hj2 & _ & Hr2 & Et2 & Ep2 & _). assert (j2 = j') by congruence. subst j2. assert (r2 = r') by congruence. subst r2. apply gradient_unique in G'. specialize (Z s' Hs'). rewrite Et2 in Z. destruct (Nat.eqb_spec j' i); [contradiction|]. specialize (Z eq_refl Ms). unfold component in Z. rewrite Li. destruct (s' <? length pts)%nat; rewrite Ep2 in Z; subst g; exact Z. }
    apply gradient_unique in G. injection G as Gx Gy. unfold component. destruct (s <? length pts)%nat; rewrite Ep; auto. }
  destruct (degrees_ok lstsq Hl pts dxy (length a) (length b) last Lp) as (x & y & norm & best & o & P & _ & E4 & Ef & _ & Ez). rewrite (predictor_exact lstsq Hl pts dxy (length a) (length b) Lp T HT Hexact Hd) in E4. apply Ok_inj in E4. injection E4 as <- <- <-. rewrite C, Ef. cbn [rbind fst snd]. rewrite (Ez eq_refl).
  assert (E0 : nth (length a) pts (0, 0) = (0, 0)). { apply nth_error_nth. unfold pts. rewrite nth_error_map. unfold nr. rewrite nth_error_app2 by (rewrite (Forall2_length _ _ _ Fa); lia). rewrite (Forall2_length _ _ _ Fa), Nat.sub_diag. cbn. unfold minus. do 2 f_equal; ring. }
  now rewrite E0.
Qed.
(** C83. If the offsets of all neighbours of a spot but itself are the gradient of one polynomial of degree 4 at most, and each two of the three parts of the cross-validation
    leave no other choice at the spots, then what is subtracted from the measured position of the spot is the gradient of that polynomial there: nothing of its own offset enters. *)
Theorem C83_exact : forall lstsq ball rows win out i me T, is_lstsq lstsq -> is_ball ball -> correct_with_pol lstsq ball rows win = Ok out -> nth_error rows i = Some me ->
  let ids := ball (map snd rows) (fst me) win in degree_le 4 T ->
  (forall j r, In j ids -> j <> i -> nth_error rows j = Some r -> gradient T (minus (fst r) (fst me)) (minus (fst r) (snd r))) ->
  (forall f, (f < 3)%nat -> forall T', degree_le 4 T' ->
     (forall s j r g, nth_error (ids ++ ids) s = Some j -> j <> i -> (s mod 3)%nat <> f -> nth_error rows j = Some r -> gradient T' (minus (fst r) (fst me)) g -> (if (s <? length ids)%nat then fst g else snd g) = 0) ->
     forall j r, In j ids -> nth_error rows j = Some r -> gradient T' (minus (fst r) (fst me)) (0, 0)) ->
  exists g, gradient T (0, 0) g /\ nth_error out i = Some (minus (fst me) g).
Proof.
  intros lstsq ball rows win out i me T Hl Hb H Hi ids HT Hex Hdet. destruct (C83_far _ _ _ _ _ Hb H) as [_ Hn]. rewrite Forall_forall in Hn. specialize (Hn me (nth_error_In _ _ Hi)). destruct (correct_Ok _ _ _ _ _ _ _ H Hi) as (_ & last & xy & Ec & Eo & _).
  rewrite (one_exact lstsq ball rows win last i me T Hl Hb Hi Hn HT Hex Hdet) in Ec. apply Ok_inj in Ec. subst xy. exists (gradX T (0, 0), gradY T (0, 0)). split; [apply gradient_eq|exact Eo].
Qed.
Print Assumptions C83_exact.

Lemma predictor_ext lstsq pts dxy dxy' tofit n o : (forall s, nth s (tofit ++ tofit) false = true -> nth s dxy 0 = nth s dxy' 0) -> predictor lstsq pts dxy tofit n o = predictor lstsq pts dxy' tofit n o.
Proof.
  intros H. unfold predictor. destruct (match o with None => _ | Some _ => _ end) as [P|]; [|reflexivity]. cbn [rbind].
  assert (E : forall f, map (fun s => (column P s, nth s dxy 0)) (filter (fun s => nth s (tofit ++ tofit) false && f s)%bool (seq 0 (2 * length pts))) = map (fun s => (column P s, nth s dxy' 0)) (filter (fun s => nth s (tofit ++ tofit) false && f s)%bool (seq 0 (2 * length pts)))).
  { intros f. apply map_ext_in. intros s Hs. apply filter_In in Hs as [_ B]. apply andb_prop in B as [B _]. now rewrite H. }
  assert (E' : forall f c, map (fun s => (dot (column P s) c - nth s dxy 0) ^ 2) (filter (fun s => nth s (tofit ++ tofit) false && f s)%bool (seq 0 (2 * length pts))) = map (fun s => (dot (column P s) c - nth s dxy' 0) ^ 2) (filter (fun s => nth s (tofit ++ tofit) false && f s)%bool (seq 0 (2 * length pts)))).
  { intros f c. apply map_ext_in. intros s Hs. apply filter_In in Hs as [_ B]. apply andb_prop in B as [B _]. now rewrite H. }
  rewrite (E (fun s => negb (Nat.eqb (s mod 3) 0))). destruct (lstsq _ _) as [c0|]; [|reflexivity]. cbn [rmap rbind]. rewrite (E' (fun s => Nat.eqb (s mod 3) 0)).
  rewrite (E (fun s => negb (Nat.eqb (s mod 3) 1))). destruct (lstsq _ _) as [c1|]; [|reflexivity]. cbn [rmap rbind]. rewrite (E' (fun s => Nat.eqb (s mod 3) 1)).
  rewrite (E (fun s => negb (Nat.eqb (s mod 3) 2))). destruct (lstsq _ _) as [c2|]; [|reflexivity]. cbn [rmap rbind]. rewrite (E' (fun s => Nat.eqb (s mod 3) 2)). now rewrite (E (fun _ => true)).
Qed.
Lemma degrees_ext lstsq pts dxy dxy' tofit l : (forall s, nth s (tofit ++ tofit) false = true -> nth s dxy 0 = nth s dxy' 0) -> forall st, rfold (try_degree lstsq pts dxy tofit) l st = rfold (try_degree lstsq pts dxy' tofit) l st.
Proof. intros H. induction l as [|n l IH]; intros [[b o] P]; [reflexivity|]. cbn [rfold try_degree]. rewrite (predictor_ext _ _ _ _ _ _ _ H). destruct (rmap _ _); [apply IH|reflexivity]. Qed.
Lemma degrees_last lstsq pts dxy tofit last l : forall b o P r, rfold (try_degree lstsq pts dxy tofit) l (b, o, P) = Ok r ->
  rfold (try_degree lstsq pts dxy tofit) l (b, match o with Some x => Some x | None => last end, P) = Ok (fst (fst r), match snd (fst r) with Some x => Some x | None => last end, snd r).
Proof.
  induction l as [|n l IH]; intros b o P r H; cbn [rfold try_degree] in *; [apply Ok_inj in H; now subst r|]. destruct (predictor _ _ _ _ _ _) as [[[[x y] norm] Q]|]; [|discriminate]. cbn [rmap rbind] in *. destruct (Rltb norm b); [exact (IH _ _ _ _ H)|exact (IH _ _ _ _ H)].
Qed.
Lemma one_last lstsq ball rows win last i xy : correct_one lstsq ball rows win None i = Ok xy -> correct_one lstsq ball rows win last i = Ok xy.
Proof.
  unfold correct_one. destruct (geti rows i) as [me|]; [|discriminate]. cbn [rbind]. destruct (ball _ _ _) as [|j ids]; [discriminate|]. destruct (rmapM _ _) as [nr|]; [|discriminate]. cbn [rbind]. destruct (rfold _ _ _) as [[[b o] P]|] eqn:E; [|discriminate]. cbn [rbind fst snd]. destruct o as [xy'|]; [|discriminate]. intros H. apply (degrees_last _ _ _ _ last) in E. cbn [fst snd] in E. rewrite E. exact H.
Qed.
(** Where a spot was expected does not enter its corrected position, as long as it is the same neighbours the search returns and the fit for the spot is accepted. *)
Theorem C83_own : forall lstsq ball pre p e e' post win out out', let rows := pre ++ (p, e) :: post in let rows' := pre ++ (p, e') :: post in
  ball (map snd rows) p win = ball (map snd rows') p win -> correct_with_pol lstsq ball rows win = Ok out -> correct_with_pol lstsq ball rows' win = Ok out' ->
  (exists xy, correct_one lstsq ball rows win None (length pre) = Ok xy) -> nth_error out (length pre) = nth_error out' (length pre).
Proof.
  intros lstsq ball pre p e e' post win out out' rows rows' Eb H H' (xy & C). assert (Hi : nth_error rows (length pre) = Some (p, e)) by (unfold rows; rewrite nth_error_app2, Nat.sub_diag; [reflexivity|lia]). assert (Hi' : nth_error rows' (length pre) = Some (p, e')) by (unfold rows'; rewrite nth_error_app2, Nat.sub_diag; [reflexivity|lia]).
  assert (C' : correct_one lstsq ball rows' win None (length pre) = Ok xy).
  { rewrite <- C. unfold correct_one, geti at 1 3. rewrite Hi, Hi'. cbn [rbind fst snd]. rewrite <- Eb. set (ids := ball _ p win). destruct ids as [|j0 l0] eqn:El; [reflexivity|]. rewrite <- El. clearbody ids. clear El j0 l0.
    assert (Other : forall j, j <> length pre -> nth_error rows j = nth_error rows' j). { intros j Nj. unfold rows, rows'. destruct (Nat.lt_ge_cases j (length pre)); [now rewrite !nth_error_app1|]. rewrite !nth_error_app2 by lia. destruct (j - length pre)%nat eqn:D; [lia|reflexivity]. }
    assert (Gi : geti rows (length pre) = Ok (p, e)) by (unfold geti; now rewrite Hi). assert (Gi' : geti rows' (length pre) = Ok (p, e')) by (unfold geti; now rewrite Hi').
    assert (Both : match rmapM (geti rows) ids, rmapM (geti rows') ids with Ok nr, Ok nr' => Forall2 (fun j rr => fst (fst rr) = fst (snd rr) /\ (j <> length pre -> fst rr = snd rr)) ids (combine nr nr') /\ length nr = length ids /\ length nr' = length ids | Err a, Err b => a = b | _, _ => False end).
    { induction ids as [|j ids IH]; [cbn; auto|]. cbn [rmapM]. destruct (Nat.eq_dec j (length pre)) as [-> | Nj].
      - rewrite Gi, Gi'. cbn [rbind]. destruct (rmapM (geti rows) ids), (rmapM (geti rows') ids); cbn in *; try contradiction; [|exact IH]. destruct IH as (F & L1 & L2). split; [constructor; [cbn; split; [reflexivity|intros X; now contradiction X]|exact F]|]. split; cbn; lia.
      - replace (geti rows j) with (geti rows' j) by (unfold geti; now rewrite (Other j Nj)). destruct (geti rows' j) as [r|]; cbn [rbind]; [|reflexivity]. destruct (rmapM (geti rows) ids), (rmapM (geti rows') ids); cbn in *; try contradiction; [|exact IH]. destruct IH as (F & L1 & L2). split; [constructor; [cbn; auto|exact F]|]. split; cbn; lia. }
    destruct (rmapM (geti rows) ids) as [nr|], (rmapM (geti rows') ids) as [nr'|]; try contradiction; [|now rewrite Both]. cbn [rbind]. destruct Both as (F & L1 & L2).
    assert (Ep : map (fun r : R * R * (R * R) => (fst (fst r) - fst p, snd (fst r) - snd p)) nr' = map (fun r : R * R * (R * R) => (fst (fst r) - fst p, snd (fst r) - snd p)) nr). { clear - F L1 L2. revert nr nr' F L1 L2. induction ids as [|j ids IH]; intros [|r nr] [|r' nr'] F L1 L2; try discriminate; [reflexivity|]. inversion F as [|? ? ? ? [E _] F']; subst. cbn [map]. cbn [fst snd] in E. rewrite E. f_equal. apply IH; auto. }
    rewrite Ep. rewrite (degrees_ext lstsq _ _ (map (fun r : R * R * (R * R) => fst (fst r) - fst (snd r)) nr ++ map (fun r : R * R * (R * R) => snd (fst r) - snd (snd r)) nr)); [reflexivity|].
    assert (G : forall (f : R * R * (R * R) -> R) k, nth k (map (fun k => negb (Nat.eqb k (length pre))) ids) false = true -> nth k (map f nr') 0 = nth k (map f nr) 0).
    { intros f. clear - F L1 L2. revert nr nr' F L1 L2. induction ids as [|j ids IH]; intros [|r nr] [|r' nr'] F L1 L2; try discriminate; [reflexivity|]. inversion F as [|? ? ? ? [_ E] F']; subst. intros [|k] Hk; cbn [map nth] in *.
      - destruct (Nat.eqb_spec j (length pre)); [discriminate|]. cbn [fst snd] in E. now rewrite (E n).
      - apply IH; auto. }
    intros s Hs. destruct (Nat.lt_ge_cases s (length ids)) as [Cs|Cs].
    - rewrite app_nth1 in Hs by (now rewrite map_length). rewrite !app_nth1 by (rewrite map_length; lia). now apply G.
    - rewrite app_nth2 in Hs by (now rewrite map_length). rewrite !app_nth2 by (rewrite map_length; lia). rewrite !map_length in *. rewrite L1, L2. now apply G. }
  destruct (correct_Ok _ _ _ _ _ _ _ H Hi) as (_ & last & u & Cu & -> & _). destruct (correct_Ok _ _ _ _ _ _ _ H' Hi') as (_ & last' & u' & Cu' & -> & _). rewrite (one_last _ _ _ _ last _ _ C) in Cu. rewrite (one_last _ _ _ _ last' _ _ C') in Cu'. cbn [fst]. congruence.
Qed.
Print Assumptions C83_own.

(** With every spot expected within [win] of where it is measured and a fit accepted for the first spot, the call succeeds. *)
Lemma loop_total lstsq ball rows win l : (forall i last, In i l -> last <> None -> exists xy, correct_one lstsq ball rows win last i = Ok xy) -> forall st, snd st <> None ->
  exists out, rfold (fun st i => rmap (fun xy => (fst st ++ [xy], Some xy)) (correct_one lstsq ball rows win (snd st) i)) l st = Ok out.
Proof. induction l as [|i l IH]; intros H st Hs; [cbn; eauto|]. cbn [rfold]. destruct (H i (snd st) (or_introl eq_refl) Hs) as (xy & ->). cbn [rmap rbind]. apply IH; [intros; apply H; [now right|assumption]|discriminate]. Qed.
Theorem C83_total : forall lstsq ball rows win, is_lstsq lstsq -> is_ball ball -> Forall (fun r => near win (fst r) (snd r)) rows -> (rows <> [] -> exists xy, correct_one lstsq ball rows win None 0 = Ok xy) ->
  exists out, correct_with_pol lstsq ball rows win = Ok out.
Proof.
  intros lstsq ball rows win Hl Hb Hn H0. unfold correct_with_pol. assert (A : forall i last, (i < length rows)%nat -> last <> None -> exists xy, correct_one lstsq ball rows win last i = Ok xy).
  { intros i last Hi Hs. destruct (nth_error rows i) as [me|] eqn:E; [|apply nth_error_None in E; lia]. rewrite Forall_forall in Hn. destruct (correct_one_cases lstsq ball rows win last i me Hl Hb E (Hn me (nth_error_In _ _ E))) as (a & b & na & nb & _ & _ & _ & _ & Lp & ->).
    destruct (degrees_ok lstsq Hl _ (map (fun r => fst (minus (fst r) (snd r))) (na ++ me :: nb) ++ map (fun r => snd (minus (fst r) (snd r))) (na ++ me :: nb)) (length a) (length b) last Lp) as (x & y & norm & best & o & P & _ & _ & -> & Q & _). cbn [rbind fst snd]. destruct o; [eauto|]. now destruct (Q Hs). }
  destruct rows as [|r rows]; [cbn; eauto|]. destruct H0 as (xy & E0); [discriminate|]. cbn [length seq rfold]. change (snd (@nil (R * R), @None (R * R))) with (@None (R * R)). rewrite E0. cbn [rmap rbind]. destruct (loop_total lstsq ball (r :: rows) win (seq 1 (length rows))) with (st := ([] ++ [xy], Some xy)) as (out & Eo); [|discriminate|].
  - intros i last Hi Hs. apply A; [|exact Hs]. apply in_seq in Hi. cbn. lia.
  - cbn [fst] in *. rewrite Eo. cbn. eauto.
Qed.
Print Assumptions C83_total.
(** A spot for which no fit is accepted takes the offset found for the spot before it in the list, wherever that one is. *)
Theorem C83_stale : forall lstsq ball rows win out i me me', correct_with_pol lstsq ball rows win = Ok out -> nth_error rows i = Some me' -> nth_error rows (S i) = Some me ->
  correct_one lstsq ball rows win None (S i) = Err NameError -> exists xy, nth_error out i = Some (minus (fst me') xy) /\ nth_error out (S i) = Some (minus (fst me) xy).
Proof.
  intros lstsq ball rows win out i me me' H Hi' Hi C. destruct (correct_Ok _ _ _ _ _ _ _ H Hi) as (_ & last & xy & Ec & Eo & me2 & xy' & Hi2 & Eo' & ->). assert (me2 = me') by congruence. subst me2. exists xy'. split; [exact Eo'|]. enough (xy = xy') by (now subst).
  unfold correct_one in *. destruct (geti rows (S i)) as [m|]; [|discriminate]. cbn [rbind] in *. destruct (ball _ _ _) as [|j ids]; [discriminate|]. destruct (rmapM _ _) as [nr|] eqn:M; [|discriminate]. cbn [rbind] in *. match type of C with rbind ?x _ = _ => destruct x as [[[b o] P]|] eqn:E end.
  - apply (degrees_last _ _ _ _ (Some xy')) in E. cbn [fst snd] in E. rewrite E in Ec. cbn [rbind fst snd] in *. destruct o; [discriminate|]. now apply Ok_inj in Ec.
  - exfalso. clear - E Ec. revert E Ec. generalize (1000000000). generalize (@None (list (list R))). generalize (@None (R * R)). generalize (Some xy'). induction [4; 3; 2; 1]%nat as [|n l IH]; intros o o' P b E Ec; [discriminate|]. cbn [rfold try_degree] in *. destruct (predictor _ _ _ _ _ _) as [[[[x y] norm] Q]|]; [|discriminate]. cbn [rmap rbind] in *. destruct (Rltb norm b); eapply IH; eassumption.
Qed.
Print Assumptions C83_stale.

(** a search by exhaustion *)
Definition scan (X0 : list (R * R)) (p : R * R) (win : R) : list nat := filter (fun j => match nth_error X0 j with Some q => Rleb (sqrt ((fst p - fst q) ^ 2 + (snd p - snd q) ^ 2)) win | None => false end) (seq 0 (length X0)).
Lemma scan_ball : is_ball scan.
Proof.
  intros X0 p win. unfold scan. split; [apply NoDup_filter, seq_NoDup|]. intros j. rewrite filter_In, in_seq. split.
  - intros [_ B]. destruct (nth_error X0 j) as [q|]; [|discriminate]. exists q. split; [reflexivity|]. now apply Rleb_true.
  - intros (q & E & N). split; [split; [lia|]; apply nth_error_Some; congruence|]. rewrite E. now apply Rleb_true.
Qed.
Lemma scan_all X0 p win : (forall q, In q X0 -> near win p q) -> scan X0 p win = seq 0 (length X0).
Proof.
  intros H. unfold scan. assert (F : forall l, (forall j, In j l -> (j < length X0)%nat) -> filter (fun j => match nth_error X0 j with Some q => Rleb (sqrt ((fst p - fst q) ^ 2 + (snd p - snd q) ^ 2)) win | None => false end) l = l).
  { induction l as [|j l IH]; intros Hl; [reflexivity|]. cbn [filter]. destruct (nth_error X0 j) as [q|] eqn:E; [|apply nth_error_None in E; specialize (Hl j (or_introl eq_refl)); lia]. rewrite (proj2 (Rleb_true _ _) (H q (nth_error_In _ _ E))). f_equal. apply IH. intros; apply Hl; now right. }
  apply F. intros j Hj. apply in_seq in Hj. lia.
Qed.
Lemma near_box win p q : Rabs (fst p - fst q) <= win / 2 -> Rabs (snd p - snd q) <= win / 2 -> near win p q.
Proof.
  intros A B. unfold near. assert (W : 0 <= win / 2) by (eapply Rle_trans; [apply Rabs_pos|exact A]). replace win with (sqrt (win ^ 2)) by (replace (win ^ 2) with (win * win) by ring; apply sqrt_square; lra). apply sqrt_le_1_alt. rewrite <- (pow2_abs (fst p - fst q)), <- (pow2_abs (snd p - snd q)).
  assert (X := Rabs_pos (fst p - fst q)). assert (Y := Rabs_pos (snd p - snd q)). nra.
Qed.

(** a spot and six others on a line; their offsets (2t+1, t+2) are the gradient of x^2 + x y + x + 2 y *)
Definition line_rows : list (R * R * (R * R)) := ((0, 0), (5, 5)) :: map (fun t => ((t, 0), (- t - 1, - t - 2))) [1; 2; 3; -1; -2; -3].
Example C83_example : exists out, correct_with_pol solver scan line_rows 50 = Ok out /\ nth_error out 0 = Some (-1, -2).
Proof.
  assert (S0 : scan (map snd line_rows) (0, 0) 50 = [0; 1; 2; 3; 4; 5; 6]%nat).
  { rewrite scan_all; [reflexivity|]. intros q Hq. cbn in Hq. repeat (destruct Hq as [<-|Hq]; [apply near_box; cbn [fst snd]; apply Rabs_le; lra|]). contradiction. }
  assert (C : correct_one solver scan line_rows 50 None 0 = Ok (1, 2)).
  { rewrite (one_exact solver scan line_rows 50 None 0 ((0, 0), (5, 5)) [(1, (2, 0)%nat); (1, (1, 1)%nat); (1, (1, 0)%nat); (2, (0, 1)%nat)] solver_lstsq scan_ball eq_refl).
    - f_equal. unfold gradX, gradY, dX, dY, Rsum. cbn. f_equal; ring.
    - apply near_box; cbn [fst snd]; apply Rabs_le; lra.
    - repeat constructor; cbn; lia.
    - cbn [fst]. rewrite S0. intros j r Hj Nj Hr. cbn in Hj.
      repeat (destruct Hj as [<-|Hj]; [try (now contradiction Nj); cbn in Hr; injection Hr as <-; match goal with |- gradient ?T ?p ?g => replace g with (gradX T p, gradY T p); [apply gradient_eq|] end; unfold gradX, gradY, dX, dY, Rsum, minus; cbn; f_equal; ring|]). contradiction.
    - cbn [fst]. rewrite S0. intros f Hf T' D Hz. destruct (to_coeffs 4 T' D) as (c & Lc & Ec).
      assert (V : forall s t, nth_error [1; 2; 3; -1; -2; -3] s = Some t -> (((s + 1) mod 3)%nat <> f -> gradX (combine c (exponents 4)) (t, 0) = 0) /\ (((s + 8) mod 3)%nat <> f -> gradY (combine c (exponents 4)) (t, 0) = 0)).
      { intros s t Ht. assert (Ls : (s < 6)%nat) by (apply (nth_error_Some [1; 2; 3; -1; -2; -3]); congruence). assert (J : nth_error line_rows (S s) = Some ((t, 0), (- t - 1, - t - 2))) by (unfold line_rows; cbn [nth_error]; rewrite nth_error_map, Ht; reflexivity).
        assert (G := gradient_eq T' (minus (t, 0) (0, 0))). destruct (Ec (t, 0)) as [-> ->]. replace (minus (t, 0) (0, 0)) with (t, 0) in G by (unfold minus; cbn; f_equal; ring). split; intros M.
        - specialize (Hz (s + 1)%nat (S s) ((t, 0), (- t - 1, - t - 2)) (gradX T' (t, 0), gradY T' (t, 0))). assert (B : (s + 1 <? 7)%nat = true) by (apply Nat.ltb_lt; lia). change (length [0; 1; 2; 3; 4; 5; 6]%nat) with 7%nat in Hz. rewrite B in Hz. apply Hz; [|lia|exact M|exact J|cbn [fst]; replace (minus (t, 0) (0, 0)) with (t, 0) by (unfold minus; cbn; f_equal; ring); exact G]. do 6 (destruct s as [|s]; [reflexivity|]). lia.
        - specialize (Hz (s + 8)%nat (S s) ((t, 0), (- t - 1, - t - 2)) (gradX T' (t, 0), gradY T' (t, 0))). assert (B : (s + 8 <? 7)%nat = false) by (apply Nat.ltb_ge; lia). change (length [0; 1; 2; 3; 4; 5; 6]%nat) with 7%nat in Hz. rewrite B in Hz. apply Hz; [|lia|exact M|exact J|cbn [fst]; replace (minus (t, 0) (0, 0)) with (t, 0) by (unfold minus; cbn; f_equal; ring); exact G]. do 6 (destruct s as [|s]; [reflexivity|]). lia. }
      assert (V0 := V 0%nat 1 eq_refl). assert (V1 := V 1%nat 2 eq_refl). assert (V2 := V 2%nat 3 eq_refl). assert (V3 := V 3%nat (-1) eq_refl). assert (V4 := V 4%nat (-2) eq_refl). assert (V5 := V 5%nat (-3) eq_refl). clear V Hz.
      assert (W : forall t, gradX (combine c (exponents 4)) (t, 0) = 0 /\ gradY (combine c (exponents 4)) (t, 0) = 0).
      { change (npoly 4) with 14%nat in Lc. clear Ec. destruct c as [|c01 c]; [discriminate|]. destruct c as [|c10 c]; [discriminate|]. destruct c as [|c02 c]; [discriminate|]. destruct c as [|c11 c]; [discriminate|]. destruct c as [|c20 c]; [discriminate|]. destruct c as [|c03 c]; [discriminate|]. destruct c as [|c12 c]; [discriminate|]. destruct c as [|c21 c]; [discriminate|]. destruct c as [|c30 c]; [discriminate|]. destruct c as [|c04 c]; [discriminate|]. destruct c as [|c13 c]; [discriminate|]. destruct c as [|c22 c]; [discriminate|]. destruct c as [|c31 c]; [discriminate|]. destruct c as [|c40 c]; [discriminate|].  destruct c; [|discriminate]. change (exponents 4) with [(0, 1); (1, 0); (0, 2); (1, 1); (2, 0); (0, 3); (1, 2); (2, 1); (3, 0); (0, 4); (1, 3); (2, 2); (3, 1); (4, 0)]%nat in *. cbn [combine] in *.
        intros t. unfold gradX, gradY, dX, dY, Rsum in *. cbn [map fold_right fst snd INR pow pred] in *. assert (E : (f = 0 \/ f = 1 \/ f = 2)%nat) by lia.
        destruct V0 as [a0 b0], V1 as [a1 b1], V2 as [a2 b2], V3 as [a3 b3], V4 as [a4 b4], V5 as [a5 b5]. assert (K : (c10 = 0 /\ c20 = 0 /\ c30 = 0 /\ c40 = 0) /\ (c01 = 0 /\ c11 = 0 /\ c21 = 0 /\ c31 = 0)).
        { destruct E as [-> | [-> | ->]]; repeat match goal with H : (_ mod 3)%nat <> _ -> _ |- _ => first [specialize (H ltac:(vm_compute; discriminate)) | clear H] end; repeat split; lra. }
        destruct K as [(-> & -> & -> & ->) (-> & -> & -> & ->)]. split; ring. }
      intros j r Hj Hr. assert (exists t, fst r = (t, 0)). { apply nth_error_In in Hr. cbn in Hr. repeat (destruct Hr as [<-|Hr]; [eexists; reflexivity|]). contradiction. }
      destruct H as (t & ->). cbn [fst]. destruct (W t) as [Wx Wy]. destruct (Ec (t, 0)) as [Ex Ey]. replace (minus (t, 0) (0, 0)) with (t, 0) by (unfold minus; cbn; f_equal; ring). assert (G := gradient_eq T' (t, 0)). rewrite <- Ex, <- Ey, Wx, Wy in G. exact G. }
  destruct (C83_total solver scan line_rows 50 solver_lstsq scan_ball) as (out & E).
  - unfold line_rows. cbn [map]. repeat (apply Forall_cons; [apply near_box; cbn [fst snd]; apply Rabs_le; lra|]). apply Forall_nil.
  - eauto.
  - exists out. split; [exact E|]. destruct (correct_Ok _ _ _ _ _ 0%nat _ E eq_refl) as (_ & last & xy & Ec & -> & ->). rewrite C in Ec. apply Ok_inj in Ec. subst xy. unfold minus. cbn. do 2 f_equal; ring.
Qed.

(** Three spots measured at the same place with offsets 0, A and -A along x: the part held out is missed by 2A whatever the degree. *)
Lemma three_norm A n o : (1 <= n)%nat -> let pts := [(0, 0); (0, 0); (0, 0)] in polys_for pts n o -> exists x y norm, predictor solver pts [0; A; - A; 0; 0; 0] (repeat true 0 ++ false :: repeat true 2) n o = Ok (x, y, norm, map (poly_row pts) (exponents n)) /\ 4 * A ^ 2 <= norm.
Proof.
  intros Hn pts Ho. set (dxy := [0; A; - A; 0; 0; 0]). set (tofit := repeat true 0 ++ false :: repeat true 2). set (P := map (poly_row pts) (exponents n)).
  assert (EP : match o with None => getpoly pts n | Some Q => Ok (firstn (npoly n) Q) end = Ok P). { destruct Ho as [-> | (n' & Hn' & ->)]; [apply getpoly_eq|]. unfold P. rewrite firstn_map, exponents_prefix by exact Hn'. reflexivity. }
  unfold predictor. rewrite EP. cbn [rbind].
  change (filter (fun s => nth s (tofit ++ tofit) false && negb (Nat.eqb (s mod 3) 0))%bool (seq 0 (2 * length pts))) with [1; 2; 4; 5]%nat. change (filter (fun s => nth s (tofit ++ tofit) false && negb (Nat.eqb (s mod 3) 1))%bool (seq 0 (2 * length pts))) with [2; 5]%nat. change (filter (fun s => nth s (tofit ++ tofit) false && negb (Nat.eqb (s mod 3) 2))%bool (seq 0 (2 * length pts))) with [1; 4]%nat.
  change (filter (fun s => nth s (tofit ++ tofit) false && (Nat.eqb (s mod 3) 1))%bool (seq 0 (2 * length pts))) with [1; 4]%nat. 
  assert (Hs := fun ss => solver_lstsq (length P) (map (fun s => (column P s, nth s dxy 0)) ss)).
  assert (L : forall ss, Forall (fun s => length (fst s) = length P) (map (fun s => (column P s, nth s dxy 0)) ss)). { intros ss. apply Forall_forall. intros s J. apply in_map_iff in J as (k & <- & _). apply column_length. }
  destruct (Hs [1; 2; 4; 5]%nat (L _)) as (c0 & -> & _). cbn [rmap rbind]. destruct (Hs [2; 5]%nat (L _)) as (c1 & E1 & Lc & Opt). rewrite E1. cbn [rmap rbind]. destruct (Hs [1; 4]%nat (L _)) as (c2 & -> & _). cbn [rmap rbind]. destruct (Hs (filter (fun s => nth s (tofit ++ tofit) false && true)%bool (seq 0 (2 * length pts))) (L _)) as (c & -> & _). cbn [rbind].
  change (filter (fun s => negb (nth s (tofit ++ tofit) false)) (seq 0 (2 * length pts))) with [0; 3]%nat. cbn [map]. do 3 eexists. split; [reflexivity|].
  match goal with |- _ <= 0 + ?n0 + ?n1 + ?n2 => assert (N0 : 0 <= n0) by apply Rsum_sq_nonneg; assert (N2 : 0 <= n2) by apply Rsum_sq_nonneg; enough (4 * A ^ 2 <= n1) by lra end.
  assert (LP : length P = npoly n) by (unfold P; rewrite map_length; apply exponents_length).
  assert (D : forall s q, (s < 6)%nat -> length q = length P -> dot (column P s) q = component (combine q (exponents n)) pts s). { intros s q Hs' Lq. unfold P. apply column_dot; [cbn; lia|rewrite Lq, LP; symmetry; apply exponents_length]. }
  assert (X : dot (column P 2) c1 = - A). { destruct (to_coeffs n [(- A, (1, 0)%nat)]) as (q & Lq & Eq); [repeat constructor; cbn; lia|]. assert (Z : sum_sq c1 (map (fun s => (column P s, nth s dxy 0)) [2; 5]%nat) <= 0).
    { eapply Rle_trans; [apply (Opt q); now rewrite LP|]. apply sum_sq_zero. intros s J. apply in_map_iff in J as (k & <- & Hk). cbn [fst snd]. rewrite combination_dot, dot_comm. cbn in Hk. destruct Hk as [<-|[<-|[]]]; rewrite D by (try lia; now rewrite LP); unfold component; cbn [length pts Nat.ltb Nat.leb nth Nat.sub]; destruct (Eq (0, 0)) as [Ea Eb]; rewrite ?Ea, ?Eb; unfold gradX, gradY, dX, dY, Rsum, dxy; cbn; ring. }
    apply sum_sq_zero with (s := (column P 2, - A)) in Z; [|now left]. cbn [fst snd] in Z. rewrite combination_dot, dot_comm in Z. exact Z. }
  assert (X1 : dot (column P 1) c1 = - A). { rewrite <- X. rewrite !D by (try lia; exact Lc). reflexivity. }
  unfold Rsum. cbn [map fold_right]. rewrite X1. change (nth 1 dxy 0) with A. assert (Sq := pow2_ge_0 (dot (column P 4) c1 - nth 4 dxy 0)). lra.
Qed.
(** The call can fail although every spot is next to where it is expected: no fit beats the starting value and there is no previous spot. *)
Theorem C83_completes_refuted : ~ (forall lstsq ball rows win, is_lstsq lstsq -> is_ball ball -> Forall (fun r => near win (fst r) (snd r)) rows -> exists out, correct_with_pol lstsq ball rows win = Ok out).
Proof.
  intros H. set (rows := [((0, 0), (0, 0)); ((0, 0), (-20000, 0)); ((0, 0), (20000, 0))]). assert (N : Forall (fun r => near 50000 (fst r) (snd r)) rows) by (unfold rows; repeat (apply Forall_cons; [apply near_box; cbn [fst snd]; apply Rabs_le; lra|]); apply Forall_nil).
  destruct (H solver scan rows 50000 solver_lstsq scan_ball N) as (out & E). destruct (correct_Ok _ _ _ _ _ 0%nat _ E eq_refl) as (_ & last & xy & Ec & _ & ->). revert Ec. unfold correct_one, rows, geti at 1. cbn [nth_error rbind fst snd].
  rewrite scan_all. 2: { intros q Hq. cbn in Hq. repeat (destruct Hq as [<-|Hq]; [apply near_box; cbn [fst snd]; apply Rabs_le; lra|]). contradiction. }
  change (seq 0 (length (map snd [((0, 0), (0, 0)); ((0, 0), (-20000, 0)); ((0, 0), (20000, 0))]))) with [0; 1; 2]%nat. cbn [rmapM geti nth_error rbind map fst snd app].
  replace [(0 - 0, 0 - 0); (0 - 0, 0 - 0); (0 - 0, 0 - 0)] with [(0, 0); (0, 0); (0, 0)] by (repeat f_equal; ring). replace [0 - 0; 0 - -20000; 0 - 20000; 0 - 0; 0 - 0; 0 - 0] with [0; 20000; - (20000); 0; 0; 0] by (repeat f_equal; ring).
  change [negb (Nat.eqb 0 0); negb (Nat.eqb 1 0); negb (Nat.eqb 2 0)] with (repeat true 0 ++ false :: repeat true 2).
  cbn [rfold]. unfold try_degree at 1. destruct (three_norm 20000 4 None) as (x4 & y4 & n4 & -> & N4); [lia|now left|]. cbn [rmap rbind]. rewrite (proj2 (Rltb_false n4 1000000000)) by lra.
  unfold try_degree at 1. destruct (three_norm 20000 3 (Some (map (poly_row [(0, 0); (0, 0); (0, 0)]) (exponents 4)))) as (x3 & y3 & n3 & -> & N3); [lia|right; exists 4%nat; auto|]. cbn [rmap rbind]. rewrite (proj2 (Rltb_false n3 1000000000)) by lra.
  unfold try_degree at 1. destruct (three_norm 20000 2 (Some (map (poly_row [(0, 0); (0, 0); (0, 0)]) (exponents 3)))) as (x2 & y2 & n2 & -> & N2); [lia|right; exists 3%nat; auto|]. cbn [rmap rbind]. rewrite (proj2 (Rltb_false n2 1000000000)) by lra.
  unfold try_degree at 1. destruct (three_norm 20000 1 (Some (map (poly_row [(0, 0); (0, 0); (0, 0)]) (exponents 2)))) as (x1 & y1 & n1 & -> & N1); [lia|right; exists 2%nat; auto|]. cbn [rmap rbind]. rewrite (proj2 (Rltb_false n1 1000000000)) by lra. cbn. discriminate.
Qed.
Print Assumptions C83_completes_refuted.
