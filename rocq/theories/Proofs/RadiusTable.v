From Verif.Model Require Xy2qs RsznLookups.
From Coq Require Import List Reals ZArith Lia Lra.
From Interval Require Import Tactic.
From Verif.Spec Require Import RsznLookups.
From Verif.Proofs Require Import RsznLookups.
Import ListNotations.
Local Open Scope R_scope.

(** A function with small second differences which is close to the table at its rows is close to it everywhere. *)
Lemma close_to_table (f : R -> R) xs ys (lo hi : nat) E C x y :
  on_table xs ys x y -> increasing xs -> (lo <= hi < length xs)%nat -> (lo = 0%nat \/ nth lo xs 0 < x) -> x < nth hi xs 0 ->
  (forall i, (lo <= i <= hi)%nat -> Rabs (f (nth i xs 0) - nth i ys 0) <= E) ->
  (forall i, (lo <= i < hi)%nat -> forall r, nth i xs 0 <= r <= nth (S i) xs 0 ->
     let a := nth i xs 0 in let b := nth (S i) xs 0 in Rabs ((f r - f a) * (b - a) - (f b - f a) * (r - a)) <= C * (b - a)) ->
  Rabs (f x - y) <= E + C.
Proof.
  intros (i & Li & H) Inc Lh Hlo Hhi Hn Hc. cbv zeta in H. destruct H as [Hx Hy].
  assert (B1 : (lo <= i)%nat).
  { destruct (Nat.le_gt_cases lo i) as [G|G]; [exact G|exfalso]. pose proof (increasing_le xs (S i) lo Inc ltac:(lia)). destruct Hlo; [lia|lra]. }
  assert (B2 : (i < hi)%nat).
  { destruct (Nat.le_gt_cases hi i) as [G|G]; [exfalso|exact G]. pose proof (increasing_le xs hi i Inc ltac:(lia)). lra. }
  pose proof (Inc i (S i) ltac:(lia)) as Hab. specialize (Hc i ltac:(lia) x Hx). cbv zeta in Hc.
  pose proof (Hn i ltac:(lia)) as N0. pose proof (Hn (S i) ltac:(lia)) as N1.
  set (a := nth i xs 0) in *. set (b := nth (S i) xs 0) in *. set (ya := nth i ys 0) in *. set (yb := nth (S i) ys 0) in *.
  apply Rmult_le_reg_r with (b - a); [lra|]. rewrite <- (Rabs_pos_eq (b - a)) at 1 by lra. rewrite <- Rabs_mult.
  replace ((f x - y) * (b - a)) with (((f x - f a) * (b - a) - (f b - f a) * (x - a)) + ((f a - ya) * (b - x) + (f b - yb) * (x - a))) by lra.
  eapply Rle_trans; [apply Rabs_triang|]. replace ((E + C) * (b - a)) with (C * (b - a) + (E * (b - x) + E * (x - a))) by ring.
  apply Rplus_le_compat; [exact Hc|]. eapply Rle_trans; [apply Rabs_triang|]. rewrite !Rabs_mult. rewrite (Rabs_pos_eq (b - x)), (Rabs_pos_eq (x - a)) by lra.
  apply Rplus_le_compat; apply Rmult_le_compat_r; lra.
Qed.

(** Second differences of the two polynomials. *)
Lemma r2s_second a r b : 0 <= a -> a <= r <= b -> b <= 421 -> b - a <= 1.02 ->
  let f := Xy2qs.r2s in Rabs ((f r - f a) * (b - a) - (f b - f a) * (r - a)) <= 0.00001 * (b - a).
Proof.
  intros Ha Hr Hb Hab f. set (x := a / 400). set (u := (r - a) / 400). set (v := (b - a) / 400).
  assert (0 <= x <= 1.0525) by (unfold x; lra). assert (0 <= u <= 0.00255) by (unfold u; lra). assert (0 <= v <= 0.00255) by (unfold v; lra).
  assert (Huv : 0 <= u * (v - u) <= 0.0000017).
  { assert (u <= v) by (unfold u, v; lra). split; [apply Rmult_le_pos; lra|]. assert (0 <= (u - v / 2) ^ 2) by apply pow2_ge_0. nra. }
  replace a with (400 * x) by (unfold x; field). replace r with (400 * (x + u)) by (unfold x, u; field). replace b with (400 * (x + v)) by (unfold x, v; field).
  clearbody x u v. unfold f, Xy2qs.r2s, Xy2qs.poly1d, Xy2qs.r2s_coefs; cbn [fold_left].
  replace (400 * x / 400) with x by field. replace (400 * (x + u) / 400) with (x + u) by field. replace (400 * (x + v) / 400) with (x + v) by field.
  set (D := (0.00205529419 + 3 * -0.00805287872 * x + 6 * 0.0215885180 * x^2 + 10 * -0.0255244612 * x^3 + 15 * 0.0145324708 * x^4 + 21 * -0.0030123244 * x^5)
    + (-0.00805287872 + 4 * 0.0215885180 * x + 10 * -0.0255244612 * x^2 + 20 * 0.0145324708 * x^3 + 35 * -0.0030123244 * x^4) * (u + v)
    + (0.0215885180 + 5 * -0.0255244612 * x + 15 * 0.0145324708 * x^2 + 35 * -0.0030123244 * x^3) * (u^2 + u * v + v^2)
    + (-0.0255244612 + 6 * 0.0145324708 * x + 21 * -0.0030123244 * x^2) * (u^3 + u^2 * v + u * v^2 + v^3)
    + (0.0145324708 + 7 * -0.0030123244 * x) * (u^4 + u^3 * v + u^2 * v^2 + u * v^3 + v^4)
    + -0.0030123244 * (u^5 + u^4 * v + u^3 * v^2 + u^2 * v^3 + u * v^4 + v^5)).
  assert (BD : Rabs D <= 0.01) by (unfold D; interval with (i_bisect x, i_taylor x, i_depth 12)).
  match goal with |- Rabs ?e <= _ => assert (Id : e = - (160000 * (u * (v - u)) * D * v)); [unfold D; lra|rewrite Id] end.
  rewrite Rabs_Ropp, !Rabs_mult, (Rabs_pos_eq 160000), (Rabs_pos_eq v), <- Rabs_mult, (Rabs_pos_eq (u * (v - u))) by lra.
  replace (0.00001 * (400 * (x + v) - 400 * x)) with (0.004 * v) by lra. apply Rmult_le_compat_r; [lra|].
  pose proof (Rabs_pos D). nra.
Qed.
Lemma s2r_second a r b : 0 <= a -> a <= r <= b -> b <= 422 -> b - a <= 1.02 ->
  let f := Xy2qs.s2r in Rabs ((f r - f a) * (b - a) - (f b - f a) * (r - a)) <= 0.00001 * (b - a).
Proof.
  intros Ha Hr Hb Hab f. set (x := a / 400). set (u := (r - a) / 400). set (v := (b - a) / 400).
  assert (0 <= x <= 1.055) by (unfold x; lra). assert (0 <= u <= 0.00255) by (unfold u; lra). assert (0 <= v <= 0.00255) by (unfold v; lra).
  assert (Huv : 0 <= u * (v - u) <= 0.0000017).
  { assert (u <= v) by (unfold u, v; lra). split; [apply Rmult_le_pos; lra|]. assert (0 <= (u - v / 2) ^ 2) by apply pow2_ge_0. nra. }
  replace a with (400 * x) by (unfold x; field). replace r with (400 * (x + u)) by (unfold x, u; field). replace b with (400 * (x + v)) by (unfold x, v; field).
  clearbody x u v. unfold f, Xy2qs.s2r, Xy2qs.poly1d, Xy2qs.s2r_coefs; cbn [fold_left].
  replace (400 * x / 400) with x by field. replace (400 * (x + u) / 400) with (x + u) by field. replace (400 * (x + v) / 400) with (x + v) by field.
  set (D := (-0.000213171265 + 3 * 0.000699354170 * x + 6 * -0.00564913181 * x^2 + 10 * 0.00640671681 * x^3 + 15 * -0.00260833797 * x^4)
    + (0.000699354170 + 4 * -0.00564913181 * x + 10 * 0.00640671681 * x^2 + 20 * -0.00260833797 * x^3) * (u + v)
    + (-0.00564913181 + 5 * 0.00640671681 * x + 15 * -0.00260833797 * x^2) * (u^2 + u * v + v^2)
    + (0.00640671681 + 6 * -0.00260833797 * x) * (u^3 + u^2 * v + u * v^2 + v^3)
    + -0.00260833797 * (u^4 + u^3 * v + u^2 * v^2 + u * v^3 + v^4)).
  assert (BD : Rabs D <= 0.0125) by (unfold D; interval with (i_bisect x, i_taylor x, i_depth 12)).
  match goal with |- Rabs ?e <= _ => assert (Id : e = - (160000 * (u * (v - u)) * D * v)); [unfold D; lra|rewrite Id] end.
  rewrite Rabs_Ropp, !Rabs_mult, (Rabs_pos_eq 160000), (Rabs_pos_eq v), <- Rabs_mult, (Rabs_pos_eq (u * (v - u))) by lra.
  replace (0.00001 * (400 * (x + v) - 400 * x)) with (0.004 * v) by lra. apply Rmult_le_compat_r; [lra|].
  pose proof (Rabs_pos D). nra.
Qed.

(** *** The rows, by computation with integers *)
Definition horner (c : list Z) (d x : Z) : Z := snd (fold_left (fun '(p, y) a => (p * d, y * x + a * p)%Z) c (1, 0)%Z).
Definition r2s_int : list Z := [-301232440000; 1453247080000; -2552446120000; 2158851800000; -805287872000; 205529419000; 99977392000000; 912275165]%Z.
Definition s2r_int : list Z := [-2608337970000; 6406716810000; -5649131810000; 699354170000; -213171265000; 1000000090000000; 975790364]%Z.
Lemma r2s_horner x d : (0 < d)%Z -> Xy2qs.r2s (400 * (IZR x / IZR d)) * (IZR (10 ^ 14) * IZR d ^ 7) = 400 * IZR (horner r2s_int d x).
Proof.
  intros Hd. apply IZR_lt in Hd. unfold horner, r2s_int. cbn [fold_left snd]. rewrite ?plus_IZR, ?mult_IZR. repeat first [rewrite plus_IZR|rewrite mult_IZR].
  unfold Xy2qs.r2s, Xy2qs.poly1d, Xy2qs.r2s_coefs. cbn [fold_left]. change (IZR (10 ^ 14)) with 100000000000000. set (X := IZR x). set (D := IZR d) in *. clearbody X D.
  replace (400 * (X / D) / 400) with (X / D) by (field; apply Rgt_not_eq; lra).
  set (q := X / D). replace X with (q * D) by (unfold q; field; apply Rgt_not_eq; lra). clearbody q. lra.
Qed.
Lemma s2r_horner x d : (0 < d)%Z -> Xy2qs.s2r (400 * (IZR x / IZR d)) * (IZR (10 ^ 15) * IZR d ^ 6) = 400 * IZR (horner s2r_int d x).
Proof.
  intros Hd. apply IZR_lt in Hd. unfold horner, s2r_int. cbn [fold_left snd]. rewrite ?plus_IZR, ?mult_IZR. repeat first [rewrite plus_IZR|rewrite mult_IZR].
  unfold Xy2qs.s2r, Xy2qs.poly1d, Xy2qs.s2r_coefs. cbn [fold_left]. change (IZR (10 ^ 15)) with 1000000000000000. set (X := IZR x). set (D := IZR d) in *. clearbody X D.
  replace (400 * (X / D) / 400) with (X / D) by (field; apply Rgt_not_eq; lra).
  set (q := X / D). replace X with (q * D) by (unfold q; field; apply Rgt_not_eq; lra). clearbody q. lra.
Qed.
(** [|f (400 x/d) - y/e| <= t/10^7], cleared of denominators *)
Definition near (c : list Z) (k : Z) (n : Z) (t : Z) (d e : Z) (xy : Z * Z) : bool :=
  (Z.abs (400 * horner c d (fst xy) * e * 10 ^ 7 - snd xy * (k * d ^ n) * 10 ^ 7) <=? t * e * (k * d ^ n))%Z.
Lemma near_spec c k n t d e x y f : (0 < k)%Z -> (0 < d)%Z -> (0 < e)%Z -> f * (IZR k * IZR d ^ n) = 400 * IZR (horner c d x) ->
  near c k (Z.of_nat n) t d e (x, y) = true -> Rabs (f - IZR y / IZR e) <= IZR t / 10000000.
Proof.
  intros Hk Hd He Hf H. apply Z.leb_le in H. cbn [fst snd] in H. apply IZR_le in H. rewrite abs_IZR, minus_IZR, !mult_IZR, <- !pow_IZR in H.
  apply IZR_lt in Hk, Hd, He. set (K := IZR k * IZR d ^ n) in *. assert (HK : 0 < K) by (apply Rmult_lt_0_compat; [|apply pow_lt]; assumption). clearbody K.
  change (IZR (10 ^ 7)) with 10000000 in H. rewrite <- Hf in H.
  replace (f * K * IZR e * 10000000 - IZR y * K * 10000000) with ((f - IZR y / IZR e) * (K * IZR e * 10000000)) in H by (field; apply Rgt_not_eq; lra).
  assert (P : 0 < K * IZR e) by (apply Rmult_lt_0_compat; assumption).
  rewrite Rabs_mult, (Rabs_pos_eq (K * IZR e * 10000000)) in H by lra.
  apply Rmult_le_reg_r with (K * IZR e * 10000000); [lra|]. eapply Rle_trans; [exact H|]. right. field.
Qed.
Definition check_r2s (t : Z) (rows : list (Z * Z * Z * Z)) : bool := forallb (fun '(r, _, s, _) => near r2s_int (10 ^ 14) 7 t 400 (10 ^ 9) (r, s)) rows.
Definition check_s2r (t : Z) (rows : list (Z * Z * Z * Z)) : bool := forallb (fun '(r, _, s, _) => near s2r_int (10 ^ 15) 6 t (400 * 10 ^ 9) 1 (s, r)) rows.
Notation table := FocalSurfaceTable.focal_surface_lookup.
Lemma slice_In {A} (l : list A) lo n i a : nth_error l i = Some a -> (lo <= i < lo + n)%nat -> In a (firstn n (skipn lo l)).
Proof.
  revert l i. induction lo as [|lo IH]; intros l i H B.
  - cbn [skipn]. revert l i H B. induction n as [|n IH]; intros l i H B; [lia|]. destruct l as [|b l]; [destruct i; discriminate|].
    destruct i as [|i]; cbn in *; [injection H as ->; now left|]. right. apply (IH l i H). lia.
  - destruct l as [|b l]; [destruct i; discriminate|]. destruct i as [|i]; [lia|]. cbn in *. apply (IH l i H). lia.
Qed.
Lemma rows_r2s t lo hi : (lo <= hi <= 500)%nat -> check_r2s t (firstn (hi + 1 - lo) (skipn lo table)) = true ->
  forall i, (lo <= i <= hi)%nat -> Rabs (Xy2qs.r2s (nth i RsznLookups.col_R 0) - nth i RsznLookups.col_S 0) <= IZR t / 10000000.
Proof.
  intros B H i Hi. destruct (nth_error table i) as [[[[r z] s] n]|] eqn:E; [|apply nth_error_None in E; rewrite len_table in E; lia].
  unfold RsznLookups.col_R, RsznLookups.col_S. rewrite !(nth_col _ _ _ E). unfold check_r2s in H. rewrite forallb_forall in H.
  specialize (H _ (slice_In table lo (hi + 1 - lo) i _ E ltac:(lia))). cbv beta iota in H.
  replace (10 ^ 9) with (IZR (10 ^ 9)) by (rewrite (pow_IZR 10 9); reflexivity).
  apply (near_spec r2s_int (10 ^ 14) 7 t 400 (10 ^ 9) r s); [reflexivity|reflexivity|reflexivity| |exact H].
  rewrite <- (r2s_horner r 400) by reflexivity. do 2 f_equal. field.
Qed.
Lemma rows_s2r t lo hi : (lo <= hi <= 500)%nat -> check_s2r t (firstn (hi + 1 - lo) (skipn lo table)) = true ->
  forall i, (lo <= i <= hi)%nat -> Rabs (Xy2qs.s2r (nth i RsznLookups.col_S 0) - nth i RsznLookups.col_R 0) <= IZR t / 10000000.
Proof.
  intros B H i Hi. destruct (nth_error table i) as [[[[r z] s] n]|] eqn:E; [|apply nth_error_None in E; rewrite len_table in E; lia].
  unfold RsznLookups.col_R, RsznLookups.col_S. rewrite !(nth_col _ _ _ E). unfold check_s2r in H. rewrite forallb_forall in H.
  specialize (H _ (slice_In table lo (hi + 1 - lo) i _ E ltac:(lia))). cbv beta iota in H.
  replace (IZR r) with (IZR r / IZR 1) by (field).
  apply (near_spec s2r_int (10 ^ 15) 6 t (400 * 10 ^ 9) 1 s r); [reflexivity|reflexivity|reflexivity| |exact H].
  rewrite <- (s2r_horner s (400 * 10 ^ 9)) by reflexivity. do 2 f_equal. rewrite mult_IZR. change (IZR (10 ^ 9)) with 1000000000. field.
Qed.

Fixpoint gaps (g : Z) (l : list Z) : bool := match l with a :: (b :: _) as t => ((b - a <=? g)%Z && gaps g t)%bool | _ => true end.
Lemma gaps_spec g l : gaps g l = true -> forall i, (S i < length l)%nat -> (nth (S i) l 0 - nth i l 0 <= g)%Z.
Proof.
  induction l as [|a l IH]; [cbn; lia|]. destruct l as [|b l]; [cbn; lia|]. intros H i Hi. change (((b - a <=? g)%Z && gaps g (b :: l))%bool = true) in H. apply andb_prop in H as [H1 H2].
  destruct i as [|i]; [cbn; lia|]. change (nth (S (S i)) (a :: b :: l) 0%Z) with (nth (S i) (b :: l) 0%Z). change (nth (S i) (a :: b :: l) 0%Z) with (nth i (b :: l) 0%Z). apply IH; [exact H2|cbn in *; lia].
Qed.
Lemma gap_map c g l : 0 < c -> gaps g l = true -> forall i, (S i < length l)%nat -> nth (S i) (map (fun z => IZR z / c) l) 0 - nth i (map (fun z => IZR z / c) l) 0 <= IZR g / c.
Proof.
  intros Hc H i Hi. rewrite !(nth_indep (map _ l) 0 (IZR 0 / c)) by (rewrite map_length; lia). rewrite !(map_nth (fun z => IZR z / c)).
  apply Rmult_le_reg_r with c; [lra|]. pose proof (gaps_spec g l H i Hi) as G. apply IZR_le in G. rewrite minus_IZR in G.
  replace ((IZR (nth (S i) l 0%Z) / c - IZR (nth i l 0%Z) / c) * c) with (IZR (nth (S i) l 0%Z) - IZR (nth i l 0%Z)) by (field; lra). replace (IZR g / c * c) with (IZR g) by (field; lra). exact G.
Qed.
Lemma gap_R i : (S i < 501)%nat -> nth (S i) RsznLookups.col_R 0 - nth i RsznLookups.col_R 0 <= 1.02.
Proof.
  intros Hi. replace RsznLookups.col_R with (map (fun z => IZR z / 1) (map (fun t => fst (fst (fst t))) table)).
  - eapply Rle_trans; [apply (gap_map 1 1); [lra|vm_compute; reflexivity|now rewrite map_length, len_table]|lra].
  - rewrite map_map. unfold RsznLookups.col_R. apply map_ext. intros [[[a b] c] d]. cbn. field.
Qed.
Lemma gap_S i : (S i < 501)%nat -> nth (S i) RsznLookups.col_S 0 - nth i RsznLookups.col_S 0 <= 1.02.
Proof.
  intros Hi. replace RsznLookups.col_S with (map (fun z => IZR z / 10 ^ 9) (map (fun t => snd (fst t)) table)).
  - eapply Rle_trans; [apply (gap_map (10 ^ 9) 1020000000); [apply pow9|vm_compute; reflexivity|now rewrite map_length, len_table]|lra].
  - rewrite map_map. unfold RsznLookups.col_S. apply map_ext. intros [[[a b] c] d]. reflexivity.
Qed.
Lemma on_table_node xs ys i : increasing xs -> (S i < length xs)%nat -> on_table xs ys (nth (S i) xs 0) (nth (S i) ys 0).
Proof. intros Inc Hi. exists i. split; [exact Hi|]. cbv zeta. pose proof (Inc i (S i) ltac:(lia)). split; [lra|ring]. Qed.

Lemma row_at k r z s n : nth_error table k = Some (r, z, s, n) -> nth k RsznLookups.col_R 0 = IZR r /\ nth k RsznLookups.col_S 0 = IZR s / 10 ^ 9.
Proof. intros E. unfold RsznLookups.col_R, RsznLookups.col_S. now rewrite !(nth_col _ _ _ E). Qed.
Lemma r2s_close t lo hi r s : (lo <= hi <= 421)%nat -> check_r2s t (firstn (hi + 1 - lo) (skipn lo table)) = true ->
  on_table RsznLookups.col_R RsznLookups.col_S r s -> (lo = 0%nat \/ nth lo RsznLookups.col_R 0 < r) -> r < nth hi RsznLookups.col_R 0 ->
  Rabs (Xy2qs.r2s r - s) <= IZR t / 10000000 + 0.00001.
Proof.
  intros B H T Hlo Hhi. apply (close_to_table _ _ _ lo hi _ _ _ _ T inc_R); [rewrite len_R; lia|exact Hlo|exact Hhi|apply rows_r2s; [lia|exact H]|].
  intros i Hi x Hx. cbv zeta. destruct (row_at 421 421 (-20034147770) 421650695800 6333693156 ltac:(vm_compute; reflexivity)) as [E421 _].
  destruct (row_at 0 0 0 0 1722000 ltac:(vm_compute; reflexivity)) as [E0 _].
  pose proof (increasing_le _ 0 i inc_R ltac:(rewrite len_R; lia)) as L0. pose proof (increasing_le _ (S i) 421 inc_R ltac:(rewrite len_R; lia)) as L1. rewrite E0 in L0. rewrite E421 in L1.
  apply r2s_second; [lra|exact Hx|lra|apply gap_R; lia].
Qed.
Lemma s2r_close t lo hi r s : (lo <= hi <= 421)%nat -> check_s2r t (firstn (hi + 1 - lo) (skipn lo table)) = true ->
  on_table RsznLookups.col_S RsznLookups.col_R s r -> (lo = 0%nat \/ nth lo RsznLookups.col_S 0 < s) -> s < nth hi RsznLookups.col_S 0 ->
  Rabs (Xy2qs.s2r s - r) <= IZR t / 10000000 + 0.00001.
Proof.
  intros B H T Hlo Hhi. apply (close_to_table _ _ _ lo hi _ _ _ _ T inc_S); [rewrite len_S; lia|exact Hlo|exact Hhi|apply rows_s2r; [lia|exact H]|].
  intros i Hi x Hx. cbv zeta. destruct (row_at 421 421 (-20034147770) 421650695800 6333693156 ltac:(vm_compute; reflexivity)) as [_ E421].
  destruct (row_at 0 0 0 0 1722000 ltac:(vm_compute; reflexivity)) as [_ E0].
  pose proof (increasing_le _ 0 i inc_S ltac:(rewrite len_S; lia)) as L0. pose proof (increasing_le _ (S i) 421 inc_S ltac:(rewrite len_S; lia)) as L1. rewrite E0 in L0. rewrite E421 in L1.
  apply s2r_second; [lra|exact Hx|lra|apply gap_S; lia].
Qed.
