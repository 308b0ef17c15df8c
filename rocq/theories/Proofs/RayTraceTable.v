(** Proofs about the fit of the ray trace tables. *)
From Coq Require Import Lra Lia Sorted QArith Qreals.
From Verif.Model Require Import RayTraceTable.
From Verif.Spec Require Import LinAlg SimpleCorr ZhaoBurge Fvc2fp Adc RayTraceTable.
From Verif.Proofs Require Import Prelude RealNum LinAlg ZhaoBurge Zernike Poly2 Fitter FitterReject DetectSpots.
Local Open Scope R_scope.

Lemma unique_R_sorted l : StronglySorted Rlt (Fitter.unique_R l).
Proof.
  induction l as [|a l IH]; [constructor|]. change (StronglySorted Rlt (Fitter.insert_unique_R a (Fitter.unique_R l))). revert IH. generalize (Fitter.unique_R l). clear l. induction l as [|y l IH]; intros Hs; cbn; [repeat constructor|]. inversion Hs as [|? ? Hs' Hf]; subst.
  destruct (Rltb a y) eqn:E; [apply Rltb_true in E; constructor; [exact Hs|constructor; [exact E|revert Hf; apply Forall_impl; intros; lra]]|]. apply Rltb_false in E. destruct (Reqb a y) eqn:E'; [exact Hs|]. constructor; [now apply IH|]. apply Reqb_false in E'. apply Forall_forall. intros x Hx.
  assert (I : forall m, In x (Fitter.insert_unique_R a m) -> x = a \/ In x m). { clear. induction m as [|z m IH]; cbn; [intros [->|[]]; auto|]. destruct (Rltb a z); [intros [->|J]; auto|]. destruct (Reqb a z); [auto|]. intros [->|J]; [auto|]. destruct (IH J); auto. }
  destruct (I _ Hx) as [->|J]; [lra|]. rewrite Forall_forall in Hf. now apply Hf.
Qed.

Lemma polids_valid : Forall valid_id fit_polids.
Proof. repeat constructor; unfold valid_id; lia. Qed.
Lemma misfit_tan ids c (data : list ((R * R) * (R * R))) : Forall valid_id ids ->
  misfit (tan_map ids c) data = 420 ^ 2 * misfit (fun p => displaced (getZhaoBurgeXY ids c (fst p) (snd p)) p) (map (fun d => (reduce_xytan (fst d), reduce_xyfp (snd d))) data).
Proof.
  intros V. unfold misfit. induction data as [|d data IH]; cbn [map fold_right]; [ring|]. rewrite IH. unfold tan_map. cbv zeta. change (reduced_by 0.027 (fst d)) with (reduce_xytan (fst d)). cbn [fst snd].
  set (u := reduce_xytan (fst d)). unfold field. rewrite XY_Ok by exact V. unfold displaced. cbn [fst snd]. unfold reduce_xyfp. cbn [fst snd]. replace 420.0 with 420 by lra. field.
Qed.
Lemma field_zero ids c p : Forall valid_id ids -> field (getZhaoBurgeXY ids c) p = (0, 0) <-> getZhaoBurgeXY ids c (fst p) (snd p) = Ok (0, 0).
Proof. intros V. unfold field. rewrite XY_Ok by exact V. split; [intros ->; reflexivity|intros E; now injection E as -> ->]. Qed.
Lemma determine_independent ids (data : list ((R * R) * (R * R))) : Forall valid_id ids ->
  determine ids (map fst data) <-> independent (length ids) (zb_samples ids (map (fun d => (reduce_xytan (fst d), reduce_xyfp (snd d))) data)).
Proof.
  intros V. rewrite zb_independent by exact V. split; intros H c L Z; apply H; try exact L.
  - intros p Hp. apply in_map_iff in Hp as (d & <- & Hd). apply field_zero; [exact V|]. apply (Z (reduce_xytan (fst d), reduce_xyfp (snd d))). now apply (in_map (fun d => (reduce_xytan (fst d), reduce_xyfp (snd d)))).
  - intros e He. apply in_map_iff in He as (d & <- & Hd). cbn [fst]. apply field_zero; [exact V|]. apply Z. now apply in_map.
Qed.
Lemma fit_rows rows : 
  (determine fit_polids (map w_tan rows) -> exists c, fitZhaoBurge (map (fun w => reduce_xytan (w_tan w)) rows) (map (fun w => reduce_xyfp (w_fp w)) rows) (Some fit_polids) = Ok (fit_polids, c) /\ optimal fit_polids c (pairs_of rows)) /\
  (~ determine fit_polids (map w_tan rows) -> fitZhaoBurge (map (fun w => reduce_xytan (w_tan w)) rows) (map (fun w => reduce_xyfp (w_fp w)) rows) (Some fit_polids) = Err LinAlgError).
Proof.
  pose proof polids_valid as V. set (ids := fit_polids) in *. clearbody ids.
  set (rd := map (fun d => (reduce_xytan (fst d), reduce_xyfp (snd d))) (pairs_of rows)).
  assert (E1 : map fst rd = map (fun w => reduce_xytan (w_tan w)) rows) by (unfold rd, pairs_of; rewrite !map_map; reflexivity).
  assert (E2 : map snd rd = map (fun w => reduce_xyfp (w_fp w)) rows) by (unfold rd, pairs_of; rewrite !map_map; reflexivity).
  assert (E3 : map fst (pairs_of rows) = map w_tan rows) by (unfold pairs_of; rewrite !map_map; reflexivity).
  rewrite <- E1, <- E2, <- E3. split; intros D; rewrite determine_independent in D by exact V; fold rd in D.
  - destruct (fit_Ok rd ids V D) as (c & E & L & O). exists c. split; [exact E|]. split; [exact L|]. intros c' L' N. rewrite !misfit_tan by exact V. fold rd. rewrite <- !sum_sq_misfit by exact V. apply Rmult_lt_compat_l; [lra|]. now apply O.
  - now apply fit_singular.
Qed.

Lemma group_In table c w : In w (group table c) <-> In w table /\ w_adc1 w + 1000 * w_adc2 w = c.
Proof. unfold group. rewrite filter_In. destruct (Req_EM_T _ c); intuition congruence. Qed.
Lemma config_Ok table c : (exists w, In w table /\ setup_code w = c) -> determine fit_polids (map w_tan (group table c)) ->
  exists w k, In w (group table c) /\ fit_config table c = Ok (w_adc1 w, w_adc2 w, k) /\ optimal fit_polids k (pairs_of (group table c)).
Proof.
  intros (w0 & I & E) D. unfold fit_config. change (filter (fun w => Reqb (setup_code w) c) table) with (group table c). cbv zeta.
  destruct (proj1 (fit_rows (group table c)) D) as (k & F & O). rewrite F. destruct (group table c) as [|w l] eqn:G.
  - exfalso. assert (In w0 (group table c)) by now apply group_In. rewrite G in H. destruct H.
  - exists w, k. split; [now left|]. split; [reflexivity|exact O].
Qed.
Lemma config_singular table c : (exists w, In w table /\ setup_code w = c) -> ~ determine fit_polids (map w_tan (group table c)) -> fit_config table c = Err LinAlgError.
Proof.
  intros (w0 & I & E) D. unfold fit_config. change (filter (fun w => Reqb (setup_code w) c) table) with (group table c). cbv zeta.
  rewrite (proj2 (fit_rows (group table c)) D). destruct (group table c) as [|w l] eqn:G; [|reflexivity].
  exfalso. assert (In w0 (group table c)) by now apply group_In. rewrite G in H. destruct H.
Qed.

(** The entries made, one for each code. *)
Lemma fit_entries table cs : rmapM (fit_config table) (Fitter.unique_R (map setup_code table)) = Ok cs ->
  Forall2 (fun c e => exists w, In w (group table c) /\ fst e = (w_adc1 w, w_adc2 w) /\ optimal fit_polids (snd e) (pairs_of (group table c))) (Fitter.unique_R (map setup_code table)) cs.
Proof.
  intros H. apply rmapM_Ok_Forall2 in H.
  assert (A : forall c, In c (Fitter.unique_R (map setup_code table)) -> exists w, In w table /\ setup_code w = c).
  { intros c Hc. apply unique_R_In, in_map_iff in Hc as (w & E & I). eauto. }
  revert A. induction H as [|c e l cs E H IH]; intros A; constructor; [|apply IH; intros; apply A; now right].
  destruct (Classical_Prop.classic (determine fit_polids (map w_tan (group table c)))) as [D|D].
  - destruct (config_Ok table c (A c (or_introl eq_refl)) D) as (w & k & I & F & O). rewrite E in F. injection F as ->. exists w. auto.
  - rewrite (config_singular table c (A c (or_introl eq_refl)) D) in E. discriminate.
Qed.

Lemma rows_of_concat n m rows : length rows = n -> Forall (fun r => length r = m) rows -> rows_of n m (List.concat rows) = rows.
Proof.
  revert n. induction rows as [|r rows IH]; intros [|n] L F; try discriminate; [reflexivity|]. inversion F as [|? ? Lr F']; subst. cbn [rows_of List.concat].
  rewrite firstn_app, skipn_app, Nat.sub_diag, firstn_all, skipn_all. cbn. rewrite app_nil_r, IH; [reflexivity|cbn in L; lia|exact F'].
Qed.
Lemma concat_length_rect m (rows : list (list R)) : Forall (fun r => length r = m) rows -> length (List.concat rows) = (length rows * m)%nat.
Proof. induction 1 as [|r rows Lr F IH]; [reflexivity|]. cbn. rewrite app_length, IH, Lr. lia. Qed.
Lemma int_array_ints l : int_array (JArr (map JInt l)) = Ok l.
Proof. unfold int_array. induction l as [|z l IH]; cbn; [reflexivity|]. unfold rmapM in *. now rewrite IH. Qed.
Lemma real_array_reals l : real_array (reals l) = Ok l.
Proof. unfold real_array, reals. induction l as [|z l IH]; cbn; [reflexivity|]. unfold rmapM in *. now rewrite IH. Qed.

(** Eight points determine the coefficients. *)
Ltac zpoly := intros; match goal with |- getZ ?i ?x ?y = _ => rewrite (getZ_poly i x y) by lia; let p := eval vm_compute in (zp i) in replace (zp i) with p by (vm_compute; reflexivity) end;
  cbn [peval meval fst snd nth Z.to_nat Pos.to_nat Pos.iter_op Nat.add squares]; unfold meval, Q2R; cbn [fst snd Qnum Qden]; change (Pos.to_nat 1) with 1%nat; f_equal; try field.
Lemma getZ2 x y : getZ 2 x y = sqrt 4 * x. Proof. zpoly. Qed.
Lemma getZ3 x y : getZ 3 x y = sqrt 4 * y. Proof. zpoly. Qed.
Lemma getZ4 x y : getZ 4 x y = sqrt 3 * (2 * (x ^ 2 + y ^ 2) - 1). Proof. zpoly. Qed.
Lemma getZ5 x y : getZ 5 x y = sqrt 6 * (2 * x * y). Proof. zpoly. Qed.
Lemma getZ6 x y : getZ 6 x y = sqrt 6 * (x ^ 2 - y ^ 2). Proof. zpoly. Qed.
Lemma getZ7 x y : getZ 7 x y = sqrt 8 * ((3 * (x ^ 2 + y ^ 2) - 2) * y). Proof. zpoly. Qed.
Lemma getZ8 x y : getZ 8 x y = sqrt 8 * ((3 * (x ^ 2 + y ^ 2) - 2) * x). Proof. zpoly. Qed.
Lemma getZ11 x y : getZ 11 x y = sqrt 5 * (6 * (x ^ 2 + y ^ 2) ^ 2 - 6 * (x ^ 2 + y ^ 2) + 1). Proof. zpoly. Qed.
Lemma getZ12 x y : getZ 12 x y = sqrt 10 * ((4 * (x ^ 2 + y ^ 2) - 3) * (x ^ 2 - y ^ 2)). Proof. zpoly. Qed.
Lemma getZ13 x y : getZ 13 x y = sqrt 10 * ((4 * (x ^ 2 + y ^ 2) - 3) * (2 * x * y)). Proof. zpoly. Qed.
Lemma getZ16 x y : getZ 16 x y = sqrt 12 * ((10 * (x ^ 2 + y ^ 2) ^ 2 - 12 * (x ^ 2 + y ^ 2) + 3) * x). Proof. zpoly. Qed.
Lemma getZ17 x y : getZ 17 x y = sqrt 12 * ((10 * (x ^ 2 + y ^ 2) ^ 2 - 12 * (x ^ 2 + y ^ 2) + 3) * y). Proof. zpoly. Qed.
Lemma half4 k : rh * (sqrt 4 * k) = sqrt 8 * (k / 2). Proof. rewrite (rh_mul 4) by lia. cbn [Z.mul Pos.mul]. lra. Qed.
Lemma half3 k : rh * (sqrt 3 * k) = sqrt 6 * (k / 2). Proof. rewrite (rh_mul 3) by lia. cbn [Z.mul Pos.mul]. lra. Qed.
Lemma half8 k : rh * (sqrt 8 * k) = sqrt 16 * (k / 2). Proof. rewrite (rh_mul 8) by lia. cbn [Z.mul Pos.mul]. lra. Qed.
Lemma half5 k : rh * (sqrt 5 * k) = sqrt 10 * (k / 2). Proof. rewrite (rh_mul 5) by lia. cbn [Z.mul Pos.mul]. lra. Qed.
Lemma half12 k : rh * (sqrt 12 * k) = sqrt 24 * (k / 2). Proof. rewrite (rh_mul 12) by lia. cbn [Z.mul Pos.mul]. lra. Qed.
Definition knots : list (R * R) := map (fun p => (0.027 * fst p, 0.027 * snd p)) [(0, 0); (1, 0); (0, 1); (-1, 0); (0, -1); (1, 1); (2, 0); (0, 2)].
Lemma knots_determine : determine fit_polids knots.
Proof.
  intros c L H. do 15 (destruct c as [|? c]; [discriminate|]). destruct c; [|discriminate]. clear L.
  assert (G : forall x y, In (0.027 * x, 0.027 * y) knots -> getZhaoBurgeXY fit_polids [r; r0; r1; r2; r3; r4; r5; r6; r7; r8; r9; r10; r11; r12; r13] x y = Ok (0, 0)).
  { intros x y I. apply H in I. apply field_zero in I; [|apply polids_valid]. unfold reduced_by in I. cbn [fst snd] in I. replace (0.027 * x / 0.027) with x in I by lra. replace (0.027 * y / 0.027) with y in I by lra. exact I. }
  clear H.
  assert (E : forall x y, In (0.027 * x, 0.027 * y) knots ->
    r + sqrt 8 * r1 * (x / 2) + sqrt 8 * r2 * (y / 2) + sqrt 8 * r3 * (x / 2) + sqrt 6 * r4 * (x * y) + sqrt 6 * r5 * (3 * x ^ 2 / 2 + y ^ 2 / 2 - 1 / 2) + sqrt 16 * r6 * ((3 * (x ^ 2 + y ^ 2) - 2) * x / 2)
    + sqrt 10 * r7 * ((6 * (x ^ 2 + y ^ 2) ^ 2 - 6 * (x ^ 2 + y ^ 2) + 1) / 2 + (4 * (x ^ 2 + y ^ 2) - 3) * (x ^ 2 - y ^ 2) / 2) + sqrt 10 * r8 * ((4 * (x ^ 2 + y ^ 2) - 3) * (x * y))
    + sqrt 24 * r9 * ((10 * (x ^ 2 + y ^ 2) ^ 2 - 12 * (x ^ 2 + y ^ 2) + 3) * x / 2) + sqrt 8 * r10 * (y / 2) + sqrt 6 * r11 * (x ^ 2 / 2 + 3 * y ^ 2 / 2 - 1 / 2) + sqrt 6 * r12 * (x * y) + sqrt 16 * r13 * ((3 * (x ^ 2 + y ^ 2) - 2) * y / 2) = 0 /\
    r0 + sqrt 8 * r1 * (y / 2) + sqrt 8 * r2 * (x / 2) - sqrt 8 * r3 * (y / 2) + sqrt 6 * r4 * (x ^ 2 / 2 + 3 * y ^ 2 / 2 - 1 / 2) + sqrt 6 * r5 * (x * y) + sqrt 16 * r6 * ((3 * (x ^ 2 + y ^ 2) - 2) * y / 2)
    + sqrt 10 * r7 * ((4 * (x ^ 2 + y ^ 2) - 3) * (x * y)) + sqrt 10 * r8 * ((6 * (x ^ 2 + y ^ 2) ^ 2 - 6 * (x ^ 2 + y ^ 2) + 1) / 2 - (4 * (x ^ 2 + y ^ 2) - 3) * (x ^ 2 - y ^ 2) / 2)
    + sqrt 24 * r9 * ((10 * (x ^ 2 + y ^ 2) ^ 2 - 12 * (x ^ 2 + y ^ 2) + 3) * y / 2) - sqrt 8 * r10 * (x / 2) - sqrt 6 * r11 * (x * y) - sqrt 6 * r12 * (3 * x ^ 2 / 2 + y ^ 2 / 2 - 1 / 2) - sqrt 16 * r13 * ((3 * (x ^ 2 + y ^ 2) - 2) * x / 2) = 0).
  { intros x y I. specialize (G x y I). clear I. unfold getZhaoBurgeXY, fit_polids in G. cbn [combine add_terms getZhaoBurgeTerm rbind fst snd] in G. injection G as G1 G2.
    rewrite !getZ1, !getZ2, !getZ3, !getZ4, !getZ5, !getZ6, ?getZ7, !getZ8, !getZ11, !getZ12, !getZ13, !getZ16 in G1. rewrite !getZ1, !getZ2, !getZ3, !getZ4, !getZ5, !getZ6, !getZ7, !getZ8, !getZ11, !getZ12, !getZ13, !getZ17 in G2.
    rewrite <- !Ropp_mult_distr_l in G2. rewrite !half4, !half3, !half8, !half5, !half12 in G1. rewrite !half4, !half3, !half8, !half5, !half12 in G2.
    set (s8 := sqrt 8) in *. set (s6 := sqrt 6) in *. set (s16 := sqrt 16) in *. set (s10 := sqrt 10) in *. set (s24 := sqrt 24) in *. split; lra. }
  assert (K : forall x y, In (x, y) [(0, 0); (1, 0); (0, 1); (-1, 0); (0, -1); (1, 1); (2, 0); (0, 2)] -> In (0.027 * x, 0.027 * y) knots) by (intros x y I; apply (in_map (fun p => (0.027 * fst p, 0.027 * snd p)) _ _ I)).
  assert (P : forall k, 0 < k -> 0 < sqrt k) by (intros; now apply sqrt_lt_R0).
  pose proof (P 8 ltac:(lra)). pose proof (P 6 ltac:(lra)). pose proof (P 16 ltac:(lra)). pose proof (P 10 ltac:(lra)). pose proof (P 24 ltac:(lra)).
  assert (S : r = 0 /\ r0 = 0 /\ sqrt 8 * r1 = 0 /\ sqrt 8 * r2 = 0 /\ sqrt 8 * r3 = 0 /\ sqrt 6 * r4 = 0 /\ sqrt 6 * r5 = 0 /\ sqrt 16 * r6 = 0 /\ sqrt 10 * r7 = 0 /\ sqrt 10 * r8 = 0 /\ sqrt 24 * r9 = 0 /\ sqrt 8 * r10 = 0 /\ sqrt 6 * r11 = 0 /\ sqrt 6 * r12 = 0 /\ sqrt 16 * r13 = 0).
  { pose proof (E 0 0 (K 0 0 ltac:(cbn; tauto))) as [? ?]. pose proof (E 1 0 (K 1 0 ltac:(cbn; tauto))) as [? ?]. pose proof (E 0 1 (K 0 1 ltac:(cbn; tauto))) as [? ?]. pose proof (E (-1) 0 (K (-1) 0 ltac:(cbn; tauto))) as [? ?].
    pose proof (E 0 (-1) (K 0 (-1) ltac:(cbn; tauto))) as [? ?]. pose proof (E 1 1 (K 1 1 ltac:(cbn; tauto))) as [? ?]. pose proof (E 2 0 (K 2 0 ltac:(cbn; tauto))) as [? ?]. pose proof (E 0 2 (K 0 2 ltac:(cbn; tauto))) as [? ?]. clear E K G P.
    set (d1 := sqrt 8 * r1) in *. set (d2 := sqrt 8 * r2) in *. set (d3 := sqrt 8 * r3) in *. set (d4 := sqrt 6 * r4) in *. set (d5 := sqrt 6 * r5) in *. set (d6 := sqrt 16 * r6) in *. set (d7 := sqrt 10 * r7) in *. set (d8 := sqrt 10 * r8) in *. set (d9 := sqrt 24 * r9) in *.
    set (d10 := sqrt 8 * r10) in *. set (d11 := sqrt 6 * r11) in *. set (d12 := sqrt 6 * r12) in *. set (d13 := sqrt 16 * r13) in *. clearbody d1 d2 d3 d4 d5 d6 d7 d8 d9 d10 d11 d12 d13. repeat split; lra. }
  assert (Z : forall k v, 0 < k -> k * v = 0 -> v = 0) by (intros k v Hk Hv; apply Rmult_integral in Hv as [|]; lra).
  destruct S as (-> & -> & S1 & S2 & S3 & S4 & S5 & S6 & S7 & S8 & S9 & S10 & S11 & S12 & S13).
  apply Z in S1; [|assumption]. apply Z in S2; [|assumption]. apply Z in S3; [|assumption]. apply Z in S4; [|assumption]. apply Z in S5; [|assumption]. apply Z in S6; [|assumption]. apply Z in S7; [|assumption]. apply Z in S8; [|assumption]. apply Z in S9; [|assumption]. apply Z in S10; [|assumption]. apply Z in S11; [|assumption]. apply Z in S12; [|assumption]. apply Z in S13; [|assumption].
  subst. reflexivity.
Qed.
