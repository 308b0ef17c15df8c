(** bin/desi_fit_circles: centres of the positioners and of the pinholes (C113). *)
From Verif.Model Require Import FitCircles.
From Verif.Spec Require Import FitCircles Circles.
From Verif.Proofs Require Import Prelude RealNum Trig Stats Circles Xy2qs FitCircles.
From Verif.Props Require Import Circles.
From Coq Require Import Lra Lia.
Local Open Scope R_scope.
Local Open Scope list_scope.

(** The position given for the measurements of a positioner (pinhole 0), and for those of a pinhole. *)
Definition placed leastsq (pinhole : Z) (pts : list (R * R)) (m : R * R) : Prop :=
  (pinhole = 0%Z /\ 1 <= variance (map fst pts) /\ exists c r, fit_circle leastsq (map (fun p => xy2uv (fst p) (snd p)) pts) = Ok (c, r) /\ m = uv2xy (fst c) (snd c)) \/
  (pinhole <> 0%Z /\ median (map fst pts) = Ok (fst m) /\ median (map snd pts) = Ok (snd m)).
Lemma std_variance l : std_of l < 1 <-> variance l < 1.
Proof.
  unfold std_of, variance, Rsum. cbv zeta. set (v := _ / _). split; intros H.
  - destruct (Rlt_dec v 1); [assumption|]. exfalso. assert (1 <= sqrt v) by (rewrite <- sqrt_1; apply sqrt_le_1_alt; lra). lra.
  - destruct (Rle_dec 0 v); [rewrite <- sqrt_1; apply sqrt_lt_1_alt; lra|]. rewrite sqrt_neg_0 by lra. lra.
Qed.
Lemma median_empty_or l : median l = Err NonFinite \/ exists m, median l = Ok m.
Proof. destruct l as [|a l]; [left; reflexivity|right; now apply Circles.median_some]. Qed.
Lemma measured_spec leastsq l p pts : (0 <= p <= 9)%Z ->
  (exists e, measured leastsq (l * 10 + p)%Z pts = Err e /\ e = TypeError /\ p = 0%Z /\ (6 <= length pts)%nat /\ valid pts = []) \/
  ((p = 0%Z -> (6 <= length pts)%nat -> valid pts <> []) /\ exists m, measured leastsq (l * 10 + p)%Z pts = Ok m /\ forall q, m = Some q <-> (6 <= length pts)%nat /\ placed leastsq p (valid pts) q).
Proof.
  intros Hp. unfold measured. destruct (Nat.ltb_spec (length pts) 6) as [L|L]; [right; split; [lia|]; exists None; split; [reflexivity|]; intros q; split; [discriminate|intros [? _]; lia]|]. fold (valid pts). set (V := valid pts).
  assert ((l * 10 + p) mod 10 = p)%Z as -> by (rewrite Z.add_comm, Z.mod_add by lia; apply Z.mod_small; lia).
  destruct (Z.eqb_spec p 0) as [->|N]; cbn [andb].
  - destruct (Nat.ltb_spec 0 (length V)) as [LV|LV]; cbn [andb].
    + right. split; [intros _ _ E; rewrite E in LV; cbn in LV; lia|]. destruct (Rltb (std_of (map fst V)) 1) eqn:S.
      * apply Rltb_true, std_variance in S. exists None. split; [reflexivity|]. intros q. split; [discriminate|]. intros (_ & [(_ & H & _)|(H & _)]); [lra|congruence].
      * apply Rltb_false in S. assert (SV : 1 <= variance (map fst V)) by (destruct (Rle_dec 1 (variance (map fst V))) as [|H]; [assumption|]; apply Rnot_le_lt, std_variance in H; lra).
        destruct (fit_circle leastsq _) as [[c r]|e] eqn:F.
        -- destruct (C44_accepted _ _ _ _ F) as [Hr _]. assert (Rltb r 0.1 = false) as -> by (apply Rltb_false; lra). exists (Some (uv2xy (fst c) (snd c))). split; [reflexivity|]. intros q. split.
           ++ intros [= <-]. split; [exact L|]. left. split; [reflexivity|]. split; [exact SV|]. exists c, r. auto.
           ++ intros (_ & [(_ & _ & c' & r' & F' & ->)|(H & _)]); [|congruence]. rewrite F in F'. injection F' as <- _. reflexivity.
        -- assert (e = ValueError). { destruct (fit_circle_err _ _ _ F) as [|[_ E]]; [assumption|]. destruct V; [cbn in LV; lia|discriminate]. } subst e. exists None. split; [reflexivity|]. intros q. split; [discriminate|]. intros (_ & [(_ & _ & c' & r' & F' & _)|(H & _)]); [rewrite F in F'; discriminate|congruence].
    + left. assert (V = []) as E by (destruct V; [reflexivity|cbn in LV; lia]). rewrite E. exists TypeError. split; [reflexivity|]. auto.
  - right. split; [congruence|]. destruct (median_empty_or (map fst V)) as [E|[x E]]; rewrite E.
    + exists None. split; [reflexivity|]. intros q. split; [discriminate|]. intros (_ & [(H & _)|(_ & H & _)]); [congruence|]. rewrite E in H. discriminate.
    + destruct (median_empty_or (map snd V)) as [E'|[y E']]; rewrite E'.
      * exists None. split; [reflexivity|]. intros q. split; [discriminate|]. intros (_ & [(H & _)|(_ & _ & H)]); [congruence|]. rewrite E' in H. discriminate.
      * exists (Some (x, y)). split; [reflexivity|]. intros q. split; [intros [= <-]; split; [exact L|right; auto]|]. intros (_ & [(H & _)|(_ & H & H')]); [congruence|]. rewrite E in H. rewrite E' in H'. injection H as ->. injection H' as ->. now destruct q.
Qed.
Lemma rmapM_err {A B} (f : A -> res B) l e : rmapM f l = Err e -> exists a, In a l /\ f a = Err e.
Proof. induction l as [|a l IH]; cbn; [discriminate|]. destruct (f a) as [b|] eqn:E; cbn; [|intros [= ->]; eauto]. destruct (rmapM f l); cbn; [discriminate|]. intros [= ->]. destruct IH as (x & I & H); [reflexivity|]. eauto. Qed.
Theorem C113_rows leastsq files out : Forall (Forall (fun r => (0 <= r_pinhole r <= 9)%Z)) files -> fit_circles leastsq files = Ok out ->
  NoDup (map (fun c => (c_location c, c_pinhole c)) out) /\
  forall c, In c out <-> (0 < c_location c)%Z /\ (0 <= c_pinhole c <= 9)%Z /\ expected files (c_location c) (c_pinhole c) = Some (c_metro c) /\ fst (c_metro c) <> 0 /\
    let pts := measurements files (c_location c) (c_pinhole c) in
    (6 <= length pts)%nat /\ placed leastsq (c_pinhole c) (valid pts) (c_meas c) /\ sqrt ((fst (c_meas c) - fst (c_metro c)) ^ 2 + (snd (c_meas c) - snd (c_metro c)) ^ 2) < 3.
Proof.
  intros W E. change (Forall wf files) in W. unfold fit_circles in E. destruct (rmapM _ (gather files)) as [rows|] eqn:M; [|discriminate]. cbn in E. injection E as <-. apply rmapM_Ok_Forall2 in M.
  assert (RC : forall k e m c, In c (row_of_code k e m) <-> exists p, m = Some p /\ fst e <> 0 /\ sqrt ((fst p - fst e) ^ 2 + (snd p - snd e) ^ 2) < 3 /\ c = {| c_location := k / 10; c_pinhole := k mod 10; c_metro := e; c_meas := p |}).
  { intros k e m c. unfold row_of_code. destruct m as [p|]; [|split; [intros []|intros (p & ? & _); discriminate]]. destruct (Reqb (fst e) 0) eqn:Z0; cbn [negb andb].
    - apply Reqb_true in Z0. split; [intros []|intros (p' & _ & H & _); contradiction].
    - apply Reqb_false in Z0. destruct (Rltb _ 3) eqn:D; [apply Rltb_true in D|apply Rltb_false in D]; split; [intros [<-|[]]; eauto|intros (p' & [= <-] & _ & _ & ->); now left|intros []|intros (p' & [= <-] & _ & H & _); lra]. }
  split.
  - destruct (gather_good files W) as [N P]. revert N P. clear - M RC. induction M as [|[k [l e]] r g rows H M IH]; intros N P; [constructor|]. cbn [map fst] in N, P. inversion N as [|? ? Nk N']; subst. cbn [concat]. rewrite map_app.
    specialize (IH N' (fun j I => P j (or_intror I))). destruct (measured leastsq k l) as [m|]; [|discriminate]. cbn in H. injection H as <-. unfold row_of_code. destruct m as [p|]; [|exact IH]. destruct (_ && _)%bool; [|exact IH]. cbn [map app c_location c_pinhole]. constructor; [|exact IH].
    intros I. apply in_map_iff in I as (c & Ec & I). apply in_concat in I as (r' & Ir & Ic). assert (exists x, In x g /\ (let '(k', (l', e')) := x in rmap (row_of_code k' e') (measured leastsq k' l') = Ok r')) as ([k' [l' e']] & Ig & H).
    { clear - M Ir. induction M as [|x y g rows H M IH]; [destruct Ir|]. destruct Ir as [<-|Ir]; [exists x; split; [now left|]; now destruct x as [? [? ?]]|]. destruct (IH Ir) as (z & I & Hz). exists z. split; [now right|exact Hz]. }
    destruct (measured leastsq k' l') as [m'|]; [|discriminate]. cbn in H. injection H as <-. apply RC in Ic as (q & _ & _ & _ & ->). cbn in Ec. injection Ec as E1 E2. apply Nk. apply in_map_iff. exists (k', (l', e')). split; [|exact Ig]. cbn. rewrite (Z.div_mod k 10), (Z.div_mod k' 10) by lia. congruence.
  - intros c. split.
    + intros I. apply in_concat in I as (r & Ir & Ic). assert (exists x, In x (gather files) /\ (let '(k', (l', e')) := x in rmap (row_of_code k' e') (measured leastsq k' l') = Ok r)) as ([k [l e]] & Ig & H).
      { clear - M Ir. induction M as [|x y g rows H M IH]; [destruct Ir|]. destruct Ir as [<-|Ir]; [exists x; split; [now left|]; now destruct x as [? [? ?]]|]. destruct (IH Ir) as (z & I & Hz). exists z. split; [now right|exact Hz]. }
      apply (gathered_In files k l e W) in Ig as (loc & p & Hl & Hp & -> & -> & Ee). destruct (measured leastsq _ _) as [m|] eqn:Em; [|discriminate]. cbn in H. injection H as <-. apply RC in Ic as (q & -> & Z0 & D & ->). cbn [c_location c_pinhole c_metro c_meas].
      assert ((loc * 10 + p) / 10 = loc)%Z as -> by (rewrite Z.div_add_l by lia; rewrite Z.div_small by lia; lia). assert ((loc * 10 + p) mod 10 = p)%Z as -> by (rewrite Z.add_comm, Z.mod_add by lia; apply Z.mod_small; lia).
      destruct (measured_spec leastsq loc p (measurements files loc p) Hp) as [(x & X & _)|(_ & m & X & Y)]; rewrite Em in X; [discriminate|]. injection X as <-. destruct (proj1 (Y q) eq_refl) as [L6 Pl]. cbv zeta. tauto.
    + intros (Hl & Hp & Ee & Z0 & L6 & Pl & D). set (loc := c_location c) in *. set (p := c_pinhole c) in *. assert (Ig : In ((loc * 10 + p)%Z, (measurements files loc p, c_metro c)) (gather files)) by (apply (gathered_In files _ _ _ W); exists loc, p; auto).
      destruct (measured_spec leastsq loc p (measurements files loc p) Hp) as [(x & X & _ & P0 & _ & V)|(_ & m & X & Y)].
      { exfalso. destruct Pl as [(_ & _ & cc & r & F & _)|(H & _)]; [|congruence]. rewrite V in F. discriminate. }
      pose proof (proj2 (Y (c_meas c)) (conj L6 Pl)) as Em. subst m.
      assert (exists r, In r rows /\ rmap (row_of_code (loc * 10 + p) (c_metro c)) (measured leastsq (loc * 10 + p) (measurements files loc p)) = Ok r) as (r & Ir & H).
      { clear - M Ig. induction M as [|x y g rows H M IH]; [destruct Ig|]. destruct Ig as [->|Ig]; [exists y; split; [now left|exact H]|]. destruct (IH Ig) as (z & I & Hz). exists z. split; [now right|exact Hz]. }
      rewrite X in H. unfold rmap in H. injection H as <-. apply in_concat. exists (row_of_code (loc * 10 + p) (c_metro c) (Some (c_meas c))). split; [exact Ir|]. apply RC. exists (c_meas c). split; [reflexivity|]. split; [exact Z0|]. split; [exact D|].
      assert ((loc * 10 + p) / 10 = loc)%Z as -> by (rewrite Z.div_add_l by lia; rewrite Z.div_small by lia; lia). assert ((loc * 10 + p) mod 10 = p)%Z as -> by (rewrite Z.add_comm, Z.mod_add by lia; apply Z.mod_small; lia). unfold loc, p. now destruct c.
Qed.
Print Assumptions C113_rows.
(** The only failure: a positioner in six tables or more, always at x = 0. *)
Theorem C113_fails leastsq files e : Forall (Forall (fun r => (0 <= r_pinhole r <= 9)%Z)) files ->
  fit_circles leastsq files = Err e <-> e = TypeError /\ exists l, (0 < l)%Z /\ (6 <= length (measurements files l 0))%nat /\ Forall (fun p => fst p = 0) (measurements files l 0).
Proof.
  intros W. change (Forall wf files) in W. assert (VE : forall l, valid l = [] <-> Forall (fun p => fst p = 0) l).
  { unfold valid. induction l as [|p l IH]; [split; constructor|]. cbn [filter]. destruct (Reqb (fst p) 0) eqn:Z0; cbn [negb].
    - apply Reqb_true in Z0. rewrite IH. split; intros H; [now constructor|now inversion H].
    - apply Reqb_false in Z0. split; [discriminate|]. intros H. inversion H; contradiction. }
  unfold fit_circles. split.
  - destruct (rmapM _ (gather files)) as [rows|e'] eqn:M; [discriminate|]. cbn. intros [= <-]. apply rmapM_err in M as ([k [l x]] & I & H). apply (gathered_In files k l x W) in I as (loc & p & Hl & Hp & -> & -> & Ee).
    destruct (measured_spec leastsq loc p (measurements files loc p) Hp) as [(y & X & -> & -> & L6 & V)|(_ & m & X & _)]; rewrite X in H; [|discriminate]. cbn in H. injection H as <-. split; [reflexivity|]. exists loc. split; [exact Hl|]. split; [exact L6|]. now apply VE.
  - intros (-> & l & Hl & L6 & F). apply VE in F.
    assert (exists x, expected files l 0 = Some x) as (x & Ex).
    { unfold measurements in L6. unfold expected. destruct files as [|t fs]; [cbn in L6; lia|]. destruct (rows_at l 0 t); [|eauto]. assert (NE : flat_map (fun t => match rows_at l 0 t with [r] => [r_xy r] | _ => [] end) (t :: fs) <> []) by (intros E; rewrite E in L6; cbn in L6; lia). clear - NE. induction (t :: fs) as [|u us IH]; [contradiction|]. cbn [flat_map] in *. destruct (rows_at l 0 u) as [|r [|r' q]]; cbn in *; eauto. }
    assert (Ig : In ((l * 10 + 0)%Z, (measurements files l 0, x)) (gather files)) by (apply (gathered_In files _ _ _ W); exists l, 0%Z; repeat (split; [lia || reflexivity|]); exact Ex).
    destruct (rmapM _ (gather files)) as [rows|e'] eqn:M; cbn.
    + exfalso. apply rmapM_Ok_Forall2 in M. assert (exists r, rmap (row_of_code (l * 10 + 0) x) (measured leastsq (l * 10 + 0) (measurements files l 0)) = Ok r) as (r & H).
      { clear - M Ig. induction M as [|a b g rows H M IH]; [destruct Ig|]. destruct Ig as [->|Ig]; [exists b; exact H|auto]. }
      destruct (measured_spec leastsq l 0 (measurements files l 0) ltac:(lia)) as [(y & X & _)|(Q & _)]; [rewrite X in H; discriminate|]. now apply Q.
    + f_equal. apply rmapM_err in M as ([k [l' x']] & I & H). apply (gathered_In files k l' x' W) in I as (loc & p & _ & Hp & -> & -> & _). destruct (measured_spec leastsq loc p (measurements files loc p) Hp) as [(y & X & -> & _)|(_ & m & X & _)]; rewrite X in H; [now injection H|discriminate].
Qed.
Print Assumptions C113_fails.
(** A positioner seen at different points of a circle of the curved focal surface gets the centre of the circle. *)
Theorem C113_circle leastsq files out l e c r : descends leastsq -> Forall (Forall (fun r => (0 <= r_pinhole r <= 9)%Z)) files -> fit_circles leastsq files = Ok out -> (0 < l)%Z ->
  let pts := measurements files l 0 in let uv := map (fun p => xy2uv (fst p) (snd p)) pts in
  (6 <= length pts)%nat -> Forall (fun p => fst p <> 0) pts -> 1 <= variance (map fst pts) -> NoDup uv -> Forall (on_circle c r) uv -> 1 <= r <= 5 ->
  expected files l 0 = Some e -> fst e <> 0 -> let m := uv2xy (fst c) (snd c) in sqrt ((fst m - fst e) ^ 2 + (snd m - snd e) ^ 2) < 3 ->
  In {| c_location := l; c_pinhole := 0; c_metro := e; c_meas := m |} out.
Proof.
  intros D W E Hl pts uv L6 NZ V ND OC Hr Ee Z0 m Hd. apply (C113_rows leastsq files out W E). cbn [c_location c_pinhole c_metro c_meas]. split; [exact Hl|]. split; [lia|]. split; [exact Ee|]. split; [exact Z0|]. cbv zeta. split; [exact L6|]. split; [|exact Hd].
  fold pts. assert (valid pts = pts) as ->. { unfold valid. clear - NZ. induction NZ as [|p q H NZ IH]; [reflexivity|]. cbn [filter]. assert (Reqb (fst p) 0 = false) as -> by now apply Reqb_false. cbn [negb]. now rewrite IH. }
  left. split; [reflexivity|]. split; [exact V|]. exists c, r. split; [|reflexivity]. fold uv. apply (C44_refined leastsq c r uv D); [unfold uv; rewrite map_length; lia|exact ND|exact OC|exact Hr].
Qed.
Print Assumptions C113_circle.
Definition one_spot (p : R * R) (e : R * R) : list spot_row := [{| r_location := 1; r_pinhole := 0; r_xy := p; r_exp := e |}].
Lemma one_spots pts e : Forall (Forall (fun r => (0 <= r_pinhole r <= 9)%Z)) (map (fun p => one_spot p e) pts) /\ measurements (map (fun p => one_spot p e) pts) 1 0 = pts /\ (forall l, (l <> 1)%Z -> measurements (map (fun p => one_spot p e) pts) l 0 = []) /\ (pts <> [] -> expected (map (fun p => one_spot p e) pts) 1 0 = Some e).
Proof.
  split; [apply Forall_forall; intros t I; apply in_map_iff in I as (p & <- & _); repeat constructor; cbn; lia|]. split; [unfold measurements; induction pts as [|p pts IH]; [reflexivity|]; cbn; now rewrite IH|].
  split; [intros l N; unfold measurements; induction pts as [|p pts IH]; [reflexivity|]; cbn [map flat_map]; rewrite IH; unfold rows_at, one_spot; cbn [filter r_location]; assert ((1 =? l)%Z = false) as -> by (apply Z.eqb_neq; congruence); reflexivity|]. destruct pts; [congruence|reflexivity].
Qed.
(** A positioner moved all around a circle of radius 1.25 mm is taken as one that does not move. *)
Theorem C113_moving_refuted : exists pts, (6 <= length pts)%nat /\ NoDup pts /\ Forall (on_circle (100, 0) 1.25) pts /\
  forall leastsq, fit_circles leastsq (map (fun p => one_spot p (100, 0)) pts) = Ok [].
Proof.
  set (pts := [(101.25, 0); (98.75, 0); (100, 1.25); (100, -1.25); (100.75, 1); (100.75, -1); (99.25, 1); (99.25, -1)]). exists pts. split; [cbn; lia|]. split.
  { unfold pts. repeat constructor; cbn [In]; intros H; repeat (destruct H as [H|H]; [injection H; intros; lra|]); exact H. }
  split. { assert (H : forall x y, (x - 100) * (x - 100) + y * y = 1.25 * 1.25 -> on_circle (100, 0) 1.25 (x, y)) by (intros x y H; unfold on_circle; cbn [fst snd]; replace (_ + _) with (1.25 * 1.25) by (rewrite <- H; ring); apply sqrt_square; lra).
    unfold pts. repeat (apply Forall_cons; [apply H; lra|]). apply Forall_nil. }
  intros leastsq. destruct (one_spots pts (100, 0)) as (W & M & M' & Ex). set (files := map (fun p => one_spot p (100, 0)) pts) in *. destruct (fit_circles leastsq files) as [out|e] eqn:E.
  - f_equal. destruct out as [|c out]; [reflexivity|]. exfalso. destruct (proj1 (proj2 (C113_rows leastsq files (c :: out) W E) c) (or_introl eq_refl)) as (Hl & Hp & Ee & _ & L6 & Pl & _).
    assert (P0 : forall l p, (p <> 0)%Z -> measurements files l p = []) by (intros l p N; unfold files, measurements; clear - N; induction pts as [|q qs IH]; [reflexivity|]; cbn [map flat_map]; rewrite IH; unfold rows_at, one_spot; cbn [filter r_location r_pinhole]; assert ((0 =? p)%Z = false) as -> by (apply Z.eqb_neq; congruence); rewrite Bool.andb_false_r; reflexivity).
    destruct (Z.eq_dec (c_pinhole c) 0) as [E0|N]; [|rewrite (P0 _ _ N) in L6; cbn in L6; lia]. rewrite E0 in *. destruct (Z.eq_dec (c_location c) 1) as [E1|N]; [|rewrite (M' _ N) in L6; cbn in L6; lia]. rewrite E1, M in Pl.
    destruct Pl as [(_ & V & _)|(H & _)]; [|congruence]. assert (Vp : valid pts = pts). { unfold valid, pts. cbn [filter fst]. repeat match goal with |- context [Reqb ?a 0] => assert (Reqb a 0 = false) as -> by (apply Reqb_false; lra) end. reflexivity. }
    rewrite Vp in V. unfold pts, variance in V. cbn in V. lra.
  - exfalso. apply (C113_fails leastsq files e W) in E as (_ & l & Hl & L6 & F). destruct (Z.eq_dec l 1) as [->|N]; [|rewrite (M' _ N) in L6; cbn in L6; lia]. rewrite M in F. inversion F as [|? ? H _]; subst. cbn in H. lra.
Qed.
Print Assumptions C113_moving_refuted.
(** A positioner moved on a circle of radius 2.5 mm about the centre of the focal plane. *)
Example C113_example leastsq : descends leastsq ->
  let pts := [(2, 1.5); (1.5, 2); (-2, 1.5); (-1.5, 2); (2, -1.5); (1.5, -2)] in
  exists out, fit_circles leastsq (map (fun p => one_spot p (0.5, 0)) pts) = Ok out /\ In {| c_location := 1; c_pinhole := 0; c_metro := (0.5, 0); c_meas := uv2xy 0 0 |} out.
Proof.
  intros D pts. destruct (one_spots pts (0.5, 0)) as (W & M & M' & Ex). set (files := map (fun p => one_spot p (0.5, 0)) pts) in *.
  assert (UV : forall x y, x * x + y * y = 2.5 * 2.5 -> xy2uv x y = (r2s 2.5 / 2.5 * x, r2s 2.5 / 2.5 * y)).
  { intros x y H. assert (Hh : hyp x y = 2.5) by (rewrite <- hyp_hypot; unfold hypot; replace (_ + _) with (2.5 * 2.5) by (rewrite <- H; ring); apply sqrt_square; lra). destruct (arctan2d_polar_xy y x) as [Px Py]. rewrite Hh in Px, Py. unfold xy2uv, xy2qs. rewrite hyp_hypot, Hh. unfold cosdeg, sindeg in Px, Py. cbv zeta beta iota. set (cq := cos _) in *. set (sq := sin _) in *. apply f_equal2; [rewrite Px|rewrite Py]; field; lra. }
  assert (Rs : 2.25 < r2s 2.5 < 3). { split; [pose proof (r2s_increasing 0 2.5 ltac:(lra) ltac:(lra) ltac:(lra)); pose proof r2s_zero; lra|]. unfold r2s, poly1d, r2s_coefs. cbn [fold_left]. lra. }
  set (k := r2s 2.5 / 2.5) in *. assert (Hk : 0.9 < k < 1.2 /\ k * 2.5 = r2s 2.5) by (unfold k; split; [lra|field; lra]).
  assert (U : map (fun p => xy2uv (fst p) (snd p)) pts = map (fun p => (k * fst p, k * snd p)) pts) by (unfold pts; cbn [map fst snd]; rewrite !UV by lra; reflexivity).
  destruct (fit_circles leastsq files) as [out|e] eqn:E.
  2: { exfalso. apply (C113_fails leastsq files e W) in E as (_ & l & Hl & L6 & F). destruct (Z.eq_dec l 1) as [->|N]; [|rewrite (M' _ N) in L6; cbn in L6; lia]. rewrite M in F. inversion F as [|? ? H _]; subst. cbn in H. lra. }
  exists out. split; [reflexivity|]. refine (C113_circle leastsq files out 1 (0.5, 0) (0, 0) (r2s 2.5) D W E ltac:(lia) _ _ _ _ _ _ _ _ _).
  - rewrite M. cbn. lia.
  - rewrite M. unfold pts. repeat (apply Forall_cons; [cbn [fst]; lra|]). apply Forall_nil.
  - rewrite M. unfold pts, variance. cbn. lra.
  - rewrite M, U. unfold pts. cbn [map fst snd]. repeat constructor; cbn [In]; intros H; repeat (destruct H as [H|H]; [injection H; intros; lra|]); exact H.
  - rewrite M, U. assert (H : forall x y, x * x + y * y = 2.5 * 2.5 -> on_circle (0, 0) (r2s 2.5) (k * x, k * y)) by (intros x y H; unfold on_circle; cbn [fst snd]; replace (_ + _) with ((k * 2.5) * (k * 2.5)) by (replace (k * 2.5 * (k * 2.5)) with (k * k * (2.5 * 2.5)) by ring; rewrite <- H; ring); rewrite sqrt_square by lra; lra).
    unfold pts. cbn [map fst snd]. repeat (apply Forall_cons; [apply H; lra|]). apply Forall_nil.
  - lra.
  - apply Ex. discriminate.
  - cbn [fst]. lra.
  - cbn [fst snd]. unfold uv2xy, qs2xy. replace (hypot 0 0) with 0 by (unfold hypot; replace (_ + _) with 0 by ring; now rewrite sqrt_0). cbv zeta. cbn [fst snd]. set (q := arctan2d 0 0). pose proof s2r_zero as S0. set (t := s2r 0) in *. unfold cosdeg, sindeg. set (a := D2R * q) in *. pose proof (sin2_cos2 a) as SC. unfold Rsqr in SC. pose proof (COS_bound a) as CB.
    apply Rlt_le_trans with (sqrt (3 * 3)); [|rewrite sqrt_square; lra]. apply sqrt_lt_1_alt. split; [apply Rplus_le_le_0_compat; apply pow2_ge_0|]. replace 0.5 with (1 / 2) by lra. replace (_ + _) with (t * t * (sin a * sin a + cos a * cos a) - t * cos a + 1 / 4) by field. rewrite SC. nra.
Qed.
