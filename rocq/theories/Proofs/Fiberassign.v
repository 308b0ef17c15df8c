(** Pointing and field rotation of a tile. *)
From Coq Require Import Lra Lia.
From Verif.Model Require Import Fiberassign.
From Verif.Spec Require Import Trig Adc Sphere Fiberassign.
From Verif.Proofs Require Import Prelude RealNum Trig Sphere Radec2tan.
Local Open Scope R_scope.

Lemma rotated_turned d p : rotated d p = turned_back d p.
Proof. unfold rotated, turned_back, cosdeg, sindeg. now rewrite deg_rad. Qed.
Lemma turned_add a b p : turned_back a (turned_back b p) = turned_back (a + b) p.
Proof.
  unfold turned_back. cbn [fst snd]. replace (PI * (a + b) / 180) with (PI * a / 180 + PI * b / 180) by field. rewrite cos_plus, sin_plus. f_equal; ring.
Qed.
Lemma rotated_turned_neg d p : rotated (- d) p = turned d p.
Proof.
  rewrite rotated_turned. unfold turned_back, turned. replace (PI * - d / 180) with (- (PI * d / 180)) by field. rewrite cos_neg, sin_neg. f_equal; ring.
Qed.

(** *** The measured rotation *)
Lemma sin_near x : Rabs (x - sin x) <= Rabs x ^ 3 / 6.
Proof.
  assert (P : forall x, 0 <= x -> 0 <= x - sin x <= x ^ 3 / 6).
  { clear x. intros x H. destruct (Req_dec x 0) as [->|N]; [rewrite sin_0; lra|].
    pose (g := fun t => t - sin t).
    assert (G : forall t, 0 < t -> 0 <= g t).
    { intros t T. destruct (MVT_cor2 g (fun t => 1 - cos t) 0 t T) as (c & E & _).
      - intros c _. unfold g. apply derivable_pt_lim_minus; [apply derivable_pt_lim_id|apply derivable_pt_lim_sin].
      - pose proof (COS_bound c). unfold g in *. rewrite sin_0 in E. nra. }
    assert (Sq : forall c, derivable_pt_lim (fun t => t * t) c (2 * c)).
    { intros c. replace (2 * c) with (1 * id c + id c * 1) by (unfold id; ring). apply (derivable_pt_lim_mult id id); apply derivable_pt_lim_id. }
    assert (Cb : forall t, 0 < t -> 0 <= t * t / 2 - 1 + cos t).
    { intros t T. destruct (MVT_cor2 (fun t => / 2 * (t * t) + cos t) (fun t => / 2 * (2 * t) + - sin t) 0 t T) as (c & E & I).
      - intros c _. apply (derivable_pt_lim_plus (fun t => / 2 * (t * t)) cos); [apply (derivable_pt_lim_scal (fun t => t * t)), Sq|apply derivable_pt_lim_cos].
      - pose proof (G c ltac:(lra)). unfold g in *. rewrite cos_0 in E. nra. }
    assert (Cu : forall c, derivable_pt_lim (fun t => t * t * t) c (3 * (c * c))).
    { intros c. replace (3 * (c * c)) with ((2 * c) * id c + (c * c) * 1) by (unfold id; ring). apply (derivable_pt_lim_mult (fun t => t * t) id); [apply Sq|apply derivable_pt_lim_id]. }
    destruct (MVT_cor2 (fun t => / 6 * (t * t * t) + (sin t - t)) (fun t => / 6 * (3 * (t * t)) + (cos t - 1)) 0 x ltac:(lra)) as (c & E & I).
    - intros c _. apply (derivable_pt_lim_plus (fun t => / 6 * (t * t * t)) (fun t => sin t - t)); [apply (derivable_pt_lim_scal (fun t => t * t * t)), Cu|].
      apply (derivable_pt_lim_minus sin id); [apply derivable_pt_lim_sin|apply derivable_pt_lim_id].
    - pose proof (Cb c ltac:(lra)). pose proof (G x ltac:(lra)). unfold g in *. rewrite sin_0 in E. split; [lra|]. assert (0 <= (/ 6 * (3 * (c * c)) + (cos c - 1)) * (x - 0)) by (apply Rmult_le_pos; lra). lra. }
  destruct (Rle_lt_dec 0 x) as [H|H].
  - destruct (P x H). rewrite !Rabs_pos_eq by lra. lra.
  - destruct (P (- x) ltac:(lra)). rewrite sin_neg in *. rewrite (Rabs_left x) by lra. rewrite Rabs_left1 by lra. lra.
Qed.

Definition sine (tile : point) (d : point * point) : R :=
  let o := sky_offset tile (fst d) in (snd (snd d) * fst o - fst (snd d) * snd o) / sqrt ((fst (snd d) ^ 2 + snd (snd d) ^ 2) * (fst o ^ 2 + snd o ^ 2)).
Definition mirror (s : point) : point := (- fst s, snd s).
Lemma offset_hadec tile s : hadec2xy (fst (mirror s)) (snd (mirror s)) (- fst tile) (snd tile) = sky_offset tile s.
Proof. unfold mirror. cbn [fst snd]. rewrite hadec2xy_components. reflexivity. Qed.
Definition kept (pairs : list (option point * option point)) : list (point * point) :=
  flat_map (fun d => match d with (Some s, Some p) => if Rltb (10 ^ 2) (fst p ^ 2 + snd p ^ 2) then [(s, p)] else [] | _ => [] end) pairs.
Lemma kept_outer sky placed : kept (combine (map (option_map mirror) sky) placed) = map (fun d => (mirror (fst d), snd d)) (outer_targets (combine sky placed)).
Proof.
  revert placed. induction sky as [|s sky IH]; intros placed; [reflexivity|]. destruct placed as [|q placed]; [reflexivity|]. cbn [map combine]. unfold kept. cbn [flat_map outer_targets]. fold (kept (combine (map (option_map mirror) sky) placed)).
  rewrite IH. destruct s as [s|]; cbn [option_map]; [|reflexivity]. destruct q as [p|]; [|reflexivity]. destruct (Rltb _ _) eqn:B, (Rlt_dec _ _) as [L|L]; try reflexivity; [apply Rltb_true in B|apply Rltb_false in B]; lra.
Qed.
Lemma outer_far l s p : In (s, p) (outer_targets l) -> 100 < fst p ^ 2 + snd p ^ 2.
Proof.
  induction l as [|[[s'|] [p'|]] l IH]; cbn [outer_targets]; try exact IH; [intros []|]. destruct (Rlt_dec _ _) as [L|L]; [|exact IH]. intros [E|E]; [|now apply IH]. injection E as -> ->. lra.
Qed.
Lemma somes_map {A} (l : list A) : somes (map Some l) = l.
Proof. induction l as [|a l IH]; [reflexivity|]. unfold somes in *. cbn. now rewrite IH. Qed.
Lemma offset_zero a b : a ^ 2 + b ^ 2 = 0 <-> (a, b) = (0, 0).
Proof. split; [intros H; f_equal; nra|intros H; injection H as -> ->; ring]. Qed.

Lemma measured tile sky placed : let far := outer_targets (combine sky placed) in
  ((far = [] \/ exists s p, In (s, p) far /\ sky_offset tile s = (0, 0)) -> measure_fieldrot_deg (combine (map (option_map mirror) sky) placed) (- fst tile) (snd tile) = None) /\
  (far <> [] -> (forall s p, In (s, p) far -> sky_offset tile s <> (0, 0)) ->
   measure_fieldrot_deg (combine (map (option_map mirror) sky) placed) (- fst tile) (snd tile) = Some (R2D * average (map (sine tile) far))).
Proof.
  intros far. unfold measure_fieldrot_deg. change (flat_map _ (combine (map (option_map mirror) sky) placed)) with (kept (combine (map (option_map mirror) sky) placed)). rewrite kept_outer. fold far. cbv zeta. rewrite map_map.
  match goal with |- context [map ?f far] => set (term := f) end.
  assert (Tm : forall x, In x far -> term x = if Req_EM_T (fst (sky_offset tile (fst x)) ^ 2 + snd (sky_offset tile (fst x)) ^ 2) 0 then None else Some (sine tile x)).
  { intros [s p] I. pose proof (outer_far _ _ _ I) as F. unfold term. cbn [fst snd]. rewrite offset_hadec. unfold sine. cbn [fst snd]. destruct (sky_offset tile s) as [x y]. cbn [fst snd].
    destruct (Req_EM_T (x ^ 2 + y ^ 2) 0) as [Z|Z].
    - rewrite Z, Rmult_0_r, sqrt_0. destruct (Reqb 0 0) eqn:Q; [reflexivity|]. apply Reqb_false in Q. lra.
    - destruct (Reqb _ 0) eqn:Q; [|reflexivity]. apply Reqb_true in Q. apply sqrt_eq_0 in Q; [|apply Rmult_le_pos; nra]. exfalso. apply Rmult_integral in Q. lra. }
  split.
  - intros [E|(s & p & I & E)].
    + rewrite E. reflexivity.
    + destruct (forallb _ (map term far)) eqn:Q; [|reflexivity]. exfalso. rewrite forallb_forall in Q. specialize (Q (term (s, p)) (in_map term _ _ I)). rewrite (Tm _ I) in Q. cbn [fst] in Q. rewrite E in Q. cbn [fst snd] in Q.
      destruct (Req_EM_T (0 ^ 2 + 0 ^ 2) 0) as [|N]; [discriminate Q|]. apply N. ring.
  - intros Ne Nz. assert (E : map term far = map Some (map (sine tile) far)).
    { rewrite map_map. apply map_ext_in. intros [s p] I. rewrite (Tm _ I). cbn [fst]. destruct (Req_EM_T _ 0) as [Z|_]; [|reflexivity]. exfalso. apply (Nz s p I). destruct (sky_offset tile s). now apply offset_zero. }
    rewrite E. assert (Q : forallb (fun o => match o with Some _ => true | None => false end) (map Some (map (sine tile) far)) = true) by (apply forallb_forall; intros o I; apply in_map_iff in I as (a & <- & _); reflexivity). rewrite Q, somes_map.
    unfold mean. destruct far; [contradiction|]. cbn [map]. unfold average. do 3 f_equal. 
Qed.
Lemma sine_turned tile s p theta : fst p ^ 2 + snd p ^ 2 <> 0 -> turned_from theta (sky_offset tile s) p -> sine tile (s, p) = sin theta.
Proof.
  intros N (k & K & E). unfold sine. cbn [fst snd]. destruct (sky_offset tile s) as [x y]. cbn [fst snd] in *. subst p. cbn [fst snd] in *.
  pose proof (sin2_cos2 theta) as C. unfold Rsqr in C. set (c := cos theta) in *. set (w := sin theta) in *.
  assert (Nx : x ^ 2 + y ^ 2 <> 0) by (intros Z; apply N; replace ((k * (c * x - w * y)) ^ 2 + (k * (w * x + c * y)) ^ 2) with (k ^ 2 * (w * w + c * c) * (x ^ 2 + y ^ 2)) by ring; rewrite Z; ring).
  replace (((k * (c * x - w * y)) ^ 2 + (k * (w * x + c * y)) ^ 2) * (x ^ 2 + y ^ 2)) with (Rsqr (k * (x ^ 2 + y ^ 2))) by (unfold Rsqr; replace (k * (x ^ 2 + y ^ 2) * (k * (x ^ 2 + y ^ 2))) with (k ^ 2 * (w * w + c * c) * (x ^ 2 + y ^ 2) ^ 2) by (rewrite C; ring); ring).
  rewrite sqrt_Rsqr by (apply Rmult_le_pos; nra). field. split; [exact Nx|lra].
Qed.
Lemma average_near {A} (f : A -> R) l l' B : Forall2 (fun a b => f a = sin b) l l' -> Forall (fun b => Rabs b <= B) l' -> l <> [] -> Rabs (average l' - average (map f l)) <= B ^ 3 / 6.
Proof.
  intros F G Ne. unfold average. rewrite map_length. assert (L : length l' = length l) by (symmetry; clear - F; induction F; cbn; congruence). rewrite L. clear L. assert (S : Rabs (fold_right Rplus 0 l' - fold_right Rplus 0 (map f l)) <= INR (length l) * (B ^ 3 / 6)).
  { clear Ne. induction F as [|a b l l' E F IH]; cbn [map fold_right length]; [rewrite Rminus_0_r, Rabs_R0; cbn; lra|]. inversion G as [|? ? Hb Gt]; subst. specialize (IH Gt). rewrite S_INR.
    pose proof (sin_near b) as N. rewrite <- E in N. assert (Rabs b ^ 3 <= B ^ 3) by (apply pow_incr; split; [apply Rabs_pos|exact Hb]).
    replace (b + fold_right Rplus 0 l' - (f a + fold_right Rplus 0 (map f l))) with ((b - f a) + (fold_right Rplus 0 l' - fold_right Rplus 0 (map f l))) by ring.
    eapply Rle_trans; [apply Rabs_triang|]. lra. }
  assert (P : 0 < INR (length l)) by (apply lt_0_INR; destruct l; [contradiction|cbn; lia]).
  unfold Rdiv at 1 2. rewrite <- Rmult_minus_distr_r, Rabs_mult, (Rabs_pos_eq (/ _)) by (left; now apply Rinv_0_lt_compat).
  apply Rmult_le_reg_r with (INR (length l)); [exact P|]. rewrite Rmult_assoc, Rinv_l, Rmult_1_r by lra. lra.
Qed.

(** *** The pointing *)
Section Tile.
Variable argsort : forall K, (K -> K -> bool) -> list K -> list nat.
Variable interp1d : list R -> list R -> R -> res R.
Variables (table : rtf) (platemaker : dm2pm_tx) (o : options).
Variables (mjd lst adc1 adc2 : R).

Notation shown := (shown argsort interp1d table o mjd lst adc1 adc2).
Lemma tan2fp_single t l : tan2fp argsort interp1d table [t] adc1 adc2 = Ok l -> exists p, l = [p].
Proof.
  unfold tan2fp. destruct (interpolate_coeffs _ _ _ _ _) as [k|]; cbn [rbind]; [|discriminate]. cbv zeta. intros H. apply rmapM_Ok_Forall2 in H. inversion H as [|? q ? ? _ H']. inversion H'. now exists q.
Qed.
Lemma sky2fp_shown tel s p : sky2fp argsort interp1d table o (fst tel) (snd tel) mjd lst adc1 adc2 s = Ok p <-> shown tel s p.
Proof.
  unfold sky2fp, Spec.Fiberassign.shown. split.
  - destruct (radec2tan _ _ _ _ _ _ _ _) as [t|]; cbn [rbind]; [|discriminate]. destruct (tan2fp _ _ _ _ _ _) as [l|] eqn:E; cbn [rbind]; [|discriminate]. destruct (tan2fp_single _ _ E) as [q ->]. intros H. injection H as ->. now exists t.
  - intros (t & -> & E). cbn [rbind]. rewrite E. reflexivity.
Qed.
Lemma solve2 a b c d x y u v : a * d - b * c <> 0 -> x = a * u + b * v -> y = c * u + d * v -> u = (d * x - b * y) / (a * d - b * c) /\ v = (a * y - c * x) / (a * d - b * c).
Proof. intros N -> ->. split; field; exact N. Qed.
Lemma tune_step n tile tel tel' : newton_step shown tile tel tel' ->
  tune argsort interp1d table o (S n) (fst tile) (snd tile) mjd lst adc1 adc2 tel = tune argsort interp1d table o n (fst tile) (snd tile) mjd lst adc1 adc2 tel'.
Proof.
  intros (f0 & f1 & f2 & H0 & H1 & H2 & D & E). cbn [tune]. cbv zeta. destruct tile as [ra dec]. cbn [fst snd] in *. apply sky2fp_shown in H0, H1, H2. rewrite H0, H1, H2. cbn [rbind].
  destruct f0 as [x0 y0], f1 as [x1 y1], f2 as [x2 y2]. cbn [fst snd] in *.
  replace ((x1 - x0) / (1 / 3600)) with ((x1 - x0) * 3600) by field. replace ((y1 - y0) / (1 / 3600)) with ((y1 - y0) * 3600) by field. replace ((x2 - x0) / (1 / 3600)) with ((x2 - x0) * 3600) by field. replace ((y2 - y0) / (1 / 3600)) with ((y2 - y0) * 3600) by field.
  injection E as E1 E2. match goal with |- (if Reqb ?d 0 then _ else _) = _ => destruct (Reqb d 0) eqn:Q; [apply Reqb_true in Q; exfalso; apply D; lra|] end. apply Reqb_false in Q.
  destruct (solve2 _ _ _ _ _ _ _ _ Q E1 E2) as [U V]. f_equal. destruct tel, tel'. cbn [fst snd] in *. f_equal; [rewrite <- U|rewrite <- V]; ring.
Qed.
Lemma tune_singular n tile tel f0 f1 f2 : shown tel tile f0 -> shown tel (fst tile + 1 / 3600, snd tile) f1 -> shown tel (fst tile, snd tile + 1 / 3600) f2 ->
  (fst f1 - fst f0) * (snd f2 - snd f0) = (fst f2 - fst f0) * (snd f1 - snd f0) ->
  tune argsort interp1d table o (S n) (fst tile) (snd tile) mjd lst adc1 adc2 tel = Err LinAlgError.
Proof.
  intros H0 H1 H2 E. cbn [tune]. cbv zeta. destruct tile as [ra dec]. cbn [fst snd] in *. apply sky2fp_shown in H0, H1, H2. rewrite H0, H1, H2. cbn [rbind].
  match goal with |- (if Reqb ?d 0 then _ else _) = _ => destruct (Reqb d 0) eqn:Q; [reflexivity|] end. apply Reqb_false in Q. exfalso. apply Q. field_simplify. nra.
Qed.

(** *** Positions of the targets *)
Notation placed_at := (placed_at argsort interp1d table platemaker o mjd lst adc1 adc2).
Lemma tan2fp_list pts fps : (exists k, interpolate_coeffs argsort interp1d table adc1 adc2 = Ok k) ->
  Forall2 (fun t p => tan2fp argsort interp1d table [t] adc1 adc2 = Ok [p]) pts fps -> tan2fp argsort interp1d table pts adc1 adc2 = Ok fps.
Proof.
  intros [k K] F. unfold tan2fp in *. rewrite K in *. cbn [rbind] in *. cbv zeta in *. apply rmapM_Ok_Forall2. eapply Forall2_impl; [|exact F]. intros t p E. cbv beta in E. rewrite rmapM_Ok_Forall2 in E. inversion E. assumption.
Qed.
Lemma shown_interpolates tel s p : shown tel s p -> exists k, interpolate_coeffs argsort interp1d table adc1 adc2 = Ok k.
Proof. intros (t & _ & E). unfold tan2fp in E. destruct (interpolate_coeffs _ _ _ _ _) as [k|]; [now exists k|discriminate E]. Qed.

Lemma placed_all pm tel sky placed : (exists k, interpolate_coeffs argsort interp1d table adc1 adc2 = Ok k) -> Forall2 (placed_at pm tel) sky placed ->
  exists tan fp, rmapM (fun s => nan_or (radec2tan o (fst s) (snd s) (fst tel) (snd tel) mjd lst 0)) sky = Ok tan /\
    on_array (fun pts => tan2fp argsort interp1d table pts adc1 adc2) tan = Ok fp /\ (if pm then on_array (rmapM (dm2pm platemaker)) fp else Ok fp) = Ok placed.
Proof.
  intros K F.
  assert (G : exists tan fps fp, rmapM (fun s => nan_or (radec2tan o (fst s) (snd s) (fst tel) (snd tel) mjd lst 0)) sky = Ok tan /\
     Forall2 (fun t p => tan2fp argsort interp1d table [t] adc1 adc2 = Ok [p]) (somes tan) fps /\ refill tan fps = fp /\
     exists pms, Forall2 (fun p p' => (if pm then dm2pm platemaker p else Ok p) = Ok p') (somes fp) pms /\ refill fp pms = placed).
  { induction F as [|s q sky placed H F (tan & fps & fp & E & T & Rf & pms & P & Rp)].
    - exists [], [], []. repeat split; try constructor. exists []. split; constructor.
    - unfold Spec.Fiberassign.placed_at in H. cbn [rmapM]. destruct (radec2tan _ _ _ _ _ _ _ _) as [t|[]]; try contradiction.
      + destruct H as (p & H1 & p' & H2 & ->). exists (Some t :: tan), (p :: fps), (Some p :: fp). cbn [nan_or rbind]. rewrite E. cbn [rbind]. split; [reflexivity|]. split; [constructor; assumption|]. split; [cbn [refill]; now rewrite Rf|].
        exists (p' :: pms). split; [constructor; assumption|cbn [refill]; now rewrite Rp].
      + subst q. exists (None :: tan), fps, (None :: fp). cbn [nan_or rbind]. rewrite E. cbn [rbind]. split; [reflexivity|]. split; [exact T|]. split; [cbn [refill]; now rewrite Rf|]. exists pms. split; [exact P|cbn [refill]; now rewrite Rp]. }
  destruct G as (tan & fps & fp & E & T & Rf & pms & P & Rp). exists tan, fp. split; [exact E|]. unfold on_array. rewrite (tan2fp_list _ _ K T). cbn [rmap]. split; [now rewrite Rf|].
  destruct pm.
  - apply rmapM_Ok_Forall2 in P. rewrite P. cbn [rmap]. now rewrite Rp.
  - f_equal. rewrite <- Rp. assert (pms = somes fp) as ->. { clear - P. induction P as [|a b l l' H P IH]; [reflexivity|]. injection H as ->. now rewrite IH. } clear. unfold somes. induction fp as [|[a|] fp IH]; [reflexivity| |]; cbn [flat_map app refill]; f_equal; exact IH.
Qed.
End Tile.
