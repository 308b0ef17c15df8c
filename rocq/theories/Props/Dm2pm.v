(** C104: the transformation between desimeter and platemaker coordinates. *)
From Coq Require Import Lra Lia.
From Verif.Model Require Import Dm2pm.
From Verif.Spec Require Import LinAlg SimpleCorr ZhaoBurge.
From Verif.Proofs Require Import RealNum LinAlg ZhaoBurge Dm2pm.
From Verif.Props Require Import ZhaoBurge.
Local Open Scope R_scope.

(** If the points determine the displacement (only the zero coefficients leave all of them in place), the fitted maps are the least
    squares optima, in mm, of the two directions taken separately, and the only ones; points moved exactly by some displacement of the
    family give back that displacement everywhere. Otherwise the fit raises LinAlgError. *)
Theorem C104_fit t data : Forall (fun z => 0 <= z <= 32)%Z (d_polids t) ->
  let same c := length c = length (d_polids t) in
  let fixed c pts := forall p, In p pts -> apply_zb (d_polids t) c p = Ok p in
  let determined pts := forall c, same c -> fixed c pts -> c = repeat 0 (length (d_polids t)) in
  (determined (map fst data) -> determined (map snd data) ->
   exists t' f g, dm2pm_fit t data = (t', Ok tt) /\ d_polids t' = d_polids t /\ same (d_dm2pm t') /\ same (d_pm2dm t') /\
     (forall p, dm2pm t' p = Ok (f p)) /\ (forall p, pm2dm t' p = Ok (g p)) /\
     (forall c h, same c -> c <> d_dm2pm t' -> (forall p, apply_zb (d_polids t) c p = Ok (h p)) -> misfit f data < misfit h data) /\
     (forall c h, same c -> c <> d_pm2dm t' -> (forall p, apply_zb (d_polids t) c p = Ok (h p)) -> misfit g (map (fun d => (snd d, fst d)) data) < misfit h (map (fun d => (snd d, fst d)) data)) /\
     (forall c, same c -> (forall d, In d data -> apply_zb (d_polids t) c (fst d) = Ok (snd d)) -> forall p, apply_zb (d_polids t) c p = dm2pm t' p) /\
     (forall c, same c -> (forall d, In d data -> apply_zb (d_polids t) c (snd d) = Ok (fst d)) -> forall p, apply_zb (d_polids t) c p = pm2dm t' p)) /\
  (~ determined (map fst data) -> dm2pm_fit t data = (t, Err LinAlgError)) /\
  (determined (map fst data) -> ~ determined (map snd data) -> exists t' f, dm2pm_fit t data = (t', Err LinAlgError) /\ d_pm2dm t' = d_pm2dm t /\ d_polids t' = d_polids t /\ same (d_dm2pm t') /\ (forall p, dm2pm t' p = Ok (f p)) /\
     (forall c h, same c -> c <> d_dm2pm t' -> (forall p, apply_zb (d_polids t) c p = Ok (h p)) -> misfit f data < misfit h data)).
Proof.
  intros V same fixed det.
  assert (D : forall pts, det pts <-> Dm2pm.determined (d_polids t) pts).
  { intros pts. split; intros H c L F; apply H; try exact L; intros p Hp; [rewrite apply_value by exact V; f_equal; now apply F|]. specialize (F p Hp). rewrite apply_value in F by exact V. now injection F. }
  set (data' := map (fun d => (snd d, fst d)) data).
  assert (Sw : map fst data' = map snd data) by apply swap_reduce.
  assert (R1 : map (fun d => reduce_xy (fst d)) data' = map (fun d => reduce_xy (snd d)) data) by (unfold data'; rewrite map_map; reflexivity).
  assert (R2 : map (fun d => reduce_xy (snd d)) data' = map (fun d => reduce_xy (fst d)) data) by (unfold data'; rewrite map_map; reflexivity).
  assert (B : det (map snd data) -> exists c, fitZhaoBurge (map (fun d => reduce_xy (snd d)) data) (map (fun d => reduce_xy (fst d)) data) (Some (d_polids t)) = Ok (d_polids t, c) /\ same c /\
    forall c', same c' -> c' <> c -> misfit (zb_map (d_polids t) c) data' < misfit (zb_map (d_polids t) c') data').
  { intros H. apply D in H. rewrite <- Sw in H. destruct (fit_mm (d_polids t) data' V H) as (c & E & L & O). rewrite R1, R2 in E. eauto. }
  assert (Ex : forall c c' (ds : list ((R * R) * (R * R))), same c -> (forall c', same c' -> c' <> c -> misfit (zb_map (d_polids t) c) ds < misfit (zb_map (d_polids t) c') ds) -> same c' ->
    (forall d, In d ds -> apply_zb (d_polids t) c' (fst d) = Ok (snd d)) -> c' = c).
  { intros c c' ds L O L' E. destruct (list_eq_dec Req_EM_T c' c) as [|N]; [assumption|]. exfalso. specialize (O c' L' N). rewrite (misfit_zero (zb_map (d_polids t) c')) in O.
    - pose proof (misfit_nonneg (zb_map (d_polids t) c) ds). lra.
    - intros d Hd. specialize (E d Hd). rewrite apply_value in E by exact V. now injection E. }
  assert (Ext : forall c h ds, (forall p, apply_zb (d_polids t) c p = Ok (h p)) -> misfit h ds = misfit (zb_map (d_polids t) c) ds).
  { intros c h ds H. unfold misfit. f_equal. apply map_ext. intros d. specialize (H (fst d)). rewrite apply_value in H by exact V. injection H as <-. reflexivity. }
  split; [|split].
  - intros H1 H2. apply D in H1. destruct (fit_mm (d_polids t) data V H1) as (c1 & E1 & L1 & O1). destruct (B H2) as (c2 & E2 & L2 & O2).
    exists {| d_polids := d_polids t; d_dm2pm := c1; d_pm2dm := c2 |}, (zb_map (d_polids t) c1), (zb_map (d_polids t) c2).
    unfold dm2pm_fit. cbv zeta. rewrite E1, E2. split; [reflexivity|]. split; [reflexivity|]. split; [exact L1|]. split; [exact L2|].
    split; [intros p; now apply apply_value|]. split; [intros p; now apply apply_value|]. cbn [d_dm2pm d_pm2dm d_polids].
    split; [intros c h L N H; rewrite (Ext c h data H); now apply O1|]. split; [intros c h L N H; rewrite (Ext c h _ H); now apply O2|].
    split; intros c L E p.
    + rewrite (Ex c1 c data) by assumption. reflexivity.
    + rewrite (Ex c2 c data'); try assumption; [reflexivity|]. intros d Hd. unfold data' in Hd. apply in_map_iff in Hd as (e & <- & He). now apply E.
  - intros H. rewrite D in H. unfold dm2pm_fit. cbv zeta. now rewrite fit_mm_singular.
  - intros H1 H2. apply D in H1. destruct (fit_mm (d_polids t) data V H1) as (c1 & E1 & L1 & O1). unfold dm2pm_fit. cbv zeta. rewrite E1.
    rewrite D, <- Sw in H2. pose proof (fit_mm_singular (d_polids t) data' V H2) as S. rewrite R1, R2 in S. rewrite S. exists {| d_polids := d_polids t; d_dm2pm := c1; d_pm2dm := d_pm2dm t |}, (zb_map (d_polids t) c1).
    split; [reflexivity|]. split; [reflexivity|]. split; [reflexivity|]. split; [exact L1|]. split; [intros p; now apply apply_value|]. intros c h L N H. rewrite (Ext c h data H). now apply O1.
Qed.
Print Assumptions C104_fit.

(** A new object leaves every point in place. *)
Theorem C104_new p : dm2pm dm2pm_new p = Ok p /\ pm2dm dm2pm_new p = Ok p.
Proof.
  assert (V : Forall valid_id (d_polids dm2pm_new)) by (repeat constructor; lia).
  assert (E : apply_zb (d_polids dm2pm_new) (repeat 0 13) p = Ok p).
  { rewrite apply_value by exact V. f_equal. apply zb_id_map. rewrite XY_Ok by exact V. rewrite !combination_dot, !(dot_comm (repeat 0 13)), !dot_repeat0. reflexivity. }
  split; exact E.
Qed.
Print Assumptions C104_new.

(** JSON keeps the object; other methods and versions are refused. *)
Theorem C104_json t : dm2pm_fromjson (dm2pm_tojson t) = Ok t.
Proof.
  destruct t as [ids c1 c2]. unfold dm2pm_fromjson, dm2pm_tojson, assert_is, item, aget. cbn [dict_get String.eqb Ascii.eqb Bool.eqb rbind d_polids d_dm2pm d_pm2dm].
  assert (A : forall l, int_array (JArr (map JInt l)) = Ok l) by (intros l; unfold int_array; induction l as [|z l IH]; cbn; [reflexivity|]; unfold rmapM in *; now rewrite IH).
  assert (B : forall l, real_array (JArr (map JNum l)) = Ok l) by (intros l; unfold real_array; induction l as [|z l IH]; cbn; [reflexivity|]; unfold rmapM in *; now rewrite IH).
  rewrite A. cbn [rbind]. rewrite !B. reflexivity.
Qed.
Print Assumptions C104_json.
Theorem C104_json_refused d :
  (aget d "method" = None -> dm2pm_fromjson d = Err KeyError) /\
  (forall v, aget d "method" = Some v -> v <> JStr "Zhao-Burge" -> dm2pm_fromjson d = Err AssertionError) /\
  (forall v, aget d "method" = Some (JStr "Zhao-Burge") -> aget d "version" = Some v -> v <> JStr "1" -> dm2pm_fromjson d = Err RuntimeError) /\
  (forall t, dm2pm_fromjson d = Ok t -> aget d "method" = Some (JStr "Zhao-Burge") /\ aget d "version" = Some (JStr "1")).
Proof.
  assert (M : forall v, aget d "method" = Some v -> v <> JStr "Zhao-Burge" -> dm2pm_fromjson d = Err AssertionError).
  { intros v E N. unfold dm2pm_fromjson, assert_is. rewrite E. destruct v; try reflexivity. destruct (String.eqb_spec s "Zhao-Burge") as [->|]; [congruence|reflexivity]. }
  assert (K : aget d "method" = None -> dm2pm_fromjson d = Err KeyError) by (intros E; unfold dm2pm_fromjson, assert_is; rewrite E; reflexivity).
  assert (V : forall v, aget d "method" = Some (JStr "Zhao-Burge") -> aget d "version" = Some v -> v <> JStr "1" -> dm2pm_fromjson d = Err RuntimeError).
  { intros v E1 E N. unfold dm2pm_fromjson, assert_is, item. rewrite E1, E. cbn [rbind]. rewrite String.eqb_refl. cbn [rbind].
    destruct v; try reflexivity. destruct s as [|[[] [] [] [] [] [] [] []] [|]]; try reflexivity; congruence. }
  assert (Dec : forall (v : json) k, v = JStr k \/ v <> JStr k). { intros v k. destruct v; try (right; discriminate). destruct (String.string_dec s k) as [->|]; [left; reflexivity|right; congruence]. }
  split; [exact K|]. split; [exact M|]. split; [exact V|]. intros t H.
  assert (E : aget d "method" = Some (JStr "Zhao-Burge")).
  { destruct (aget d "method") as [v|] eqn:E. 2:{ rewrite K in H by reflexivity. discriminate. } destruct (Dec v "Zhao-Burge"%string) as [->|N]; [reflexivity|]. rewrite (M v eq_refl N) in H. discriminate. }
  split; [exact E|]. destruct (aget d "version") as [w|] eqn:W.
  - destruct (Dec w "1"%string) as [->|N]; [reflexivity|]. rewrite (V w E eq_refl N) in H. discriminate.
  - unfold dm2pm_fromjson, assert_is, item in H. rewrite E, W in H. cbn in H. discriminate.
Qed.
Print Assumptions C104_json_refused.

Lemma dilation k p : apply_zb [2]%Z [k] p = Ok ((1 + k * sqrt 2) * fst p, (1 + k * sqrt 2) * snd p).
Proof.
  unfold apply_zb, getZhaoBurgeXY, reduce_xy, expand_xy. cbn [combine add_terms fst snd]. destruct (C34_example (fst p / 420) (snd p / 420)) as [-> _]. cbn [rbind add_terms fst snd]. f_equal. f_equal; field.
Qed.
(** The two directions are fitted separately: they are not inverse to each other. Here two points of which one does not move
    and the other goes to the centre, and the dilations: desimeter to platemaker halves, platemaker to desimeter is the identity. *)
Theorem C104_inverse_refuted : exists t data t', dm2pm_fit t data = (t', Ok tt) /\ dm2pm t' (420, 0) = Ok (210, 0) /\ pm2dm t' (210, 0) = Ok (210, 0).
Proof.
  set (t := {| d_polids := [2]%Z; d_dm2pm := [0]; d_pm2dm := [0] |}). set (data := [((420, 0), (420, 0)); ((0, 420), (0, 0))]). exists t, data.
  pose proof (Rlt_sqrt2_0) as S2. assert (S2' : sqrt 2 <> 0) by lra.
  destruct (C104_fit t data) as (A & _); [repeat constructor; lia|]. cbn [d_polids t length repeat] in A.
  assert (D : forall pts, In (420, 0) pts -> forall c, length c = 1%nat -> (forall p, In p pts -> apply_zb [2]%Z c p = Ok p) -> c = [0]).
  { intros pts I [|k [|]] L H; try discriminate. specialize (H _ I). rewrite dilation in H. cbn [fst snd] in H. injection H as H _. assert (k * sqrt 2 = 0) by lra. apply Rmult_integral in H0 as [->|]; [reflexivity|contradiction]. }
  destruct A as (t' & f & g & E & P & L1 & L2 & F & G & O1 & O2 & _); [apply D; now left|apply D; now left|]. exists t'. split; [exact E|].
  destruct (d_dm2pm t') as [|k [|]] eqn:K1; try discriminate. destruct (d_pm2dm t') as [|l [|]] eqn:K2; try discriminate.
  unfold dm2pm in *. unfold pm2dm in *. rewrite P in *. rewrite K1 in *. rewrite K2 in *. cbn [d_polids t] in *.
  assert (F' : forall p, f p = ((1 + k * sqrt 2) * fst p, (1 + k * sqrt 2) * snd p)) by (intros p; specialize (F p); rewrite dilation in F; now injection F).
  assert (G' : forall p, g p = ((1 + l * sqrt 2) * fst p, (1 + l * sqrt 2) * snd p)) by (intros p; specialize (G p); rewrite dilation in G; now injection G).
  assert (Ek : k * sqrt 2 = - (1 / 2)).
  { destruct (Req_dec (k * sqrt 2) (- (1 / 2))) as [|N]; [assumption|]. exfalso. assert (M : - (1 / 2) / sqrt 2 * sqrt 2 = - (1 / 2)) by (field; exact S2').
    specialize (O1 [- (1 / 2) / sqrt 2] _ eq_refl ltac:(intros Q; injection Q as Q; apply N; rewrite <- Q; exact M) (dilation _)). rewrite M in O1.
    unfold misfit, data in O1. cbn [map fold_right fst snd] in O1. rewrite !F' in O1. cbn [fst snd] in O1. set (z := k * sqrt 2) in *. nra. }
  assert (El : l * sqrt 2 = 0).
  { destruct (Req_dec (l * sqrt 2) 0) as [|N]; [assumption|]. exfalso.
    specialize (O2 [0] _ eq_refl ltac:(intros Q; injection Q as Q; apply N; rewrite <- Q; ring) (dilation _)). rewrite Rmult_0_l in O2.
    unfold misfit, data in O2. cbn [map fold_right fst snd] in O2. rewrite !G' in O2. cbn [fst snd] in O2. set (z := l * sqrt 2) in *. nra. }
  rewrite !dilation, Ek, El. cbn [fst snd]. split; f_equal; f_equal; lra.
Qed.
Print Assumptions C104_inverse_refuted.

(** One point and the two translations. *)
Example C104_example : exists t', dm2pm_fit {| d_polids := [0; 1]%Z; d_dm2pm := [0; 0]; d_pm2dm := [0; 0] |} [((10, 20), (11, 18))] = (t', Ok tt) /\
  (forall x y, dm2pm t' (x, y) = Ok (x + 1, y - 2)) /\ (forall x y, pm2dm t' (x, y) = Ok (x - 1, y + 2)).
Proof.
  assert (V : forall a b p, apply_zb [0; 1]%Z [a; b] p = Ok (fst p + 420 * a, snd p + 420 * b)).
  { intros a b p. unfold apply_zb, getZhaoBurgeXY, reduce_xy, expand_xy. cbn [combine add_terms getZhaoBurgeTerm rbind fst snd]. rewrite getZ1. cbn [fst snd]. f_equal. f_equal; field. }
  set (t := {| d_polids := [0; 1]%Z; d_dm2pm := [0; 0]; d_pm2dm := [0; 0] |}).
  destruct (C104_fit t [((10, 20), (11, 18))]) as (A & _); [repeat constructor; lia|]. cbn [d_polids t length repeat map fst snd] in A.
  assert (D : forall q c, length c = 2%nat -> (forall p, In p [q] -> apply_zb [0; 1]%Z c p = Ok p) -> c = [0; 0]).
  { intros [x y] [|a [|b [|]]] L H; try discriminate. specialize (H _ (or_introl eq_refl)). rewrite V in H. cbn [fst snd] in H. injection H as H1 H2. f_equal; [lra|f_equal; lra]. }
  destruct A as (t' & f & g & E & _ & _ & _ & _ & _ & _ & _ & X1 & X2); [apply D|apply D|]. exists t'. split; [exact E|]. split; intros x y.
  - rewrite <- (X1 [1 / 420; - 2 / 420]); [rewrite V; cbn [fst snd]; f_equal; f_equal; field|reflexivity|]. intros d [<-|[]]. rewrite V. cbn [fst snd]. f_equal. f_equal; field.
  - rewrite <- (X2 [- 1 / 420; 2 / 420]); [rewrite V; cbn [fst snd]; f_equal; f_equal; field|reflexivity|]. intros d [<-|[]]. rewrite V. cbn [fst snd]. f_equal. f_equal; field.
Qed.
