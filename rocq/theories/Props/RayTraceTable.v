(** C105: the fit of the ray trace tables. *)
From Coq Require Import Lra Lia Sorted.
From Verif.Model Require Import RayTraceTable.
From Verif.Spec Require Import Numpy LinAlg SimpleCorr ZhaoBurge Fvc2fp Adc RayTraceTable.
From Verif.Proofs Require Import Prelude RealNum Trig Numpy LinAlg ZhaoBurge Zernike Poly2 Sorting RayTraceFit Fitter DetectSpots Pos2ptl RayTraceTable.
From Verif.Proofs Require Dm2pm.
From Verif.Props Require Import RayTraceFit.
Local Open Scope R_scope.

(** A table makes one entry for each value of ADC1 + 1000 ADC2, in increasing order, with the least squares coefficients of the
    rows with that value. *)
Theorem C105_fit table : let code w := w_adc1 w + 1000 * w_adc2 w in
  (table = [] -> fit table = Err ValueError) /\
  ((exists w, In w table /\ ~ determine fit_polids (map w_tan (group table (code w)))) -> fit table = Err LinAlgError) /\
  (table <> [] -> (forall w, In w table -> determine fit_polids (map w_tan (group table (code w)))) ->
   exists t, fit table = Ok t /\ r_polids t = fit_polids /\ shaped t /\
     let n := length (r_adc1 t) in let entry i := nth i (r_adc1 t) 0 + 1000 * nth i (r_adc2 t) 0 in
     (forall i, (i < n)%nat -> exists w, In w table /\ nth i (r_adc1 t) 0 = w_adc1 w /\ nth i (r_adc2 t) 0 = w_adc2 w /\
        nth i (r_scale t) 0 = 1 /\ nth i (r_rotation t) 0 = 0 /\ nth i (r_offset_x t) 0 = 0 /\ nth i (r_offset_y t) 0 = 0 /\
        optimal fit_polids (nth i (r_coeffs t) []) (pairs_of (group table (code w)))) /\
     (forall w, In w table -> exists i, (i < n)%nat /\ entry i = code w) /\
     (forall i j, (i < j)%nat -> (j < n)%nat -> entry i < entry j)).
Proof.
  intros code. split; [intros ->; reflexivity|].
  assert (A : forall c, In c (Fitter.unique_R (map setup_code table)) <-> exists w, In w table /\ code w = c).
  { intros c. rewrite unique_R_In, in_map_iff. split; intros (w & H1 & H2); eauto. }
  split.
  - intros (w & I & N). unfold fit. rewrite (rmapM_fails _ LinAlgError); [reflexivity| |].
    + intros c e Hc E. apply A in Hc. destruct (Classical_Prop.classic (determine fit_polids (map w_tan (group table c)))) as [D|D].
      * destruct (config_Ok table c Hc D) as (? & ? & _ & F & _). congruence.
      * rewrite (config_singular table c Hc D) in E. congruence.
    + exists (code w). split; [apply A; eauto|]. apply config_singular; eauto.
  - intros N D. destruct (rmapM_total (fit_config table) (Fitter.unique_R (map setup_code table))) as [cs E].
    { intros c Hc. apply A in Hc. destruct Hc as (w & I & <-). destruct (config_Ok table (code w)) as (? & ? & _ & F & _); eauto. }
    pose proof (fit_entries table cs E) as F2. assert (Ln : length cs = length (Fitter.unique_R (map setup_code table))) by (symmetry; now apply Forall2_length in F2).
    assert (NE : cs <> []). { destruct table as [|w0 l]; [congruence|]. intros ->. assert (I : In (code w0) (Fitter.unique_R (map setup_code (w0 :: l)))) by (apply A; exists w0; split; [now left|reflexivity]). destruct (Fitter.unique_R _); [destruct I|discriminate]. }
    eexists. split; [unfold fit; rewrite E; cbn [rbind]; destruct cs as [|c0 cs0]; [congruence|reflexivity]|].
    set (us := Fitter.unique_R (map setup_code table)) in *.
    assert (Ent : forall i, (i < length cs)%nat -> exists w, In w (group table (nth i us 0)) /\ fst (nth i cs (0, 0, [])) = (w_adc1 w, w_adc2 w) /\ optimal fit_polids (snd (nth i cs (0, 0, []))) (pairs_of (group table (nth i us 0)))).
    { intros i Hi. clear - F2 Hi. revert i Hi. induction F2 as [|c e l cs H F IH]; intros [|i] Hi; cbn in Hi; try lia; [exact H|]. apply IH. lia. }
    assert (Na : forall {B} (f : R * R * list R -> B) d i, (i < length cs)%nat -> nth i (map f cs) d = f (nth i cs (0, 0, []))) by (intros B f d i Hi; rewrite (nth_indep _ d (f (0, 0, []))) by (rewrite map_length; exact Hi); apply map_nth).
    assert (Cd : forall i, (i < length cs)%nat -> nth i (map (fun c => fst (fst c)) cs) 0 + 1000 * nth i (map (fun c => snd (fst c)) cs) 0 = nth i us 0).
    { intros i Hi. rewrite !Na by exact Hi. destruct (Ent i Hi) as (w & I & E1 & _). rewrite E1. apply group_In in I as [_ <-]. reflexivity. }
    cbn [r_polids r_adc1 r_adc2 r_scale r_rotation r_offset_x r_offset_y r_coeffs]. split; [reflexivity|]. split; [|cbv zeta; split; [|split]].
    + split; [cbn [r_adc1 r_adc2 r_scale r_rotation r_offset_x r_offset_y]; repeat (apply Forall_cons; [now rewrite !map_length|]); apply Forall_nil|]. split; [cbn; now rewrite !map_length|]. cbn [r_polids r_coeffs]. apply Forall_forall. intros r Hr. apply in_map_iff in Hr as (e & <- & He).
      destruct (In_nth cs e (0, 0, []) He) as (i & Hi & Ee). destruct (Ent i Hi) as (w & _ & _ & L & _). rewrite Ee in L. exact L.
    + rewrite map_length. intros i Hi. destruct (Ent i Hi) as (w & I & E1 & O). exists w. pose proof I as I'. apply group_In in I' as [I1 I2]. split; [exact I1|]. rewrite !Na by exact Hi. rewrite E1. unfold code. rewrite I2. repeat split; try reflexivity; apply O.
    + rewrite map_length. intros w I. assert (U : In (code w) us) by (apply A; eauto). destruct (In_nth us (code w) 0 U) as (i & Hi & Eu). rewrite <- Ln in Hi. exists i. split; [exact Hi|]. rewrite Cd by exact Hi. exact Eu.
    + rewrite map_length. intros i j Hij Hj. rewrite !Cd by lia. pose proof (unique_R_sorted (map setup_code table)) as S. fold us in S. rewrite Ln in Hj. clear - S Hij Hj. revert i j Hij Hj. induction S as [|a l S IH F]; intros [|i] [|j] Hij Hj; cbn in *; try lia.
      * rewrite Forall_forall in F. apply F. apply nth_In. lia.
      * apply IH; lia.
Qed.
Print Assumptions C105_fit.

(** For a setup of the table with its angles not a turn apart, tan2fp is the least squares map of its rows, in axes turned by the
    mean of the two angles. When the mean angle is 0, rows that a displacement reproduces exactly come out exactly. *)
Theorem C105_used argsort interp1d table t w : is_argsort argsort -> interpolates interp1d -> fit table = Ok t -> (4 <= length (r_adc1 t))%nat ->
  (forall v v', In v table -> In v' table -> w_adc2 v - w_adc1 v = w_adc2 v' - w_adc1 v' -> w_adc1 v = w_adc1 v' /\ w_adc2 v = w_adc2 v') ->
  (forall v, In v table -> w_adc1 v + 1000 * w_adc2 v = w_adc1 w + 1000 * w_adc2 w -> w_adc1 v = w_adc1 w /\ w_adc2 v = w_adc2 w) ->
  In w table -> 0 <= w_adc2 w - w_adc1 w < 360 ->
  let rows := filter (fun v => if Req_EM_T (w_adc1 v) (w_adc1 w) then if Req_EM_T (w_adc2 v) (w_adc2 w) then true else false else false) table in
  let m := average_angles_adc (w_adc1 w) (w_adc2 w) in
  exists c, optimal fit_polids c (pairs_of rows) /\
    (forall pts, tan2fp argsort interp1d t pts (w_adc1 w) (w_adc2 w) = Ok (map (fun p => turned_back m (tan_map fit_polids c (turned m p))) pts)) /\
    (m = 0 -> forall c', length c' = 15%nat -> (forall v, In v rows -> tan_map fit_polids c' (w_tan v) = w_fp v) ->
       tan2fp argsort interp1d t (map w_tan rows) (w_adc1 w) (w_adc2 w) = Ok (map w_fp rows)).
Proof.
  intros AO IO F L4 Inj Unam Iw Hd rows m. destruct (C105_fit table) as (B0 & B1 & B2).
  assert (Ne : table <> []) by (intros ->; destruct Iw). assert (D : forall v, In v table -> determine fit_polids (map w_tan (group table (w_adc1 v + 1000 * w_adc2 v)))).
  { intros v Iv. destruct (Classical_Prop.classic (determine fit_polids (map w_tan (group table (w_adc1 v + 1000 * w_adc2 v))))) as [|N]; [assumption|]. rewrite B1 in F by eauto. discriminate. }
  destruct (B2 Ne D) as (t' & F' & Ids & (Sh1 & Sh2 & Sh3) & Ent & Al & Inc). rewrite F in F'. injection F' as <-.
  destruct (Al w Iw) as (i & Hi & Ei). destruct (Ent i Hi) as (w' & Iw' & E1 & E2 & Es & Er & Ex & Ey & O). rewrite E1, E2 in Ei. destruct (Unam w' Iw' Ei) as [U1 U2]. rewrite U1 in *. rewrite U2 in *.
  set (c := nth i (r_coeffs t) []) in *. exists c.
  assert (G : group table (w_adc1 w + 1000 * w_adc2 w) = rows).
  { unfold group, rows. apply filter_ext_in. intros v Iv. destruct (Req_EM_T (w_adc1 v + 1000 * w_adc2 v) _) as [E|E].
    - destruct (Unam v Iv E) as [-> ->]. now destruct (Req_EM_T (w_adc1 w) (w_adc1 w)), (Req_EM_T (w_adc2 w) (w_adc2 w)).
    - destruct (Req_EM_T _ _) as [Ea|]; [|reflexivity]. destruct (Req_EM_T _ _) as [Eb|]; [|reflexivity]. exfalso. apply E. now rewrite Ea, Eb. }
  rewrite G in O. split; [exact O|].
  assert (ND : NoDup (map (fun '(a1, a2) => a2 - a1) (combine (r_adc1 t) (r_adc2 t)))).
  { inversion Sh1 as [|? ? La2 _]; subst. apply (NoDup_nth _ 0). rewrite map_length, combine_length, La2, Nat.min_id.
    assert (Nt : forall k, (k < length (r_adc1 t))%nat -> nth k (map (fun '(a1, a2) => a2 - a1) (combine (r_adc1 t) (r_adc2 t))) 0 = nth k (r_adc2 t) 0 - nth k (r_adc1 t) 0).
    { intros k Hk. set (f := fun '(a1, a2) => a2 - a1). rewrite (nth_indep _ 0 (f (0, 0))) by (rewrite map_length, combine_length, La2, Nat.min_id; exact Hk). rewrite (map_nth f), combine_nth by (symmetry; exact La2). reflexivity. }
    intros a b Ha Hb E. rewrite !Nt in E by assumption. destruct (Ent a Ha) as (va & Ia & A1 & A2 & _), (Ent b Hb) as (vb & Ib & A3 & A4 & _). rewrite A1, A2, A3, A4 in E. destruct (Inj va vb Ia Ib E) as [V1 V2].
    destruct (Nat.lt_trichotomy a b) as [Q|[Q|Q]]; [|exact Q|]; exfalso; [specialize (Inc a b Q Hb)|specialize (Inc b a Q Ha)]; rewrite A1, A2, A3, A4, V1, V2 in Inc; lra. }
  pose proof (C73_knots argsort interp1d t i AO IO L4 Hi Sh1 Sh2 Sh3 ND) as K. cbv zeta in K. rewrite E1, E2, Es, Er, Ex, Ey in K. specialize (K Hd). fold c in K.
  assert (Fw : forall pts, tan2fp argsort interp1d t pts (w_adc1 w) (w_adc2 w) = Ok (map (fun p => turned_back m (tan_map fit_polids c (turned m p))) pts)).
  { intros pts. rewrite (C73_forward _ _ _ _ _ _ pts K) by (rewrite ?Ids; try apply polids_valid; cbn; lra). cbn [p_scale p_rotation p_offset_x p_offset_y p_coeffs]. rewrite Ids. fold m. f_equal. apply map_ext. intros p. cbv zeta. f_equal. unfold tan_map. cbv zeta.
    assert (R1 : turned m (fst p / 0.027, snd p / 0.027) = reduced_by 0.027 (turned m p)) by (unfold turned, reduced_by; cbn [fst snd]; f_equal; unfold Rdiv; ring).
    assert (R2 : forall q, similarity 1 0 (fst q + 0, snd q + 0) = q) by (intros [a b]; unfold similarity; cbn [fst snd]; rewrite cos_0, sin_0; f_equal; ring).
    rewrite R1, R2. reflexivity. }
  split; [exact Fw|]. intros M0 c' L' X. rewrite Fw, map_map. f_equal. apply map_ext_in. intros v Iv. rewrite M0.
  assert (T0 : forall q, turned 0 q = q) by (intros [a b]; unfold turned; cbn [fst snd]; replace (PI * 0 / 180) with 0 by field; rewrite cos_0, sin_0; f_equal; ring).
  assert (T1 : forall q, turned_back 0 q = q) by (intros [a b]; unfold turned_back; cbn [fst snd]; replace (PI * 0 / 180) with 0 by field; rewrite cos_0, sin_0; f_equal; ring).
  rewrite T0, T1. rewrite <- (X v Iv). f_equal. destruct (list_eq_dec Req_EM_T c' c) as [|N]; [congruence|]. exfalso. destruct O as [Lc O]. specialize (O c' L' N).
  assert (Z : misfit (tan_map fit_polids c') (pairs_of rows) = 0). { apply Dm2pm.misfit_zero. intros d Hd'. unfold pairs_of in Hd'. apply in_map_iff in Hd' as (u & <- & Iu). now apply X. }
  pose proof (Dm2pm.misfit_nonneg (tan_map fit_polids c) (pairs_of rows)). lra.
Qed.
Print Assumptions C105_used.

(** The JSON functions. *)
Theorem C105_json t : shaped t -> rtf_fromjson (rtf_tojson t) = Ok t.
Proof.
  intros (_ & L & F). destruct t as [a1 a2 sc ro ox oy ids k]. cbn [r_adc1 r_coeffs r_polids] in L, F.
  unfold rtf_fromjson, rtf_tojson, assert_is, item, aget. cbn [dict_get String.eqb Ascii.eqb Bool.eqb rbind r_adc1 r_adc2 r_scale r_rotation r_offset_x r_offset_y r_coeffs r_polids].
  rewrite !real_array_reals, int_array_ints. cbn [rbind]. unfold reshape. rewrite (concat_length_rect _ _ F), L, Nat.eqb_refl. cbn [rbind]. now rewrite rows_of_concat.
Qed.
Print Assumptions C105_json.
Theorem C105_json_refused d :
  (forall t, rtf_fromjson d = Ok t -> aget d "method" = Some (JStr "Ray Trace fit with Zhao-Burge") /\ aget d "version" = Some (JStr "1") /\
     length (r_coeffs t) = length (r_adc1 t) /\ Forall (fun row => length row = length (r_polids t)) (r_coeffs t)) /\
  (forall v, aget d "method" = Some v -> v <> JStr "Ray Trace fit with Zhao-Burge" -> rtf_fromjson d = Err AssertionError) /\
  (forall v, aget d "method" = Some (JStr "Ray Trace fit with Zhao-Burge") -> aget d "version" = Some v -> v <> JStr "1" -> rtf_fromjson d = Err AssertionError) /\
  (forall t, (length (List.concat (r_coeffs t)) <> length (r_adc1 t) * length (r_polids t))%nat -> rtf_fromjson (rtf_tojson t) = Err ValueError).
Proof.
  assert (AI : forall k s u, assert_is d k s = Ok u -> aget d k = Some (JStr s)).
  { intros k s u H. unfold assert_is in H. destruct (aget d k) as [v|]; [|discriminate]. destruct v; try discriminate. match type of H with context [String.eqb ?a s] => destruct (String.eqb_spec a s) as [E|]; [now rewrite E|discriminate] end. }
  assert (AE : forall k s v, aget d k = Some v -> v <> JStr s -> assert_is d k s = Err AssertionError).
  { intros k s v H N. unfold assert_is. rewrite H. destruct v; try reflexivity. match goal with |- context [String.eqb ?a s] => destruct (String.eqb_spec a s) as [E|]; [congruence|reflexivity] end. }
  split; [|split; [|split]].
  - intros t H. unfold rtf_fromjson in H. destruct (assert_is d "method" _) eqn:E1; [|discriminate]. apply AI in E1. cbn [rbind] in H. destruct (assert_is d "version" _) eqn:E2; [|discriminate]. apply AI in E2. cbn [rbind] in H. cbv zeta in H.
    split; [exact E1|]. split; [exact E2|]. clear E1 E2.
    repeat match type of H with rbind ?e _ = Ok _ => let E := fresh "E" in destruct e eqn:E; [|discriminate H]; cbn [rbind] in H end. injection H as <-. cbn [r_coeffs r_adc1 r_polids].
    destruct (rbind (item d "zbcoeffs") real_array) as [cf|]; [|discriminate E6]. cbn [rbind] in E6. unfold reshape in E6. destruct (Nat.eqb_spec (length cf) (length a1 * length a7)) as [Lc|]; [|discriminate E6]. injection E6 as <-.
    generalize dependent cf. generalize (length a1) as n. generalize (length a7) as m. clear. intros m. induction n as [|n IH]; intros cf Lc; cbn [rows_of]; [split; [reflexivity|constructor]|].
    destruct (IH (skipn m cf)) as [H1 H2]; [rewrite skipn_length; lia|]. split; [cbn; now rewrite H1|]. constructor; [rewrite firstn_length; lia|exact H2].
  - intros v H N. unfold rtf_fromjson. now rewrite (AE _ _ _ H N).
  - intros v M H N. unfold rtf_fromjson. assert (assert_is d "method" "Ray Trace fit with Zhao-Burge" = Ok tt) as -> by (unfold assert_is; rewrite M, String.eqb_refl; reflexivity). cbn [rbind]. now rewrite (AE _ _ _ H N).
  - intros t N. destruct t as [a1 a2 sc ro ox oy ids k]. cbn [r_adc1 r_coeffs r_polids] in N.
    unfold rtf_fromjson, rtf_tojson, assert_is, item, aget. cbn [dict_get String.eqb Ascii.eqb Bool.eqb rbind r_adc1 r_adc2 r_scale r_rotation r_offset_x r_offset_y r_coeffs r_polids].
    rewrite !real_array_reals, int_array_ints. cbn [rbind]. unfold reshape. destruct (Nat.eqb_spec (length (List.concat k)) (length a1 * length ids)); [contradiction|reflexivity].
Qed.
Print Assumptions C105_json_refused.

(** Four setups, with eight points each, shifted by 0, 420, 840 and 1260 mm. *)
Definition row (a b : R) (p : R * R) : ray_row := {| w_adc1 := a; w_adc2 := b; w_tan := p; w_fp := (420 * (fst p / 0.027 + b / 30), 420 * (snd p / 0.027)) |}.
Lemma determine_more pts : incl knots pts -> determine fit_polids pts.
Proof. intros I c L H. apply knots_determine; [exact L|]. intros p Hp. apply H, I, Hp. Qed.
Lemma setups_determine setups w : let table := flat_map (fun s => map (row (fst s) (snd s)) knots) setups in
  In w table -> determine fit_polids (map w_tan (group table (w_adc1 w + 1000 * w_adc2 w))).
Proof.
  intros table I. apply determine_more. apply in_flat_map in I as (s & Is & Iw). apply in_map_iff in Iw as (p & <- & _). intros q Hq. apply in_map_iff. exists (row (fst s) (snd s) q). split; [reflexivity|].
  apply group_In. split; [|reflexivity]. apply in_flat_map. exists s. split; [exact Is|]. now apply in_map.
Qed.
Example C105_example : let table := flat_map (fun s => map (row (fst s) (snd s)) knots) [(0, 0); (-30, 30); (-60, 60); (-90, 90)] in
  exists t, fit table = Ok t /\ tan2fp isort_argsort knot_interp t knots (-60) 60 = Ok (map (fun p => (420 * (fst p / 0.027 + 2), 420 * (snd p / 0.027))) knots).
Proof.
  intros table. assert (D : forall w, In w table -> determine fit_polids (map w_tan (group table (w_adc1 w + 1000 * w_adc2 w)))) by (intros w; now apply setups_determine).
  destruct (C105_fit table) as (_ & _ & B). destruct B as (t & F & Ids & Sh & Ent & Al & Inc); [discriminate|exact D|]. exists t. split; [exact F|].
  assert (In0 : forall s, In s [(0, 0); (-30, 30); (-60, 60); (-90, 90)] -> forall p, In p knots -> In (row (fst s) (snd s) p) table) by (intros s Is p Hp; apply in_flat_map; exists s; split; [exact Is|now apply in_map]).
  assert (K0 : In (0.027 * 0, 0.027 * 0) knots) by now left.
  assert (St : forall v, In v table -> w_adc1 v = - w_adc2 v /\ (w_adc2 v = 0 \/ w_adc2 v = 30 \/ w_adc2 v = 60 \/ w_adc2 v = 90)).
  { intros v Iv. apply in_flat_map in Iv as (s & Is & Iv). apply in_map_iff in Iv as (p & <- & _). cbn [row w_adc1 w_adc2]. cbn in Is. destruct Is as [<-|[<-|[<-|[<-|[]]]]]; cbn [fst snd]; lra. }
  assert (L4 : (4 <= length (r_adc1 t))%nat).
  { destruct (Al _ (In0 (0, 0) ltac:(cbn; tauto) _ K0)) as (i0 & H0 & E0), (Al _ (In0 (-30, 30) ltac:(cbn; tauto) _ K0)) as (i1 & H1 & E1), (Al _ (In0 (-60, 60) ltac:(cbn; tauto) _ K0)) as (i2 & H2 & E2), (Al _ (In0 (-90, 90) ltac:(cbn; tauto) _ K0)) as (i3 & H3 & E3).
    cbn [row w_adc1 w_adc2 fst snd] in E0, E1, E2, E3.
    assert (i0 <> i1 /\ i0 <> i2 /\ i0 <> i3 /\ i1 <> i2 /\ i1 <> i3 /\ i2 <> i3) by (repeat split; intros ->; lra). lia. }
  pose proof (In0 (-60, 60) ltac:(cbn; tauto) _ K0) as Iw. set (w := row _ _ _) in Iw. cbn [fst snd] in w.
  destruct (C105_used isort_argsort knot_interp table t w) as (c & _ & _ & X); try assumption.
  - apply isort_is_argsort.
  - apply knot_interpolates.
  - intros v v' Iv Iv' E. destruct (St v Iv), (St v' Iv'). lra.
  - intros v Iv E. destruct (St v Iv). cbn [w row w_adc1 w_adc2] in *. lra.
  - cbn [w row w_adc1 w_adc2]. lra.
  - cbv zeta in X. cbn [w row w_adc1 w_adc2] in X. set (rows := filter _ table) in X.
    assert (M : average_angles_adc (-60) 60 = 0).
    { rewrite average_adc. unfold delta_angles_adc. assert (P : put360 (60 - -60) = 120) by (unfold put360; replace (60 - -60) with 120 by lra; apply pymod_id; lra). rewrite P. unfold put360. replace (-60 + 120 / 2) with 0 by lra. apply pymod_id. lra. }
    specialize (X M (2 :: repeat 0 14) eq_refl).
    assert (Er : rows = map (row (-60) 60) knots).
    { unfold rows, table. cbn [flat_map]. rewrite app_nil_r, !filter_app.
      assert (Nx : forall a b, a <> -60 -> filter (fun v => if Req_EM_T (w_adc1 v) (-60) then if Req_EM_T (w_adc2 v) 60 then true else false else false) (map (row a b) knots) = []).
      { intros a b Ha. generalize knots. induction l as [|p l IH]; [reflexivity|]. cbn [map filter row w_adc1]. destruct (Req_EM_T a (-60)); [contradiction|exact IH]. }
      assert (Yx : filter (fun v => if Req_EM_T (w_adc1 v) (-60) then if Req_EM_T (w_adc2 v) 60 then true else false else false) (map (row (-60) 60) knots) = map (row (-60) 60) knots).
      { generalize knots. induction l as [|p l IH]; [reflexivity|]. cbn [map filter row w_adc1 w_adc2]. destruct (Req_EM_T (-60) (-60)); [|contradiction]. destruct (Req_EM_T 60 60); [|contradiction]. f_equal. exact IH. }
      cbn [fst snd]. rewrite Yx, !Nx by lra. reflexivity. }
    rewrite Er in X. rewrite !map_map in X. cbn [row w_tan w_fp] in X. rewrite map_id in X. rewrite X.
    + f_equal. apply map_ext. intros p. f_equal. lra.
    + intros v Iv. apply in_map_iff in Iv as (p & <- & _). cbn [row w_tan w_fp]. unfold tan_map. cbv zeta. unfold field. rewrite XY_Ok by apply polids_valid. rewrite !combination_dot. unfold fit_polids, vxs, vys. cbn [map repeat dot]. cbn [fst snd reduced_by getZhaoBurgeTerm vx_of vy_of]. rewrite getZ1. f_equal; rewrite ?combination_dot; cbn [dot]; lra.
Qed.

(** Setups with the same sum ADC1 + 1000 ADC2 are taken for one: here ADC angles (100, 0) and (0, 0.1). *)
Theorem C105_setups_refuted : exists table t w, fit table = Ok t /\ In w table /\ ~ In (w_adc1 w, w_adc2 w) (combine (r_adc1 t) (r_adc2 t)).
Proof.
  set (table := flat_map (fun s => map (row (fst s) (snd s)) knots) [(100, 0); (0, 0.1)]).
  destruct (C105_fit table) as (_ & _ & B). destruct B as (t & F & _ & Sh & Ent & Al & Inc); [discriminate|intros w; now apply setups_determine|].
  assert (St : forall v, In v table -> w_adc1 v + 1000 * w_adc2 v = 100).
  { intros v Iv. apply in_flat_map in Iv as (s & Is & Iv). apply in_map_iff in Iv as (p & <- & _). cbn [row w_adc1 w_adc2]. cbn in Is. destruct Is as [<-|[<-|[]]]; cbn [fst snd]; lra. }
  assert (K0 : In (0.027 * 0, 0.027 * 0) knots) by now left.
  assert (I1 : In (row 100 0 (0.027 * 0, 0.027 * 0)) table) by (apply in_flat_map; exists (100, 0); split; [now left|apply (in_map (row 100 0)), K0]).
  assert (I2 : In (row 0 0.1 (0.027 * 0, 0.027 * 0)) table) by (apply in_flat_map; exists (0, 0.1); split; [right; now left|apply (in_map (row 0 0.1)), K0]).
  assert (N1 : length (r_adc1 t) = 1%nat).
  { destruct (Al _ I1) as (i & Hi & _). destruct (Nat.le_gt_cases (length (r_adc1 t)) 1) as [|G]; [lia|]. exfalso. specialize (Inc 0%nat 1%nat ltac:(lia) G).
    destruct (Ent 0%nat ltac:(lia)) as (v0 & V0 & A0 & B0 & _), (Ent 1%nat ltac:(lia)) as (v1 & V1 & A1 & B1 & _). rewrite A0, B0, A1, B1, (St v0 V0), (St v1 V1) in Inc. lra. }
  destruct Sh as (Sh & _). apply Forall_inv in Sh. destruct (r_adc1 t) as [|a [|]] eqn:Ea; try discriminate. destruct (r_adc2 t) as [|b [|]] eqn:Eb; try discriminate.
  destruct (Req_EM_T a 100) as [E|E].
  - exists table, t, (row 0 0.1 (0.027 * 0, 0.027 * 0)). split; [exact F|]. split; [exact I2|]. rewrite Ea, Eb. cbn. intros [Q|[]]. injection Q as Q _. lra.
  - exists table, t, (row 100 0 (0.027 * 0, 0.027 * 0)). split; [exact F|]. split; [exact I1|]. rewrite Ea, Eb. cbn. intros [Q|[]]. injection Q as Q _. lra.
Qed.
Print Assumptions C105_setups_refuted.
