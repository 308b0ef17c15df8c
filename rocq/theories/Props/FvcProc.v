From Verif.Model Require Import FvcProc NearScan.
From Verif.Spec Require Import Numpy Match FindFiducials.
From Verif.Proofs Require Import Prelude Numpy RealNum.
From Verif.Proofs Require FvcProc Trig Fitter PyString KDTree NearScan Stats Circles.
From Verif.Props Require FindFiducials Fvc2fp.
From Coq Require Import Lra Lia.
From Coq Require String.
Local Open Scope R_scope.
Local Open Scope list_scope.

(** *** C93. What a row of the table written means *)

(** The metrology table: no two rows share location and pinhole, locations are positive, pinhole numbers below 10. *)
Record usable_metrology (metrology : list mrow) : Prop := {
  rows_differ : NoDup (map (fun w => (w_location w, w_pinhole w)) metrology);
  locations_positive : forall w, In w metrology -> (0 < w_location w)%Z;
  pinholes_small : forall w, In w metrology -> (0 <= w_pinhole w < 10)%Z }.
(** The table searched for the fibres. *)
Definition expected_of (g : settings) : expected_table := match g_expected g with Some t => t | None => metrology_table (g_metrology g) end.

(** What is known of row [r], [k]-th of the table, of a spot at pixel [pix] marked [m] by findfiducials and measured at [fp]. A spot is a fibre
    if it has a [partner] among the [expected] positions. [stale] is what the table read had as X_FP_EXP, Y_FP_EXP (else 0). *)
Record row_of (g : settings) (expected : list expected) (partner : nat -> option nat) (measured : list (R * R)) (k : nat) (pix stale : R * R) (m : marks) (fp : R * R) (r : row) : Prop := {
  its_pixel : r_pix r = pix;
  its_position : r_fp r = fp;
  its_pinhole : r_pinhole r = k_pinhole m;
  (** matched with the nearest expected position, which is closer than the largest distance *)
  if_fibre : forall j, partner k = Some j -> m = FindFiducials.not_a_fiducial /\ r_metro r = (0, 0) /\ exists e, nth_error expected j = Some e /\
    nearest (map e_fp expected) fp (e_fp e) /\ distance fp (e_fp e) < g_max_match_distance g /\
    r_location r = e_location e /\ r_exp r = e_fp e /\ (forall pd, e_petal_device e = Some pd -> (r_petal_loc r, r_device_loc r) = pd);
  (** other spots keep the marks *)
  if_other : partner k = None -> r_location r = k_location m /\ r_petal_loc r = k_petal_loc m /\ r_device_loc r = k_device_loc m /\
    r_exp r = (if Req_EM_T (fst (r_metro r)) 0 then fst stale else fst (r_metro r), if Req_EM_T (snd (r_metro r)) 0 then snd stale else snd (r_metro r));
  (** a fiducial has the metrology of its own pinhole *)
  if_pinhole : (0 < k_pinhole m)%Z -> exists w, In w (g_metrology g) /\ w_location w = r_location r /\ w_pinhole w = r_pinhole r /\ r_metro r = w_fp w;
  if_no_pinhole : k_pinhole m = 0%Z -> r_metro r = (0, 0);
  (** a spot that is neither: the nearest expected position is too far, or taken by another spot at least as close *)
  if_neither : partner k = None -> k_location m = (-1)%Z -> exists j e, nth_error expected j = Some e /\ nearest (map e_fp expected) fp (e_fp e) /\
    (g_max_match_distance g <= distance fp (e_fp e) \/ exists k' fp', partner k' = Some j /\ nth_error measured k' = Some fp' /\ distance fp' (e_fp e) <= distance fp (e_fp e))
}.

Lemma metro_keys metrology : map (fun m => (m_location m, m_pinhole m)) (map to_metro metrology) = map (fun w => (w_location w, w_pinhole w)) metrology.
Proof. rewrite map_map. reflexivity. Qed.

(** The spots as passed to the fit. *)
Definition labelled_spots (xy : list (R * R)) (l : list marks) : list spot :=
  map (fun '(p, m) => {| s_location := k_location m; s_pinhole := k_pinhole m; s_pix := p |}) (combine xy l).
(** The marks of findfiducials can be used for the fit. *)
Lemma labelled argsort query2 query3 query4 : is_argsort argsort -> nearest_query query2 -> near_query query4 ->
  forall g calls xy marks, usable_metrology (g_metrology g) ->
  (forall c, In c calls -> a_metrology c = map to_device (g_metrology g)) ->
  fst (findfiducials argsort query2 query3 query4 (after argsort query2 query3 query4 calls) (map to_device (g_metrology g)) (g_input_tx g) (g_mm g) xy) = Ok marks ->
  let spots := labelled_spots xy marks in
  length marks = length xy /\
  (forall k m, nth_error marks k = Some m -> m = FindFiducials.not_a_fiducial \/ ((0 <= k_location m)%Z /\ (k_pinhole m = 0%Z \/ exists w, In w (g_metrology g) /\ w_location w = k_location m /\ w_pinhole w = k_pinhole m))) /\
  (forall s, In s spots -> Fvc2fp.fiducial s = true -> s_location s <> 0%Z /\ exists m, In m (map to_metro (g_metrology g)) /\ Fvc2fp.same_pinhole s m) /\
  Fvc2fp.well_labelled spots (map to_metro (g_metrology g)).
Proof.
  intros A Q2 Q4 g calls xy marks [Nd Lp Ps] Same Ef.
  set (c := {| a_metrology := map to_device (g_metrology g); a_tx := g_input_tx g; a_mm := g_mm g; a_xy := xy |}).
  assert (Same' : forall c', In c' (calls ++ [c]) -> a_metrology c' = map to_device (g_metrology g)) by (intros c' I; apply in_app_or in I; destruct I as [I|[<-|[]]]; [now apply Same|reflexivity]).
  destruct (FindFiducials.C90_labels argsort query2 query3 query4 calls c marks A Q2 Q4) as (c0 & pix0 & fp0 & fp1 & sep & Am & I0 & _ & _ & _ & _ & _ & Lm & Lab & Inj); [|exact Ef|].
  { intros c' v I Iv. rewrite (Same' c' I) in Iv. apply in_map_iff in Iv. destruct Iv as (w & <- & Iw). cbn. specialize (Lp w Iw). lia. }
  rewrite (Same' c0 I0) in Lab. cbn [a_xy c] in Lm. clear I0.
  assert (Dev : forall v, In v (FindFiducials.fiducial_devices (map to_device (g_metrology g))) -> exists w, In w (g_metrology g) /\ v = to_device w).
  { intros v Iv. apply filter_In in Iv. destruct Iv as [Iv _]. apply in_map_iff in Iv. destruct Iv as (w & <- & Iw). eauto. }
  assert (Cases : forall k m, nth_error marks k = Some m -> m = FindFiducials.not_a_fiducial \/ ((0 <= k_location m)%Z /\ (k_pinhole m = 0%Z \/ exists w, In w (g_metrology g) /\ w_location w = k_location m /\ w_pinhole w = k_pinhole m))).
  { intros k m Hm. destruct (Lab k m Hm) as [->|(L & ce & cl & sp & PL & <- & _ & _ & _ & _ & _ & _ & _ & P)]; [now left|right]. split; [exact PL|]. destruct P as [P|(v & Iv & E1 & E2)]; [now left|right]. destruct (Dev v Iv) as (w & Iw & ->). exists w. auto. }
  set (spots := labelled_spots (xy) marks) in *.
  assert (Sp : forall s, In s spots -> exists k p m, nth_error (xy) k = Some p /\ nth_error marks k = Some m /\ s = {| s_location := k_location m; s_pinhole := k_pinhole m; s_pix := p |}).
  { intros s I. unfold spots, labelled_spots in I. apply In_nth_error in I. destruct I as [k I]. rewrite nth_error_map, Fitter.nth_error_combine in I. exists k. destruct (nth_error (xy) k) as [p|]; [|discriminate]. destruct (nth_error marks k) as [m|]; [|discriminate]. injection I as <-. eauto. }
  assert (Fm : forall s, In s spots -> Fvc2fp.fiducial s = true -> (0 < s_location s)%Z /\ (s_pinhole s < 10)%Z /\ exists m, In m (map to_metro (g_metrology g)) /\ Fvc2fp.same_pinhole s m).
  { intros s I F. destruct (Sp s I) as (k & p & m & _ & Hm & ->). unfold Fvc2fp.fiducial in F. cbn in F. apply andb_prop in F as [F1 F2]. apply Z.leb_le in F1. apply Z.ltb_lt in F2. cbn [s_location s_pinhole].
    destruct (Cases k m Hm) as [->|[_ [P|(w & Iw & E1 & E2)]]]; [cbn in F1; lia|lia|]. specialize (Lp w Iw). specialize (Ps w Iw). split; [lia|]. split; [lia|]. exists (to_metro w). split; [now apply in_map|]. split; cbn; congruence. }
  assert (W : Fvc2fp.well_labelled spots (map to_metro (g_metrology g))).
  { split; [|split; [rewrite metro_keys; exact Nd|split; [intros s I F; now destruct (Fm s I F) as (_ & X & _)|intros m I; apply in_map_iff in I; destruct I as (w & <- & Iw); now apply Ps]]].
    assert (U : forall k k' s s', nth_error spots k = Some s -> nth_error spots k' = Some s' -> Fvc2fp.fiducial s = true -> s_location s = s_location s' -> s_pinhole s = s_pinhole s' -> k = k').
    { intros k k' s s' I I' F E1 E2. unfold spots, labelled_spots in I, I'. rewrite nth_error_map, Fitter.nth_error_combine in I, I'. destruct (nth_error (xy) k) as [p|]; [|discriminate]. destruct (nth_error (xy) k') as [p'|]; [|discriminate]. destruct (nth_error marks k) as [m|] eqn:Hm; [|discriminate]. destruct (nth_error marks k') as [m'|] eqn:Hm'; [|discriminate].
      injection I as <-. injection I' as <-. cbn in E1, E2. apply (Inj k k' m m' Hm Hm' E1 E2). unfold Fvc2fp.fiducial in F. cbn in F. apply andb_prop in F as [_ F]. now apply Z.ltb_lt in F. }
    clear - U. induction spots as [|s l IH]; cbn [filter]; [constructor|].
    assert (IH' : NoDup (map (fun s => (s_location s, s_pinhole s)) (filter Fvc2fp.fiducial l))).
    { apply IH. intros k k' s0 s' I I' F E1 E2. assert (Datatypes.S k = Datatypes.S k') by (apply (U (Datatypes.S k) (Datatypes.S k') s0 s'); auto). lia. }
    destruct (Fvc2fp.fiducial s) eqn:F; [|exact IH']. cbn [map]. constructor; [|exact IH']. intros I. apply in_map_iff in I. destruct I as (s' & E & I). apply filter_In in I. destruct I as [I F']. apply In_nth_error in I. destruct I as [k I]. injection E as E1 E2. specialize (U 0%nat (Datatypes.S k) s s' eq_refl I F). specialize (U (eq_sym E1) (eq_sym E2)). discriminate. }
  split; [exact Lm|]. split; [exact Cases|]. split; [|exact W]. intros s I F. destruct (Fm s I F) as (X & _ & Y). split; [lia|exact Y].
Qed.

(** The rows before the corrections, in the terms of the theorem. *)
Lemma matched_core argsort query2 query3 query4 minimize : is_argsort argsort -> nearest_query query2 -> near_query query4 ->
  forall g calls detected rows, usable_metrology (g_metrology g) ->
  (forall c, In c calls -> a_metrology c = map to_device (g_metrology g)) ->
  (forall expected, get_expected_pos (expected_of g) = Ok expected -> expected <> []) ->
  FvcProc.matched_rows argsort query2 query3 query4 minimize g (after argsort query2 query3 query4 calls) detected = Ok (Some rows) ->
  exists marks t gd cols measured expected partner,
    fst (findfiducials argsort query2 query3 query4 (after argsort query2 query3 query4 calls) (map to_device (g_metrology g)) (g_input_tx g) (g_mm g) (map fst detected)) = Ok marks /\
    (3 <= length (filter (fun m => Z.eqb (k_pinhole m) 4) marks))%nat /\
    fit argsort minimize (g_init_tx g) (labelled_spots (map fst detected) marks) (map to_metro (g_metrology g)) true (g_zbfit g) (g_fixed_scale g) (g_fixed_rotation g) = Ok (t, gd, Some cols) /\
    fvc2fp t (map fst detected) = Ok measured /\ get_expected_pos (expected_of g) = Ok expected /\
    length rows = length detected /\ length marks = length detected /\ length measured = length detected /\
    (forall k k' j, partner k = Some j -> partner k' = Some j -> k = k') /\
    (forall k pix stale m fp, nth_error detected k = Some (pix, stale) -> nth_error marks k = Some m -> nth_error measured k = Some fp ->
       exists r, nth_error rows k = Some r /\ r_pix r = pix /\ r_fp r = fp /\ r_pinhole r = k_pinhole m /\ r_radec r = None /\
       ((0 < k_pinhole m)%Z -> exists w, In w (g_metrology g) /\ w_location w = k_location m /\ w_pinhole w = k_pinhole m /\ r_metro r = w_fp w) /\
       (k_pinhole m = 0%Z -> r_metro r = (0, 0)) /\
       match partner k with
       | Some j => m = FindFiducials.not_a_fiducial /\ exists e, nth_error expected j = Some e /\
           nearest (map e_fp expected) fp (e_fp e) /\ distance fp (e_fp e) < g_max_match_distance g /\
           r_location r = e_location e /\ r_exp r = e_fp e /\ (forall pd, e_petal_device e = Some pd -> (r_petal_loc r, r_device_loc r) = pd)
       | None => r_location r = k_location m /\ r_petal_loc r = k_petal_loc m /\ r_device_loc r = k_device_loc m /\ r_exp r = stale /\
           (k_location m = (-1)%Z -> exists j e, nth_error expected j = Some e /\ nearest (map e_fp expected) fp (e_fp e) /\
             (g_max_match_distance g <= distance fp (e_fp e) \/ exists k' fp', partner k' = Some j /\ nth_error measured k' = Some fp' /\ distance fp' (e_fp e) <= distance fp (e_fp e)))
       end).
Proof.
  intros A Q2 Q4 g calls detected rows UM Same Ne H.
  destruct (FvcProc.matched_rows_inv _ _ _ _ _ _ _ _ _ H) as (marks & t & gd & cols & exp & Ef & Three & Efit & Eexp & Em). clear H.
  destruct (labelled argsort query2 query3 query4 A Q2 Q4 g calls (map fst detected) marks UM Same Ef) as (Lm & Cases & Fm & W). rewrite map_length in Lm.
  set (spots := labelled_spots (map fst detected) marks) in *.
  destruct (Fvc2fp.C67_update argsort minimize A _ _ _ _ _ _ _ _ _ _ W Fm Efit) as (_ & _ & _ & _ & _ & Upd).
  destruct (Upd eq_refl) as (measured & mcols & Ecols & Efp & Fcols). injection Ecols as ->. clear Upd.
  assert (Lsp : length spots = length detected) by (unfold spots, labelled_spots; rewrite map_length, combine_length, map_length; lia).
  assert (Epix : map s_pix spots = map fst detected).
  { unfold spots, labelled_spots. rewrite map_map. clear - Lm. set (xy := map fst detected). assert (L : length marks = length xy) by (unfold xy; rewrite map_length; exact Lm). clearbody xy. clear Lm. revert marks L. induction xy as [|p xy IH]; intros [|m ms] L; try discriminate; [reflexivity|]. cbn. f_equal. apply IH. cbn in L. lia. }
  rewrite Epix in Efp.
  assert (Lfp : length measured = length detected) by (unfold fvc2fp in Efp; apply rmapM_Ok_Forall2, Forall2_length in Efp; rewrite map_length in Efp; congruence).
  pose proof (Forall2_length _ _ _ Fcols) as Lc.
  destruct (FvcProc.match_fibers_spec argsort A query2 Q2 (g_max_match_distance g) exp (FvcProc.measured_rows detected marks (combine measured mcols))) as (rows' & partner & Em' & Lr & Hrow & Hinj); [apply Ne; exact Eexp|].
  rewrite Em' in Em. injection Em as ->.
  assert (Lr' : length rows = length detected) by (rewrite Lr; unfold FvcProc.measured_rows; rewrite map_length, !combine_length; lia).
  exists marks, t, gd, (combine measured mcols), measured, exp, partner. split; [exact Ef|]. split; [exact Three|]. split; [exact Efit|]. split; [exact Efp|]. split; [exact Eexp|]. split; [exact Lr'|]. split; [exact Lm|]. split; [exact Lfp|]. split; [exact Hinj|].
  assert (Row : forall k r, nth_error (FvcProc.measured_rows detected marks (combine measured mcols)) k = Some r -> nth_error measured k = Some (r_fp r)).
  { intros k r Hr. unfold FvcProc.measured_rows in Hr. rewrite nth_error_map, !Fitter.nth_error_combine in Hr. destruct (nth_error detected k) as [[p e]|]; [|discriminate]. destruct (nth_error marks k) as [m|]; [|discriminate]. destruct (nth_error measured k) as [fp|]; [|discriminate]. destruct (nth_error mcols k) as [o|]; [|discriminate]. injection Hr as <-. reflexivity. }
  intros k pix stale m fp Hd Hm Hfp.
  assert (Hs : nth_error spots k = Some {| s_location := k_location m; s_pinhole := k_pinhole m; s_pix := pix |}) by (unfold spots, labelled_spots; rewrite nth_error_map, Fitter.nth_error_combine, nth_error_map, Hd, Hm; reflexivity).
  destruct (nth_error_length spots mcols k _ Lc Hs) as [o Ho]. pose proof (Forall2_nth _ _ _ Fcols k _ _ Hs Ho) as Co. cbv beta in Co.
  set (r0 := {| r_pix := pix; r_location := k_location m; r_petal_loc := k_petal_loc m; r_device_loc := k_device_loc m; r_pinhole := k_pinhole m; r_fp := fp; r_metro := match o with Some mt => m_fp mt | None => (0, 0) end; r_exp := stale; r_radec := None |}).
  destruct (Hrow k r0) as (r & Hr & Hpart); [unfold FvcProc.measured_rows; rewrite nth_error_map, !Fitter.nth_error_combine, Hd, Hm, Hfp, Ho; reflexivity|].
  exists r. split; [exact Hr|].
  assert (Base : r_pix r = pix /\ r_fp r = fp /\ r_pinhole r = k_pinhole m /\ r_radec r = None /\ r_metro r = r_metro r0) by (destruct (partner k) as [j|]; [destruct Hpart as (_ & e & _ & -> & _)|destruct Hpart as (-> & _)]; cbn; auto).
  destruct Base as (B1 & B2 & B3 & B4 & B5). split; [exact B1|]. split; [exact B2|]. split; [exact B3|]. split; [exact B4|]. rewrite B5.
  split.
  { intros Pp. destruct (Cases k m Hm) as [->|[L0 [Z0|_]]]; [cbn in Pp; lia|lia|]. assert (F : Fvc2fp.fiducial {| s_location := k_location m; s_pinhole := k_pinhole m; s_pix := pix |} = true) by (unfold Fvc2fp.fiducial; cbn; rewrite (proj2 (Z.leb_le _ _)), (proj2 (Z.ltb_lt _ _)); auto).
    rewrite F in Co. destruct Co as (mt & -> & Imt & E1 & E2). apply in_map_iff in Imt. destruct Imt as (w & <- & Iw). exists w. cbn in *. auto. }
  split.
  { intros P0. assert (F : Fvc2fp.fiducial {| s_location := k_location m; s_pinhole := k_pinhole m; s_pix := pix |} = false) by (unfold Fvc2fp.fiducial; cbn; rewrite P0; apply Bool.andb_false_r). rewrite F in Co. subst o. reflexivity. }
  destruct (partner k) as [j|].
  - destruct Hpart as (L1 & e & He & -> & N & D). cbn in L1. split; [destruct (Cases k m Hm) as [E|[X _]]; [exact E|lia]|]. exists e. split; [exact He|]. split; [exact N|]. split; [exact D|]. cbn. split; [reflexivity|]. split; [reflexivity|]. intros pd ->. now destruct pd.
  - destruct Hpart as (-> & T). cbn. do 4 (split; [reflexivity|]). intros L1. destruct (T L1) as (j & e & He & N & D). exists j, e. split; [exact He|]. split; [exact N|]. destruct D as [D|(k' & r2 & Pk & Hr2 & D)]; [now left|right]. exists k', (r_fp r2). split; [exact Pk|]. split; [now apply Row|exact D].
Qed.

(** *** Lemmas on the last stages *)
Lemma take_metro_exp r : r_exp (take_metro r) = (if Req_EM_T (fst (r_metro r)) 0 then fst (r_exp r) else fst (r_metro r), if Req_EM_T (snd (r_metro r)) 0 then snd (r_exp r) else snd (r_metro r)).
Proof.
  unfold take_metro, isnt_zero. cbn [r_exp]. f_equal.
  - destruct (Req_EM_T (fst (r_metro r)) 0); [apply Reqb_true in e; rewrite e|apply Reqb_false in n; rewrite n]; reflexivity.
  - destruct (Req_EM_T (snd (r_metro r)) 0); [apply Reqb_true in e; rewrite e|apply Reqb_false in n; rewrite n]; reflexivity.
Qed.
Lemma isnt_zero_both p : (isnt_zero (fst p) && isnt_zero (snd p))%bool = true <-> fst p <> 0 /\ snd p <> 0.
Proof. unfold isnt_zero. rewrite Bool.andb_true_iff, !Bool.negb_true_iff, !Reqb_false. tauto. Qed.
Definition off_axes (p : R * R) : bool := (isnt_zero (fst p) && isnt_zero (snd p))%bool.
Lemma add_radec_spec f rows rows' : (forall l out, f l = Ok out -> length out = length l) -> add_radec f rows = Ok rows' ->
  exists sky, f (filter off_axes (map r_fp rows)) = Ok sky /\ length rows' = length rows /\
    forall k r, nth_error rows k = Some r -> exists s, nth_error rows' k = Some (with_radec r s) /\
      (if off_axes (r_fp r) then nth_error sky (length (filter off_axes (firstn k (map r_fp rows)))) = Some s else s = (0, 0)).
Proof.
  intros Lf H. unfold add_radec in H. set (on := fun r : row => _) in H. set (rows1 := map _ rows) in H.
  assert (Ff : forall l, map r_fp (filter on (map (fun r => with_radec r (0, 0)) l)) = filter off_axes (map r_fp l)).
  { induction l as [|r l IH]; [reflexivity|]. cbn [map filter]. change (on (with_radec r (0, 0))) with (off_axes (r_fp r)). destruct (off_axes (r_fp r)); cbn [map]; rewrite IH; reflexivity. }
  destruct (f (map r_fp (filter on rows1))) as [sky|] eqn:E; [|discriminate]. cbn [rbind] in H. injection H as <-. exists sky. split; [rewrite <- Ff; exact E|]. split; [rewrite FvcProc.put_where_length; unfold rows1; now rewrite map_length|].
  assert (L : length sky = length (filter on rows1)) by (rewrite (Lf _ _ E), map_length; reflexivity).
  intros k r Hk. assert (Hk1 : nth_error rows1 k = Some (with_radec r (0, 0))) by (unfold rows1; rewrite nth_error_map, Hk; reflexivity).
  change (off_axes (r_fp r)) with (on (with_radec r (0, 0))). destruct (on (with_radec r (0, 0))) eqn:O.
  - destruct (FvcProc.put_where_combine on with_radec rows1 sky L k _ Hk1 O) as (s & Hs & Hr). exists s. split; [exact Hr|]. rewrite <- Hs. unfold FvcProc.rank, rows1. rewrite firstn_map, firstn_map, <- Ff, map_length. reflexivity.
  - exists (0, 0). split; [|reflexivity]. now apply FvcProc.put_where_other.
Qed.
Lemma finish_plain g rows rows' : g_turbulence g = None \/ g_expected g = None -> (forall f l out, g_field_model g = Some f -> f l = Ok out -> length out = length l) ->
  FvcProc.finish g rows = Ok rows' -> length rows' = length rows /\ forall k r, nth_error rows k = Some r -> exists s, nth_error rows' k = Some {| r_pix := r_pix r; r_location := r_location r; r_petal_loc := r_petal_loc r; r_device_loc := r_device_loc r; r_pinhole := r_pinhole r;
    r_fp := r_fp r; r_metro := r_metro r; r_exp := r_exp (take_metro r); r_radec := s |}.
Proof.
  intros T Lf H. unfold FvcProc.finish in H.
  assert (E : (match g_expected g with Some _ => match g_turbulence g with Some correct => correct_turbulence correct rows | None => Ok rows end | None => Ok rows end) = Ok rows) by (destruct T as [-> | ->]; [destruct (g_expected g)|]; reflexivity).
  rewrite E in H. cbn [rbind] in H. destruct (g_field_model g) as [f|] eqn:Eg.
  - destruct (add_radec_spec f (map take_metro rows) rows' (fun l out => Lf f l out eq_refl) H) as (sky & _ & L & Hk). rewrite map_length in L. split; [exact L|]. intros k r Hr. destruct (Hk k (take_metro r)) as (s & Hs & _); [rewrite nth_error_map, Hr; reflexivity|]. exists (Some s). exact Hs.
  - injection H as <-. split; [apply map_length|]. intros k r Hr. exists (r_radec r). rewrite nth_error_map, Hr. reflexivity.
Qed.

(** Every row of a table written, in a process where the metrology has not changed. Without turbulence correction. *)
Theorem C93_table : forall argsort query2 query3 query4 minimize, is_argsort argsort -> nearest_query query2 -> near_query query4 ->
  forall g calls detected rows, usable_metrology (g_metrology g) ->
  (forall c, In c calls -> a_metrology c = map to_device (g_metrology g)) ->
  (forall expected, get_expected_pos (expected_of g) = Ok expected -> expected <> []) ->
  g_turbulence g = None \/ g_expected g = None ->
  (forall f l out, g_field_model g = Some f -> f l = Ok out -> length out = length l) ->
  fst (process argsort query2 query3 query4 minimize g (after argsort query2 query3 query4 calls) detected) = Ok (Some rows) ->
  exists marks t goodness cols measured expected partner,
    fst (findfiducials argsort query2 query3 query4 (after argsort query2 query3 query4 calls) (map to_device (g_metrology g)) (g_input_tx g) (g_mm g) (map fst detected)) = Ok marks /\
    (3 <= length (filter (fun m => Z.eqb (k_pinhole m) 4) marks))%nat /\
    fit argsort minimize (g_init_tx g) (labelled_spots (map fst detected) marks) (map to_metro (g_metrology g)) true (g_zbfit g) (g_fixed_scale g) (g_fixed_rotation g) = Ok (t, goodness, Some cols) /\
    fvc2fp t (map fst detected) = Ok measured /\ get_expected_pos (expected_of g) = Ok expected /\
    length rows = length detected /\ length marks = length detected /\ length measured = length detected /\
    (forall k k' j, partner k = Some j -> partner k' = Some j -> k = k') /\
    forall k pix stale m fp, nth_error detected k = Some (pix, stale) -> nth_error marks k = Some m -> nth_error measured k = Some fp ->
      exists r, nth_error rows k = Some r /\ row_of g expected partner measured k pix stale m fp r.
Proof.
  intros argsort query2 query3 query4 minimize A Q2 Q4 g calls detected rows UM Same Ne T Lf H.
  rewrite FvcProc.process_stages in H. destruct (FvcProc.matched_rows _ _ _ _ _ _ _ _) as [[rows0|]|] eqn:M; cbn [rbind] in H; [|discriminate|discriminate]. destruct (FvcProc.finish g rows0) as [rows'|] eqn:Fi; cbn [rmap] in H; [|discriminate]. injection H as ->.
  destruct (finish_plain g rows0 rows T Lf Fi) as [L1 H1]. destruct (matched_core argsort query2 query3 query4 minimize A Q2 Q4 g calls detected rows0 UM Same Ne M) as (marks & t & gd & cols & measured & exp & partner & E1 & E2 & E3 & E4 & E5 & L2 & L3 & L4 & Inj & Hr).
  exists marks, t, gd, cols, measured, exp, partner. do 5 (split; [assumption|]). split; [congruence|]. do 3 (split; [assumption|]).
  intros k pix stale m fp Hd Hm Hfp. destruct (Hr k pix stale m fp Hd Hm Hfp) as (r0 & Hr0 & B1 & B2 & B3 & _ & B4 & B5 & B6). destruct (H1 k r0 Hr0) as (s & Hs). eexists. split; [exact Hs|]. destruct (partner k) as [j0|] eqn:Pk.
  - destruct B6 as (-> & e & He & N & D & EL & EE & EP). specialize (B5 eq_refl). split; cbn [r_pix r_fp r_pinhole r_metro r_location r_exp r_petal_loc r_device_loc]; auto; try congruence; try (rewrite Pk; discriminate).
    + intros j Ej. rewrite Pk in Ej. injection Ej as <-. split; [reflexivity|]. split; [exact B5|]. exists e. split; [exact He|]. split; [exact N|]. split; [exact D|]. split; [exact EL|]. split; [|exact EP].
      rewrite take_metro_exp, B5. cbn [fst snd]. destruct (Req_EM_T 0 0); [|contradiction]. rewrite EE. now destruct (e_fp e).
    + intros P. cbn in P. lia.
  - destruct B6 as (EL & E6 & E7 & EE & T'). split; cbn [r_pix r_fp r_pinhole r_metro r_location r_exp r_petal_loc r_device_loc]; auto; try (rewrite Pk; discriminate).
    + intros _. do 3 (split; [assumption|]). rewrite take_metro_exp, EE. reflexivity.
    + intros P. destruct (B4 P) as (w & Iw & W1 & W2 & W3). exists w. split; [exact Iw|]. split; [congruence|]. split; [congruence|exact W3].
Qed.
Print Assumptions C93_table.
(** No table is returned exactly when fewer than three fiducials have their pinhole 4 found. *)
Theorem C93_too_few : forall argsort query2 query3 query4 minimize g cache detected,
  fst (process argsort query2 query3 query4 minimize g cache detected) = Ok None <->
  exists marks, fst (findfiducials argsort query2 query3 query4 cache (map to_device (g_metrology g)) (g_input_tx g) (g_mm g) (map fst detected)) = Ok marks /\
    (length (filter (fun m => Z.eqb (k_pinhole m) 4) marks) < 3)%nat.
Proof.
  intros. rewrite FvcProc.process_stages. unfold FvcProc.matched_rows. destruct (fst (findfiducials _ _ _ _ _ _ _ _ _)) as [marks|e]; cbn [rbind].
  - unfold count. destruct (_ <? 3)%Z eqn:C.
    + apply Z.ltb_lt in C. cbn [rbind]. split; [|reflexivity]. intros _. exists marks. split; [reflexivity|lia].
    + apply Z.ltb_ge in C. split.
      * intros H. exfalso. destruct (fit _ _ _ _ _ _ _ _ _) as [[[t gd] [cols|]]|]; cbn [rbind] in H; try discriminate. destruct (get_expected_pos _); cbn [rbind] in H; [|discriminate]. destruct (match_fibers _ _ _ _ _); cbn [rmap rbind] in H; [|discriminate]. destruct (FvcProc.finish _ _); discriminate.
      * intros (marks' & E & L). injection E as <-. lia.
  - split; [discriminate|]. intros (marks' & E & _). discriminate.
Qed.
Print Assumptions C93_too_few.

(** *** C94. Fibres near their expected positions are identified *)

(** A spot that is not a fiducial gets the location of an expected position if it is closer to it than the largest distance, closer to it
    than to any other expected position, and closer to it than any other spot that is not a fiducial. *)
Theorem C94_identified : forall argsort query2 query3 query4 minimize, is_argsort argsort -> nearest_query query2 -> near_query query4 ->
  forall g calls detected rows, usable_metrology (g_metrology g) ->
  (forall c, In c calls -> a_metrology c = map to_device (g_metrology g)) ->
  g_turbulence g = None \/ g_expected g = None ->
  (forall f l out, g_field_model g = Some f -> f l = Ok out -> length out = length l) ->
  fst (process argsort query2 query3 query4 minimize g (after argsort query2 query3 query4 calls) detected) = Ok (Some rows) ->
  exists marks t goodness cols measured expected,
    fst (findfiducials argsort query2 query3 query4 (after argsort query2 query3 query4 calls) (map to_device (g_metrology g)) (g_input_tx g) (g_mm g) (map fst detected)) = Ok marks /\
    fit argsort minimize (g_init_tx g) (labelled_spots (map fst detected) marks) (map to_metro (g_metrology g)) true (g_zbfit g) (g_fixed_scale g) (g_fixed_rotation g) = Ok (t, goodness, Some cols) /\
    fvc2fp t (map fst detected) = Ok measured /\ get_expected_pos (expected_of g) = Ok expected /\
    forall k fp m j e, nth_error measured k = Some fp -> nth_error marks k = Some m -> k_location m = (-1)%Z -> nth_error expected j = Some e ->
      distance fp (e_fp e) < g_max_match_distance g ->
      (forall j' e', nth_error expected j' = Some e' -> j' <> j -> distance fp (e_fp e) < distance fp (e_fp e')) ->
      (forall k' fp' m', nth_error measured k' = Some fp' -> nth_error marks k' = Some m' -> k_location m' = (-1)%Z -> k' <> k -> distance fp (e_fp e) < distance fp' (e_fp e)) ->
      exists r, nth_error rows k = Some r /\ r_fp r = fp /\ r_location r = e_location e /\ r_exp r = e_fp e /\ r_pinhole r = 0%Z.
Proof.
  intros argsort query2 query3 query4 minimize A Q2 Q4 g calls detected rows UM Same T Lf H.
  assert (Dec : (forall expected, get_expected_pos (expected_of g) = Ok expected -> expected <> []) \/ get_expected_pos (expected_of g) = Ok []).
  { destruct (get_expected_pos (expected_of g)) as [[|e l]|e]; [now right|left|left]; intros exp E; [injection E as <-|]; discriminate. }
  destruct Dec as [Ne|Em].
  - destruct (C93_table argsort query2 query3 query4 minimize A Q2 Q4 g calls detected rows UM Same Ne T Lf H) as (marks & t & gd & cols & measured & exp & partner & E1 & _ & E3 & E4 & E5 & L1 & L2 & L3 & Inj & Hr).
    exists marks, t, gd, cols, measured, exp. do 4 (split; [assumption|]). intros k fp m j e Hfp Hm Lm He D Nj Nk.
    destruct (nth_error_length measured detected k fp L3 Hfp) as [[pix stale] Hd]. destruct (Hr k pix stale m fp Hd Hm Hfp) as (r & Hrr & [B1 B2 B3 Fi Ot _ _ Nei]). exists r. split; [exact Hrr|]. split; [exact B2|].
    assert (Own : forall j' e', nth_error exp j' = Some e' -> nearest (map e_fp exp) fp (e_fp e') -> j' = j).
    { intros j' e' He' [_ N]. destruct (PeanoNat.Nat.eq_dec j' j) as [|Q]; [assumption|]. specialize (Nj j' e' He' Q). specialize (N (e_fp e)). assert (distance fp (e_fp e') <= distance fp (e_fp e)) by (apply N; apply in_map; eapply nth_error_In; eauto). lra. }
    destruct (partner k) as [j0|] eqn:Pk.
    + destruct (Fi j0 eq_refl) as (-> & _ & e0 & He0 & N & _ & EL & EE & _). rewrite (Own j0 e0 He0 N) in He0. rewrite He in He0. injection He0 as <-. auto.
    + exfalso. destruct (Nei eq_refl Lm) as (j0 & e0 & He0 & N & [F|(k' & fp' & Pk' & Hfp' & Le)]); pose proof (Own j0 e0 He0 N) as ->; rewrite He in He0; injection He0 as <-; [lra|].
      assert (Q : k' <> k) by congruence. destruct (nth_error_length measured marks k' fp' ltac:(congruence) Hfp') as [m' Hm']. destruct (nth_error_length measured detected k' fp' L3 Hfp') as [[pix' stale'] Hd'].
      destruct (Hr k' pix' stale' m' fp' Hd' Hm' Hfp') as (r' & _ & [_ _ _ Fi' _ _ _ _]). destruct (Fi' j Pk') as (-> & _). specialize (Nk k' fp' _ Hfp' Hm' eq_refl Q). lra.
  - (* no expected position *)
    rewrite FvcProc.process_stages in H. destruct (FvcProc.matched_rows _ _ _ _ _ _ _ _) as [[rows0|]|] eqn:M; cbn [rbind] in H; [|discriminate|discriminate].
    destruct (FvcProc.matched_rows_inv _ _ _ _ _ _ _ _ _ M) as (marks & t & gd & cols & exp & Ef & _ & Efit & Eexp & _). change (get_expected_pos (expected_of g) = Ok exp) in Eexp. rewrite Em in Eexp. injection Eexp as <-.
    destruct (labelled argsort query2 query3 query4 A Q2 Q4 g calls (map fst detected) marks UM Same Ef) as (Lm & _ & Fm & W).
    destruct (Fvc2fp.C67_update argsort minimize A _ _ _ _ _ _ _ _ _ _ W Fm Efit) as (_ & _ & _ & _ & _ & Upd). destruct (Upd eq_refl) as (measured & mcols & Ecols & Efp & _).
    assert (Epix : map s_pix (labelled_spots (map fst detected) marks) = map fst detected).
    { unfold labelled_spots. rewrite map_map. clear - Lm. revert marks Lm. generalize (map fst detected) as xy. induction xy as [|p xy IH]; intros [|m ms] L; try discriminate; [reflexivity|]. cbn. f_equal. apply IH. cbn in L. lia. }
    rewrite Epix in Efp. exists marks, t, gd, cols, measured, []. do 4 (split; [assumption|]). intros k fp m j e _ _ _ He. destruct j; discriminate.
Qed.
Print Assumptions C94_identified.
(** Without a file of expected positions these are the rows of the metrology that are not pinholes. *)
Theorem C94_default_expected : forall metrology, get_expected_pos (metrology_table metrology) =
  Ok (map (fun w => {| e_fp := w_fp w; e_location := w_location w; e_petal_device := Some ((w_location w / 1000)%Z, (w_location w mod 1000)%Z) |}) (filter (fun w => Z.eqb (w_pinhole w) 0) metrology)).
Proof.
  intros metrology. unfold get_expected_pos, metrology_table. cbn [x_fp x_location x_petal_device x_pinhole rbind]. f_equal. induction metrology as [|w l IH]; [reflexivity|]. cbn [map combine filter]. destruct (Z.eqb (w_pinhole w) 0); cbn [map fst]; rewrite IH; reflexivity.
Qed.
Print Assumptions C94_default_expected.
(** With a file: the positions are X_FP, Y_FP, else X_FP_EXP, Y_FP_EXP, else those at the angle EXP_Q_0 and the arc length EXP_S_0, far outside of the focal
    plane where one of them is nan; the location is LOCATION, else 1000 PETAL_LOC + DEVICE_LOC; rows of pinholes are dropped. *)
Definition positions_of (t : expected_table) (fp : list (R * R)) : Prop :=
  match x_fp t, x_fp_exp t, exp_qs t with
  | Some l, _, _ => fp = l
  | None, Some l, _ => fp = l
  | None, None, Some l => Forall2 (fun qs p => match qs with (Some q, Some s) => p = (s2r s * cos (PI * q / 180), s2r s * sin (PI * q / 180)) | _ => p = (-99999, -99999) end) l fp
  | None, None, None => False
  end.
Definition locations_of (t : expected_table) (loc : list Z) : Prop :=
  match x_location t, x_petal_device t with Some l, _ => loc = l | None, Some l => Forall2 (fun pd z => z = 1000 * fst pd + snd pd)%Z l loc | None, None => False end.
Theorem C94_expected t fp loc : positions_of t fp -> locations_of t loc -> length loc = length fp -> (forall l, x_petal_device t = Some l -> length l = length fp) ->
  exists rows, length rows = length fp /\
    get_expected_pos t = Ok (match x_pinhole t with None => rows | Some ids => map fst (filter (fun d => Z.eqb (snd d) 0) (combine rows ids)) end) /\
    forall i e, nth_error rows i = Some e -> nth_error fp i = Some (e_fp e) /\ nth_error loc i = Some (e_location e) /\
      match x_petal_device t with Some pd => nth_error pd i = e_petal_device e | None => e_petal_device e = None end.
Proof.
  intros P L Len Lp. unfold get_expected_pos.
  assert (EP : match x_fp t, x_fp_exp t, exp_qs t with Some l, _, _ => Ok l | None, Some l, _ => Ok l | None, None, Some l => Ok (map from_qs l) | None, None, None => Err KeyError end = Ok fp).
  { unfold positions_of in P. destruct (x_fp t); [now subst|]. destruct (x_fp_exp t); [now subst|]. destruct (exp_qs t) as [l|]; [|contradiction]. f_equal. clear - P. induction P as [|[[q|] [s|]] p l fp H P IH]; cbn [map]; [reflexivity| | | |]; f_equal; try (symmetry; exact H); try exact IH.
    subst p. unfold from_qs, qs2xy, cosdeg, sindeg. now rewrite Trig.deg_rad. }
  assert (EL : match x_location t, x_petal_device t with Some l, _ => Ok l | None, Some l => Ok (map (fun '(p, d) => (p * 1000 + d)%Z) l) | None, None => Err KeyError end = Ok loc).
  { unfold locations_of in L. destruct (x_location t); [now subst|]. destruct (x_petal_device t) as [l|]; [|contradiction]. f_equal. clear - L. induction L as [|[p d] z l loc H L IH]; cbn [map]; [reflexivity|]. f_equal; [|exact IH]. cbn [fst snd] in H. lia. }
  rewrite EP. cbn [rbind]. rewrite EL. cbn [rbind]. cbv zeta.
  set (petal := match x_petal_device t with Some l => map Some l | None => map (fun _ => None) fp end).
  assert (Lq : length petal = length fp) by (unfold petal; destruct (x_petal_device t); rewrite map_length; auto).
  assert (Hq : forall i q, nth_error petal i = Some q -> match x_petal_device t with Some pd => nth_error pd i = q | None => q = None end).
  { unfold petal. intros i q E. destruct (x_petal_device t) as [pd|]; rewrite nth_error_map in E; [destruct (nth_error pd i)|destruct (nth_error fp i)]; cbn in E; congruence. }
  set (rows := map _ _). exists rows. split; [unfold rows; rewrite map_length, !combine_length, Len, Lq; lia|]. split.
  - f_equal. destruct (x_pinhole t) as [ids|]; [|reflexivity]. f_equal. apply filter_ext. now intros [].
  - intros i e E. unfold rows in E. clearbody petal. revert fp loc petal i P L Len Lp EP EL Lq Hq rows E. clear. 
    intros fp loc petal i _ _ Len _ _ _ Lq Hq _ E. rewrite nth_error_map in E. destruct (nth_error (combine (combine fp loc) petal) i) as [[[p l] q]|] eqn:N; cbn in E; [|discriminate]. injection E as <-. cbn.
    assert (C : nth_error fp i = Some p /\ nth_error loc i = Some l /\ nth_error petal i = Some q).
    { clear Hq. revert fp loc petal Len Lq N. induction i as [|i IH]; intros [|a fp] [|b loc] [|c petal] Len Lq N; cbn in *; try discriminate; [now injection N as -> -> ->|]. apply IH; try lia. exact N. }
    destruct C as (C1 & C2 & C3). split; [exact C1|]. split; [exact C2|]. now apply Hq.
Qed.
Print Assumptions C94_expected.
Theorem C94_expected_missing t : (x_fp t = None -> x_fp_exp t = None -> exp_qs t = None -> get_expected_pos t = Err KeyError) /\
  (forall fp, positions_of t fp -> x_location t = None -> x_petal_device t = None -> get_expected_pos t = Err KeyError).
Proof.
  unfold get_expected_pos, positions_of. split.
  - intros -> -> ->. reflexivity.
  - intros fp P -> ->. destruct (x_fp t); [reflexivity|]. destruct (x_fp_exp t); [reflexivity|]. destruct (exp_qs t); [reflexivity|contradiction].
Qed.
Print Assumptions C94_expected_missing.

(** *** C95. What the turbulence correction and the field model change *)

Definition without_turbulence (g : settings) : settings :=
  {| g_input_tx := g_input_tx g; g_init_tx := g_init_tx g; g_mm := g_mm g; g_zbfit := g_zbfit g; g_fixed_scale := g_fixed_scale g; g_fixed_rotation := g_fixed_rotation g;
     g_max_match_distance := g_max_match_distance g; g_metrology := g_metrology g; g_expected := g_expected g; g_turbulence := None; g_field_model := g_field_model g |}.
Definition without_field_model (g : settings) : settings :=
  {| g_input_tx := g_input_tx g; g_init_tx := g_init_tx g; g_mm := g_mm g; g_zbfit := g_zbfit g; g_fixed_scale := g_fixed_scale g; g_fixed_rotation := g_fixed_rotation g;
     g_max_match_distance := g_max_match_distance g; g_metrology := g_metrology g; g_expected := g_expected g; g_turbulence := g_turbulence g; g_field_model := None |}.
(** A row that is not a pinhole and has a location, with an expected position off the axes. *)
Definition matched_fibre (r : row) : bool := (Z.eqb (r_pinhole r) 0 && (0 <=? r_location r)%Z && off_axes (r_exp r))%bool.
(** [r'] is [r] but for the position in the focal plane; but for the sky position. *)
Definition same_but_position (r r' : row) : Prop := r' = with_fp r (r_fp r').
Definition same_but_sky (r r' : row) : Prop := exists s, r' = with_radec r s.

(** For spots found in an image: the correction gets the measured and expected positions of the matched fibres, and only these are moved. *)
Theorem C95_turbulence : forall argsort query2 query3 query4 minimize, is_argsort argsort -> nearest_query query2 -> near_query query4 ->
  forall g calls detected table correct rows, usable_metrology (g_metrology g) ->
  (forall c, In c calls -> a_metrology c = map to_device (g_metrology g)) ->
  (forall expected, get_expected_pos (expected_of g) = Ok expected -> expected <> []) ->
  g_expected g = Some table -> g_turbulence g = Some correct -> (forall l out, correct l = Ok out -> length out = length l) -> g_field_model g = None ->
  (forall p, In p detected -> snd p = (0, 0)) ->
  fst (process argsort query2 query3 query4 minimize g (after argsort query2 query3 query4 calls) detected) = Ok (Some rows) ->
  exists rows0 corrected, fst (process argsort query2 query3 query4 minimize (without_turbulence g) (after argsort query2 query3 query4 calls) detected) = Ok (Some rows0) /\
    correct (map (fun r => (r_fp r, r_exp r)) (filter matched_fibre rows0)) = Ok corrected /\ length rows = length rows0 /\
    forall k r0, nth_error rows0 k = Some r0 -> exists r, nth_error rows k = Some r /\ same_but_position r0 r /\
      (if matched_fibre r0 then nth_error corrected (length (filter matched_fibre (firstn k rows0))) = Some (r_fp r) else r_fp r = r_fp r0).
Proof.
  intros argsort query2 query3 query4 minimize A Q2 Q4 g calls detected table correct rows UM Same Ne Eg Et Lc Ef St H.
  rewrite FvcProc.process_stages in H. destruct (FvcProc.matched_rows argsort query2 query3 query4 minimize g _ _) as [[rows1|]|] eqn:M; cbn [rbind] in H; [|discriminate|discriminate]. destruct (FvcProc.finish g rows1) as [rows'|] eqn:Fi; cbn [rmap] in H; [|discriminate]. injection H as ->.
  exists (map take_metro rows1). rewrite FvcProc.process_stages. change (FvcProc.matched_rows argsort query2 query3 query4 minimize (without_turbulence g) (after argsort query2 query3 query4 calls) detected) with (FvcProc.matched_rows argsort query2 query3 query4 minimize g (after argsort query2 query3 query4 calls) detected).
  rewrite M. cbn [rbind]. unfold FvcProc.finish at 1. cbn [without_turbulence g_expected g_turbulence g_field_model]. rewrite Eg, Ef. cbn [rbind rmap].
  unfold FvcProc.finish in Fi. rewrite Eg, Et, Ef in Fi. unfold correct_turbulence in Fi. set (mt := fun r : row => ((0 <=? r_location r)%Z && isnt_zero (fst (r_exp r)) && isnt_zero (snd (r_exp r)))%bool) in Fi. destruct (correct (map (fun r => (r_fp r, r_exp r)) (filter mt rows1))) as [corrected|] eqn:Ec; [|discriminate]. cbn [rbind] in Fi. injection Fi as <-.
  assert (Key : forall r, In r rows1 -> mt r = matched_fibre (take_metro r) /\ (mt r = true -> take_metro r = r)).
  { destruct (matched_core argsort query2 query3 query4 minimize A Q2 Q4 g calls detected rows1 UM Same Ne M) as (marks & t & gd & cols & measured & exp & partner & _ & _ & _ & _ & _ & L1 & L2 & L3 & _ & Hr).
    intros r Ir. apply In_nth_error in Ir. destruct Ir as [k Hk]. destruct (nth_error_length rows1 detected k r L1 Hk) as [[pix stale] Hd]. destruct (nth_error_length rows1 marks k r ltac:(congruence) Hk) as [m Hm]. destruct (nth_error_length rows1 measured k r ltac:(congruence) Hk) as [fp Hfp].
    assert (E0 : stale = (0, 0)) by (apply (St (pix, stale)); eapply nth_error_In; eauto). subst stale.
    destruct (Hr k pix (0, 0) m fp Hd Hm Hfp) as (r2 & Hr2 & _ & _ & B3 & _ & _ & B5 & B6). rewrite Hk in Hr2. injection Hr2 as <-.
    assert (Pz : matched_fibre (take_metro r) = (Z.eqb (r_pinhole r) 0 && (0 <=? r_location r)%Z && off_axes (r_exp (take_metro r)))%bool) by reflexivity.
    assert (Tm : r_metro r = (0, 0) -> take_metro r = r).
    { intros E. pose proof (take_metro_exp r) as T. rewrite E in T. cbn [fst snd] in T. destruct (Req_EM_T 0 0) as [_|C]; [|contradiction]. destruct r as [a b c d e f g0 h i]. unfold take_metro in *. cbn [r_exp r_metro r_pix r_location r_petal_loc r_device_loc r_pinhole r_fp r_radec] in *. rewrite T. now destruct h. }
    destruct (partner k) as [j|].
    - destruct B6 as (-> & _). cbn in B3, B5. specialize (B5 eq_refl). rewrite (Tm B5) in *. split; [|auto]. rewrite Pz, B3. cbn [Z.eqb andb]. unfold mt, off_axes. now rewrite Bool.andb_assoc.
    - destruct B6 as (_ & _ & _ & E & _). assert (F : mt r = false) by (unfold mt; rewrite E; cbn; unfold isnt_zero; rewrite (proj2 (Reqb_true 0 0) eq_refl); cbn; now rewrite !Bool.andb_false_r). rewrite F. split; [|discriminate]. rewrite Pz, B3. destruct (Z.eqb_spec (k_pinhole m) 0) as [Z0|]; [|reflexivity].
      specialize (B5 Z0). rewrite (Tm B5), E. cbn. unfold off_axes, isnt_zero. cbn [fst]. rewrite (proj2 (Reqb_true 0 0) eq_refl). cbn. now rewrite Bool.andb_false_r. }
  assert (Fl : forall l, incl l rows1 -> map (fun r => (r_fp r, r_exp r)) (filter mt l) = map (fun r => (r_fp r, r_exp r)) (filter matched_fibre (map take_metro l))).
  { induction l as [|r l IH]; intros I; [reflexivity|]. cbn [map filter]. destruct (Key r (I r (or_introl eq_refl))) as [K1 K2]. rewrite <- K1. destruct (mt r) eqn:E; cbn [map]; [rewrite (K2 eq_refl); f_equal|]; apply IH; intros x Hx; apply I; now right. }
  exists corrected. split; [reflexivity|]. split; [rewrite <- Fl by (intros x; auto); exact Ec|]. split; [rewrite !map_length, FvcProc.put_where_length; reflexivity|].
  assert (Lk : length corrected = length (filter mt rows1)) by (rewrite (Lc _ _ Ec), map_length; reflexivity).
  intros k r0 Hk. rewrite nth_error_map in Hk. destruct (nth_error rows1 k) as [r1|] eqn:H1; [|discriminate]. injection Hk as <-. destruct (Key r1) as [K1 K2]; [eapply nth_error_In; eauto|]. rewrite <- K1. rewrite nth_error_map. destruct (mt r1) eqn:E.
  - destruct (FvcProc.put_where_combine mt with_fp rows1 corrected Lk k r1 H1 E) as (p & Hp & Hr). exists (take_metro (with_fp r1 p)). rewrite Hr. split; [reflexivity|]. split; [reflexivity|]. cbn [take_metro with_fp r_fp].
    rewrite firstn_map. rewrite <- Hp. f_equal. unfold FvcProc.rank. pose proof (f_equal (@length _) (Fl (firstn k rows1) (fun x Hx => ltac:(rewrite <- (firstn_skipn k rows1); apply in_or_app; now left)))) as G. rewrite !map_length in G. symmetry. exact G.
  - exists (take_metro r1). rewrite (FvcProc.put_where_other mt rows1 _ k r1 H1 E). split; [reflexivity|]. split; [reflexivity|reflexivity].
Qed.
Print Assumptions C95_turbulence.
(** The field model gets the final positions that are off the axes; the other rows have RA, Dec 0; nothing else changes. *)
Theorem C95_sky : forall argsort query2 query3 query4 minimize g cache detected f rows,
  g_field_model g = Some f -> (forall l out, f l = Ok out -> length out = length l) ->
  fst (process argsort query2 query3 query4 minimize g cache detected) = Ok (Some rows) ->
  exists rows0 sky, fst (process argsort query2 query3 query4 minimize (without_field_model g) cache detected) = Ok (Some rows0) /\
    f (filter off_axes (map r_fp rows0)) = Ok sky /\ length rows = length rows0 /\
    forall k r0, nth_error rows0 k = Some r0 -> exists r, nth_error rows k = Some r /\ same_but_sky r0 r /\
      (if off_axes (r_fp r0) then r_radec r = nth_error sky (length (filter off_axes (firstn k (map r_fp rows0)))) else r_radec r = Some (0, 0)).
Proof.
  intros argsort query2 query3 query4 minimize g cache detected f rows Eg Lf H. rewrite FvcProc.process_stages in *.
  change (FvcProc.matched_rows argsort query2 query3 query4 minimize (without_field_model g) cache detected) with (FvcProc.matched_rows argsort query2 query3 query4 minimize g cache detected).
  destruct (FvcProc.matched_rows argsort query2 query3 query4 minimize g cache detected) as [[rows1|]|]; cbn [rbind] in *; [|discriminate|discriminate].
  destruct (FvcProc.finish g rows1) as [rows'|] eqn:Fi; cbn [rmap] in H; [|discriminate]. injection H as ->. unfold FvcProc.finish in *. cbn [without_field_model g_expected g_turbulence g_field_model]. rewrite Eg in Fi.
  destruct (match g_expected g with Some _ => _ | None => _ end) as [rows2|]; cbn [rbind] in *; [|discriminate]. destruct (add_radec_spec f (map take_metro rows2) rows Lf Fi) as (sky & Es & L & Hk).
  exists (map take_metro rows2), sky. split; [reflexivity|]. split; [exact Es|]. split; [exact L|]. intros k r0 Hr. destruct (Hk k r0 Hr) as (s & Hs & C). exists (with_radec r0 s). split; [exact Hs|]. split; [now exists s|]. destruct (off_axes (r_fp r0)); [rewrite C; reflexivity|subst s; reflexivity].
Qed.
Print Assumptions C95_sky.

(** *** C96. Exit codes and files *)
Local Open Scope string_scope.
Local Open Scope list_scope.

(** What happens before a table of spots is looked at. *)
Theorem C96_codes : forall argsort query2 query3 query4 minimize read_fits read_csv o g cache fs,
  let result := fvc_proc argsort query2 query3 query4 minimize read_fits read_csv o g cache fs in
  let run := run argsort query2 query3 query4 minimize o g cache fs in
  ((forall base, f_outfile o <> (base ++ ".csv")%string) -> result = (Ok 12%Z, cache, fs)) /\
  forall base, f_outfile o = (base ++ ".csv")%string ->
    (f_threshold o = true -> result = (Ok 1%Z, cache, fs)) /\
    (f_threshold o = false ->
       ((Model.PyString.find ".fits" (f_infile o) > 0)%Z -> forall l, read_fits (f_infile o) = Ok l -> result = run l) /\
       ((Model.PyString.find ".fits" (f_infile o) <= 0)%Z -> (Model.PyString.find ".csv" (f_infile o) > 0)%Z -> forall xy, read_csv (f_infile o) = Ok xy -> result = run [("F0000", xy)]) /\
       ((Model.PyString.find ".fits" (f_infile o) <= 0)%Z -> (Model.PyString.find ".csv" (f_infile o) <= 0)%Z -> result = (Ok 13%Z, cache, fs))).
Proof.
  intros argsort query2 query3 query4 minimize read_fits read_csv o g cache fs result run. unfold result, fvc_proc. split.
  - intros N. destruct (endswith ".csv" (f_outfile o)) eqn:E; [|reflexivity]. destruct (FvcProc.endswith_inv _ _ E) as [a Ea]. exfalso. exact (N a Ea).
  - intros base Eb. assert (endswith ".csv" (f_outfile o) = true) as -> by (rewrite Eb; apply PyString.endswith_app). cbn [negb]. split; [intros ->; reflexivity|]. intros ->. split; [|split].
    + intros F l El. rewrite (proj2 (Z.gtb_lt _ _)) by lia. rewrite El. reflexivity.
    + intros F C xy El. destruct (Z.gtb_spec (Model.PyString.find ".fits" (f_infile o)) 0); [lia|]. rewrite (proj2 (Z.gtb_lt _ _)) by lia. rewrite El. reflexivity.
    + intros F C. destruct (Z.gtb_spec (Model.PyString.find ".fits" (f_infile o)) 0); [lia|]. destruct (Z.gtb_spec (Model.PyString.find ".csv" (f_infile o)) 0); [lia|reflexivity].
Qed.
Print Assumptions C96_codes.

(** The call of findfiducials for a table of spots. *)
Definition call_of (g : settings) (xy : list (R * R * (R * R))) : call := {| a_metrology := map to_device (g_metrology g); a_tx := g_input_tx g; a_mm := g_mm g; a_xy := map fst xy |}.
(** The number of spots is in the range asked for. *)
Definition accepted (o : fopts) (xy : list (R * R * (R * R))) : Prop :=
  (forall m, f_min_spots o = Some m -> m <= Z.of_nat (List.length xy))%Z /\ (forall m, f_max_spots o = Some m -> Z.of_nat (List.length xy) <= m)%Z.
Lemma accepted_outside o xy : accepted o xy <-> outside o (Z.of_nat (List.length xy)) = false.
Proof.
  unfold accepted, outside. rewrite Bool.orb_false_iff. split; intros [H1 H2]; split.
  - destruct (f_min_spots o) as [m|]; [|reflexivity]. apply Z.ltb_ge. now apply H1.
  - destruct (f_max_spots o) as [m|]; [|reflexivity]. apply Z.ltb_ge. now apply H2.
  - intros m E. rewrite E in H1. now apply Z.ltb_ge in H1.
  - intros m E. rewrite E in H2. now apply Z.ltb_ge in H2.
Qed.
(** A sequence of tables with different extension names: each accepted table before the [n]-th is written to its own file, with the calls of
    findfiducials for the accepted ones before it (in [seen]); no other file changes. With code 0 all are done, with code 13 the [n]-th has too few
    fiducials, and an exception comes from the [n]-th. *)
Theorem C96_sequence : forall argsort query2 query3 query4 minimize o g calls l fs result cache fs' base,
  f_nomatch o = false -> f_sequence o = true -> f_outfile o = (base ++ ".csv")%string -> NoDup (map fst l) ->
  run argsort query2 query3 query4 minimize o g (after argsort query2 query3 query4 calls) fs l = (result, cache, fs') ->
  exists n seen, (n <= List.length l)%nat /\
    (forall i, exists kept, seen i = map (call_of g) kept /\ incl kept (map snd (firstn i l))) /\
    let processed i xy := fst (process argsort query2 query3 query4 minimize g (after argsort query2 query3 query4 (calls ++ seen i)) xy) in
    match result with
    | Ok c => (c = 0%Z /\ n = List.length l) \/ (c = 13%Z /\ exists ext xy, nth_error l n = Some (ext, xy) /\ accepted o xy /\ processed n xy = Ok None)
    | Err e => exists ext xy, nth_error l n = Some (ext, xy) /\ accepted o xy /\ processed n xy = Err e
    end /\
    (forall i ext xy, nth_error l i = Some (ext, xy) -> (i < n)%nat -> accepted o xy ->
       exists rows, processed i xy = Ok (Some rows) /\ fs' (replace ".csv" ("-" ++ ext ++ ".csv") (f_outfile o)) = Some (Rows rows)) /\
    (forall q, (forall i ext xy, nth_error l i = Some (ext, xy) -> (i < n)%nat -> accepted o xy -> q <> replace ".csv" ("-" ++ ext ++ ".csv") (f_outfile o)) -> fs' q = fs q).
Proof.
  intros argsort query2 query3 query4 minimize o g calls l fs result cache fs' base Nm Sq Eb Nd H.
  assert (Ew : endswith ".csv" (f_outfile o) = true) by (rewrite Eb; apply PyString.endswith_app).
  assert (Nd' : NoDup (map (fun e => outname o (fst e)) l)).
  { rewrite <- (map_map fst (outname o)). apply FinFun.Injective_map_NoDup; [|exact Nd]. intros e e' E. exact (FvcProc.outname_inj o e e' Ew Sq E). }
  destruct (FvcProc.run_spec argsort query2 query3 query4 minimize o g Nm l calls fs result cache fs' Nd' H) as (n & Ln & Hr & Hw & Hq).
  assert (Eo : forall ext, outname o ext = replace ".csv" ("-" ++ ext ++ ".csv") (f_outfile o)) by (intros ext; unfold outname; rewrite Sq; reflexivity).
  exists n, (fun i => map (fun e => FvcProc.call_of g (snd e)) (FvcProc.kept o (firstn i l))). split; [exact Ln|]. split.
  { intros i. exists (map snd (FvcProc.kept o (firstn i l))). split; [rewrite map_map; reflexivity|]. intros x Hx. apply in_map_iff in Hx. destruct Hx as (e & <- & He). apply filter_In in He. now apply in_map. }
  cbv zeta. split; [|split].
  - destruct result as [c|e]; [destruct Hr as [?|(-> & ext & xy & He & Oe & Pe)]; [now left|right; split; [reflexivity|]; exists ext, xy; rewrite accepted_outside; auto]|destruct Hr as (ext & xy & He & Oe & Pe); exists ext, xy; rewrite accepted_outside; auto].
  - intros i ext xy Hi Li Ai. apply accepted_outside in Ai. destruct (Hw i ext xy Hi Li Ai) as (rows & Hp & Hf). rewrite Eo in Hf. exists rows. auto.
  - intros q Q. apply Hq. intros i ext xy Hi Li Oi. rewrite Eo. apply (Q i ext xy Hi Li). now apply accepted_outside.
Qed.
Print Assumptions C96_sequence.
(** Without --sequence a single table is written to the file asked for. *)
Theorem C96_single : forall argsort query2 query3 query4 minimize o g cache fs ext xy,
  f_nomatch o = false -> f_sequence o = false -> accepted o xy ->
  let run := run argsort query2 query3 query4 minimize o g cache fs [(ext, xy)] in
  let process := fst (process argsort query2 query3 query4 minimize g cache xy) in
  (forall rows, process = Ok (Some rows) -> fst (fst run) = Ok 0%Z /\ snd run (f_outfile o) = Some (Rows rows) /\ forall q, q <> f_outfile o -> snd run q = fs q) /\
  (process = Ok None -> fst (fst run) = Ok 13%Z /\ snd run = fs) /\
  (forall e, process = Err e -> fst (fst run) = Err e /\ snd run = fs).
Proof.
  intros argsort query2 query3 query4 minimize o g cache fs ext xy Nm Sq Ac run0 process0. unfold run0, process0. cbn [Model.FvcProc.run]. rewrite (proj1 (accepted_outside o xy) Ac), Nm. unfold outname. rewrite Sq. destruct (Model.FvcProc.process _ _ _ _ _ _ _ _) as [[[rows|]|e] c]; cbn [fst snd]; (split; [|split]); try discriminate; auto.
  - intros rows' E. injection E as <-. split; [reflexivity|]. unfold put. split; [now rewrite String.eqb_refl|]. intros q N. destruct (String.eqb_spec q (f_outfile o)); [contradiction|reflexivity].
  - intros e' E. injection E as <-. auto.
Qed.
Print Assumptions C96_single.
(** Code 0 does not mean that a table was written: with fewer spots than --min-spots nothing is. *)
Theorem C96_written_refuted : exists argsort query2 query3 query4 minimize read_fits read_csv o g cache fs,
  is_argsort argsort /\ nearest_query query2 /\ near_query query4 /\
  fvc_proc argsort query2 query3 query4 minimize read_fits read_csv o g cache fs = (Ok 0%Z, cache, fs) /\ fs (f_outfile o) = None.
Proof.
  exists isort_argsort, (scan_query distance), (scan_query distance3), (near_scan distance), (fun _ p => Ok p), (fun _ => Ok [("F0000", [((0, 0), (0, 0))])]), (fun _ => Err FileNotFound),
    {| f_infile := "fvc-00055655.fits"; f_outfile := "out.csv"; f_threshold := false; f_sequence := false; f_nomatch := false; f_min_spots := Some 2%Z; f_max_spots := None |},
    {| g_input_tx := FindFiducials.ex_tx; g_init_tx := FindFiducials.ex_tx; g_mm := 30; g_zbfit := false; g_fixed_scale := false; g_fixed_rotation := false; g_max_match_distance := 7; g_metrology := []; g_expected := None; g_turbulence := None; g_field_model := None |},
    None, (fun _ => None).
  split; [apply isort_is_argsort|]. split; [apply KDTree.scan_query2|]. split; [apply NearScan.near_scan_ok|]. split; reflexivity.
Qed.
Print Assumptions C96_written_refuted.

(** *** An example *)

(** The metrology and image of C91's example: three fiducials and a fibre at (500, 500). *)
Definition ex_metrology : list mrow := map (fun v => {| w_type := v_type v; w_location := v_location v; w_pinhole := v_pinhole v; w_fp := v_fp v; w_z := 0 |}) (FindFiducials.ex_metrology 1541).
Definition ex_settings (expected : option expected_table) (correct : option (list (R * R * (R * R)) -> res (list (R * R)))) (sky : option (list (R * R) -> res (list (R * R)))) : settings :=
  {| g_input_tx := FindFiducials.ex_tx; g_init_tx := FindFiducials.ex_tx; g_mm := 30; g_zbfit := false; g_fixed_scale := true; g_fixed_rotation := true;
     g_max_match_distance := 7; g_metrology := ex_metrology; g_expected := expected; g_turbulence := correct; g_field_model := sky |}.
Definition ex_detected (stale : R * R) : list (R * R * (R * R)) := map (fun p => (p, stale)) FindFiducials.ex_xy.
Notation ex_process := (process isort_argsort (scan_query distance) (scan_query distance3) (near_scan distance) (fun _ p => Ok p)) (only parsing).
Notation ex_after := (after isort_argsort (scan_query distance) (scan_query distance3) (near_scan distance)) (only parsing).

Lemma fit_returns argsort (A : is_argsort argsort) t spots metrology : Fvc2fp.usable t -> tx_offset_x t = 0 -> tx_offset_y t = 0 -> Fvc2fp.well_labelled spots metrology ->
  (forall s, In s spots -> Fvc2fp.fiducial s = true -> s_location s <> 0%Z /\ exists m, In m metrology /\ Fvc2fp.same_pinhole s m) -> filter Fvc2fp.fiducial spots <> [] ->
  exists g cols, fit argsort (fun _ p => Ok p) t spots metrology true false true true = Ok (t, g, Some cols).
Proof.
  intros (V & S0 & X & Y) Ox Oy W C N.
  destruct (proj1 (Fvc2fp.C31_pairing argsort A spots metrology W) (fun s I f => proj2 (C s I f))) as (F & M & E & PF & IM & K).
  destruct (Fvc2fp.C31_metrology_columns argsort A spots metrology W (fun s I f => proj1 (C s I f)) F M PF IM K) as (cols & Ec & _).
  pose proof (Forall2_length _ _ _ K) as L. assert (NF : F <> []) by (intros ->; apply Permutation.Permutation_nil in PF; contradiction).
  unfold fit. rewrite E. cbn [rbind]. rewrite <- L. assert (Es : forall B (l : list B), length l = length F -> stretch (if (length F =? 1)%nat then length F else length F) l = l).
  { intros B [|b [|b2 l]] Hl; try reflexivity. cbn [stretch]. rewrite <- Hl. reflexivity. }
  rewrite !Es by congruence. cbn [andb].
  assert (R0 : exists rp, rmapM (fun s => reduce_xyfvc t (s_pix s)) F = Ok rp).
  { clear - X Y. induction F as [|s F (rp & IH)]; [eexists; reflexivity|]. cbn [rmapM]. unfold reduce_xyfvc at 1. rewrite !(proj2 (Reqb_false _ _)) by assumption. cbn [orb rbind]. rewrite IH. eexists. reflexivity. }
  destruct R0 as [rp ->]. cbn [rbind]. unfold fit_scale_rotation_offset. cbn [rbind or_fixed]. replace {| xfvc_scale := _; yfvc_scale := _; xfvc_offset := _; yfvc_offset := _; tx_scale := _; tx_rotation := _; tx_offset_x := _; tx_offset_y := _; tx_polids := _; tx_coeffs := _ |} with t by (destruct t; cbn in *; subst; reflexivity).
  unfold goodness_of_fit. rewrite !Fvc2fp.fvc2fp_forward by assumption. cbn [rbind].
  set (dr := map _ (combine M _)). assert (Nd : dr <> []) by (unfold dr; destruct F as [|s F]; [contradiction|]; destruct M; [discriminate|]; discriminate).
  rewrite Stats.mean_Ok by exact Nd. cbn [rbind]. destruct (Circles.median_some dr Nd) as [b ->]. cbn [rbind]. rewrite Stats.mean_Ok by (destruct dr; [contradiction|discriminate]). cbn [rbind]. rewrite Ec. cbn [rbind]. do 2 eexists. reflexivity.
Qed.
Lemma ex_fvc2fp xy : fvc2fp FindFiducials.ex_tx xy = Ok xy.
Proof.
  rewrite Fvc2fp.fvc2fp_forward by (apply Forall_nil || (cbn; intro; lra)). f_equal. transitivity (map (fun p : R * R => p) xy); [|apply map_id]. apply map_ext. intros [x y]. unfold Fvc2fp.forward, Fvc2fp.before, Fvc2fp.redpix, Fvc2fp.off, expand_xyfp.
  change (Fvc2fp.D FindFiducials.ex_tx _) with (0, 0). cbn -[cos sin]. unfold Spec.ZhaoBurge.similarity. cbn -[cos sin]. rewrite cos_0, sin_0. f_equal; lra.
Qed.
Lemma ex_devices : map to_device ex_metrology = FindFiducials.ex_metrology 1541.
Proof. reflexivity. Qed.
Lemma ex_usable : usable_metrology ex_metrology.
Proof.
  split.
  - cbn. repeat (constructor; [cbn; intuition discriminate|]). constructor.
  - intros w H. cbn in H. repeat (destruct H as [<-|H]; [cbn; lia|]). contradiction.
  - intros w H. cbn in H. repeat (destruct H as [<-|H]; [cbn; lia|]). contradiction.
Qed.
Lemma ex_xy_of stale : map fst (ex_detected stale) = FindFiducials.ex_xy.
Proof. unfold ex_detected. rewrite map_map. apply map_id. Qed.
Definition ex_mark (L k : Z) : marks := {| k_location := L; k_petal_loc := L / 1000; k_device_loc := L mod 1000; k_pinhole := k |}.
Definition ex_marks : list marks :=
  [ex_mark 1543 1; ex_mark 1543 2; ex_mark 1543 3; ex_mark 1543 4; FindFiducials.not_a_fiducial; ex_mark 1541 1; ex_mark 1541 2; ex_mark 1541 3; ex_mark 1541 4; ex_mark 1542 1; ex_mark 1542 2; ex_mark 1542 3; ex_mark 1542 4].
Lemma ex_marked : fst (findfiducials isort_argsort (scan_query distance) (scan_query distance3) (near_scan distance) None (map to_device ex_metrology) FindFiducials.ex_tx 30 FindFiducials.ex_xy) = Ok ex_marks.
Proof.
  rewrite ex_devices. destruct (FindFiducials.ex_found 1541 ltac:(lia)) as (marks & E & L & A & B). rewrite E. f_equal.
  assert (H : forall k, nth_error marks k = nth_error ex_marks k).
  { assert (I : forall i k d p, nth_error (FindFiducials.fiducial_devices (FindFiducials.ex_metrology 1541)) i = Some d -> nth_error FindFiducials.ex_pix i = Some p -> nth_error FindFiducials.ex_xy k = Some (FindFiducials.image 1 1 0 p) -> nth_error marks k = Some (FindFiducials.marked d)) by (intros i k d p H1 H2 H3; exact (A i d p H1 H2 k H3)).
    intros k. destruct k as [|[|[|[|[|[|[|[|[|[|[|[|[|k]]]]]]]]]]]]]; cycle 13.
    1: { transitivity (@None Model.FindFiducials.marks); [apply nth_error_None; rewrite L; cbn; lia|symmetry; apply nth_error_None; cbn; lia]. }
    - rewrite (I 8%nat 0%nat _ _ eq_refl eq_refl); [reflexivity|unfold FindFiducials.image; cbn; do 2 f_equal; lra].
    - rewrite (I 9%nat 1%nat _ _ eq_refl eq_refl); [reflexivity|unfold FindFiducials.image; cbn; do 2 f_equal; lra].
    - rewrite (I 10%nat 2%nat _ _ eq_refl eq_refl); [reflexivity|unfold FindFiducials.image; cbn; do 2 f_equal; lra].
    - rewrite (I 11%nat 3%nat _ _ eq_refl eq_refl); [reflexivity|unfold FindFiducials.image; cbn; do 2 f_equal; lra].
    - rewrite (B 4%nat (500, 500) eq_refl); [reflexivity|]. intros p Hp E'. apply FindFiducials.ex_pix_cases in Hp as (x & y & Hp & O). apply FindFiducials.group_In in Hp as (a & b & -> & Ha & Hb). unfold FindFiducials.image in E'. cbn [fst snd] in E'. injection E' as E1 E2. destruct O as [[-> ->]|[[-> ->]|[-> ->]]]; lra.
    - rewrite (I 0%nat 5%nat _ _ eq_refl eq_refl); [reflexivity|unfold FindFiducials.image; cbn; do 2 f_equal; lra].
    - rewrite (I 1%nat 6%nat _ _ eq_refl eq_refl); [reflexivity|unfold FindFiducials.image; cbn; do 2 f_equal; lra].
    - rewrite (I 2%nat 7%nat _ _ eq_refl eq_refl); [reflexivity|unfold FindFiducials.image; cbn; do 2 f_equal; lra].
    - rewrite (I 3%nat 8%nat _ _ eq_refl eq_refl); [reflexivity|unfold FindFiducials.image; cbn; do 2 f_equal; lra].
    - rewrite (I 4%nat 9%nat _ _ eq_refl eq_refl); [reflexivity|unfold FindFiducials.image; cbn; do 2 f_equal; lra].
    - rewrite (I 5%nat 10%nat _ _ eq_refl eq_refl); [reflexivity|unfold FindFiducials.image; cbn; do 2 f_equal; lra].
    - rewrite (I 6%nat 11%nat _ _ eq_refl eq_refl); [reflexivity|unfold FindFiducials.image; cbn; do 2 f_equal; lra].
    - rewrite (I 7%nat 12%nat _ _ eq_refl eq_refl); [reflexivity|unfold FindFiducials.image; cbn; do 2 f_equal; lra]. }
  exact (nth_error_ext _ _ H).
Qed.
(** A table is returned for any expected positions and corrections that can be made; before these the fibre is at (500, 500). *)
Lemma ex_matched expected correct sky exp stale : get_expected_pos (match expected with Some t => t | None => metrology_table ex_metrology end) = Ok exp -> exp <> [] ->
  exists gd cols rows, fit isort_argsort (fun _ p => Ok p) FindFiducials.ex_tx (labelled_spots FindFiducials.ex_xy ex_marks) (map to_metro ex_metrology) true false true true = Ok (FindFiducials.ex_tx, gd, Some cols) /\
    FvcProc.matched_rows isort_argsort (scan_query distance) (scan_query distance3) (near_scan distance) (fun _ p => Ok p) (ex_settings expected correct sky) None (ex_detected stale) = Ok (Some rows).
Proof.
  intros Ee Ne. destruct (labelled isort_argsort (scan_query distance) (scan_query distance3) (near_scan distance) isort_is_argsort KDTree.scan_query2 NearScan.near_scan_ok (ex_settings expected correct sky) [] FindFiducials.ex_xy ex_marks ex_usable) as (_ & _ & Fm & W); [contradiction|apply ex_marked|].
  destruct (fit_returns isort_argsort isort_is_argsort FindFiducials.ex_tx (labelled_spots FindFiducials.ex_xy ex_marks) (map to_metro ex_metrology)) as (gd & cols & Ef); [repeat split; try (apply Forall_nil); cbn; intro; lra|reflexivity|reflexivity|exact W|exact Fm|discriminate|].
  destruct (FvcProc.match_fibers_spec isort_argsort isort_is_argsort (scan_query distance) KDTree.scan_query2 7 exp (FvcProc.measured_rows (ex_detected stale) ex_marks cols) Ne) as (rows & _ & Em & _).
  exists gd, cols, rows. split; [exact Ef|].
  apply (FvcProc.matched_rows_intro _ _ _ _ _ (ex_settings expected correct sky) None (ex_detected stale) rows ex_marks FindFiducials.ex_tx gd cols exp); rewrite ?ex_xy_of; [exact ex_marked|cbn; lia|exact Ef|exact Ee|exact Em].
Qed.
Lemma ex_returns expected correct sky exp stale : get_expected_pos (match expected with Some t => t | None => metrology_table ex_metrology end) = Ok exp -> exp <> [] ->
  (forall f l, correct = Some f -> exists out, f l = Ok out) -> (forall f l, sky = Some f -> exists out, f l = Ok out) ->
  exists rows, fst (ex_process (ex_settings expected correct sky) (ex_after []) (ex_detected stale)) = Ok (Some rows).
Proof.
  intros Ee Ne C S0. destruct (ex_matched expected correct sky exp stale Ee Ne) as (gd & cols & rows & _ & M). rewrite FvcProc.process_stages. change (ex_after []) with (@None (list pinhole * list pinhole)). rewrite M. cbn [rbind].
  assert (F : exists rows', FvcProc.finish (ex_settings expected correct sky) rows = Ok rows').
  { unfold FvcProc.finish. cbn [ex_settings g_expected g_turbulence g_field_model].
    assert (T : exists r2, (match expected with Some _ => match correct with Some f => correct_turbulence f rows | None => Ok rows end | None => Ok rows end) = Ok r2).
    { destruct expected; [|eauto]. destruct correct as [f|]; [|eauto]. unfold correct_turbulence. destruct (C f (map (fun r => (r_fp r, r_exp r)) (filter (fun r => ((0 <=? r_location r)%Z && isnt_zero (fst (r_exp r)) && isnt_zero (snd (r_exp r)))%bool) rows)) eq_refl) as [out E]. rewrite E. cbn [rbind]. eauto. }
    destruct T as [r2 ->]. cbn [rbind]. destruct sky as [f|]; [|eauto]. unfold add_radec. match goal with |- context [f ?l] => destruct (S0 f l eq_refl) as [out ->] end. cbn [rbind]. eauto. }
  destruct F as [rows' ->]. exists rows'. reflexivity.
Qed.
(** What C93 says of the example. *)
Lemma ex_rows expected exp stale : get_expected_pos (match expected with Some t => t | None => metrology_table ex_metrology end) = Ok exp -> exp <> [] ->
  exists rows partner, fst (ex_process (ex_settings expected None None) (ex_after []) (ex_detected stale)) = Ok (Some rows) /\
    forall k p m, nth_error FindFiducials.ex_xy k = Some p -> nth_error ex_marks k = Some m -> exists r, nth_error rows k = Some r /\ row_of (ex_settings expected None None) exp partner FindFiducials.ex_xy k p stale m p r.
Proof.
  intros Ee Ne. destruct (ex_returns expected None None exp stale Ee Ne) as [rows H]; [discriminate|discriminate|]. exists rows.
  destruct (ex_matched expected None None exp stale Ee Ne) as (gd & cols & _ & Ef & _).
  destruct (C93_table isort_argsort (scan_query distance) (scan_query distance3) (near_scan distance) (fun _ p => Ok p) isort_is_argsort KDTree.scan_query2 NearScan.near_scan_ok (ex_settings expected None None) [] (ex_detected stale) rows ex_usable) as (marks & t & gd' & cols' & measured & exp' & partner & E1 & _ & E3 & E4 & E5 & _ & _ & _ & _ & Hr); [contradiction| |now left|discriminate|exact H|].
  { intros e E. change (expected_of (ex_settings expected None None)) with (match expected with Some t => t | None => metrology_table ex_metrology end) in E. rewrite Ee in E. injection E as <-. exact Ne. }
  rewrite ex_xy_of in *. change (fst (findfiducials isort_argsort (scan_query distance) (scan_query distance3) (near_scan distance) None (map to_device ex_metrology) FindFiducials.ex_tx 30 FindFiducials.ex_xy) = Ok marks) in E1. rewrite ex_marked in E1. injection E1 as <-.
  change (fit isort_argsort (fun _ p => Ok p) FindFiducials.ex_tx (labelled_spots FindFiducials.ex_xy ex_marks) (map to_metro ex_metrology) true false true true = Ok (t, gd', Some cols')) in E3. rewrite Ef in E3. injection E3 as <- _ _. rewrite ex_fvc2fp in E4. injection E4 as <-.
  change (get_expected_pos (match expected with Some t => t | None => metrology_table ex_metrology end) = Ok exp') in E5. rewrite Ee in E5. injection E5 as <-.
  exists partner. split; [exact H|]. intros k p m Hp Hm. apply (Hr k p stale m p); [unfold ex_detected; rewrite nth_error_map, Hp; reflexivity|exact Hm|exact Hp].
Qed.
Definition ex_expected : list expected := [{| e_fp := (500, 500); e_location := 7; e_petal_device := Some (0, 7)%Z |}].
Lemma ex_default : get_expected_pos (metrology_table ex_metrology) = Ok ex_expected.
Proof. reflexivity. Qed.
(** The fourth spot is pinhole 4 of the third fiducial; the fifth is the fibre. *)
Example C93_example : exists rows r3 r4, fst (ex_process (ex_settings None None None) (ex_after []) (ex_detected (0, 0))) = Ok (Some rows) /\
  nth_error rows 3 = Some r3 /\ r_location r3 = 1543%Z /\ r_pinhole r3 = 4%Z /\ r_fp r3 = (1 + 15, 1000 + 8) /\
  nth_error rows 4 = Some r4 /\ r_location r4 = 7%Z /\ r_exp r4 = (500, 500).
Proof.
  destruct (ex_rows None ex_expected (0, 0) ex_default) as (rows & partner & H & Hr); [discriminate|]. exists rows.
  destruct (Hr 3%nat _ _ eq_refl eq_refl) as (r3 & H3 & [_ P3 I3 F3 O3 _ _ _]). destruct (Hr 4%nat _ _ eq_refl eq_refl) as (r4 & H4 & [_ _ _ F4 _ _ _ N4]). exists r3, r4. split; [exact H|]. split; [exact H3|].
  assert (L3 : r_location r3 = 1543%Z). { destruct (partner 3%nat) as [j|]; [destruct (F3 j eq_refl) as (X & _); discriminate|]. now apply (O3 eq_refl). }
  split; [exact L3|]. split; [exact I3|]. split; [exact P3|]. split; [exact H4|].
  assert (D : distance (500, 500) (500, 500) = 0) by (unfold distance; cbn [fst snd]; replace ((500 - 500) ^ 2 + (500 - 500) ^ 2) with 0 by ring; apply sqrt_0).
  destruct (partner 4%nat) as [j|] eqn:Pk.
  - destruct (F4 j eq_refl) as (_ & _ & e & He & _ & _ & EL & EE & _). destruct j as [|[|j]]; [|discriminate|discriminate]. injection He as <-. split; [exact EL|exact EE].
  - exfalso. destruct (N4 eq_refl eq_refl) as (j & e & He & _ & [F|(k' & fp' & Pk' & Hf & Le)]); (destruct j as [|[|j]]; [|discriminate|discriminate]); injection He as <-; cbn [e_fp ex_settings g_max_match_distance] in *.
    + rewrite D in F. lra.
    + rewrite D in Le. assert (Q : exists m, nth_error ex_marks k' = Some m) by (destruct (nth_error_length FindFiducials.ex_xy ex_marks k' fp' eq_refl Hf) as [m Hm]; eauto). destruct Q as [m Hm]. destruct (Hr k' fp' m Hf Hm) as (r' & _ & [_ _ _ F' _ _ _ _]). destruct (F' 0%nat Pk') as (-> & _).
      do 13 (destruct k' as [|k']; [try discriminate; congruence|]). destruct k'; discriminate.
Qed.
(** The hypotheses of C94 hold for the fibre. *)
Example C94_example : exists e fp, nth_error ex_expected 0 = Some e /\ nth_error FindFiducials.ex_xy 4 = Some fp /\ distance fp (e_fp e) < 7 /\
  (forall j' e', nth_error ex_expected j' = Some e' -> j' <> 0%nat -> distance fp (e_fp e) < distance fp (e_fp e')) /\
  forall k' fp' m', nth_error FindFiducials.ex_xy k' = Some fp' -> nth_error ex_marks k' = Some m' -> k_location m' = (-1)%Z -> k' <> 4%nat -> distance fp (e_fp e) < distance fp' (e_fp e).
Proof.
  exists {| e_fp := (500, 500); e_location := 7; e_petal_device := Some (0, 7)%Z |}, (500, 500). split; [reflexivity|]. split; [reflexivity|]. split; [unfold distance; cbn [fst snd e_fp]; replace ((500 - 500) ^ 2 + (500 - 500) ^ 2) with 0 by ring; rewrite sqrt_0; lra|]. split.
  - intros [|[|j]] e' H N; [contradiction|discriminate|discriminate].
  - intros k' fp' m' _ H L N. do 13 (destruct k' as [|k']; [cbn in H; injection H as <-; cbn in L; (discriminate || now contradiction N)|]). destruct k'; discriminate.
Qed.
(** Measured positions kept by the correction, the sky as the focal plane. *)
Example C95_example : exists rows, fst (ex_process (ex_settings (Some (metrology_table ex_metrology)) (Some (fun l => Ok (map fst l))) (Some (fun l => Ok l))) (ex_after []) (ex_detected (0, 0))) = Ok (Some rows).
Proof. apply (ex_returns (Some (metrology_table ex_metrology)) _ _ ex_expected (0, 0) ex_default); [discriminate| |]; intros f l E; injection E as <-; eauto. Qed.
(** X_FP_EXP is not 0, or that of a match: a spot without match keeps that of the table read. *)
Theorem C93_expected_refuted : exists argsort query2 query3 query4 minimize g detected rows r,
  is_argsort argsort /\ nearest_query query2 /\ near_query query4 /\ usable_metrology (g_metrology g) /\
  fst (process argsort query2 query3 query4 minimize g (after argsort query2 query3 query4 []) detected) = Ok (Some rows) /\ In r rows /\
  r_location r = (-1)%Z /\ r_exp r = (3, 4).
Proof.
  set (t := {| x_fp := Some [(100, 100)]; x_fp_exp := None; exp_qs := None; x_location := Some [7%Z]; x_petal_device := None; x_pinhole := None |}).
  destruct (ex_rows (Some t) [{| e_fp := (100, 100); e_location := 7; e_petal_device := None |}] (3, 4) eq_refl) as (rows & partner & H & Hr); [discriminate|].
  destruct (Hr 4%nat _ _ eq_refl eq_refl) as (r & Hk & [_ _ _ F O _ M _]). exists isort_argsort, (scan_query distance), (scan_query distance3), (near_scan distance), (fun _ p => Ok p), (ex_settings (Some t) None None), (ex_detected (3, 4)), rows, r.
  split; [apply isort_is_argsort|]. split; [apply KDTree.scan_query2|]. split; [apply NearScan.near_scan_ok|]. split; [exact ex_usable|]. split; [exact H|]. split; [exact (nth_error_In _ _ Hk)|].
  destruct (partner 4%nat) as [j|].
  - exfalso. destruct (F j eq_refl) as (_ & _ & e & He & _ & D & _). destruct j as [|[|j]]; [|discriminate|discriminate]. injection He as <-. cbn [e_fp ex_settings g_max_match_distance] in D. apply FindFiducials.close in D; lra.
  - destruct (O eq_refl) as (L & _ & _ & E). specialize (M eq_refl). rewrite M in E. cbn [fst snd] in E. destruct (Req_EM_T 0 0); [|contradiction]. split; [exact L|exact E].
Qed.
Print Assumptions C93_expected_refuted.
(** One image of a sequence. *)
Example C96_example : exists rows, let o := {| f_infile := "fvc-00055655.fits"; f_outfile := "out.csv"; f_threshold := false; f_sequence := true; f_nomatch := false; f_min_spots := Some 10%Z; f_max_spots := None |} in
  let r := run isort_argsort (scan_query distance) (scan_query distance3) (near_scan distance) (fun _ p => Ok p) o (ex_settings None None None) (ex_after []) (fun _ => None) [("F0000", ex_detected (0, 0))] in
  fst (fst r) = Ok 0%Z /\ snd r "out-F0000.csv" = Some (Rows rows).
Proof.
  destruct C93_example as (rows & _ & _ & H & _). exists rows. cbv zeta. cbn [run outside f_min_spots f_max_spots f_nomatch]. change (outside _ _) with false. cbn iota.
  destruct (process _ _ _ _ _ _ _ _) as [r c]. cbn [fst] in H. subst r. split; reflexivity.
Qed.
