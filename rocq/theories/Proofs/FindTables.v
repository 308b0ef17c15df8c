From Verif.Model Require Import FindFiducials.
From Verif.Spec Require Import Numpy Match FindFiducials.
From Verif.Proofs Require Import Prelude Numpy RealNum FindFiducials.
From Verif.Proofs Require Match MatchPositioners.
From Coq Require Import Lra Lia.
From Coq Require String.
Local Open Scope R_scope.
Local Open Scope list_scope.

(** *** The smallest entry *)
Lemma argmin_from_spec l : forall pre best m, nth_error pre best = Some m -> (forall j x, nth_error pre j = Some x -> m <= x /\ (x = m -> (best <= j)%nat)) ->
  exists m', nth_error (pre ++ l) (argmin_from (length pre) best m l) = Some m' /\
    forall j x, nth_error (pre ++ l) j = Some x -> m' <= x /\ (x = m' -> (argmin_from (length pre) best m l <= j)%nat).
Proof.
  induction l as [|y l IH]; intros pre best m Hb H; cbn [argmin_from].
  - rewrite app_nil_r. eauto.
  - replace (S (length pre)) with (length (pre ++ [y])) by (rewrite app_length; cbn; lia). replace (pre ++ y :: l) with ((pre ++ [y]) ++ l) by (rewrite <- app_assoc; reflexivity).
    destruct (Rltb y m) eqn:E; [apply Rltb_true in E|apply Rltb_false in E]; apply IH.
    + rewrite nth_error_app2, Nat.sub_diag by lia. reflexivity.
    + intros j x Hj. destruct (Nat.lt_ge_cases j (length pre)) as [L|L].
      * rewrite nth_error_app1 in Hj by exact L. destruct (H _ _ Hj). split; [lra|intros; lra].
      * rewrite nth_error_app2 in Hj by exact L. destruct (j - length pre)%nat as [|n] eqn:En; [|destruct n; discriminate]. injection Hj as <-. split; [lra|intros; lia].
    + rewrite nth_error_app1; [exact Hb|]. apply nth_error_Some. congruence.
    + intros j x Hj. destruct (Nat.lt_ge_cases j (length pre)) as [L|L].
      * rewrite nth_error_app1 in Hj by exact L. auto.
      * rewrite nth_error_app2 in Hj by exact L. destruct (j - length pre)%nat as [|n] eqn:En; [|destruct n; discriminate]. injection Hj as <-. split; [lra|intros _].
        assert (best < length pre)%nat by (apply nth_error_Some; congruence). lia.
Qed.
Lemma argmin_spec l k : argmin l = Ok k -> exists m, nth_error l k = Some m /\ forall j x, nth_error l j = Some x -> m <= x /\ (x = m -> (k <= j)%nat).
Proof.
  destruct l as [|a l]; [discriminate|]. cbn [argmin]. intros [= <-]. apply (argmin_from_spec l [a] 0 a); [reflexivity|].
  intros [|j] x; cbn; [intros [= <-]|destruct j; discriminate]. split; [lra|lia].
Qed.
Lemma argmin_total l : l <> [] -> exists k, argmin l = Ok k.
Proof. destruct l; [contradiction|]. cbn. eauto. Qed.

(** *** The central pinhole of a location *)
Lemma mean_Ok l : l <> [] -> mean l = Ok (fold_right Rplus 0 l / INR (length l)).
Proof. destruct l; [contradiction|reflexivity]. Qed.
Lemma sq_le p q m : (fst p - fst m) ^ 2 + (snd p - snd m) ^ 2 <= (fst q - fst m) ^ 2 + (snd q - snd m) ^ 2 <-> distance p m <= distance q m.
Proof. unfold distance. split; intros H; [now apply sqrt_le_1_alt|]. apply sqrt_le_0; [apply Rplus_le_le_0_compat; apply pow2_ge_0..|exact H]. Qed.
Lemma sq_eq p q m : distance p m = distance q m -> (fst p - fst m) ^ 2 + (snd p - snd m) ^ 2 = (fst q - fst m) ^ 2 + (snd q - snd m) ^ 2.
Proof. intros H. apply Rle_antisym; apply sq_le; lra. Qed.

Lemma where_filter {A} (f : A -> bool) (l : list A) i k : nth_error (where_ f l) i = Some k -> exists a, nth_error l k = Some a /\ nth_error (filter f l) i = Some a.
Proof.
  intros H. destruct (MatchPositioners.where_take f l) as (r & E & -> & N). specialize (N i). rewrite H in N. apply nth_error_In in H as Hin. apply where_spec in Hin as (a & Ha & _). exists a. split; [exact Ha|congruence].
Qed.
Lemma where_filter_nth {A} (f : A -> bool) (l : list A) i a : nth_error (filter f l) i = Some a -> exists k, nth_error (where_ f l) i = Some k /\ nth_error l k = Some a.
Proof.
  intros H. destruct (MatchPositioners.where_take f l) as (r & E & -> & N). specialize (N i). rewrite H in N. destruct (nth_error (where_ f l) i) as [k|]; [|discriminate]. eauto.
Qed.

Lemma central_pinhole_spec pinholes L : at_location pinholes L <> [] ->
  exists k p, central_pinhole pinholes L = Ok k /\ nth_error pinholes k = Some p /\ In p (at_location pinholes L) /\ central (map p_pix (at_location pinholes L)) (p_pix p).
Proof.
  intros Hne. unfold central_pinhole. set (ii := where_ _ pinholes).
  assert (ET : take (map p_pix pinholes) ii = Ok (map p_pix (at_location pinholes L))).
  { apply take_Ok. pose proof (proj1 (take_Ok _ _ _) (take_where (fun p => Z.eqb (p_location p) L) pinholes)) as F. fold ii in F. fold (at_location pinholes L) in F.
    clear -F. induction F as [|i p l m H F IH]; cbn [map]; constructor; [now rewrite nth_error_map, H|exact IH]. }
  rewrite ET. cbn [rbind]. set (l := map p_pix (at_location pinholes L)). assert (Hl : l <> []) by (unfold l; destruct (at_location pinholes L); [contradiction|discriminate]).
  assert (N1 : map fst l <> []) by (destruct l; [contradiction|discriminate]). assert (N2 : map snd l <> []) by (destruct l; [contradiction|discriminate]).
  rewrite !mean_Ok by assumption. cbn [rbind]. rewrite !map_length. change (fold_right Rplus 0 (map fst l) / INR (length l)) with (fst (mean_point l)). change (fold_right Rplus 0 (map snd l) / INR (length l)) with (snd (mean_point l)).
  set (m := mean_point l). destruct (argmin_total (map (fun p => (fst p - fst m) ^ 2 + (snd p - snd m) ^ 2) l)) as [k Ek]; [destruct l; [contradiction|discriminate]|].
  rewrite Ek. cbn [rbind]. apply argmin_spec in Ek as (v & Hv & Hmin). rewrite nth_error_map in Hv. destruct (nth_error l k) as [q|] eqn:Eq; [|discriminate]. injection Hv as <-.
  unfold l in Eq. rewrite nth_error_map in Eq. destruct (nth_error (at_location pinholes L) k) as [p|] eqn:Ep; [|discriminate]. injection Eq as <-.
  destruct (where_filter_nth _ _ _ _ Ep) as (n & Hn & Hp). fold ii in Hn. exists n, p. unfold geti. rewrite Hn. split; [reflexivity|]. split; [exact Hp|]. split; [eapply nth_error_In; eauto|].
  exists k. split; [unfold l; now rewrite nth_error_map, Ep|]. intros j q Hj. fold l m. fold l in Hj. destruct (Hmin j ((fst q - fst m) ^ 2 + (snd q - snd m) ^ 2)) as [H1 H2]; [now rewrite nth_error_map, Hj|].
  split; [now apply sq_le|]. intros E. apply H2. now apply sq_eq.
Qed.

(** *** The tables *)
Definition is_fiducial (v : device) : bool := (String.eqb (v_type v) "FIF" || String.eqb (v_type v) "GIF")%bool.
Definition fiducial_devices (metrology : list device) : list device := filter is_fiducial metrology.
Definition as_pinhole '((v, p) : device * point) : pinhole := {| p_location := v_location v; p_id := v_pinhole v; p_pix := p |}.

Lemma at_location_In pinholes L p : In p (at_location pinholes L) <-> In p pinholes /\ p_location p = L.
Proof. unfold at_location. rewrite filter_In, Z.eqb_eq. reflexivity. Qed.

Lemma make_tables_spec t metrology pix : fp2fvc t (map v_fp (fiducial_devices metrology)) = Ok pix ->
  let pinholes := map as_pinhole (combine (fiducial_devices metrology) pix) in
  exists fiducials, make_tables t metrology = Ok (pinholes, fiducials) /\ map p_location fiducials = unique (map p_location pinholes) /\
    forall f, In f fiducials -> In f pinholes /\ central (map p_pix (at_location pinholes (p_location f))) (p_pix f).
Proof.
  intros E pinholes. unfold make_tables. fold is_fiducial. change (filter _ metrology) with (fiducial_devices metrology). rewrite E. cbn [rbind].
  change (map _ (combine (fiducial_devices metrology) pix)) with pinholes. clearbody pinholes. clear E pix.
  assert (H : forall locs, (forall L, In L locs -> In L (map p_location pinholes)) -> exists cs fs, rmapM (central_pinhole pinholes) locs = Ok cs /\ take pinholes cs = Ok fs /\ map p_location fs = locs /\
    forall f, In f fs -> In f pinholes /\ central (map p_pix (at_location pinholes (p_location f))) (p_pix f)).
  { induction locs as [|L locs IH]; intros H; [exists [], []; split; [reflexivity|split; [reflexivity|split; [reflexivity|intros ? []]]]|].
    destruct IH as (cs & fs & E1 & E2 & E3 & E4); [intros; apply H; now right|].
    destruct (central_pinhole_spec pinholes L) as (k & p & Ek & Hk & Hin & C).
    { intros N. specialize (H L (or_introl eq_refl)). apply in_map_iff in H as (p & HL & Hp). assert (Hin : In p (at_location pinholes L)) by now apply at_location_In. rewrite N in Hin. destruct Hin. }
    apply at_location_In in Hin as [Hin HL]. exists (k :: cs), (p :: fs). cbn [rmapM]. rewrite Ek. cbn [rbind]. rewrite E1. split; [reflexivity|]. split; [|split].
    - unfold take in *. cbn [rmapM]. unfold geti at 1. rewrite Hk. cbn [rbind]. rewrite E2. reflexivity.
    - cbn [map]. congruence.
    - intros f [<-|Hf]; [rewrite HL; auto|auto]. }
  destruct (H (unique (map p_location pinholes))) as (cs & fs & E1 & E2 & E3 & E4); [intros L; apply unique_In|].
  rewrite E1. cbn [rbind]. rewrite E2. cbn [rbind]. exists fs. auto.
Qed.
Lemma make_tables_Ok t metrology r : make_tables t metrology = Ok r -> exists pix, fp2fvc t (map v_fp (fiducial_devices metrology)) = Ok pix.
Proof. unfold make_tables. change (filter _ metrology) with (fiducial_devices metrology). destruct (fp2fvc _ _) as [pix|]; [eauto|discriminate]. Qed.

(** *** The module variables *)
Section Calls.
Variable argsort : forall K, (K -> K -> bool) -> list K -> list nat.
Variable query2 : list point -> point -> edist * nat.
Variable query3 : list descr -> descr -> edist * nat.
Variable query4 : list point -> R -> point -> list (edist * nat).
Notation after := (after argsort query2 query3 query4).
Notation call_with := (call_with argsort query2 query3 query4).

Lemma max_separation_spec t mm sep : max_separation t mm = Ok sep ->
  exists a b, fvc2fp t [(2000, 0)] = Ok [a] /\ fvc2fp t [(2001, 0)] = Ok [b] /\ distance a b <> 0 /\ sep = mm / distance a b.
Proof.
  unfold max_separation. replace (2000 + 1) with 2001 by lra. intros H.
  destruct (fvc2fp t [(2000, 0)]) as [[|a l]|] eqn:Ea; cbn [rbind] in H; try discriminate; [unfold fvc2fp in Ea; apply rmapM_Ok_Forall2 in Ea; inversion Ea|].
  assert (l = []) as ->. { unfold fvc2fp in Ea. apply rmapM_Ok_Forall2 in Ea. inversion Ea as [|? ? ? ? _ F]. inversion F. reflexivity. }
  destruct (fvc2fp t [(2001, 0)]) as [[|b l]|] eqn:Eb; cbn [rbind geti nth_error] in H; try discriminate.
  assert (l = []) as ->. { unfold fvc2fp in Eb. apply rmapM_Ok_Forall2 in Eb. inversion Eb as [|? ? ? ? _ F]. inversion F. reflexivity. }
  cbn in H. destruct (Reqb (dist2d b a) 0) eqn:E; [discriminate|]. apply Reqb_false in E. injection H as <-. exists a, b. split; [reflexivity|]. split; [reflexivity|].
  assert (D : dist2d b a = distance a b). { rewrite <- Match.distance_dist2d. unfold distance. f_equal. ring. }
  rewrite <- D. auto.
Qed.

(** The tables come from one of the calls, or there are none. *)
Lemma after_spec calls t : after calls = Some t -> exists c, In c calls /\ make_tables (a_tx c) (a_metrology c) = Ok t.
Proof.
  unfold FindFiducials.after. assert (G : forall l cache, fold_left (fun cache c => snd (call_with cache c)) l cache = Some t ->
    cache = Some t \/ exists c, In c l /\ make_tables (a_tx c) (a_metrology c) = Ok t).
  { induction l as [|c l IH]; intros cache; cbn [fold_left]; [auto|]. intros H. destruct (IH _ H) as [E|(c' & Hin & E)]; [|right; exists c'; split; [now right|exact E]].
    unfold FindFiducials.call_with, findfiducials in E. destruct (max_separation _ _) as [sep|]; [|now left]. destruct cache as [[ph fi]|]; [now left|].
    destruct (make_tables _ _) as [[ph fi]|] eqn:Em; [|discriminate]. cbn [snd] in E. right. exists c. split; [now left|]. injection E as <-. exact Em. }
  intros H. destruct (G _ _ H) as [?|?]; [discriminate|assumption].
Qed.
(** Once set they stay. *)
Lemma after_keeps calls calls' t : after calls = Some t -> after (calls ++ calls') = Some t.
Proof.
  unfold FindFiducials.after. rewrite fold_left_app. intros ->. induction calls' as [|c l IH]; cbn [fold_left]; [reflexivity|].
  unfold FindFiducials.call_with at 2, findfiducials. destruct (max_separation _ _) as [sep|]; [|exact IH]. destruct t. exact IH.
Qed.
Lemma call_tables calls c marks : fst (call_with (after calls) c) = Ok marks ->
  exists c0 sep pinholes fiducials, In c0 (calls ++ [c]) /\ make_tables (a_tx c0) (a_metrology c0) = Ok (pinholes, fiducials) /\ max_separation (a_tx c) (a_mm c) = Ok sep /\
    find_with argsort query2 query3 query4 sep pinholes fiducials (a_xy c) = Ok marks.
Proof.
  unfold FindFiducials.call_with, findfiducials. destruct (max_separation _ _) as [sep|]; [|discriminate]. destruct (after calls) as [[ph fi]|] eqn:E.
  - apply after_spec in E as (c0 & Hin & Em). cbn [fst]. intros H. exists c0, sep, ph, fi. split; [apply in_or_app; now left|auto].
  - destruct (make_tables _ _) as [[ph fi]|] eqn:Em; [|discriminate]. cbn [fst]. intros H. exists c, sep, ph, fi. split; [apply in_or_app; right; now left|auto].
Qed.
End Calls.

(** *** What the labels mean *)
Definition positions_of (devices : list device) (pix : list point) (L : Z) : list point :=
  map snd (filter (fun '(v, _) => Z.eqb (v_location v) L) (combine devices pix)).
Lemma at_location_positions devices pix L : map p_pix (at_location (map as_pinhole (combine devices pix)) L) = positions_of devices pix L.
Proof.
  unfold at_location, positions_of. induction (combine devices pix) as [|[v p] l IH]; cbn [map filter]; [reflexivity|]. cbn [as_pinhole p_location]. destruct (v_location v =? L)%Z; cbn [map]; [f_equal; exact IH|exact IH].
Qed.

Lemma labels_spec argsort query2 query3 query4 calls c marks :
  is_argsort argsort -> nearest_query query2 -> near_query query4 ->
  (forall c' v, In c' (calls ++ [c]) -> In v (a_metrology c') -> (0 <= v_location v)%Z) ->
  fst (call_with argsort query2 query3 query4 (after argsort query2 query3 query4 calls) c) = Ok marks ->
  exists c0 pix fp0 fp1 sep A, In c0 (calls ++ [c]) /\ fp2fvc (a_tx c0) (map v_fp (fiducial_devices (a_metrology c0))) = Ok pix /\
    fvc2fp (a_tx c) [(2000, 0)] = Ok [fp0] /\ fvc2fp (a_tx c) [(2001, 0)] = Ok [fp1] /\ sep * distance fp0 fp1 = a_mm c /\
    affine_map A /\ length marks = length (a_xy c) /\
    (forall k m, nth_error marks k = Some m -> m = {| k_location := -1; k_petal_loc := -1; k_device_loc := -1; k_pinhole := 0 |} \/
       exists L centre close spot, (0 <= L)%Z /\ k_location m = L /\ k_petal_loc m = (L / 1000)%Z /\ k_device_loc m = (L mod 1000)%Z /\
         central (positions_of (fiducial_devices (a_metrology c0)) pix L) centre /\
         nearest_crowded (a_xy c) sep (A centre) close /\ distance (A centre) close < 10 /\
         nth_error (a_xy c) k = Some spot /\ distance close spot < sep /\
         (k_pinhole m = 0%Z \/ exists v, In v (fiducial_devices (a_metrology c0)) /\ v_location v = L /\ v_pinhole v = k_pinhole m)) /\
    (forall k k' m m', nth_error marks k = Some m -> nth_error marks k' = Some m' -> k_location m = k_location m' -> k_pinhole m = k_pinhole m' -> (0 < k_pinhole m)%Z -> k = k').
Proof.
  intros Ha Hq2 Hq4 HL H. apply call_tables in H as (c0 & sep & ph & fi & Hin & Em & Es & Ef).
  destruct (make_tables_Ok _ _ _ Em) as [pix Ep]. destruct (make_tables_spec _ _ _ Ep) as (fi' & Em' & Hloc & Hcen). rewrite Em in Em'. injection Em' as -> <-.
  set (dev := fiducial_devices (a_metrology c0)) in *. set (ph := map as_pinhole (combine dev pix)) in *.
  apply max_separation_spec in Es as (fp0 & fp1 & E0 & E1 & Nz & ->).
  assert (PH : forall p, In p ph -> exists v, In v dev /\ v_location v = p_location p /\ v_pinhole v = p_id p).
  { intros p Hp. unfold ph in Hp. apply in_map_iff in Hp as ([v q] & <- & Hp). exists v. split; [eapply in_combine_l; eauto|auto]. }
  assert (LOC : forall v, In v dev -> (0 <= v_location v)%Z). { intros v Hv. apply (HL c0 v Hin). unfold dev, fiducial_devices in Hv. apply filter_In in Hv. tauto. }
  edestruct (find_with_spec argsort Ha query2 Hq2 query3 query4 Hq4) as (labels & A & -> & Ll & HA & T & U).
  - rewrite Hloc. apply unique_NoDup.
  - intros f Hf. apply Hcen in Hf as [Hf _]. apply PH in Hf as (v & Hv & Ev & _). specialize (LOC v Hv). lia.
  - exact Ef.
  - exists c0, pix, fp0, fp1, (a_mm c / distance fp0 fp1), A. split; [exact Hin|]. split; [exact Ep|]. split; [exact E0|]. split; [exact E1|]. split; [field; exact Nz|]. split; [exact HA|]. split; [now rewrite map_length|].
    assert (LAB : forall k loc id, nth_error labels k = Some (loc, id) -> (loc, id) = (-1, 0)%Z \/ (0 <= loc)%Z).
    { intros k loc id Hk. destruct (T _ _ _ Hk) as [|(i & j & q & f & _ & Hf & _ & _ & f' & _ & _ & _ & _ & _ & _ & _ & Hf' & <- & _)]; [now left|right]. cbn [snd] in Hf'. assert (f' = f) by congruence. subst f'.
      apply nth_error_In in Hf. apply Hcen in Hf as [Hf _]. apply PH in Hf as (v & Hv & Ev & _). specialize (LOC v Hv). lia. }
    split.
    + intros k m Hk. rewrite nth_error_map in Hk. destruct (nth_error labels k) as [[loc id]|] eqn:El; [|discriminate]. injection Hk as <-.
      destruct (LAB _ _ _ El) as [[= -> ->]|L0]; [now left|]. destruct (T _ _ _ El) as [[= -> ->]|(i & j & q & f & Hq & Hf & Hn & Hd & f' & near & xy1 & ind & dis & m & j' & p & Hf' & <- & Hnear & Ex & EM & Hm & Hind & Hp & Hid)]; [lia|].
      right. cbn [fst snd] in *. assert (f' = f) by congruence. subst f'. assert (Hin' := Hf). apply nth_error_In in Hin'. apply Hcen in Hin' as [Hf1 C]. unfold ph in C. rewrite at_location_positions in C.
      rewrite nth_error_map, Hq in Hnear. injection Hnear as <-. rewrite neighbours_found in Hm by exact Hq4. apply nth_error_In in Hm. destruct (found_close query4 Hq4 _ _ _ _ Hm) as (spot & Hspot & Hsp).
      exists (p_location f), (p_pix f), q, spot. split; [exact L0|]. unfold marks_of. cbn [fst snd]. rewrite (proj2 (Z.leb_le _ _) L0). cbn [k_location k_petal_loc k_device_loc k_pinhole].
      split; [reflexivity|]. split; [reflexivity|]. split; [reflexivity|]. split; [exact C|]. split; [exact Hn|]. split; [exact Hd|]. split; [exact Hspot|]. split; [exact Hsp|].
      destruct Hid as [->|[-> _]]; [right|now left]. apply nth_error_In in Hp. apply at_location_In in Hp as [Hp Hl]. apply PH in Hp as (v & Hv & Ev & Eid). exists v. split; [exact Hv|]. split; [congruence|exact Eid].
    + intros k k' m m' Hk Hk' E1' E2' Hpos. rewrite nth_error_map in Hk, Hk'. destruct (nth_error labels k) as [[loc id]|] eqn:El; [|discriminate]. destruct (nth_error labels k') as [[loc' id']|] eqn:El'; [|discriminate].
      injection Hk as <-. injection Hk' as <-.
      assert (M : forall l i, k_location (marks_of (l, i)) = l /\ k_pinhole (marks_of (l, i)) = i) by (intros l i; unfold marks_of; cbn [fst snd]; destruct (0 <=? l)%Z; auto).
      destruct (M loc id) as [M1 M2]. destruct (M loc' id') as [M1' M2']. rewrite M1, M1' in E1'. rewrite M2, M2' in E2'. rewrite M2 in Hpos. subst loc' id'. exact (U _ _ _ _ Hpos El El').
Qed.
