From Verif.Model Require Import FindFiducials.
From Verif.Spec Require Import Numpy Match LinAlg SimpleCorr FindFiducials.
From Verif.Proofs Require Import Prelude Numpy RealNum FindFiducials FindTables FindRecover.
From Verif.Proofs Require Match MatchTriangles MatchRecover MatchPositioners SimpleCorr AverageCoord.
From Coq Require Import Lra Lia.
Local Open Scope R_scope.
Local Open Scope list_scope.

Lemma finite_choice n (P : nat -> nat -> Prop) : (forall m, (m < n)%nat -> exists j, P m j) -> exists sigma, forall m, (m < n)%nat -> P m (sigma m).
Proof.
  induction n as [|n IH]; intros H; [exists (fun _ => O); intros; lia|]. destruct IH as [sigma Hs]; [intros; apply H; lia|]. destruct (H n) as [j Hj]; [lia|].
  exists (fun m => if Nat.eqb m n then j else sigma m). intros m Hm. destruct (Nat.eqb_spec m n) as [->|N]; [exact Hj|]. apply Hs. lia.
Qed.
(** Indices of the entries of a sublist. *)
Lemma indices_exist {A} (xy l : list A) : (forall q, In q l -> In q xy) -> exists ks, Forall2 (fun k q => nth_error xy k = Some q) ks l.
Proof.
  induction l as [|q l IH]; intros H; [exists []; constructor|]. destruct IH as [ks F]; [intros; apply H; now right|]. destruct (In_nth_error xy q (H q (or_introl eq_refl))) as [k Hk]. exists (k :: ks). now constructor.
Qed.
Lemma indices_NoDup {A} (xy l : list A) ks : Forall2 (fun k q => nth_error xy k = Some q) ks l -> NoDup l -> NoDup ks.
Proof.
  intros F. induction F as [|k q ks l H F IH]; intros N; constructor; apply NoDup_cons_iff in N as [N1 N2]; [|auto]. intros Hin. apply N1. apply In_nth_error in Hin as [m Hm].
  destruct (nth_error_length ks l m k (Forall2_length _ _ _ F) Hm) as [q' Hq']. pose proof (Forall2_nth _ _ _ F _ _ _ Hm Hq') as E. cbn beta in E. assert (q' = q) by congruence. subst. eapply nth_error_In; eauto.
Qed.
Lemma entries_NoDup {A} (xy l : list A) ks : Forall2 (fun k q => nth_error xy k = Some q) ks l -> NoDup xy -> NoDup ks -> NoDup l.
Proof.
  intros F NX. induction F as [|k q ks l H F IH]; intros N; constructor; apply NoDup_cons_iff in N as [N1 N2]; [|auto]. intros Hin. apply N1. apply In_nth_error in Hin as [m Hm].
  destruct (nth_error_length l ks m q (eq_sym (Forall2_length _ _ _ F)) Hm) as [k' Hk']. pose proof (Forall2_nth _ _ _ F _ _ _ Hk' Hm) as E. cbn beta in E.
  assert (k' = k). { rewrite NoDup_nth_error in NX. apply NX; [apply nth_error_Some; congruence|congruence]. } subst. eapply nth_error_In; eauto.
Qed.

Section Groups.
Variables (s u v : R).
Hypothesis s_pos : 0 < s.
Definition dilate (p : point) : point := (s * fst p + u, s * snd p + v).
Variables (xy : list point) (sep : R) (pinholes : list pinhole).
Definition image (p : pinhole) : point := dilate (p_pix p).

Hypothesis xy_NoDup : NoDup xy.
Hypothesis pinholes_NoDup : NoDup (map p_pix pinholes).
Hypothesis all_seen : forall p, In p pinholes -> In (image p) xy.
Hypothesis together : forall p q, In p pinholes -> In q pinholes -> p_location p = p_location q -> distance (image p) (image q) < sep.
Hypothesis isolated : forall p spot, In p pinholes -> In spot xy -> distance (image p) spot < sep -> exists q, In q pinholes /\ p_location q = p_location p /\ spot = image q.
Hypothesis four : forall p, In p pinholes -> length (at_location pinholes (p_location p)) = 4%nat.
Hypothesis generic : forall p, In p pinholes -> NoDup (map fst (map p_pix (at_location pinholes (p_location p)))) /\ distinct_shapes (map p_pix (at_location pinholes (p_location p))).
Hypothesis ids : forall p q, In p pinholes -> In q pinholes -> p_location p = p_location q -> p_id p = p_id q -> p = q.
Hypothesis ids_pos : forall p, In p pinholes -> (0 < p_id p)%Z.

Lemma dilate_inj p q : dilate p = dilate q -> p = q.
Proof. destruct p, q. unfold dilate. cbn [fst snd]. intros [= H1 H2]. f_equal; nra. Qed.
Lemma image_inj p q : In p pinholes -> In q pinholes -> image p = image q -> p = q.
Proof.
  intros Hp Hq E. apply dilate_inj in E. apply In_nth_error in Hp as [i Hi]. apply In_nth_error in Hq as [j Hj].
  assert (i = j). { rewrite NoDup_nth_error in pinholes_NoDup. apply pinholes_NoDup; [rewrite map_length; apply nth_error_Some; congruence|]. rewrite !nth_error_map, Hi, Hj. cbn. congruence. }
  congruence.
Qed.
Lemma ph_NoDup L : NoDup (at_location pinholes L).
Proof. apply NoDup_filter. exact (NoDup_map_inv _ _ pinholes_NoDup). Qed.
Lemma ph_images_NoDup L : NoDup (map image (at_location pinholes L)).
Proof.
  assert (N := ph_NoDup L). assert (I : forall p, In p (at_location pinholes L) -> In p pinholes) by (intros p H; apply at_location_In in H; tauto).
  induction N as [|p l Hp N IH]; cbn; constructor.
  - intros H. apply in_map_iff in H as (q & E & Hq). apply image_inj in E; [subst; contradiction|apply I; now right|apply I; now left].
  - apply IH. intros q Hq. apply I. now right.
Qed.
Lemma image_crowded p : In p pinholes -> crowded xy sep (image p).
Proof.
  intros Hp. set (L := p_location p). destruct (indices_exist xy (map image (at_location pinholes L))) as [ks F].
  { intros q Hq. apply in_map_iff in Hq as (p' & <- & H'). apply at_location_In in H' as [H' _]. auto. }
  exists ks. split; [exact (indices_NoDup _ _ _ F (ph_images_NoDup L))|]. split; [rewrite (Forall2_length _ _ _ F), map_length; now apply four|].
  intros k Hk. apply In_nth_error in Hk as [m Hm]. destruct (nth_error_length _ _ m k (Forall2_length _ _ _ F) Hm) as [q Hq]. pose proof (Forall2_nth _ _ _ F _ _ _ Hm Hq) as E. cbn beta in E.
  exists q. split; [exact E|]. apply nth_error_In in Hq. apply in_map_iff in Hq as (p' & <- & H'). apply at_location_In in H' as [H' EL]. apply together; auto.
Qed.

Lemma shape_dilate a b c : fst a < fst b < fst c -> shape (dilate a) (dilate b) (dilate c) = shape a b c.
Proof.
  intros [H1 H2]. rewrite <- !MatchRecover.describe_shape; cbn [fst dilate]; try nra. unfold dilate. apply MatchRecover.describe_invariant; try exact s_pos; lra.
Qed.

Variable argsort : forall K, (K -> K -> bool) -> list K -> list nat.
Hypothesis argsort_ok : is_argsort argsort.
Variable query3 : list descr -> descr -> edist * nat.
Hypothesis query3_ok : nearest_query3 query3.
Variable query4 : list point -> R -> point -> list (edist * nat).
Hypothesis query4_ok : near_query query4.

Lemma group_found f : In f pinholes -> exists ps, Forall2 (fun k p => nth_error xy k = Some (image p)) (found (query4 xy sep (image f))) ps /\
  NoDup ps /\ (forall p, In p ps <-> In p pinholes /\ p_location p = p_location f).
Proof.
  intros Hf. set (fd := found (query4 xy sep (image f))).
  assert (NDf : NoDup fd) by apply query4_ok. assert (Lf : length fd = 4%nat) by (apply (crowded_found query4 query4_ok); now apply image_crowded).
  assert (EX : exists ps, Forall2 (fun k p => nth_error xy k = Some (image p)) fd ps /\ forall p, In p ps -> In p pinholes /\ p_location p = p_location f).
  { assert (H : forall k, In k fd -> exists p, nth_error xy k = Some (image p) /\ In p pinholes /\ p_location p = p_location f).
    { intros k Hk. destruct (found_close query4 query4_ok _ _ _ _ Hk) as (q & Hq & Hd). destruct (isolated f q Hf (nth_error_In _ _ Hq) Hd) as (p & Hp & HL & ->). eauto. }
    clearbody fd. clear NDf Lf. induction fd as [|k fd IH]; [exists []; split; [constructor|intros ? []]|]. destruct IH as (ps & F & HP); [intros; apply H; now right|]. destruct (H k (or_introl eq_refl)) as (p & Hk & Hp & HL).
    exists (p :: ps). split; [now constructor|]. intros q [<-|Hq]; auto. }
  destruct EX as (ps & F & HP). exists ps. split; [exact F|].
  assert (F' : Forall2 (fun k q => nth_error xy k = Some q) fd (map image ps)) by (clear -F; induction F; cbn; constructor; assumption).
  assert (NP : NoDup ps) by (apply (NoDup_map_inv image); exact (entries_NoDup _ _ _ F' xy_NoDup NDf)).
  split; [exact NP|]. intros p. split; [apply HP|]. intros [Hp HL]. apply (NoDup_length_incl (l' := at_location pinholes (p_location f)) NP).
  - rewrite four by exact Hf. rewrite <- (Forall2_length _ _ _ F), Lf. lia.
  - intros q Hq. apply at_location_In. auto.
  - now apply at_location_In.
Qed.

Lemma group_match f ps : In f pinholes -> NoDup ps -> (forall p, In p ps <-> In p pinholes /\ p_location p = p_location f) ->
  exists ind dis, match_arbitrary argsort query3 (map image ps) (map p_pix (at_location pinholes (p_location f))) = Ok (ind, dis) /\
    Forall2 (fun z p => exists j, z = Z.of_nat j /\ nth_error (at_location pinholes (p_location f)) j = Some p) ind ps.
Proof.
  intros Hf NP HP. set (L := p_location f) in *. set (ph := at_location pinholes L) in *.
  assert (LP : length ps = length ph). { apply PeanoNat.Nat.le_antisymm; apply NoDup_incl_length; try exact NP; try apply ph_NoDup; intros p Hp; [apply at_location_In; now apply HP|apply HP; now apply at_location_In]. }
  assert (L4 : length ph = 4%nat) by now apply four.
  destruct (finite_choice (length ps) (fun m j => exists p, nth_error ps m = Some p /\ nth_error ph j = Some p)) as [sigma Hs].
  { intros m Hm. destruct (nth_error ps m) as [p|] eqn:E; [|apply nth_error_None in E; lia]. assert (Hin : In p ph) by (apply at_location_In, HP; eapply nth_error_In; eauto). apply In_nth_error in Hin as [j Hj]. eauto. }
  destruct (generic f Hf) as [GX GS]. fold L in GX, GS. fold ph in GX, GS.
  assert (PSX : forall m p m' p', nth_error ps m = Some p -> nth_error ps m' = Some p' -> fst (p_pix p) = fst (p_pix p') -> m = m').
  { intros m p m' p' Hm Hm' E. assert (p = p'). { assert (H1 : In p ph) by (apply at_location_In, HP; eapply nth_error_In; eauto). assert (H2 : In p' ph) by (apply at_location_In, HP; eapply nth_error_In; eauto).
      apply In_nth_error in H1 as [a Ha]. apply In_nth_error in H2 as [b Hb]. assert (a = b). { rewrite map_map, NoDup_nth_error in GX. apply GX; [rewrite map_length; apply nth_error_Some; congruence|]. rewrite !nth_error_map, Ha, Hb. cbn. congruence. } congruence. }
    subst p'. rewrite NoDup_nth_error in NP. apply NP; [apply nth_error_Some; congruence|congruence]. }
  destruct (MatchRecover.recover argsort argsort_ok query3 query3_ok (map image ps) (map p_pix ph) sigma (/ s) (- u / s) (- v / s)) as (ind & dis & E & Li & H).
  - now apply Rinv_0_lt_compat.
  - now rewrite !map_length.
  - rewrite map_length. lia.
  - intros m q Hq. rewrite nth_error_map in Hq. destruct (nth_error ps m) as [p|] eqn:Em; [|discriminate]. injection Hq as <-. destruct (Hs m) as (p' & E' & Hj); [apply nth_error_Some; congruence|]. rewrite nth_error_map, Hj.
    assert (p' = p) by congruence. subst p'. cbn. f_equal. unfold image, dilate. destruct (p_pix p) as [a b]. cbn [fst snd]. f_equal; field; lra.
  - intros i j Hi Hj E. rewrite map_length in Hi, Hj. destruct (Hs i Hi) as (p & Hp & Hp'). destruct (Hs j Hj) as (q & Hq & Hq'). rewrite E in Hp'. assert (p = q) by congruence. subst q. rewrite NoDup_nth_error in NP. apply NP; [exact Hi|congruence].
  - rewrite NoDup_nth_error. intros i j Hi E. rewrite !map_length in Hi. rewrite !nth_error_map in E. destruct (nth_error ps i) as [p|] eqn:Ei; [|apply nth_error_None in Ei; lia]. destruct (nth_error ps j) as [q|] eqn:Ej; [|discriminate].
    cbn in E. injection E as E. eapply PSX; eauto. nra.
  - intros a b c a' b' c' Ha Hb Hc Ha' Hb' Hc' O O' E.
    apply in_map_iff in Ha as (pa & <- & Ha), Hb as (pb & <- & Hb), Hc as (pc & <- & Hc), Ha' as (pa' & <- & Ha'), Hb' as (pb' & <- & Hb'), Hc' as (pc' & <- & Hc'). unfold image in *.
    assert (O1 : fst (p_pix pa) < fst (p_pix pb) < fst (p_pix pc)) by (cbn [fst dilate] in O; nra). assert (O1' : fst (p_pix pa') < fst (p_pix pb') < fst (p_pix pc')) by (cbn [fst dilate] in O'; nra).
    rewrite !shape_dilate in E by assumption.
    assert (PH : forall p, In p ps -> In (p_pix p) (map p_pix ph)) by (intros p Hp; apply in_map, at_location_In, HP; exact Hp).
    destruct (GS (p_pix pa) (p_pix pb) (p_pix pc) (p_pix pa') (p_pix pb') (p_pix pc')) as (-> & -> & ->); auto.
  - exists ind, dis. split; [exact E|]. rewrite map_length in Li. clear -H Hs Li. rewrite map_length in H.
    assert (G : forall m, (m < length ps)%nat -> exists z p, nth_error ind m = Some z /\ nth_error ps m = Some p /\ exists j, z = Z.of_nat j /\ nth_error ph j = Some p).
    { intros m Hm. destruct (H m Hm) as [H1 _]. destruct (Hs m Hm) as (p & Hp & Hp'). exists (Z.of_nat (sigma m)), p. eauto. }
    clear H Hs. revert ind Li G. induction ps as [|p ps IH]; intros [|z ind] Li G; try discriminate; constructor.
    + destruct (G O) as (z' & p' & [= ->] & [= ->] & Hj); [cbn; lia|]. exact Hj.
    + apply IH; [now injection Li|]. intros m Hm. apply (G (S m)). cbn. lia.
Qed.

Lemma take_total {A} (zs : list A) ks : (forall k, In k ks -> (k < length zs)%nat) -> exists r, take zs ks = Ok r.
Proof.
  induction ks as [|k ks IH]; intros H; [exists []; reflexivity|]. destruct IH as [r E]; [intros; apply H; now right|]. unfold take in *. cbn [rmapM]. unfold geti in *. destruct (nth_error zs k) as [a|] eqn:Ek; [|apply nth_error_None in Ek; specialize (H k (or_introl eq_refl)); lia].
  cbn [rbind]. rewrite E. eexists. reflexivity.
Qed.
Lemma take_map {A B} (f : A -> B) (zs : list B) ks (ps : list A) : Forall2 (fun k p => nth_error zs k = Some (f p)) ks ps -> take zs ks = Ok (map f ps).
Proof. intros F. apply take_Ok. induction F; cbn; constructor; assumption. Qed.
Lemma combine_filter_all {A} (l : list (A * Z)) : (forall q, In q l -> (0 <= snd q)%Z) -> filter (fun q => (0 <=? snd q)%Z) l = l.
Proof. induction l as [|q l IH]; intros H; cbn; [reflexivity|]. rewrite (proj2 (Z.leb_le _ _)) by (apply H; now left). f_equal. apply IH. intros; apply H; now right. Qed.
Lemma no_duplicates l : NoDup l -> filter (fun d => (1 <? count (Z.eqb d) l)%Z) (unique l) = [].
Proof.
  intros N. destruct (filter _ (unique l)) as [|d r] eqn:E; [reflexivity|]. exfalso. assert (Hd : In d (d :: r)) by now left. rewrite <- E in Hd. apply filter_In in Hd as [Hu Hc]. rewrite (unique_In d l) in Hu. apply Z.ltb_lt in Hc.
  apply In_nth_error in Hu as [m Hm]. destruct (count_other _ _ _ Hc Hm) as (m' & Nm & Hm'). apply Nm. rewrite NoDup_nth_error in N. apply N; [apply nth_error_Some; congruence|congruence].
Qed.

Lemma label_group fiducials labels i j f : nth_error fiducials j = Some f -> In f pinholes -> nth_error xy i = Some (image f) -> length labels = length xy ->
  exists labels', label_one argsort query3 sep xy (map (query4 xy sep) xy) pinholes fiducials labels (i, j) = Ok labels' /\ length labels' = length xy /\
    (forall k p, In p pinholes -> p_location p = p_location f -> nth_error xy k = Some (image p) -> nth_error labels' k = Some (p_location p, p_id p)) /\
    (forall k, (forall p, In p pinholes -> p_location p = p_location f -> nth_error xy k <> Some (image p)) -> nth_error labels' k = nth_error labels k).
Proof.
  intros Hj Hf Hi Ll. unfold label_one. cbn [fst snd]. unfold geti at 1. rewrite Hj. cbn [rbind]. unfold geti at 1. rewrite nth_error_map, Hi. cbn [option_map rbind].
  set (L := p_location f) in *. pose proof (neighbours_found query4 query4_ok sep xy (image f)) as NF. unfold neighbours in NF. rewrite NF. clear NF.
  destruct (group_found f Hf) as (ps & F & NP & HP). fold L in HP. set (fd := found _) in *. assert (NDf : NoDup fd) by apply query4_ok. clearbody fd.
  rewrite (take_map image xy fd ps F). cbn [rbind]. rewrite take_where. cbn [rbind]. fold (at_location pinholes L).
  destruct (group_match f ps Hf NP HP) as (ind & dis & EM & FI). fold L in EM, FI. rewrite EM. cbn [rbind].
  assert (EI : rmapM (fun z => if (0 <=? z)%Z then rmap p_id (geti (at_location pinholes L) (Z.to_nat z)) else Ok 0%Z) ind = Ok (map p_id ps)).
  { apply rmapM_Ok_Forall2. clear -FI. induction FI as [|z p ind ps (j & -> & Hj) FI IH]; cbn [map]; constructor; [|exact IH]. rewrite (proj2 (Z.leb_le 0 _)) by lia. unfold geti. now rewrite Nat2Z.id, Hj. }
  rewrite EI. cbn [rbind].
  assert (Lf : length fd = length ps) by exact (Forall2_length _ _ _ F). assert (Li : length ind = length ps) by exact (Forall2_length _ _ _ FI).
  rewrite combine_filter_all by (intros [[k id] z] H; cbn [snd]; apply in_combine_r in H; apply In_nth_error in H as [m Hm]; destruct (nth_error_length ind ps m z Li Hm) as [p Hp]; destruct (Forall2_nth _ _ _ FI _ _ _ Hm Hp) as (j' & -> & _); lia).
  assert (EW : map (fun '((k, id), _) => (k, (L, id))) (combine (combine fd (map p_id ps)) ind) = combine fd (map (fun p => (L, p_id p)) ps)).
  { clear -Lf Li. revert ps ind Lf Li. induction fd as [|k fd IH]; intros [|p ps] [|z ind] Lf Li; try discriminate; [reflexivity|]. cbn. f_equal. apply IH; cbn in *; lia. }
  rewrite EW. assert (FW : map fst (combine fd (map (fun p => (L, p_id p)) ps)) = fd).
  { clear -Lf. revert ps Lf. induction fd as [|k fd IH]; intros [|p ps] Lf; try discriminate; [reflexivity|]. cbn. f_equal. apply IH. cbn in *; lia. }
  destruct (AverageCoord.set_each_total labels (combine fd (map (fun p => (L, p_id p)) ps))) as [labels' EL].
  { rewrite FW, Ll. intros k Hk. apply In_nth_error in Hk as [m Hm]. destruct (nth_error_length fd ps m k Lf Hm) as [p Hp]. pose proof (Forall2_nth _ _ _ F _ _ _ Hm Hp) as E. cbn beta in E. apply nth_error_Some. congruence. }
  rewrite EL. cbn [rbind].
  assert (POS : filter (Z.ltb 0) (map p_id ps) = map p_id ps).
  { assert (H : forall p, In p ps -> (0 < p_id p)%Z) by (intros p Hp; apply ids_pos; now apply HP). clear -H. induction ps as [|p ps IH]; [reflexivity|]. cbn [map filter]. rewrite (proj2 (Z.ltb_lt 0 _)) by (apply H; now left). f_equal. apply IH. intros; apply H; now right. }
  rewrite POS. rewrite no_duplicates.
  2:{ assert (H : forall p q, In p ps -> In q ps -> p_id p = p_id q -> p = q) by (intros p q Hp Hq E; apply HP in Hp as [Hp E1]; apply HP in Hq as [Hq E2]; apply ids; congruence). clear -H NP. induction NP as [|p ps Np NP IH]; cbn; constructor.
      - intros Hin. apply in_map_iff in Hin as (q & E & Hq). apply Np. replace p with q; [exact Hq|]. apply H; [now right|now left|exact E].
      - apply IH. intros; apply H; [now right|now right|assumption]. }
  cbn [fold_left]. exists labels'. split; [reflexivity|]. destruct (AverageCoord.set_each_spec labels _ labels' ltac:(rewrite FW; exact NDf) EL) as (S1 & S2 & S3). rewrite FW in S3. split; [congruence|]. split.
  - intros k p Hp EL' Hk. apply S2. assert (Hin : In p ps) by (apply HP; auto). apply In_nth_error in Hin as [m Hm]. destruct (nth_error_length ps fd m p (eq_sym Lf) Hm) as [k' Hk']. pose proof (Forall2_nth _ _ _ F _ _ _ Hk' Hm) as E. cbn beta in E.
    assert (k' = k). { rewrite NoDup_nth_error in xy_NoDup. apply xy_NoDup; [apply nth_error_Some; congruence|congruence]. } subst k'. apply nth_error_In with (n := m). apply combine_nth2. split; [exact Hk'|]. rewrite nth_error_map, Hm. cbn. congruence.
  - intros k Hk. apply S3. intros Hin. apply In_nth_error in Hin as [m Hm]. destruct (nth_error_length fd ps m k Lf Hm) as [p Hp]. pose proof (Forall2_nth _ _ _ F _ _ _ Hm Hp) as E. cbn beta in E. apply nth_error_In in Hp. apply HP in Hp as [H1 H2]. exact (Hk p H1 H2 E).
Qed.

(** *** All groups *)
Lemma label_groups fiducials l : forall labels, (forall i j, In (i, j) l -> exists f, nth_error fiducials j = Some f /\ In f pinholes /\ nth_error xy i = Some (image f)) -> length labels = length xy ->
  exists labels', label_all argsort query3 sep xy (map (query4 xy sep) xy) pinholes fiducials labels l = Ok labels' /\ length labels' = length xy /\
    (forall k p, In p pinholes -> (exists i j f, In (i, j) l /\ nth_error fiducials j = Some f /\ p_location f = p_location p) \/ nth_error labels k = Some (p_location p, p_id p) -> nth_error xy k = Some (image p) -> nth_error labels' k = Some (p_location p, p_id p)) /\
    (forall k, (forall p, In p pinholes -> nth_error xy k <> Some (image p)) -> nth_error labels' k = nth_error labels k).
Proof.
  induction l as [|[i j] l IH]; intros labels H Ll.
  - exists labels. split; [reflexivity|]. split; [exact Ll|]. split; [|reflexivity]. intros k p _ [(i & j & f & [] & _)|Hk] _. exact Hk.
  - destruct (H i j (or_introl eq_refl)) as (f & Hj & Hf & Hi). destruct (label_group fiducials labels i j f Hj Hf Hi Ll) as (l1 & E1 & L1 & A1 & B1).
    destruct (IH l1) as (l2 & E2 & L2 & A2 & B2); [intros; apply H; now right|exact L1|]. exists l2. cbn [label_all]. rewrite E1. cbn [rbind]. split; [exact E2|]. split; [exact L2|]. split.
    + intros k p Hp C Hk. apply A2; [exact Hp| |exact Hk]. destruct C as [(i' & j' & f' & [[= <- <-]|Hin] & Hf' & EL)|Hl].
      * right. apply A1; [exact Hp|congruence|exact Hk].
      * left. eauto 6.
      * right. destruct (Z.eq_dec (p_location p) (p_location f)) as [EL|NL]; [now apply A1|]. rewrite B1; [exact Hl|]. intros q Hq EQ E'. assert (image q = image p) by congruence. apply image_inj in H0; [congruence|exact Hq|exact Hp].
    + intros k Hk. rewrite B2 by exact Hk. apply B1. intros p Hp _. exact (Hk p Hp).
Qed.

(** *** The whole search *)
Variable query2 : list point -> point -> edist * nat.
Hypothesis query2_ok : nearest_query query2.
Variable fiducials : list pinhole.
Hypothesis fiducials_in : forall f, In f fiducials -> In f pinholes.
Hypothesis fiducials_all : forall p, In p pinholes -> exists f, In f fiducials /\ p_location f = p_location p.
Hypothesis fiducials_NoDup : NoDup (map p_location fiducials).
Hypothesis fibres : forall spot, In spot xy -> crowded xy sep spot -> exists p, In p pinholes /\ spot = image p.
Hypothesis offset_small : forall f, In f fiducials -> distance (image f) (p_pix f) < 10.
Hypothesis own_nearest : forall f p, In f fiducials -> In p pinholes -> p <> f -> distance (image f) (p_pix f) < distance (image p) (p_pix f).
Hypothesis own_nearest' : forall f f', In f fiducials -> In f' fiducials -> f' <> f -> distance (image f) (p_pix f) < distance (image f) (p_pix f').
Hypothesis spread : not_on_a_line (map p_pix fiducials).

Lemma find_exact : exists labels, find_with argsort query2 query3 query4 sep pinholes fiducials xy = Ok (map marks_of labels) /\ length labels = length xy /\
  (forall k p, In p pinholes -> nth_error xy k = Some (image p) -> nth_error labels k = Some (p_location p, p_id p)) /\
  (forall k spot, nth_error xy k = Some spot -> (forall p, In p pinholes -> spot <> image p) -> nth_error labels k = Some (-1, 0)%Z).
Proof.
  unfold find_with. set (measured := map (query4 xy sep) xy). set (cand := where_ _ measured).
  assert (CS : forall i, In i cand <-> exists c, nth_error xy i = Some c /\ crowded xy sep c) by (intros i; apply candidates_spec; exact query4_ok).
  assert (CN : NoDup cand) by apply where_NoDup. clearbody cand.
  assert (CI : forall i, In i cand <-> exists p, In p pinholes /\ nth_error xy i = Some (image p)).
  { intros i. rewrite CS. split; [intros (c & Hc & Cr); destruct (fibres c (nth_error_In _ _ Hc) Cr) as (p & Hp & ->); eauto|intros (p & Hp & Hi); exists (image p); split; [exact Hi|now apply image_crowded]]. }
  assert (Tk : exists xy1, take xy cand = Ok xy1) by (apply take_total; intros i Hi; apply CS in Hi as (c & Hc & _); apply nth_error_Some; congruence). destruct Tk as [xy1 Ex].
  rewrite Ex. cbn [rbind]. apply take_Ok in Ex. assert (N1 : NoDup xy1) by exact (entries_NoDup _ _ _ Ex xy_NoDup CN).
  assert (X1 : forall q, In q xy1 <-> exists p, In p pinholes /\ q = image p).
  { intros q. split.
    - intros Hq. apply In_nth_error in Hq as [m Hm]. destruct (nth_error_length xy1 cand m q (eq_sym (Forall2_length _ _ _ Ex)) Hm) as [i Hi]. pose proof (Forall2_nth _ _ _ Ex _ _ _ Hi Hm) as E. cbn beta in E. apply nth_error_In in Hi. apply CI in Hi as (p & Hp & E'). exists p. split; [exact Hp|congruence].
    - intros (p & Hp & ->). destruct (In_nth_error xy (image p) (all_seen p Hp)) as [i Hi]. assert (Hc : In i cand) by (apply CI; eauto). apply In_nth_error in Hc as [m Hm]. destruct (nth_error_length cand xy1 m i (Forall2_length _ _ _ Ex) Hm) as [q Hq]. pose proof (Forall2_nth _ _ _ Ex _ _ _ Hm Hq) as E. cbn beta in E. assert (q = image p) by congruence. subst q. eapply nth_error_In; eauto. }
  set (xy2 := map p_pix fiducials).
  assert (FI : forall f f', In f fiducials -> In f' fiducials -> p_pix f = p_pix f' -> f = f').
  { intros f f' Hf Hf' E. apply image_inj; [auto|auto|]. unfold image. now rewrite E. }
  assert (NF : NoDup fiducials) by exact (NoDup_map_inv _ _ fiducials_NoDup).
  assert (N2 : NoDup xy2). { unfold xy2. clear -NF FI. induction NF as [|f l Hf N IH]; cbn; constructor; [|apply IH; intros; apply FI; [now right|now right|assumption]]. intros H. apply in_map_iff in H as (f' & E & Hf'). apply Hf. replace f with f'; [exact Hf'|]. apply FI; [now right|now left|exact E]. }
  assert (Ne : xy2 <> []). { intros E. destruct (spread 1 0 0) as [H _]; [|lra]. fold xy2. rewrite E. intros p []. }
  assert (N3 : NoDup (map dilate xy2)). { clear -N2 s_pos. induction N2 as [|q l Hq N IH]; cbn; constructor; [|exact IH]. intros H. apply in_map_iff in H as (q' & E & Hq'). apply dilate_inj in E. now subst. }
  assert (PT : partners xy1 xy2 dilate).
  { intros q Hq. unfold xy2 in Hq. apply in_map_iff in Hq as (f & <- & Hf). split; [apply X1; exists f; auto|]. split.
    - intros q' Hq' Nq. unfold xy2 in Hq'. apply in_map_iff in Hq' as (f' & <- & Hf'). apply own_nearest'; [assumption|assumption|congruence].
    - intros q' Hq' Nq. apply X1 in Hq' as (p & Hp & ->). apply own_nearest; [assumption|assumption|]. intros ->. now apply Nq. }
  assert (CO : coefficients dilate [u; s; 0] [v; 0; s]). { split; [reflexivity|]. split; [reflexivity|]. split; [cbn; lra|]. intros [a b]. unfold dilate, affine. cbn. f_equal; ring. }
  assert (NL : not_on_a_line (map dilate xy2)).
  { intros a b c H. destruct (spread (a + b * u + c * v) (b * s) (c * s)) as (H1 & H2 & H3).
    - intros q Hq. fold xy2 in Hq. specialize (H (dilate q) (in_map _ _ _ Hq)). unfold dilate in H. cbn [fst snd] in H. lra.
    - assert (b = 0) by nra. assert (c = 0) by nra. subst. split; [lra|auto]. }
  rewrite (refine_exact argsort argsort_ok query2 query2_ok 19 xy1 xy2 dilate _ _ 0 N1 N2 Ne PT CO spread).
  2:{ intros q Hq. unfold xy2 in Hq. apply in_map_iff in Hq as (f & <- & Hf). now apply offset_small. }
  2:{ exact N3. } 2:{ exact NL. }
  cbn [rbind].
  assert (Ne1 : xy1 <> []). { intros E. destruct xy2 as [|q l]; [now apply Ne|]. destruct (PT q (or_introl eq_refl)) as [H _]. rewrite E in H. destruct H. }
  destruct (match_self argsort argsort_ok query2 query2_ok xy1 (map dilate xy2) N1 N3 Ne1) as (ind & dis & EM & Li & Ld & M).
  { intros q Hq. apply in_map_iff in Hq as (q' & <- & Hq'). now apply PT. }
  rewrite EM. cbn [rbind]. set (sel := where_ _ (combine ind dis)).
  assert (SEL : forall k, In k sel -> (k < length xy2)%nat). { intros k Hk. apply where_spec in Hk as ([z d] & Hc & _). apply combine_nth2 in Hc as [Hz _]. assert (k < length ind)%nat by (apply nth_error_Some; congruence). rewrite map_length in Li. lia. }
  assert (SELA : forall k, (k < length xy2)%nat -> In k sel).
  { intros k Hk. destruct (nth_error (map dilate xy2) k) as [q|] eqn:Eq; [|apply nth_error_None in Eq; rewrite map_length in Eq; lia]. destruct (M _ _ Eq) as (j & Hz & Hj & Hd). apply where_spec. exists (Z.of_nat j, Some 0). split; [now apply combine_nth2|]. rewrite (proj2 (Z.leb_le 0 _)) by lia. cbn. apply Rltb_true. lra. }
  clearbody sel.
  assert (TK : exists ind1 idx1, take ind sel = Ok ind1 /\ take cand (map Z.to_nat ind1) = Ok idx1 /\ Forall2 (fun i j => exists f, nth_error fiducials j = Some f /\ nth_error xy i = Some (image f)) idx1 sel).
  { clear SELA. induction sel as [|k sel IH]; [exists [], []; split; [reflexivity|split; [reflexivity|constructor]]|]. destruct IH as (ind1 & idx1 & E1 & E2 & F); [intros; apply SEL; now right|].
    destruct (nth_error fiducials k) as [f|] eqn:Ef; [|apply nth_error_None in Ef; specialize (SEL k (or_introl eq_refl)); unfold xy2 in SEL; rewrite map_length in SEL; lia].
    destruct (M k (image f)) as (j & Hz & Hj & _); [unfold xy2; rewrite !nth_error_map, Ef; reflexivity|]. destruct (nth_error_length xy1 cand j _ (eq_sym (Forall2_length _ _ _ Ex)) Hj) as [i Hi]. pose proof (Forall2_nth _ _ _ Ex _ _ _ Hi Hj) as E. cbn beta in E.
    exists (Z.of_nat j :: ind1), (i :: idx1). unfold take in *. cbn [rmapM map]. unfold geti in *. rewrite Hz, Nat2Z.id, Hi. cbn [rbind]. rewrite E1, E2. split; [reflexivity|]. split; [reflexivity|]. constructor; [eauto|exact F]. }
  destruct TK as (ind1 & idx1 & -> & E2 & F). cbn [rbind]. rewrite E2. cbn [rbind].
  destruct (label_groups fiducials (combine idx1 sel) (map (fun _ => (-1, 0)%Z) xy)) as (labels & EL & LL & A & B).
  { intros i j Hin. apply In_nth_error in Hin as [m Hm]. apply combine_nth2 in Hm as [H1 H2]. destruct (Forall2_nth _ _ _ F _ _ _ H1 H2) as (f & Hf & Hi). exists f. split; [exact Hf|]. split; [apply fiducials_in; eapply nth_error_In; eauto|exact Hi]. }
  { apply map_length. }
  fold measured in EL. rewrite EL. cbn [rbind]. exists labels. split; [reflexivity|]. split; [exact LL|]. split.
  - intros k p Hp Hk. apply A; [exact Hp| |exact Hk]. left. destruct (fiducials_all p Hp) as (f & Hf & EL'). apply In_nth_error in Hf as [j Hj]. assert (Hs : In j sel) by (apply SELA; unfold xy2; rewrite map_length; apply nth_error_Some; congruence).
    apply In_nth_error in Hs as [m Hm]. destruct (nth_error_length sel idx1 m j (eq_sym (Forall2_length _ _ _ F)) Hm) as [i Hi]. exists i, j, f. split; [apply nth_error_In with (n := m); now apply combine_nth2|auto].
  - intros k spot Hk Hn. rewrite B by (intros p Hp E; apply (Hn p Hp); congruence). now rewrite nth_error_map, Hk.
Qed.
End Groups.
