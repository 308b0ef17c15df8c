(** bin/desi_fit_fvc2fp_using_posparams (C118). *)
From Verif.Model Require Import CentresTx.
From Verif.Spec Require Import LinAlg Numpy ZhaoBurge SimpleCorr Fvc2fp CentresTx.
From Verif.Proofs Require Import Prelude RealNum Numpy LinAlg ZhaoBurge Fvc2fp CentresTx.
From Verif.Props Require Import ZhaoBurge Fvc2fp.
From Coq Require Import Lra Lia.
Local Open Scope R_scope.
Local Open Scope list_scope.

Local Lemma map_fst_combine {A B} (l : list A) : forall m : list B, length l = length m -> map fst (combine l m) = l.
Proof. induction l as [|a l IH]; intros [|b m] L; cbn in *; try discriminate; [reflexivity|]. f_equal. apply IH. lia. Qed.
Local Lemma map_snd_combine {A B} (l : list A) : forall m : list B, length l = length m -> map snd (combine l m) = m.
Proof. induction l as [|a l IH]; intros [|b m] L; cbn in *; try discriminate; [reflexivity|]. f_equal. apply IH. lia. Qed.
Local Lemma combine_snoc {A B} (l : list A) : forall (m : list B) x y, length l = length m -> combine (l ++ [x]) (m ++ [y]) = combine l m ++ [(x, y)].
Proof. induction l as [|a l IH]; intros [|b m] x y L; cbn in *; try discriminate; [reflexivity|]. f_equal. apply IH. lia. Qed.
Local Lemma filter_true {A} (l : list A) : filter (fun _ => true) l = l.
Proof. induction l as [|a l IH]; cbn; [reflexivity|now f_equal]. Qed.

(** The pairs of centres and places used, from all files. *)
Theorem C118_selection flat2fp max_rms metrology files data : gather flat2fp max_rms metrology files = Ok data <->
  exists parts, Forall2 (gives flat2fp max_rms metrology) files parts /\ data = concat (map contents parts) /\ exists l, In (Some l) parts.
Proof.
  assert (EQ : forall a b, String.eqb a b = true <-> a = b) by apply String.eqb_eq.
  (* the last row of a name *)
  assert (Ix : forall p v, row_of metrology p v <-> exists i, dict_getE String.eqb (posid2index metrology) p = Ok i /\ geti metrology i = Ok v).
  { assert (G : forall p i, dict_get String.eqb (posid2index metrology) p = Some i <-> exists a v b, metrology = a ++ v :: b /\ length a = i /\ d_id v = p /\ Forall (fun w => d_id w <> p) b).
    { clear - EQ. unfold posid2index, enum. induction metrology as [|v m IH] using rev_ind; [intros p i; split; [discriminate|]; intros (a & v & b & E & _); destruct a; discriminate|]. intros p i.
      rewrite app_length. cbn [length]. rewrite seq_app. cbn [seq Nat.add]. assert (CA : combine (seq 0 (length m) ++ [length m]) (m ++ [v]) = combine (seq 0 (length m)) m ++ [(length m, v)]) by (apply combine_snoc, seq_length).
      rewrite CA, fold_left_app. cbn [fold_left]. destruct (String.eqb_spec p (d_id v)) as [->|D].
      - rewrite (dict_get_set_same String.eqb EQ). split; [intros [= <-]; exists m, v, []; auto|]. intros (a & w & b & E & L & Hd & F). destruct b as [|y b] using rev_ind; [apply app_inj_tail in E as [-> _]; now f_equal|]. rewrite app_comm_cons, app_assoc in E. apply app_inj_tail in E as [_ <-]. apply Forall_app in F as [_ F]. inversion F; congruence.
      - rewrite (dict_get_set_other String.eqb EQ) by congruence. rewrite IH. split; intros (a & w & b & E & L & Hd & F).
        + exists a, w, (b ++ [v]). split; [rewrite E, <- app_assoc; reflexivity|]. repeat split; auto. apply Forall_app. split; [exact F|]. constructor; [congruence|constructor].
        + destruct b as [|y b] using rev_ind; [apply app_inj_tail in E as [_ <-]; congruence|]. rewrite app_comm_cons, app_assoc in E. apply app_inj_tail in E as [-> ->]. apply Forall_app in F as [F _]. exists a, w, b. auto. }
    intros p v. unfold dict_getE, row_of. split.
    - intros (a & b & E & Hd & F). exists (length a). assert (X : dict_get String.eqb (posid2index metrology) p = Some (length a)) by (apply G; exists a, v, b; auto). rewrite X. split; [reflexivity|]. unfold geti. rewrite E, nth_error_app2, Nat.sub_diag by lia. reflexivity.
    - intros (i & E & N). destruct (dict_get _ _ p) as [k|] eqn:X; [|discriminate]. injection E as ->. apply G in X as (a & w & b & E & L & Hd & F). unfold geti in N. rewrite E, <- L, nth_error_app2, Nat.sub_diag in N by lia. cbn in N. injection N as ->. exists a, b. auto. }
  assert (Pl : forall off r pq, place flat2fp metrology off r = Ok pq <-> exists v, row_of metrology (q_id r) v /\ flat2fp (d_petal v) (off r) = Ok (fst pq) /\ snd pq = d_fp v).
  { intros off r pq. unfold place. split.
    - destruct (dict_getE _ _ _) as [i|] eqn:E1; [|discriminate]. cbn [rbind]. destruct (geti metrology i) as [v|] eqn:E2; [|discriminate]. cbn [rbind]. destruct (flat2fp _ _) as [q|] eqn:E3; [|discriminate]. cbn. intros [= <-]. exists v. split; [apply Ix; eauto|]. auto.
    - intros (v & R & F & S). apply Ix in R as (i & E1 & E2). rewrite E1. cbn [rbind]. rewrite E2. cbn [rbind]. rewrite F. cbn. destruct pq. cbn in *. now rewrite S. }
  assert (MM : forall A B (f : A -> res B) l k, rmapM f l = Ok k <-> Forall2 (fun x y => f x = Ok y) l k).
  { intros A B f l. induction l as [|x l IH]; intros k; cbn; [split; [intros [= <-]; constructor|intros H; inversion H; reflexivity]|]. split.
    - destruct (f x) as [y|] eqn:E; [|discriminate]. cbn. destruct (rmapM f l) as [ys|] eqn:E2; [|discriminate]. cbn. intros [= <-]. constructor; [exact E|]. now apply IH.
    - intros H. inversion H as [|? y ? ys Ey Eys]; subst. rewrite Ey. cbn. apply IH in Eys. now rewrite Eys. }
  assert (Gd : forall t rows, kept_rows (good max_rms t) (q_rows t) rows <-> rows = good_rows max_rms t).
  { intros t rows. assert (F : forall (P : posrow -> Prop) f, (forall r, f r = true <-> P r) -> forall l k, kept_rows P l k <-> k = filter f l).
    { intros P f H l. induction l as [|r l IH]; intros k; cbn [filter]; [split; [intros K; now inversion K|intros ->; constructor]|]. destruct (f r) eqn:E.
      - apply H in E. split; [intros K; inversion K; subst; [f_equal; now apply IH|contradiction]|]. intros ->. constructor; [exact E|]. now apply IH.
      - assert (~ P r) by (rewrite <- H; congruence). split; [intros K; inversion K; subst; [contradiction|now apply IH]|]. intros ->. apply kr_no; [assumption|]. now apply IH. }
    unfold good_rows, good. destruct (has_flags t), (has_error t); cbn [andb].
    - destruct (Rltb 0 max_rms) eqn:M; [apply Rltb_true in M|apply Rltb_false in M].
      + rewrite (F _ (fun r => (q_flags r =? 0)%Z && Rltb (q_error r) max_rms)%bool) by (intros r; rewrite Bool.andb_true_iff, Z.eqb_eq, Rltb_true; tauto). assert (FF : forall l, filter (fun r => (q_flags r =? 0)%Z && Rltb (q_error r) max_rms)%bool l = filter (fun r => Rltb (q_error r) max_rms) (filter (fun r => (q_flags r =? 0)%Z) l)).
        { induction l as [|r l IH]; [reflexivity|]. cbn [filter]. destruct (q_flags r =? 0)%Z; cbn [andb filter]; [destruct (Rltb (q_error r) max_rms)|]; now rewrite IH. }
        now rewrite FF.
      + apply F. intros r. rewrite Z.eqb_eq. split; [intros H; split; [auto|]; intros _ X; lra|tauto].
    - apply F. intros r. rewrite Z.eqb_eq. split; [intros H; split; [auto|discriminate]|tauto].
    - destruct (Rltb 0 max_rms) eqn:M; [apply Rltb_true in M|apply Rltb_false in M].
      + apply F. intros r. rewrite Rltb_true. split; [intros H; split; [discriminate|auto]|tauto].
      + rewrite (F _ (fun _ => true)) by (intros r; split; [intros _; split; [discriminate|]; intros _ X; lra|reflexivity]). now rewrite filter_true.
    - rewrite (F _ (fun _ => true)) by (intros r; split; [intros _; split; discriminate|reflexivity]). now rewrite filter_true. }
  unfold gather. set (entry := fun f => match f with Some t => match offset_of t with Some off => [(off, good_rows max_rms t)] | None => [] end | None => [] end).
  set (rd := fun '(off, rows) => rmapM (place flat2fp metrology off) rows).
  assert (Gv : forall f part, gives flat2fp max_rms metrology f part <-> match entry f with [] => part = None | e :: _ => exists l, part = Some l /\ rd e = Ok l end).
  { intros [t|] part; [|cbn; reflexivity]. cbn [gives entry]. unfold offset_of. destruct (has_offset t) eqn:H1; [|destruct (has_static t) eqn:H2]; cbn [orb].
    - split.
      + intros (rows & l & -> & K & F2). exists l. split; [reflexivity|]. apply Gd in K as ->. cbn. apply MM. eapply Forall2_impl; [|exact F2]. intros r pq. apply Pl.
      + intros (l & -> & E). exists (good_rows max_rms t), l. split; [reflexivity|]. split; [now apply Gd|]. apply MM in E. eapply Forall2_impl; [|exact E]. intros r pq. apply Pl.
    - split.
      + intros (rows & l & -> & K & F2). exists l. split; [reflexivity|]. apply Gd in K as ->. cbn. apply MM. eapply Forall2_impl; [|exact F2]. intros r pq. apply Pl.
      + intros (l & -> & E). exists (good_rows max_rms t), l. split; [reflexivity|]. split; [now apply Gd|]. apply MM in E. eapply Forall2_impl; [|exact E]. intros r pq. apply Pl.
    - reflexivity. }
  assert (En : forall f, entry f = [] \/ exists e, entry f = [e]) by (intros [t|]; [|now left]; cbn; destruct (offset_of t); [right; eauto|now left]).
  assert (All : forall k, rmapM rd (flat_map entry files) = Ok k <-> exists parts, Forall2 (gives flat2fp max_rms metrology) files parts /\ k = flat_map (fun p => match p with Some l => [l] | None => [] end) parts).
  { induction files as [|f fs IH]; intros k; [cbn; split; [intros [= <-]; exists []; split; [constructor|reflexivity]|intros (parts & F & ->); inversion F; reflexivity]|]. cbn [flat_map]. destruct (En f) as [E|[e E]]; rewrite E; cbn [app].
    - rewrite IH. split; [intros (parts & F & ->); exists (None :: parts); split; [constructor; [apply Gv; now rewrite E|exact F]|reflexivity]|]. intros (parts & F & ->). inversion F as [|? p ? ps Hp Hps]; subst. apply Gv in Hp. rewrite E in Hp. subst p. eauto.
    - cbn [rmapM]. split.
      + destruct (rd e) as [l|] eqn:R; [|discriminate]. cbn [rbind]. destruct (rmapM rd (flat_map entry fs)) as [ls|] eqn:R2; [|discriminate]. cbn. intros [= <-]. destruct (proj1 (IH ls) eq_refl) as (parts & F & ->). exists (Some l :: parts). split; [constructor; [apply Gv; rewrite E; eauto|exact F]|reflexivity].
      + intros (parts & F & ->). inversion F as [|? p ? ps Hp Hps]; subst. apply Gv in Hp. rewrite E in Hp. destruct Hp as (l & -> & R). rewrite R. cbn [rbind]. rewrite (proj2 (IH _) (ex_intro _ ps (conj Hps eq_refl))). reflexivity. }
  assert (Cc : forall A (parts : list (option (list A))), concat (flat_map (fun p => match p with Some l => [l] | None => [] end) parts) = concat (map contents parts)) by (intros A; induction parts as [|[l|] ps IHp]; cbn; rewrite ?IHp; reflexivity).
  split.
  - destruct (rmapM rd _) as [k|] eqn:E; [|discriminate]. cbn [rbind]. destruct (proj1 (All k) eq_refl) as (parts & F & ->). intros H. exists parts. split; [exact F|]. rewrite <- Cc. destruct (flat_map _ parts) as [|l ls] eqn:X; [discriminate|]. injection H as <-. split; [reflexivity|]. assert (I : In l (flat_map (fun p => match p with Some l => [l] | None => [] end) parts)) by (rewrite X; now left). apply in_flat_map in I as ([l'|] & I & J); [destruct J as [<-|[]]; eauto|destruct J].
  - intros (parts & F & -> & l & I). rewrite (proj2 (All _) (ex_intro _ parts (conj F eq_refl))). cbn [rbind]. rewrite <- Cc. destruct (flat_map _ parts) as [|l0 ls] eqn:X; [|reflexivity]. exfalso. assert (J : In l (flat_map (fun p => match p with Some l => [l] | None => [] end) parts)) by (apply in_flat_map; exists (Some l); split; [exact I|now left]). rewrite X in J. destruct J.
Qed.
Print Assumptions C118_selection.

(** The two fits, for any pairs of centres and places. *)
Lemma centres_steps minimize init zbpolids data patch t' new : Forall (fun z => 0 <= z <= 32)%Z zbpolids -> usable init ->
  fit_centres minimize init zbpolids data patch = Ok (t', new) ->
  exists pix t1, fp2fvc init (map fst data) = Ok pix /\
    let all := combine pix (map snd data) in
    let kept := filter (fun d => if Rlt_dec (sqrt ((fst (image t1 (fst d)) - fst (snd d)) ^ 2 + (snd (image t1 (fst d)) - snd (snd d)) ^ 2)) 0.08 then true else false) all in
    same_camera t1 init /\ tx_polids t1 = zbpolids /\ same_camera t' init /\ tx_polids t' = zbpolids /\
    (forall c, length c = length zbpolids -> c <> tx_coeffs t1 -> misfit (image t1) all < misfit (image (with_coeffs t1 c)) all) /\
    (forall c, length c = length zbpolids -> c <> tx_coeffs t' -> misfit (image t') kept < misfit (image (with_coeffs t' c)) kept) /\
    (let red := fun d : (R * R) * (R * R) => (rx init (fst d), reduce_xyfp (snd d)) in
       refit minimize (set_polids init zbpolids) (map fst (map red all)) (map snd (map red all)) = Ok t1 /\ refit minimize t1 (map fst (map red kept)) (map snd (map red kept)) = Ok t') /\
    length pix = length data /\
    match patch with None => new = None | Some l => exists ppix, fp2fvc init l = Ok ppix /\ new = Some (map (image t') ppix) end.
Proof.
  intros V (VI & _ & CX & CY) E. unfold fit_centres in E.
  destruct (fp2fvc init (map fst data)) as [pix|] eqn:F; [|discriminate]. cbn [rbind] in E. destruct (match patch with Some l => rmap (@Some (list point)) (fp2fvc init l) | None => Ok None end) as [pp|] eqn:PP; [|discriminate]. cbn [rbind] in E.
  assert (CI : camera_ok init) by (split; assumption). set (t0 := set_polids init zbpolids) in *. assert (C0 : camera_ok t0) by exact CI.
  rewrite (rmapM_total _ (rx t0)) in E by (intros; now apply reduce_rx). cbn [rbind] in E.
  assert (Lp : length pix = length (map snd data)).
  { unfold fp2fvc in F. destruct (undo_zb _ _ _ _) as [d|] eqn:U in F; [|discriminate]. cbn [rbind] in F. destruct (Reqb _ 0) in F; [discriminate|]. injection F as <-. rewrite map_length, combine_length, !map_length.
    destruct data as [|d0 dt]; [reflexivity|]. destruct (undo_spec init VI (map reduce_xyfp (map fst (d0 :: dt))) ltac:(discriminate) 20 0) as (j & Uj & _). cbn [it] in Uj. change (fun r : R * R => it init r 0) with (fun _ : R * R => (0, 0)) in Uj. rewrite Uj in U. injection U as <-. cbn [map length]. rewrite !map_length. lia. }
  set (all := combine pix (map snd data)) in *. set (red := fun d : (R * R) * (R * R) => (rx t0 (fst d), reduce_xyfp (snd d))). assert (A1 : map fst all = pix) by (unfold all; rewrite map_fst_combine by lia; reflexivity). assert (A2 : map snd all = map snd data) by (unfold all; rewrite map_snd_combine by lia; reflexivity).
  assert (R1 : map (rx t0) pix = map fst (map red all)) by (rewrite map_map; rewrite <- A1, map_map; reflexivity). assert (R2 : map reduce_xyfp (map snd data) = map snd (map red all)) by (rewrite <- A2, !map_map; reflexivity).
  rewrite R1, R2 in E. destruct (refit minimize t0 _ _) as [t1|] eqn:F1; [|discriminate]. cbn [rbind] in E. destruct (refit_spec minimize t0 (map red all) t1 V F1) as (S1 & P1 & L1 & _ & _ & O1 & _). cbn [t0 set_polids tx_polids] in P1, L1.
  assert (V1 : Forall valid_id (tx_polids t1)) by (rewrite P1; exact V). assert (C1 : camera_ok t1) by (destruct S1 as (a & b & _); split; rewrite ?a, ?b; assumption).
  rewrite fvc2fp_image in E by assumption. cbn [rbind] in E.
  set (kept := filter (fun d : (R * R) * (R * R) => if Rlt_dec (sqrt ((fst (image t1 (fst d)) - fst (snd d)) ^ 2 + (snd (image t1 (fst d)) - snd (snd d)) ^ 2)) 0.08 then true else false) all). set (ok := map close (combine (map (image t1) pix) (map snd data))) in E.
  assert (Ok1 : ok = map (fun d => if Rlt_dec (sqrt ((fst (image t1 (fst d)) - fst (snd d)) ^ 2 + (snd (image t1 (fst d)) - snd (snd d)) ^ 2)) 0.08 then true else false) all).
  { unfold ok, all, close. clear. generalize (map snd data). induction pix as [|p pix IH]; intros [|q l]; cbn [map combine]; try reflexivity. f_equal. apply IH. }
  assert (Sel : forall A (f : (R * R) * (R * R) -> A), select ok (map f all) = map f kept).
  { intros A f. rewrite Ok1. unfold kept, select. clear. induction all as [|d l IH]; [reflexivity|]. cbn [map combine filter fst]. destruct (Rlt_dec _ _); cbn [map snd]; now rewrite IH. }
  rewrite !map_map in E. rewrite !Sel in E. rewrite <- !map_map with (f := red) in E. destruct (refit minimize t1 _ _) as [t2|] eqn:F2; [|discriminate]. cbn [rbind] in E.
  destruct (refit_spec minimize t1 (map red kept) t2 V1 F2) as (S2 & P2 & L2 & _ & _ & O2 & _). rewrite P1 in P2, L2, O2.
  assert (V2 : Forall valid_id (tx_polids t2)) by (rewrite P2; exact V). assert (S2i : same_camera t2 init) by (destruct S1 as (a & b & c & d), S2 as (a' & b' & c' & d'); cbn [t0 set_polids xfvc_scale yfvc_scale xfvc_offset yfvc_offset] in *; repeat split; congruence). assert (S1i : same_camera t1 init) by exact S1.
  assert (C2 : camera_ok t2) by (destruct S2i as (a & b & _); split; rewrite ?a, ?b; assumption).
  assert (Rx : forall t, same_camera t init -> forall l, map (fun d : (R * R) * (R * R) => (rx t (fst d), reduce_xyfp (snd d))) l = map red l).
  { intros t (a & b & c & d) l. apply map_ext. intros [p q]. unfold red, rx, t0. cbn [set_polids xfvc_scale yfvc_scale xfvc_offset yfvc_offset]. now rewrite a, b, c, d. }
  exists pix, t1. split; [first [exact F|reflexivity]|]. cbv zeta. fold all. fold kept.
  assert (T : match pp with Some l => rmap (@Some (list point)) (fvc2fp t2 l) | None => Ok None end = Ok (match pp with Some l => Some (map (image t2) l) | None => None end)) by (destruct pp; [rewrite fvc2fp_image by assumption|]; reflexivity).
  rewrite T in E. cbn [rbind] in E. injection E as <- <-.
  split; [exact S1i|]. split; [exact P1|]. split; [exact S2i|]. split; [exact P2|]. split; [|split; [|split; [split; [exact F1|exact F2]|split; [rewrite Lp, map_length; reflexivity|]]]].
  - intros c Lc N. rewrite !misfit_image by assumption. rewrite (Rx t1 S1i), (Rx (with_coeffs t1 c) S1i). apply Rmult_lt_compat_l; [lra|]. now apply O1.
  - intros c Lc N. rewrite !misfit_image by assumption. rewrite (Rx t2 S2i), (Rx (with_coeffs t2 c) S2i). apply Rmult_lt_compat_l; [lra|]. now apply O2.
  - destruct patch as [l|]; [|injection PP as <-; reflexivity]. destruct (fp2fvc init l) as [q|]; [|discriminate]. injection PP as <-. eauto.
Qed.
Local Lemma steps flat2fp minimize init zbpolids max_rms metrology files patch t' new : Forall (fun z => 0 <= z <= 32)%Z zbpolids -> usable init ->
  fit_using_posparams flat2fp minimize init zbpolids max_rms metrology files patch = Ok (t', new) ->
  exists data pix t1, gather flat2fp max_rms metrology files = Ok data /\ fp2fvc init (map fst data) = Ok pix /\
    let all := combine pix (map snd data) in
    let kept := filter (fun d => if Rlt_dec (sqrt ((fst (image t1 (fst d)) - fst (snd d)) ^ 2 + (snd (image t1 (fst d)) - snd (snd d)) ^ 2)) 0.08 then true else false) all in
    same_camera t1 init /\ tx_polids t1 = zbpolids /\ same_camera t' init /\ tx_polids t' = zbpolids /\
    (forall c, length c = length zbpolids -> c <> tx_coeffs t1 -> misfit (image t1) all < misfit (image (with_coeffs t1 c)) all) /\
    (forall c, length c = length zbpolids -> c <> tx_coeffs t' -> misfit (image t') kept < misfit (image (with_coeffs t' c)) kept) /\
    (let red := fun d : (R * R) * (R * R) => (rx init (fst d), reduce_xyfp (snd d)) in
       refit minimize (set_polids init zbpolids) (map fst (map red all)) (map snd (map red all)) = Ok t1 /\ refit minimize t1 (map fst (map red kept)) (map snd (map red kept)) = Ok t') /\
    length pix = length data /\
    match patch with None => new = None | Some l => exists ppix, fp2fvc init l = Ok ppix /\ new = Some (map (image t') ppix) end.
Proof.
  intros V U E. unfold fit_using_posparams in E. destruct (forallb _ _); [|discriminate]. destruct (gather _ _ _ _) as [data|] eqn:G; [|discriminate]. cbn [rbind] in E.
  destruct (centres_steps _ _ _ _ _ _ _ V U E) as (pix & t1 & H). exists data, pix, t1. split; [reflexivity|exact H].
Qed.
(** The run: it starts from the pixels of the centres under the initial transformation; both fits have the best coefficients for their scale,
    rotation and offsets, the second one for the centres within 0.08 mm after the first; the patch is taken along. *)
Theorem C118_fit flat2fp minimize init zbpolids max_rms metrology files patch t' new : Forall (fun z => 0 <= z <= 32)%Z zbpolids -> usable init ->
  fit_using_posparams flat2fp minimize init zbpolids max_rms metrology files patch = Ok (t', new) ->
  exists data pix t1, gather flat2fp max_rms metrology files = Ok data /\ fp2fvc init (map fst data) = Ok pix /\
    let all := combine pix (map snd data) in
    let kept := filter (fun d => if Rlt_dec (sqrt ((fst (image t1 (fst d)) - fst (snd d)) ^ 2 + (snd (image t1 (fst d)) - snd (snd d)) ^ 2)) 0.08 then true else false) all in
    same_camera t1 init /\ tx_polids t1 = zbpolids /\ same_camera t' init /\ tx_polids t' = zbpolids /\
    (forall c, length c = length zbpolids -> c <> tx_coeffs t1 -> misfit (image t1) all < misfit (image (with_coeffs t1 c)) all) /\
    (forall c, length c = length zbpolids -> c <> tx_coeffs t' -> misfit (image t') kept < misfit (image (with_coeffs t' c)) kept) /\
    match patch with None => new = None | Some l => exists ppix, fp2fvc init l = Ok ppix /\ new = Some (map (image t') ppix) end.
Proof.
  intros V U E. destruct (steps _ _ _ _ _ _ _ _ _ _ V U E) as (data & pix & t1 & G & F & S1 & P1 & S2 & P2 & O1 & O2 & _ & _ & N). exists data, pix, t1. cbv zeta. auto 10.
Qed.
Print Assumptions C118_fit.
Lemma centres_exact minimize init zbpolids data patch t' new u pix : Forall (fun z => In z zbpolids) [0; 1; 2; 27]%Z -> Forall (fun z => 0 <= z <= 32)%Z zbpolids -> usable init ->
  fit_centres minimize init zbpolids data patch = Ok (t', new) -> fp2fvc init (map fst data) = Ok pix ->
  Forall (fun z => 0 <= z <= 32)%Z (tx_polids u) -> same_camera u init -> (forall x y, getZhaoBurgeXY (tx_polids u) (tx_coeffs u) x y = Ok (0, 0)) ->
  map (image u) pix = map snd data -> forall p, image t' p = image u p.
Proof.
  intros Mand V U E F Vu Su Zu H. destruct (centres_steps _ _ _ _ _ _ _ V U E) as (pix' & t1 & F' & S1 & P1 & S2 & P2 & _ & _ & (F1 & F2) & L & _). rewrite F in F'. injection F' as <-.
  destruct U as (VI & _ & CX & CY). assert (Cam : forall t, same_camera t init -> camera_ok t) by (intros t (a & b & _); split; rewrite ?a, ?b; assumption).
  assert (Rx : forall t, same_camera t init -> forall p, rx t p = rx init p) by (intros t (a & b & c & d) p; unfold rx; now rewrite a, b, c, d).
  set (s := tx_scale u) in *. set (r := tx_rotation u) in *. set (ox := tx_offset_x u) in *. set (oy := tx_offset_y u) in *.
  assert (Iu : forall p, image u p = expand_xyfp (similarity s r (fst (rx init p) + ox, snd (rx init p) + oy))).
  { intros p. rewrite image_map by (try apply Cam; assumption). f_equal. rewrite Rx by exact Su. unfold reduced_map, full_map, params. fold s r ox oy. cbv zeta. rewrite Zu. unfold displaced. cbn [fst snd]. now rewrite !Rplus_0_r, <- surjective_pairing. }
  set (red := fun d : (R * R) * (R * R) => (rx init (fst d), reduce_xyfp (snd d))) in *.
  assert (Hd : forall d, In d (combine pix (map snd data)) -> snd (red d) = similarity s r (fst (fst (red d)) + ox, snd (fst (red d)) + oy)).
  { intros d I. assert (X : snd d = image u (fst d)). { clear - I H. rewrite <- H in I. clear H. induction pix as [|p l IH]; [destruct I|]. cbn in I. destruct I as [<-|I]; [reflexivity|auto]. }
    unfold red. cbn [fst snd]. rewrite X, Iu. apply reduce_expand. }
  assert (E2 : forall p, reduced_map t' p = similarity s r (fst p + ox, snd p + oy)).
  { eapply refit_exact; [| |exact F2|].
    - rewrite P1. exact V.
    - rewrite P1. exact Mand.
    - intros d I. apply in_map_iff in I as (d0 & <- & I0). apply filter_In in I0 as [I0 _]. now apply Hd. }
  intros p. rewrite Iu, image_map by (try apply Cam; try rewrite P2; assumption). now rewrite E2, Rx by exact S2.
Qed.
(** If some transformation without terms takes the pixels of all centres to their places, the result is that transformation, on all pixels:
    the mandatory terms make up for any scale, rotation and offsets of the minimizer. *)
Theorem C118_exact flat2fp minimize init zbpolids max_rms metrology files patch t' new u data pix : Forall (fun z => 0 <= z <= 32)%Z zbpolids -> usable init ->
  fit_using_posparams flat2fp minimize init zbpolids max_rms metrology files patch = Ok (t', new) ->
  gather flat2fp max_rms metrology files = Ok data -> fp2fvc init (map fst data) = Ok pix ->
  Forall (fun z => 0 <= z <= 32)%Z (tx_polids u) -> same_camera u init -> (forall x y, getZhaoBurgeXY (tx_polids u) (tx_coeffs u) x y = Ok (0, 0)) ->
  map (image u) pix = map snd data -> forall p, image t' p = image u p.
Proof.
  intros V U E G F Vu Su Zu H. unfold fit_using_posparams in E. destruct (forallb _ _) eqn:B; [|discriminate]. rewrite G in E. cbn [rbind] in E.
  assert (Mand : Forall (fun z => In z zbpolids) [0; 1; 2; 27]%Z).
  { rewrite forallb_forall in B. apply Forall_forall. intros z I. specialize (B z I). apply existsb_exists in B as (w & Iw & Ew). apply Z.eqb_eq in Ew. now subst. }
  eapply centres_exact; eassumption.
Qed.
Print Assumptions C118_exact.
(** If the centres are at their places already, and the initial transformation has no displacement, nothing changes: neither the transformation
    nor the patch. *)
Theorem C118_unchanged flat2fp minimize init zbpolids max_rms metrology files patch t' new data : Forall (fun z => 0 <= z <= 32)%Z zbpolids -> usable init ->
  (forall x y, getZhaoBurgeXY (tx_polids init) (tx_coeffs init) x y = Ok (0, 0)) ->
  fit_using_posparams flat2fp minimize init zbpolids max_rms metrology files patch = Ok (t', new) ->
  gather flat2fp max_rms metrology files = Ok data -> Forall (fun d => fst d = snd d) data ->
  (forall p, image t' p = image init p) /\ new = patch.
Proof.
  intros V U Z E G D. destruct (C118_fit _ _ _ _ _ _ _ _ _ _ V U E) as (data' & pix & t1 & G' & F & _ & _ & _ & _ & _ & _ & N). rewrite G in G'. injection G' as <-.
  assert (VI := U). destruct VI as (VI & _ & CX & CY). assert (CI : camera_ok init) by (split; assumption).
  assert (NE : forall l k, fp2fvc init l = Ok k -> l <> []) by (intros l k H ->; discriminate).
  assert (Rt : forall l k, fp2fvc init l = Ok k -> map (image init) k = l).
  { intros l k H. destruct (proj1 (C30_exact_without_terms init U Z) l (NE l k H)) as (k' & K & B). rewrite H in K. injection K as <-. rewrite fvc2fp_image in B by assumption. now injection B as ->. }
  assert (X : forall p, image t' p = image init p).
  { apply (C118_exact flat2fp minimize init zbpolids max_rms metrology files patch t' new init data pix); try assumption; [repeat split|]. rewrite (Rt _ _ F). clear - D. induction D as [|d l H _ IH]; [reflexivity|]. cbn [map]. now rewrite H, IH. }
  split; [exact X|]. destruct patch as [l|]; [|exact N]. destruct N as (k & K & ->). f_equal. rewrite <- (Rt l k K). apply map_ext. exact X.
Qed.
Print Assumptions C118_unchanged.
(** The script gives up without the mandatory terms, and fails without a usable file. *)
Theorem C118_refused flat2fp minimize init zbpolids max_rms metrology files patch :
  (~ Forall (fun z => In z zbpolids) [0; 1; 2; 27]%Z -> fit_using_posparams flat2fp minimize init zbpolids max_rms metrology files patch = Err (SysExit 12)) /\
  (Forall (fun z => In z zbpolids) [0; 1; 2; 27]%Z -> (forall t, In (Some t) files -> has_offset t = false /\ has_static t = false) ->
   fit_using_posparams flat2fp minimize init zbpolids max_rms metrology files patch = Err ValueError).
Proof.
  assert (M : forallb (fun z => existsb (Z.eqb z) zbpolids) [0; 1; 2; 27]%Z = true <-> Forall (fun z => In z zbpolids) [0; 1; 2; 27]%Z).
  { rewrite forallb_forall, Forall_forall. split; intros H z I; specialize (H z I); [apply existsb_exists in H as (w & Iw & Ew); apply Z.eqb_eq in Ew; now subst|]. apply existsb_exists. exists z. split; [exact H|apply Z.eqb_refl]. }
  unfold fit_using_posparams. split; intros H.
  - destruct (forallb _ _); [exfalso; apply H; now apply M|reflexivity].
  - apply M in H. rewrite H. intros N. unfold gather. replace (flat_map _ files) with (@nil ((posrow -> R * R) * list posrow)); [reflexivity|]. symmetry. induction files as [|[t|] fs IH]; [reflexivity| |]; cbn [flat_map].
    + destruct (N t (or_introl eq_refl)) as [a b]. unfold offset_of. rewrite a, b. apply IH. intros t0 I. apply N. now right.
    + apply IH. intros t0 I. apply N. now right.
Qed.
Print Assumptions C118_refused.
(** The terms given replace those of the initial transformation, but its coefficients stay: the map the first fit starts from can be another one. *)
Theorem C118_start_refuted : exists init zbpolids p, usable init /\ Forall (fun z => 0 <= z <= 32)%Z zbpolids /\ incl (tx_polids init) zbpolids /\
  image (set_polids init zbpolids) p <> image init p.
Proof.
  set (init := {| xfvc_scale := 1; yfvc_scale := 1; xfvc_offset := 0; yfvc_offset := 0; tx_scale := 1; tx_rotation := 0; tx_offset_x := 0; tx_offset_y := 0; tx_polids := [2; 27]%Z; tx_coeffs := [0; 1] |}).
  exists init, [0; 1; 2; 27]%Z, (0, 0). split; [repeat split; cbn; try lra; repeat constructor; lia|]. split; [repeat constructor; lia|]. split; [intros z [<-|[<-|[]]]; cbn; auto|].
  assert (CI : camera_ok init) by (split; cbn; lra). assert (R0 : rx init (0, 0) = (0, 0)) by (unfold rx; cbn; f_equal; lra).
  rewrite !image_map by (try exact CI; cbn; repeat constructor; unfold valid_id; lia). change (rx (set_polids init _)) with (rx init). rewrite R0.
  assert (Q0 : similarity 1 0 (0 + 0, 0 + 0) = (0, 0)) by (unfold similarity; cbn [fst snd]; f_equal; lra).
  unfold reduced_map, full_map, params. cbn [init set_polids tx_polids tx_coeffs tx_scale tx_rotation tx_offset_x tx_offset_y fst snd]. rewrite Q0. cbn [fst snd].
  assert (A : getZhaoBurgeXY [0; 1; 2; 27]%Z [0; 1] 0 0 = Ok (0, 1)) by (unfold getZhaoBurgeXY; cbn [combine add_terms getZhaoBurgeTerm rbind fst snd]; rewrite getZ1; repeat f_equal; ring).
  assert (B : getZhaoBurgeXY [2; 27]%Z [0; 1] 0 0 = Ok (0, 0)) by (unfold getZhaoBurgeXY; cbn [combine add_terms]; rewrite (proj1 (S4_T4 0 0)), (proj2 (S4_T4 0 0)); cbn [rbind fst snd add_terms]; repeat f_equal; ring).
  rewrite A, B. unfold displaced, expand_xyfp. cbn [fst snd]. intros X. injection X as X. lra.
Qed.
Print Assumptions C118_start_refuted.
(** Two devices, one with a flagged row; the centres are at their places, moved by one to the right in the pixels' frame, and the minimizer
    stays at its start. *)
Example C118_example : exists t', let init := {| xfvc_scale := 1; yfvc_scale := 1; xfvc_offset := 0; yfvc_offset := 0; tx_scale := 1; tx_rotation := 0; tx_offset_x := 1; tx_offset_y := 0; tx_polids := []; tx_coeffs := [] |} in
  let row i f p := {| q_id := i; q_flags := f; q_error := 0; q_offset := p; q_static := p |} in
  fit_using_posparams (fun _ p => Ok p) (fun _ start => Ok start) init [0; 1; 2; 27]%Z 0.02
    [{| d_id := "M1"; d_petal := 0; d_fp := (0, 0) |}; {| d_id := "M2"; d_petal := 0; d_fp := (420, 0) |}]
    [None; Some {| has_flags := true; has_error := false; has_offset := true; has_static := false; q_rows := [row "M1"%string 0%Z (0, 0); row "M1"%string 1%Z (7, 7); row "M2"%string 0%Z (420, 0)] |}]
    (Some [(42, 42)]) = Ok (t', Some [(42, 42)]) /\ forall p, image t' p = image init p.
Proof.
  set (init := {| xfvc_scale := 1; yfvc_scale := 1; xfvc_offset := 0; yfvc_offset := 0; tx_scale := 1; tx_rotation := 0; tx_offset_x := 1; tx_offset_y := 0; tx_polids := []; tx_coeffs := [] |}).
  assert (U : usable init) by (repeat split; cbn; try lra; constructor). assert (Z : forall x y, getZhaoBurgeXY (tx_polids init) (tx_coeffs init) x y = Ok (0, 0)) by reflexivity. assert (CI : camera_ok init) by (split; cbn; lra).
  assert (V : Forall (fun z => 0 <= z <= 32)%Z [0; 1; 2; 27]%Z) by (repeat constructor; lia).
  (* two different points determine the four terms *)
  assert (Ind : forall t D, tx_polids t = [0; 1; 2; 27]%Z -> (exists q1 q2, In (- (1), 0, q1) D /\ In (0, 0, q2) D) -> exists t', refit (fun _ start => Ok start) t (map fst D) (map snd D) = Ok t').
  { intros t D P (q1 & q2 & I1 & I2). unfold refit, fit_scale_rotation_offset. cbn [rbind or_fixed]. rewrite (rmapM_total _ (fun p => similarity 1 0 (fst p + 0, snd p + 0))) by (intros; apply transform_plain). cbn [rbind].
    set (D' := map (fun d => (similarity 1 0 (fst (fst d) + 0, snd (fst d) + 0), snd d)) D). assert (E1 : map (fun p => similarity 1 0 (fst p + 0, snd p + 0)) (map fst D) = map fst D') by (unfold D'; rewrite !map_map; reflexivity). assert (E2 : map snd D = map snd D') by (unfold D'; rewrite !map_map; reflexivity). rewrite E1, E2, P.
    destruct (proj1 (C35_zhao_burge_fit D' [0; 1; 2; 27]%Z V)) as (c & F & _).
    - intros c L H. destruct c as [|c0 [|c1 [|c2 [|c3 [|]]]]]; try discriminate. assert (S0 : forall x y, similarity 1 0 (x + 0, y + 0) = (x, y)) by (intros; unfold similarity; cbn [fst snd]; rewrite cos_0, sin_0; f_equal; ring).
      assert (H1 := H (- (1), 0, q1)). assert (H2 := H (0, 0, q2)). clear H.
      assert (J1 : In (- (1), 0, q1) D') by (apply in_map_iff; exists (- (1), 0, q1); split; [cbn [fst snd]; now rewrite S0|exact I1]). assert (J2 : In (0, 0, q2) D') by (apply in_map_iff; exists (0, 0, q2); split; [cbn [fst snd]; now rewrite S0|exact I2]).
      specialize (H1 J1). specialize (H2 J2). cbn [fst snd] in H1, H2.
      assert (X : forall x y, getZhaoBurgeXY [0; 1; 2; 27]%Z [c0; c1; c2; c3] x y = Ok (c0 + sqrt 2 * (c2 * x + c3 * y), c1 + sqrt 2 * (c2 * y - c3 * x))).
      { intros x y. unfold getZhaoBurgeXY. cbn [combine add_terms]. rewrite (proj1 (S4_T4 x y)), (proj2 (S4_T4 x y)). cbn [getZhaoBurgeTerm rbind fst snd add_terms]. rewrite getZ1. f_equal. f_equal; ring. }
      rewrite X in H1, H2. injection H1 as A1 A2. injection H2 as B1 B2. assert (0 < sqrt 2) by (apply sqrt_lt_R0; lra). assert (c0 = 0) as -> by lra. assert (c1 = 0) as -> by lra.
      assert (c2 = 0) as -> by (apply (Rmult_eq_reg_l (sqrt 2)); lra). assert (c3 = 0) as -> by (apply (Rmult_eq_reg_l (sqrt 2)); lra). reflexivity.
    - rewrite F. cbn [rbind]. eauto. }
  destruct (proj1 (C30_exact_without_terms init U Z) [(0, 0); (420, 0)] ltac:(discriminate)) as (pix & Fp & Bp). destruct (proj1 (C30_exact_without_terms init U Z) [(42, 42)] ltac:(discriminate)) as (ppix & Fq & Bq).
  assert (Px : pix = [(- (1), 0); (0, 0)]).
  { destruct (proj2 (C30_exact_without_terms init U Z) [(- (1), 0); (0, 0)] ltac:(discriminate)) as (fp & A & B). rewrite fvc2fp_map in A by (try exact CI; constructor). injection A as <-. assert (I : forall x y, reduced_map init (rx init (x, y)) = (x + 1, y)) by (intros; unfold reduced_map, full_map, params, rx, similarity, displaced; cbn; rewrite cos_0, sin_0; f_equal; field). cbn [map] in B. rewrite !I in B. unfold expand_xyfp in B. cbn [fst snd] in B.
    replace ((- (1) + 1) * 420.0, 0 * 420.0) with (0, 0) in B by (f_equal; lra). replace ((0 + 1) * 420.0, 0 * 420.0) with (420, 0) in B by (f_equal; lra). rewrite Fp in B. now injection B. }
  subst pix. cbv zeta. match goal with |- context [fit_using_posparams _ _ _ _ _ ?m ?f _] => set (metrology := m); set (files := f) end. assert (G : gather (fun _ p => Ok p) 0.02 metrology files = Ok [((0, 0), (0, 0)); ((420, 0), (420, 0))]) by reflexivity.
  set (t0 := set_polids init [0; 1; 2; 27]%Z). set (D := map (fun d : (R * R) * (R * R) => (rx init (fst d), reduce_xyfp (snd d))) [((- (1), 0), (0, 0)); ((0, 0), (420, 0))]).
  assert (RX : forall x y, rx init (x, y) = (x, y)) by (intros; unfold rx; cbn; f_equal; field).
  destruct (Ind t0 D eq_refl) as (t1 & F1); [exists (reduce_xyfp (0, 0)), (reduce_xyfp (420, 0)); unfold D; cbn [map In fst snd]; rewrite !RX; auto|].
  destruct (refit_spec (fun _ start => Ok start) t0 D t1 V F1) as (S1 & P1 & _). assert (X1 : forall p, reduced_map t1 p = similarity 1 0 (fst p + 1, snd p + 0)).
  { apply (refit_exact (fun _ start => Ok start) t0 D t1 1 0 1 0); [exact V|apply Forall_forall; intros z I; exact I|exact F1|]. intros d I. unfold D in I. cbn [map fst snd In] in I. rewrite !RX in I. destruct I as [<-|[<-|[]]]; unfold similarity, reduce_xyfp; cbn [fst snd]; rewrite cos_0, sin_0; f_equal; lra. }
  assert (V1 : Forall valid_id (tx_polids t1)) by (rewrite P1; exact V). assert (C1 : camera_ok t1) by (destruct S1 as (a & b & _); split; rewrite ?a, ?b; apply CI).
  assert (Rx1 : forall p, rx t1 p = rx init p) by (intros p; destruct S1 as (a & b & c & d); unfold rx; rewrite a, b, c, d; reflexivity).
  destruct (Ind t1 D P1) as (t2 & F2); [exists (reduce_xyfp (0, 0)), (reduce_xyfp (420, 0)); unfold D; cbn [map In fst snd]; rewrite !RX; auto|].
  destruct (refit_spec (fun _ start => Ok start) t1 D t2 V1 F2) as (S2 & P2 & _).
  assert (E : exists new, fit_using_posparams (fun _ p => Ok p) (fun _ start => Ok start) init [0; 1; 2; 27]%Z 0.02 metrology files (Some [(42, 42)]) = Ok (t2, new)).
  { unfold fit_using_posparams. cbn [forallb existsb Z.eqb Pos.eqb orb andb]. rewrite G. cbn [rbind]. unfold fit_centres. cbn [map fst snd]. rewrite Fp. cbn [rbind]. rewrite Fq. cbn [rmap rbind]. fold t0.
    rewrite (rmapM_total _ (rx init)) by (intros; apply (reduce_rx init); exact CI). cbn [rbind map]. change [rx init (- (1), 0); rx init (0, 0)] with (map fst D). change [reduce_xyfp (0, 0); reduce_xyfp (420, 0)] with (map snd D). rewrite F1. cbn [rbind]. rewrite fvc2fp_map by assumption. cbn [rbind map combine].
    assert (K1 : close (expand_xyfp (reduced_map t1 (rx t1 (- (1), 0))), (0, 0)) = true).
    { unfold close. cbn [fst snd]. rewrite Rx1, RX, X1. unfold similarity, expand_xyfp. cbn [fst snd]. rewrite cos_0, sin_0. apply Rltb_true. match goal with |- sqrt ?e < _ => replace e with 0 by lra end. rewrite sqrt_0. lra. }
    assert (K2 : close (expand_xyfp (reduced_map t1 (rx t1 (0, 0))), (420, 0)) = true).
    { unfold close. cbn [fst snd]. rewrite Rx1, RX, X1. unfold similarity, expand_xyfp. cbn [fst snd]. rewrite cos_0, sin_0. apply Rltb_true. match goal with |- sqrt ?e < _ => replace e with 0 by lra end. rewrite sqrt_0. lra. }
    rewrite K1, K2. change (select [true; true] (map fst D)) with (map fst D). change (select [true; true] (map snd D)) with (map snd D). rewrite F2. cbn [rbind].
    rewrite fvc2fp_map; [cbn [rmap rbind]; eauto| |]; [rewrite P2, P1; exact V|]. destruct S2 as (a & b & _); split; rewrite ?a, ?b; apply C1. }
  destruct E as (new & E). assert (W := C118_unchanged _ _ _ _ _ _ _ _ _ _ _ V U Z E G). destruct W as [X ->]; [repeat constructor|]. exists t2. split; [exact E|exact X].
Qed.
