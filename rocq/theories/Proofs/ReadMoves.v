From Coq Require Import Lra Lia Permutation Sorted OrdersEx.
From Verif.Model Require Import ReadMoves.
From Verif.Spec Require Import Numpy ReadMoves.
From Verif.Proofs Require Import Prelude RealNum Numpy Sorting Fitter Fithandler RayTraceFit.
Local Open Scope string_scope.
Local Open Scope list_scope.

(** *** Order of texts *)
Lemma str_ltb_lt a b : str_ltb a b = true <-> String_as_OT.lt a b.
Proof.
  assert (Q : str_ltb a b = true <-> String.compare a b = Lt). { unfold str_ltb, String.leb. rewrite (String.compare_antisym b a). destruct (String.compare a b); cbn; split; intros H; try discriminate; reflexivity. }
  rewrite Q. pose proof (String_as_OT.compare_spec a b) as C. change (String_as_OT.compare a b) with (String.compare a b) in C. destruct String_as_OT.lt_strorder as [I T].
  destruct (String.compare a b); inversion C as [H|H|H]; split; intros X; try discriminate; try exact H; try reflexivity.
  - rewrite H in X. now apply I in X.
  - exfalso. apply (I a). exact (T _ _ _ X H).
Qed.
Lemma str_ltb_weak : strict_weak str_ltb.
Proof.
  destruct String_as_OT.lt_strorder as [I T]. split.
  - intros x. destruct (str_ltb x x) eqn:E; [|reflexivity]. apply str_ltb_lt in E. now apply I in E.
  - intros x y z A B. apply str_ltb_lt in A, B. apply str_ltb_lt. exact (T _ _ _ A B).
  - intros x y z A. apply str_ltb_lt in A. destruct (String_as_OT.compare_spec x y) as [E|L|G]; [rewrite <- E; right; now apply str_ltb_lt|left; now apply str_ltb_lt|].
    right. apply str_ltb_lt. exact (T _ _ _ G A).
Qed.
Lemma str_ltb_le a b : str_ltb b a = false <-> text_le a b.
Proof. unfold str_ltb, text_le. rewrite negb_false_iff. tauto. Qed.
(** *** Sequences *)
Lemma index_rank z : forall l, StronglySorted Z.lt l -> In z l -> exists s, NoDup s /\ (forall e, In e s <-> In e l /\ (e < z)%Z) /\ index_of z l = Z.of_nat (List.length s).
Proof.
  induction l as [|y l IH]; intros S I; [destruct I|]. inversion S as [|? ? S' F]; subst. rewrite Forall_forall in F. cbn [index_of]. destruct (Z.eqb_spec z y) as [->|N].
  - exists []. split; [constructor|]. split; [|reflexivity]. intros e. split; [intros []|]. intros [[->|Ie] L]; [lia|]. specialize (F e Ie). lia.
  - destruct I as [->|I]; [congruence|]. destruct (IH S' I) as (s & ND & Q & E). exists (y :: s). split; [constructor; [|exact ND]|split].
    + intros Iy. apply Q in Iy as [Iy _]. specialize (F y Iy). lia.
    + intros e. cbn. rewrite Q. pose proof (F z I). split; [intros [<-|[]]; split; auto|intros [[<-|] ?]; auto].
    + cbn [List.length]. rewrite E. lia.
Qed.
Lemma sequence_rank exps e : In e exps -> rank exps e (index_of e (unique exps)).
Proof.
  intros I. destruct (index_rank e (unique exps) (unique_sorted exps)) as (s & ND & Q & E); [now apply unique_In|]. exists s. split; [exact ND|]. split; [|exact E]. intros x. rewrite Q, unique_In. tauto.
Qed.
Lemma combine_map {A B} (f : A -> B) l : combine l (map f l) = map (fun a => (a, f a)) l.
Proof. induction l; cbn; congruence. Qed.
Lemma mem_str_In k l : mem_str k l = true <-> In k l.
Proof. unfold mem_str. rewrite existsb_exists. split; [intros (x & I & E); apply String.eqb_eq in E; now subst|intros I; exists k; split; [exact I|apply String.eqb_refl]]. Qed.
Lemma str2bool_spec e : str2bool e = true <-> means_enabled e.
Proof. destruct e; cbn [str2bool means_enabled]; [apply mem_str_In|apply Reqb_true|tauto]. Qed.
Lemma is_posid_spec posid l : is_posid posid l = true <-> l <> [] /\ Forall (fun r => r_posid r = posid) l.
Proof.
  unfold is_posid. assert (Q : forall p, In p (nodup string_dec (map r_posid l)) <-> In p (map r_posid l)) by (intros; apply nodup_In). assert (ND := NoDup_nodup string_dec (map r_posid l)).
  destruct (nodup string_dec (map r_posid l)) as [|p [|q r]].
  - split; [discriminate|]. intros [N _]. destruct l as [|a l]; [congruence|]. exfalso. apply (Q (r_posid a)). now left.
  - rewrite String.eqb_eq. split.
    + intros ->. split; [intros ->; apply (proj1 (Q p)); now left|]. apply Forall_forall. intros a I. assert (I' : In (r_posid a) [p]) by (apply Q, in_map, I). destruct I' as [I'|[]]. now symmetry.
    + intros [N F]. destruct (proj1 (in_map_iff _ _ _) (proj1 (Q p) (or_introl eq_refl))) as (a & E & I); rewrite Forall_forall in F; rewrite <- E; symmetry; now apply F.
  - split; [discriminate|]. intros [N F]. exfalso. rewrite Forall_forall in F. assert (P : forall x, In x (p :: q :: r) -> x = posid) by (intros x I; apply Q, in_map_iff in I as (a & <- & I); now apply F).
    inversion ND as [|? ? Np _]; subst. apply Np. left. rewrite (P p), (P q); [reflexivity|right; now left|now left].
Qed.
Lemma Permutation_nonempty {A} (l m : list A) : Permutation l m -> m <> [] -> l <> [].
Proof. intros P N ->. apply Permutation_nil in P. congruence. Qed.
(** *** The first of each move sequence *)
Lemma first_of {A} (key : A -> Z) l : forall p, StronglySorted (fun x y => (y <? x)%Z = false) (map key l) -> (forall r, In r l -> (p <= key r)%Z) ->
  let k := remove_rows l (map (Z.eqb 0) (diff_with_prepend p (map key l))) in
  StronglySorted Z.lt (map key k) /\ (forall r, In r k -> In r l /\ (p < key r)%Z) /\ (forall r, In r l -> key r = p \/ exists r', In r' k /\ key r' = key r).
Proof.
  induction l as [|a l IH]; intros p S P; [cbn; split; [constructor|split; intros r []]|]. inversion S as [|? ? S' F]; subst. rewrite Forall_forall in F.
  assert (P' : forall r, In r l -> (key a <= key r)%Z) by (intros r Hr; specialize (F (key r) (in_map _ _ _ Hr)); lia).
  destruct (IH (key a) S' P') as (Sk & Ik & Ck). unfold remove_rows in *. cbn [map diff_with_prepend combine filter snd]. specialize (P a (or_introl eq_refl)).
  destruct (Z.eqb_spec 0 (key a - p)) as [E|E]; cbn [negb map].
  - cbv zeta. split; [exact Sk|]. split; [intros r Hr; destruct (Ik r Hr); split; [now right|lia]|]. intros r [<-|Hr]; [left; lia|]. destruct (Ck r Hr) as [C|C]; [left; lia|now right].
  - cbv zeta. cbn [fst]. split; [|split].
    + constructor; [exact Sk|]. apply Forall_forall. intros x Hx. apply in_map_iff in Hx. destruct Hx as (r & <- & Hr). now apply Ik.
    + intros r [<-|Hr]; [split; [now left|lia]|]. destruct (Ik r Hr). split; [now right|lia].
    + intros r [<-|Hr]; [right; exists a; split; [now left|reflexivity]|]. destruct (Ck r Hr) as [C|(r' & Hr' & C)]; right; [exists a; split; [now left|lia]|exists r'; split; [now right|exact C]].
Qed.
Lemma Forall2_flip {A B} (P : A -> B -> Prop) l m : Forall2 P l m -> Forall2 (fun b a => P a b) m l.
Proof. induction 1; constructor; assumption. Qed.
Section Read.
Variable argsort : forall K, (K -> K -> bool) -> list K -> list nat.
Hypothesis AS : is_argsort argsort.
Lemma sort_rows_spec {A K} (ltb : K -> K -> bool) (key : A -> K) l : strict_weak ltb ->
  exists s, sort_rows argsort ltb key l = Ok s /\ Permutation s l /\ StronglySorted (fun x y => ltb y x = false) (map key s).
Proof. intros W. unfold sort_rows. destruct (sorting_take ltb key l _ (AS K ltb (map key l) W)) as (s & E & P & A'). now exists s. Qed.
Lemma filter_rows_spec l : exists out, filter_rows argsort l = Ok out /\ StronglySorted Z.lt (map (fun m => r_total (m_raw (fst m))) out) /\
  (forall m, In m out -> In m l /\ m_on (fst m) = true) /\
  (forall m, In m l -> m_on (fst m) = true -> exists m', In m' out /\ r_total (m_raw (fst m')) = r_total (m_raw (fst m))).
Proof.
  unfold filter_rows. rewrite remove_map. set (key := fun m : mrow * (R * R) => r_total (m_raw (fst m))).
  set (f := filter (fun a => negb (negb (m_on (fst a)))) l). assert (FI : forall m, In m f <-> In m l /\ m_on (fst m) = true) by (intros m; unfold f; rewrite filter_In, negb_involutive; tauto).
  clearbody f. cbv zeta. destruct f as [|a f'] eqn:Ef.
  - exists []. split; [reflexivity|]. split; [constructor|]. split; [intros m []|]. intros m I O. destruct (proj2 (FI m) (conj I O)).
  - rewrite <- Ef in *. destruct (sort_rows_spec Z.ltb key f (st_weak _ Zltb_strict)) as (s & E & P & S). rewrite E. cbn [rbind].
    destruct s as [|r0 s]; [apply Permutation_nil in P; congruence|].
    assert (P1 : forall r, In r (r0 :: s) -> (key r0 <= key r)%Z). { intros r [<-|Hr]; [lia|]. inversion S as [|? ? _ F]; subst. rewrite Forall_forall in F. specialize (F (key r) (in_map _ _ _ Hr)). lia. }
    destruct (first_of key (r0 :: s) (key r0 - 1)%Z S) as (Sk & Ik & Ck); [intros r I; specialize (P1 r I); lia|]. eexists. split; [reflexivity|]. split; [exact Sk|]. split.
    + intros r Hr. destruct (Ik r Hr) as [Hr' _]. apply FI, (Permutation_in _ P), Hr'.
    + intros r Hr En. assert (I : In r (r0 :: s)) by (apply (Permutation_in _ (Permutation_sym P)), FI; auto). destruct (Ck r I) as [C|C]; [|exact C]. specialize (P1 r I). lia.
Qed.
(** *** The table read *)
Definition filled (t : mtable) (force : bool) (rows : list raw) (r : raw) : mrow :=
  {| m_raw := r; m_gear_t := if mem_str "GEAR_CALIB_T" (t_columns t) then r_gear_t r else 1%R; m_gear_p := if mem_str "GEAR_CALIB_P" (t_columns t) then r_gear_p r else 1%R;
     m_seq := index_of (r_exposure r) (unique (map r_exposure rows)); m_rehome := if force then true else r_rehome r; m_on := str2bool (r_ctrl r) |}.
Lemma filled_becomes t force rows r : In r rows -> becomes t force rows r (filled t force rows r).
Proof.
  intros I. unfold becomes, filled, has_column. cbn [m_raw m_gear_t m_gear_p m_seq m_rehome m_on].
  split; [reflexivity|]. split; [intros H; apply mem_str_In in H; now rewrite H|]. split; [intros H; destruct (mem_str "GEAR_CALIB_T" (t_columns t)) eqn:E; [apply mem_str_In in E; contradiction|reflexivity]|].
  split; [intros H; apply mem_str_In in H; now rewrite H|]. split; [intros H; destruct (mem_str "GEAR_CALIB_P" (t_columns t)) eqn:E; [apply mem_str_In in E; contradiction|reflexivity]|].
  split; [apply sequence_rank, in_map, I|]. split; [destruct force; intuition congruence|apply str2bool_spec].
Qed.
Lemma table_filled (t : mtable) (force : bool) (rows : list raw) : map (fun '(r, s) => {| m_raw := r; m_gear_t := if mem_str "GEAR_CALIB_T" (t_columns t) then r_gear_t r else 1%R; m_gear_p := if mem_str "GEAR_CALIB_P" (t_columns t) then r_gear_p r else 1%R;
     m_seq := s; m_rehome := if force then true else r_rehome r; m_on := str2bool (r_ctrl r) |}) (combine rows (sequences (map r_exposure rows))) = map (filled t force rows) rows.
Proof. unfold sequences. rewrite map_map, combine_map, map_map. reflexivity. Qed.
Lemma read_cases posid t sel force : let rows := posmove_selection raw r_note (t_rows t) sel in
  (~ readable t sel force -> read argsort posid t sel force = Err KeyError) /\
  (readable t sel force -> ~ some_rehomed rows force -> read argsort posid t sel force = Err RuntimeError) /\
  (readable t sel force -> some_rehomed rows force -> ~ has_column t "DATE" -> read argsort posid t sel force = Err KeyError) /\
  (readable t sel force -> some_rehomed rows force -> has_column t "DATE" -> exists s, Permutation s (map (filled t force rows) rows) /\
     StronglySorted text_le (map (fun m => r_date (m_raw m)) s) /\
     read argsort posid t sel force = Ok (if forallb (fun k => mem_str k (t_columns t)) required_keys && is_posid posid (map m_raw s) then Some s else None)%bool).
Proof.
  intros rows. unfold read. cbv zeta. fold rows. rewrite table_filled. unfold readable, some_rehomed, has_column. rewrite <- !mem_str_In.
  set (has := fun k : string => mem_str k (t_columns t)). change (fun k : string => mem_str k (t_columns t)) with has. cbv beta.
  repeat match goal with |- context [mem_str ?k (t_columns t)] => change (mem_str k (t_columns t)) with (has k) end.
  assert (X : existsb m_rehome (map (filled t force rows) rows) = true <-> exists r, In r rows /\ (force = true \/ r_rehome r = true)).
  { rewrite existsb_exists. split.
    - intros (m & I & E). apply in_map_iff in I as (r & <- & I). exists r. split; [exact I|]. cbn in E. destruct force; auto.
    - intros (r & I & E). exists (filled t force rows r). split; [now apply in_map|]. cbn. destruct force; [reflexivity|]. destruct E; [discriminate|assumption]. }
  rewrite <- X.
  assert (SL : match sel with Some _ => negb (has "LOG_NOTE") | None => false end = false <-> (sel <> None -> has "LOG_NOTE" = true)).
  { destruct sel; [rewrite negb_false_iff; split; [auto|intros H; apply H; discriminate]|split; [intros _ H; congruence|reflexivity]]. }
  clearbody has.
  destruct (has "GEAR_CALIB_T" || has "POS_T")%bool eqn:E1; cbn [negb]; [|apply orb_false_iff in E1 as [E1 E2]; rewrite E1, E2; split; [auto|split; [|split]; intros (_ & [?|?] & _); discriminate]].
  destruct (has "GEAR_CALIB_P" || has "POS_P")%bool eqn:E2; cbn [negb]; [|apply orb_false_iff in E2 as [E2 E3]; rewrite E2, E3; split; [auto|split; [|split]; intros (_ & _ & [?|?] & _); discriminate]].
  apply orb_true_iff in E1, E2.
  destruct (match sel with Some _ => negb (has "LOG_NOTE") | None => false end) eqn:E3.
  { split; [auto|]. split; [|split]; intros (_ & _ & _ & H & _); apply SL in H; congruence. } pose proof (proj1 SL eq_refl) as E3'.
  destruct (has "EXPOSURE_ID") eqn:E4; cbn [negb]; [|split; [auto|split; [|split]; intros (? & _); discriminate]].
  destruct (force || has "RECENT_REHOME")%bool eqn:E5; cbn [negb].
  2: { apply orb_false_iff in E5 as [-> E5]. rewrite E5. split; [auto|]. split; [|split]; intros (_ & _ & _ & _ & H); discriminate (H eq_refl). }
  assert (E5' : force = false -> has "RECENT_REHOME" = true) by (intros ->; exact E5).
  destruct (existsb m_rehome (map (filled t force rows) rows)) eqn:E6; cbn [negb].
  2: { split; [intros N; exfalso; apply N; tauto|]. split; [auto|]. split; intros _ H; discriminate. }
  split; [intros N; exfalso; apply N; tauto|]. split; [intros _ N; now contradiction N|].
  destruct (has "DATE") eqn:E7; cbn [negb]; [|split; [auto|intros _ _ ?; discriminate]].
  split; [intros _ _ N; now contradiction N|]. intros _ _ _.
  destruct (sort_rows_spec str_ltb (fun m => r_date (m_raw m)) (map (filled t force rows) rows) str_ltb_weak) as (s & E & P & S). exists s. split; [exact P|]. split.
  - clear - S. induction S as [|a l S IH F]; constructor; [exact IH|]. eapply Forall_impl; [|exact F]. intros b Hb. now apply str_ltb_le.
  - rewrite E. cbn [rbind]. now destruct (forallb has required_keys && is_posid posid (map m_raw s))%bool.
Qed.
(** *** Preparation *)
Variable fp2ptl : Z -> R * R -> res (R * R).
Variable parse_date : string -> res R.
Lemma rmapM_pair {A B} (f : A -> res B) l : (forall a, In a l -> exists b, f a = Ok b) -> exists bs, rmapM (fun a => rmap (pair a) (f a)) l = Ok bs /\ map fst bs = l /\ Forall (fun ab => f (fst ab) = Ok (snd ab)) bs.
Proof.
  induction l as [|a l IH]; intros H; [exists []; repeat split; constructor|]. destruct (H a (or_introl eq_refl)) as (b & E). destruct IH as (bs & Eb & M & F); [intros x I; apply H; now right|].
  exists ((a, b) :: bs). cbn [rmapM]. rewrite E. unfold rmap at 1. cbn [rbind]. rewrite Eb. cbn [rbind]. split; [reflexivity|]. split; [cbn; now rewrite M|]. constructor; [exact E|exact F].
Qed.
Lemma sorted_lt_nodup l : StronglySorted Z.lt l -> NoDup l.
Proof. induction 1 as [|a l S IH F]; constructor; [|exact IH]. intros I. rewrite Forall_forall in F. specialize (F a I). lia. Qed.
Lemma prepare_spec l m0 rest : l = m0 :: rest -> (forall m, In m l -> exists p, fp2ptl (r_petal_loc (m_raw m0)) (r_x (m_raw m), r_y (m_raw m)) = Ok p) ->
  exists lp out, make_petal_xy fp2ptl l = Ok lp /\ filter_rows argsort lp = Ok out /\ one_of_each l (map fst out) /\
    Forall (fun mp => fp2ptl (r_petal_loc (m_raw m0)) (r_x (m_raw (fst mp)), r_y (m_raw (fst mp))) = Ok (snd mp)) out.
Proof.
  intros El H. unfold make_petal_xy. rewrite El. cbv iota beta. rewrite <- El. clear El.
  destruct (rmapM_pair (fun m => fp2ptl (r_petal_loc (m_raw m0)) (r_x (m_raw m), r_y (m_raw m))) l H) as (lp & E & M & F). exists lp.
  destruct (filter_rows_spec lp) as (out & Eo & S & I & C). exists out. split; [exact E|]. split; [exact Eo|]. split.
  - split; [rewrite map_map; apply sorted_lt_nodup, S|]. split.
    + intros m Im. apply in_map_iff in Im as (mp & <- & Im). destruct (I mp Im) as [Il O]. split; [rewrite <- M; now apply in_map|exact O].
    + intros m Im O. rewrite <- M in Im. apply in_map_iff in Im as (mp & <- & Im). destruct (C mp Im O) as (m' & Im' & Et). exists (fst m'). split; [now apply in_map|exact Et].
  - apply Forall_forall. intros mp Im. destruct (I mp Im) as [Il _]. rewrite Forall_forall in F. now apply F.
Qed.
Lemma seconds_spec petal out : Forall (fun mp => fp2ptl petal (r_x (m_raw (fst mp)), r_y (m_raw (fst mp))) = Ok (snd mp)) out ->
  (forall mp, In mp out -> exists s, parse_date (r_date (m_raw (fst mp))) = Ok s) ->
  exists rows perm, with_seconds argsort parse_date out = Ok rows /\ Permutation perm (map fst out) /\ Forall2 (fit_row_of fp2ptl parse_date petal) perm rows /\ StronglySorted Rle (map w_sec rows).
Proof.
  intros F H. unfold with_seconds.
  assert (G : exists ws, rmapM (fun m => rmap (fit_row m) (parse_date (r_date (m_raw (fst m))))) out = Ok ws /\ Forall2 (fit_row_of fp2ptl parse_date petal) (map fst out) ws).
  { clear AS. induction out as [|[m [x y]] out IH]; [exists []; split; [reflexivity|constructor]|]. inversion F as [|? ? Fa F']; subst. destruct (H (m, (x, y)) (or_introl eq_refl)) as (s & Es). destruct IH as (ws & Ew & Fw); [exact F'|intros mp I; apply H; now right|].
    exists (fit_row (m, (x, y)) s :: ws). cbn [rmapM fst]. cbn [fst] in Es. rewrite Es. unfold rmap at 1. cbn [rbind]. rewrite Ew. cbn [rbind]. split; [reflexivity|]. cbn [map fst]. constructor; [|exact Fw].
    unfold fit_row_of, fit_row. cbn. cbn [fst snd] in Fa. repeat split; assumption. }
  destruct G as (ws & Ew & Fw). rewrite Ew. cbn [rbind]. destruct (sort_rows_spec Rltb w_sec ws Rltb_weak) as (rows & Er & P & S). exists rows. destruct (Permutation_Forall2 (Permutation_sym P) (Forall2_flip _ _ _ Fw)) as (perm & Pp & Fp).
  exists perm. split; [exact Er|]. split; [now apply Permutation_sym|]. split; [exact (Forall2_flip _ _ _ Fp)|]. clear - S. induction S as [|a l S IH Fa]; constructor; [exact IH|]. eapply Forall_impl; [|exact Fa]. intros b Hb. now apply Rltb_false in Hb.
Qed.
End Read.
