(** The run over all windows of a positioner: best parameters, join of the static and the dynamic fits. *)
From Coq Require Import Lra Lia Permutation Sorted.
From Verif.Model Require Import FitTable.
From Verif.Spec Require Import Fithandler FitTable FitRun.
From Verif.Proofs Require Import Prelude RealNum Numpy Stats PyString Fitter Fithandler FitNames FitTable.
Local Open Scope R_scope.
Local Open Scope string_scope.
Local Open Scope list_scope.

(** *** Flags *)
Lemma rmapM_cells {A B} (f : A -> cell) (g : cell -> res B) (h : A -> B) l : (forall a, g (f a) = Ok (h a)) -> rmapM g (map f l) = Ok (map h l).
Proof. intros H. induction l as [|a l IH]; [reflexivity|]. cbn [map rmapM]. rewrite H. cbn [rbind]. rewrite IH. reflexivity. Qed.
Lemma land4 f : (0 <? Z.land f 4)%Z = Z.testbit f 2.
Proof.
  assert (E : Z.land f 4 = if Z.testbit f 2 then 4%Z else 0%Z).
  { apply Z.bits_inj'. intros i Hi. rewrite Z.land_spec. change 4%Z with (2 ^ 2)%Z. rewrite Z.pow2_bits_eqb by lia. destruct (Z.eqb_spec 2 i) as [<-|N].
    - rewrite andb_true_r. destruct (Z.testbit f 2); [rewrite Z.pow2_bits_eqb by lia; reflexivity|now rewrite Z.bits_0].
    - rewrite andb_false_r. destruct (Z.testbit f 2); [rewrite Z.pow2_bits_eqb by lia; symmetry; now apply Z.eqb_neq|now rewrite Z.bits_0]. }
  rewrite E. destruct (Z.testbit f 2); reflexivity.
Qed.
Lemma lor_bits l : forall a i, Z.testbit (fold_left Z.lor l a) i = (Z.testbit a i || existsb (fun f => Z.testbit f i) l)%bool.
Proof. induction l as [|f l IH]; intros a i; cbn [fold_left existsb]; [now rewrite orb_false_r|]. rewrite IH, Z.lor_spec. apply eq_sym, orb_assoc. Qed.
Lemma failed_flags_spec t (os : list fit_out) : column t "FLAGS" = Some (map (fun o => CInt (o_flags o)) os) ->
  (Forall (fun o => ~ fit_failed o) os -> failed_flags t = Ok None) /\
  ((exists o, In o os /\ fit_failed o) -> exists f, failed_flags t = Ok (Some f) /\ forall i, Z.testbit f i = existsb (fun o => Z.testbit (o_flags o) i) os).
Proof.
  intros C. unfold failed_flags. apply lookup_get in C. rewrite C. cbn [rbind]. rewrite (rmapM_cells _ _ o_flags) by reflexivity. cbn [rbind]. change (bit "FAILED_FIT") with (@Ok Z 4%Z). cbn [rbind]. split.
  - intros F. assert (N : existsb (fun f => (0 <? Z.land f 4)%Z) (map o_flags os) = false); [|rewrite N; reflexivity]. clear C. induction F as [|o os H F IH]; [reflexivity|]. cbn [map existsb]. rewrite land4. unfold fit_failed in H. destruct (Z.testbit (o_flags o) 2); [contradiction|]. exact IH.
  - intros (o & Io & Ho). assert (N : existsb (fun f => (0 <? Z.land f 4)%Z) (map o_flags os) = true) by (apply existsb_exists; exists (o_flags o); split; [now apply in_map|now rewrite land4]). rewrite N.
    eexists. split; [reflexivity|]. intros i. rewrite lor_bits, Z.bits_0. cbn [orb]. clear. induction os as [|y os IH]; [reflexivity|]. cbn [map existsb]. now rewrite IH.
Qed.

(** *** Best parameters *)
Lemma percentile_reached os q : 0 <= q <= 1 -> os <> [] -> exists v, percentile (map o_rms os) q = Ok v /\ exists o, In o os /\ o_rms o <= v.
Proof.
  intros Q N. destruct (percentile_spec (map o_rms os) q Q) as (v & k & E & _ & K & L & _); [destruct os; [contradiction|discriminate]|]. exists v. split; [exact E|].
  assert (I : In (nth k (sort_R (map o_rms os)) 0) (sort_R (map o_rms os))) by (apply nth_In; rewrite (Permutation_length (sort_R_perm _)); exact K). apply (Permutation_in _ (sort_R_perm _)) in I. apply in_map_iff in I as (o & Eo & Io). exists o. split; [exact Io|]. lra.
Qed.
Lemma selection (f : fit_out -> R) v os : map snd (filter (fun ev => Rleb (fst ev) v) (combine (map o_rms os) (map f os))) = map f (filter (fun o => Rleb (o_rms o) v) os).
Proof. induction os as [|o os IH]; [reflexivity|]. cbn [map combine filter fst]. destruct (Rleb (o_rms o) v); cbn [map snd]; now rewrite IH. Qed.
Lemma best_params_spec t q ks os : 0 <= q <= 1 -> os <> [] -> NoDup ks -> column t "FIT_ERROR_STATIC" = Some (map (fun o => CNum (o_rms o)) os) ->
  (forall k, In k ks -> column t (k ++ "_STATIC")%string = Some (map (fun o => CNum (value_of k o)) os)) -> exists p, best_params t q ks = Ok p /\ best_of q ks os p.
Proof.
  intros Q N ND C H. destruct (percentile_reached os q Q N) as (v & Ev & o & Io & Lo). unfold best_params. apply lookup_get in C. rewrite C. cbn [rbind]. rewrite (rmapM_cells _ _ o_rms) by reflexivity. cbn [rbind]. rewrite Ev. cbn [rbind].
  assert (M : forall k, exists m, median (map (value_of k) (filter (fun o => Rleb (o_rms o) v) os)) = Ok m). { intros k. apply median_total. intros E. apply map_eq_nil in E. assert (In o (filter (fun o => Rleb (o_rms o) v) os)) as I by (apply filter_In; split; [exact Io|now apply Rleb_true]). rewrite E in I. exact I. }
  assert (G : exists p, rmapM (fun k => rbind (lookup t (k ++ "_STATIC")%string) (fun c => rbind (rmapM number c) (fun values => rbind (median (map snd (filter (fun ev => Rleb (fst ev) v) (combine (map o_rms os) values)))) (fun m => Ok (k, m))))) ks = Ok p /\ map fst p = ks /\
    forall k, In k ks -> exists m, median (map (value_of k) (filter (fun o => Rleb (o_rms o) v) os)) = Ok m /\ In (k, m) p).
  { clear ND. induction ks as [|k ks IH]; [exists []; split; [reflexivity|]; split; [reflexivity|intros k []]|]. destruct IH as (p & Ep & Kp & Vp); [intros; apply H; now right|]. destruct (M k) as (m & Em). exists ((k, m) :: p). split; [|split].
    - cbn [rmapM]. assert (L : lookup t (k ++ "_STATIC")%string = Ok (map (fun o => CNum (value_of k o)) os)) by (apply lookup_get, H; now left). rewrite L. cbn [rbind]. rewrite (rmapM_cells _ _ (value_of k)) by reflexivity. cbn [rbind]. rewrite selection, Em. cbn [rbind]. rewrite Ep. reflexivity.
    - cbn [map fst]. now rewrite Kp.
    - intros k' [<-|I']; [exists m; split; [exact Em|now left]|]. destruct (Vp k' I') as (m' & Em' & Im'). exists m'. split; [exact Em'|now right]. }
  destruct G as (p & Ep & Kp & Vp). exists p. split; [exact Ep|]. exists v. split; [exact Ev|]. split; [exact ND|]. split; [exact Kp|]. intros k Ik. destruct (Vp k Ik) as (m & Em & Im). exists m. split; [exact Em|].
  clear - Im Kp ND. subst ks. induction p as [|[k' m'] p IH]; [destruct Im|]. cbn [map fst] in ND. apply NoDup_cons_iff in ND as [A B]. cbn [dict_get]. destruct (String.eqb_spec k k') as [->|Ne].
  - destruct Im as [Q|I]; [injection Q as ->; reflexivity|]. destruct A. apply (in_map fst) in I. exact I.
  - apply IH; [exact B|]. destruct Im as [Q|I]; [injection Q as -> ->; contradiction|exact I].
Qed.
Lemma best_params_missing t q ks os : 0 <= q <= 1 -> os <> [] -> column t "FIT_ERROR_STATIC" = Some (map (fun o => CNum (o_rms o)) os) ->
  (forall k, In k ks -> column t (k ++ "_STATIC")%string = None \/ column t (k ++ "_STATIC")%string = Some (map (fun o => CNum (value_of k o)) os)) -> (exists k, In k ks /\ column t (k ++ "_STATIC")%string = None) -> best_params t q ks = Err KeyError.
Proof.
  intros Q N C H Ex. destruct (percentile_reached os q Q N) as (v & Ev & o & Io & Lo). unfold best_params. apply lookup_get in C. rewrite C. cbn [rbind]. rewrite (rmapM_cells _ _ o_rms) by reflexivity. cbn [rbind]. rewrite Ev. cbn [rbind].
  assert (M : forall k, exists m, median (map (value_of k) (filter (fun o => Rleb (o_rms o) v) os)) = Ok m). { intros k. apply median_total. intros E. apply map_eq_nil in E. assert (In o (filter (fun o => Rleb (o_rms o) v) os)) as I by (apply filter_In; split; [exact Io|now apply Rleb_true]). rewrite E in I. exact I. }
  induction ks as [|k ks IH]; [destruct Ex as (k & [] & _)|]. cbn [rmapM]. destruct (H k (or_introl eq_refl)) as [Hn|Hs].
  - assert (L : lookup t (k ++ "_STATIC")%string = Err KeyError) by (unfold lookup, dict_getE; unfold column in Hn; now rewrite Hn). rewrite L. reflexivity.
  - assert (L : lookup t (k ++ "_STATIC")%string = Ok (map (fun o => CNum (value_of k o)) os)) by (now apply lookup_get). rewrite L. cbn [rbind]. rewrite (rmapM_cells _ _ (value_of k)) by reflexivity. cbn [rbind]. rewrite selection. destruct (M k) as (m & ->). cbn [rbind].
    rewrite IH; [reflexivity|intros; apply H; now right|]. destruct Ex as (k' & [<-|I] & Hk); [rewrite Hs in Hk; discriminate|eauto].
Qed.
(** the names of the best parameters *)
Lemma fold_names l : forall d : dict string R, NoDup (map fst d) -> let r := fold_left (fun d k => if has_epsilon k then dset d (replace "_STATIC" "" k) 0 else d) l d in
  NoDup (map fst r) /\ forall k, In k (map fst r) <-> In k (map fst d) \/ exists m, In m l /\ has_epsilon m = true /\ k = replace "_STATIC" "" m.
Proof.
  induction l as [|m l IH]; intros d N; cbn [fold_left]; [split; [exact N|]; intros k; split; [auto|intros [H|(m & [] & _)]; exact H]|]. cbv zeta in IH. destruct (has_epsilon m) eqn:Hm.
  - destruct (IH (dset d (replace "_STATIC" "" m) 0)) as [A B]; [now apply dset_NoDup|]. split; [exact A|]. intros k. rewrite B, dset_keys. split.
    + intros [[->|H]|(m' & I & Q & ->)]; [right; exists m; split; [now left|auto]|now left|right; exists m'; split; [now right|auto]].
    + intros [H|(m' & [<-|I] & Q & ->)]; [auto|auto|right; eauto].
  - destruct (IH d N) as [A B]. split; [exact A|]. intros k. rewrite B. split; intros [H|(m' & I & Q & ->)]; auto; [right; exists m'; split; [now right|auto]|]. destruct I as [<-|I]; [congruence|]. right. eauto.
Qed.

(** *** Names of the columns *)
Definition seven : list string := ["POS_ID"; "NUM_POINTS"; "DATA_START_DATE"; "DATA_END_DATE"; "DATA_START_DATE_SEC"; "DATA_END_DATE_SEC"; "FLAGS"].
Lemma in_order_In a b : in_order a b all_keys -> In a all_keys /\ In b all_keys.
Proof. intros (x & y & z & ->). split; apply in_or_app; right; [now left|]. right. apply in_or_app. right. now left. Qed.
Definition plain_columns (suf : string) : list string :=
  seven ++ map (fun k => (k ++ suf)%string) (["ANALYSIS_DATE"; "FIT_ERROR"; "NUM_POINTS_IN_FIT"] ++ all_keys) ++ map (fun k => ("ERR." ++ k ++ suf)%string) all_keys ++
  map (fun ab => ("COV." ++ fst ab ++ suf ++ "." ++ snd ab ++ suf)%string) (list_prod all_keys all_keys).
Lemma plain_no_epsilon suf m : good_suffix suf -> In m (plain_columns suf) -> has_epsilon m = false.
Proof.
  intros GS I. assert (F : forallb (fun m => negb (has_epsilon m)) (plain_columns suf) = true) by (destruct GS as [->| ->]; vm_compute; reflexivity). rewrite forallb_forall in F. apply negb_true_iff. now apply F.
Qed.
Lemma table_columns clock posid rows mode cases os known t m : fit_table clock posid rows mode cases os known t -> In m (map fst t) -> In m (plain_columns (mode_suffix mode)) \/
  exists o rest e, os = o :: rest /\ In e (offsets o) /\ replace (mode_suffix mode) "" m = e /\ (clashes known e \/ m = (e ++ mode_suffix mode)%string).
Proof.
  intros FT I. unfold plain_columns. destruct (ft_names _ _ _ _ _ _ _ _ FT m I) as [K|[(k & K & ->)|[(k & K & ->)|[(a & b & K & ->)|K]]]]; [left|left|left|left|right; exact K].
  - apply in_or_app. now left.
  - apply in_or_app. right. apply in_or_app. left. exact (in_map (fun k => (k ++ mode_suffix mode)%string) _ _ K).
  - do 2 (apply in_or_app; right). apply in_or_app. left. exact (in_map (fun k => ("ERR." ++ k ++ mode_suffix mode)%string) _ _ K).
  - do 3 (apply in_or_app; right). exact (in_map (fun ab => ("COV." ++ fst ab ++ mode_suffix mode ++ "." ++ snd ab ++ mode_suffix mode)%string) _ (a, b) (in_prod _ _ _ _ (proj1 (in_order_In a b K)) (proj2 (in_order_In a b K)))).
Qed.
(** the names for the best parameters: the defaults and the offsets of the first window *)
Lemma static_names_spec clock posid rows cases o rest known t : fit_table clock posid rows Static cases (o :: rest) known t -> 
  NoDup (static_names t) /\ forall k, In k (static_names t) <-> In k all_keys \/ In k (offsets o).
Proof.
  intros FT. unfold static_names. destruct (fold_names (map fst t) default_values) as [A B]; [vm_compute; repeat constructor; cbn; intuition discriminate|]. cbv zeta in A, B. split; [exact A|]. intros k. rewrite B. change (map fst default_values) with all_keys. split.
  - intros [H|(m & I & Hm & ->)]; [now left|right]. destruct (table_columns _ _ _ _ _ _ _ _ m FT I) as [P|(o' & rest' & e & Q & Ie & <- & _)]; [rewrite (plain_no_epsilon "_STATIC" m (or_introl eq_refl) P) in Hm; discriminate|]. injection Q as <- <-. exact Ie.
  - intros [H|I]; [now left|right]. destruct (ft_misnamed _ _ _ _ _ _ _ _ FT o rest k eq_refl I) as (r & Er & C). exists ("EPSILON_" ++ r)%string. split; [apply keys_get; eauto|]. split; [|now symmetry]. reflexivity.
Qed.
(** names end with the suffix *)
Lemma suffix_last x y : (x ++ "_STATIC")%string <> (y ++ "_DYNAMIC")%string.
Proof.
  assert (L : forall a b, list_ascii_of_string (a ++ b) = list_ascii_of_string a ++ list_ascii_of_string b) by (induction a as [|c a IH]; intros b; [reflexivity|]; cbn; now rewrite IH).
  intros E. apply (f_equal list_ascii_of_string) in E. rewrite !L in E. apply (f_equal (@rev ascii)) in E. rewrite !rev_app_distr in E. discriminate E.
Qed.
Definition no_clash (known : list string) (os : list fit_out) : Prop := forall o rest e, os = o :: rest -> In e (offsets o) -> ~ clashes known e.
Lemma table_suffix clock posid rows mode cases os known t m : fit_table clock posid rows mode cases os known t -> no_clash known os -> In m (map fst t) -> In m seven \/ exists x, m = (x ++ mode_suffix mode)%string.
Proof.
  intros FT NC I. destruct (ft_names _ _ _ _ _ _ _ _ FT m I) as [K|[(k & K & ->)|[(k & K & ->)|[(a & b & K & ->)|(o & rest & e & Q & Ie & _ & [C| ->])]]]]; [now left|right|right|right| |right].
  - eauto.
  - exists ("ERR." ++ k)%string. now rewrite app_assoc_s.
  - exists ("COV." ++ a ++ mode_suffix mode ++ "." ++ b)%string. now rewrite !app_assoc_s.
  - destruct (NC o rest e Q Ie C).
  - eauto.
Qed.
Lemma seven_no_suffix x : ~ In (x ++ "_STATIC")%string seven /\ ~ In (x ++ "_DYNAMIC")%string seven.
Proof.
  assert (L : forall a b, list_ascii_of_string (a ++ b) = list_ascii_of_string a ++ list_ascii_of_string b) by (induction a as [|c a IH]; intros b; [reflexivity|]; cbn; now rewrite IH).
  split; intros I; cbn [seven In] in I; repeat (destruct I as [E|I]; [apply (f_equal list_ascii_of_string) in E; rewrite L in E; apply (f_equal (@rev ascii)) in E; rewrite rev_app_distr in E; discriminate E|]); exact I.
Qed.
Lemma not_petal clock posid rows mode cases os known t m : fit_table clock posid rows mode cases os known t -> no_clash known os -> In m ["PETAL_ID"; "PETAL_LOC"; "DEVICE_LOC"] -> ~ In m (map fst t).
Proof.
  assert (L : forall a b, list_ascii_of_string (a ++ b) = list_ascii_of_string a ++ list_ascii_of_string b) by (induction a as [|c a IH]; intros b; [reflexivity|]; cbn; now rewrite IH).
  intros FT NC P I. destruct (table_suffix _ _ _ _ _ _ _ _ m FT NC I) as [K|(x & ->)].
  - cbn in P, K. repeat (destruct P as [<-|P]; [repeat (destruct K as [K|K]; [discriminate|]); exact K|]). exact P.
  - cbn [In] in P. repeat (destruct P as [E|P]; [apply (f_equal list_ascii_of_string) in E; rewrite L in E; apply (f_equal (@rev ascii)) in E; rewrite rev_app_distr in E; destruct mode; discriminate E|]). exact P.
Qed.

(** *** The join *)
Lemma column_height clock posid rows mode cases os known t m col : fit_table clock posid rows mode cases os known t -> no_clash known os -> List.length os = List.length cases -> column t m = Some col -> List.length col = List.length cases.
Proof.
  intros FT NC L C. assert (I : In m (map fst t)) by (apply keys_get; eauto). 
  assert (Same : forall A (f : A -> cell) l, List.length l = List.length cases -> column t m = Some (map f l) -> List.length col = List.length cases) by (intros A f l Hl E; rewrite E in C; injection C as <-; now rewrite map_length).
  destruct (ft_names _ _ _ _ _ _ _ _ FT m I) as [K|[(k & K & ->)|[(k & K & ->)|[(a & b & K & ->)|(o & rest & e & Q & Ie & _ & [Cl| ->])]]]].
  - cbn in K. destruct K as [<-|[<-|[<-|[<-|[<-|[<-|[<-|[]]]]]]]]; [apply (Same _ _ _ eq_refl (ft_posid _ _ _ _ _ _ _ _ FT))|apply (Same _ _ _ eq_refl (ft_points _ _ _ _ _ _ _ _ FT))|apply (Same _ _ _ eq_refl (ft_start _ _ _ _ _ _ _ _ FT))|apply (Same _ _ _ eq_refl (ft_end _ _ _ _ _ _ _ _ FT))|
      apply (Same _ _ _ eq_refl (ft_start_sec _ _ _ _ _ _ _ _ FT))|apply (Same _ _ _ eq_refl (ft_end_sec _ _ _ _ _ _ _ _ FT))|apply (Same _ _ _ L (ft_flags _ _ _ _ _ _ _ _ FT))].
  - apply in_app_or in K as [K|K]; [|apply (Same _ _ _ L (ft_value _ _ _ _ _ _ _ _ FT k K))]. cbn in K. destruct K as [<-|[<-|[<-|[]]]]; [refine (Same _ _ _ _ (ft_date _ _ _ _ _ _ _ _ FT)); apply seq_length|apply (Same _ _ _ L (ft_rms _ _ _ _ _ _ _ _ FT))|apply (Same _ _ _ L (ft_npts _ _ _ _ _ _ _ _ FT))].
  - apply (Same _ _ _ L (ft_error _ _ _ _ _ _ _ _ FT k K)).
  - destruct (Classical_Prop.classic (exists o, In o os /\ covariance_of a b o <> 0)) as [Ex|Nx]; [apply (Same _ _ _ L (ft_covariance _ _ _ _ _ _ _ _ FT a b K Ex))|].
    rewrite (ft_null _ _ _ _ _ _ _ _ FT a b K) in C; [discriminate|]. intros o Io. destruct (Req_dec (covariance_of a b o) 0); [assumption|]. destruct Nx. eauto.
  - destruct (NC o rest e Q Ie Cl).
  - apply (Same _ _ _ L (ft_offset _ _ _ _ _ _ _ _ FT o rest e Q Ie (NC o rest e Q Ie))).
Qed.
Lemma table_height clock posid rows mode cases os known t : fit_table clock posid rows mode cases os known t -> no_clash known os -> List.length os = List.length cases -> height t = List.length cases.
Proof.
  intros FT NC L. pose proof (ft_posid _ _ _ _ _ _ _ _ FT) as P. unfold height. destruct t as [|[m col] t]; [discriminate|]. apply (column_height _ _ _ _ _ _ _ _ m col FT NC L). unfold column. cbn [dict_get]. now rewrite String.eqb_refl.
Qed.
Lemma diagonal_pairs (same : nat -> nat -> bool) (g : nat -> bool) (m l : list nat) : NoDup m -> incl l m -> (forall i j, In i m -> In j m -> same i j = true <-> i = j /\ g i = true) ->
  filter (fun ij => same (fst ij) (snd ij)) (list_prod l m) = map (fun i => (i, i)) (filter g l).
Proof.
  intros N In_ H. induction l as [|a l IH]; [reflexivity|]. cbn [list_prod]. rewrite filter_app, IH by (intros x Hx; apply In_; now right). assert (Ia : In a m) by (apply In_; now left).
  assert (Q : filter (fun ij => same (fst ij) (snd ij)) (map (fun y => (a, y)) m) = if g a then [(a, a)] else []).
  { clear IH In_ l. assert (G : forall m', incl m' m -> NoDup m' -> filter (fun ij => same (fst ij) (snd ij)) (map (fun y => (a, y)) m') = if (existsb (Nat.eqb a) m' && g a)%bool then [(a, a)] else []).
    { induction m' as [|b m' IH]; intros Inc Nm; [reflexivity|]. apply NoDup_cons_iff in Nm as [Nb Nm]. cbn [map filter existsb fst snd]. rewrite IH by (auto; intros x Hx; apply Inc; now right). destruct (Nat.eqb_spec a b) as [<-|Ne].
      - cbn [orb andb]. assert (X : existsb (Nat.eqb a) m' = false). { destruct (existsb (Nat.eqb a) m') eqn:Q; [|reflexivity]. apply existsb_exists in Q as (x & Ix & Ex). apply Nat.eqb_eq in Ex. subst x. contradiction. } rewrite X. cbn [andb].
        destruct (g a) eqn:Ga; [rewrite (proj2 (H a a Ia Ia)) by auto; reflexivity|]. destruct (same a a) eqn:S; [|reflexivity]. apply (H a a Ia Ia) in S as [_ S]. congruence.
      - cbn [orb]. destruct (same a b) eqn:S; [|reflexivity]. apply (H a b Ia) in S as [S _]; [contradiction|]. apply Inc. now left. }
    rewrite (G m (incl_refl m) N). assert (X : existsb (Nat.eqb a) m = true) by (apply existsb_exists; exists a; split; [exact Ia|apply Nat.eqb_refl]). rewrite X. reflexivity. }
  rewrite Q. cbn [filter]. destruct (g a); reflexivity.
Qed.
Lemma get_values (f : list cell -> list cell) (d : columns) k : dict_get String.eqb (map (fun kc => (fst kc, f (snd kc))) d) k = option_map f (dict_get String.eqb d k).
Proof. induction d as [|[k' c] d IH]; [reflexivity|]. cbn [map fst snd dict_get]. destruct (String.eqb k k'); [reflexivity|exact IH]. Qed.
Lemma get_app (d d' : columns) k : dict_get String.eqb (d ++ d') k = match dict_get String.eqb d k with Some c => Some c | None => dict_get String.eqb d' k end.
Proof. induction d as [|[k' c] d IH]; [reflexivity|]. cbn [app dict_get]. destruct (String.eqb k k'); [reflexivity|exact IH]. Qed.
Lemma get_filter (p : string -> bool) (d : columns) k : p k = true -> dict_get String.eqb (filter (fun kc => p (fst kc)) d) k = dict_get String.eqb d k.
Proof. intros H. induction d as [|[k' c] d IH]; [reflexivity|]. cbn [filter fst dict_get]. destruct (String.eqb_spec k k') as [<-|N]; [rewrite H; cbn [dict_get]; now rewrite String.eqb_refl|]. destruct (p k'); [cbn [dict_get]; destruct (String.eqb_spec k k'); [contradiction|]|]; exact IH. Qed.
Definition apart (rows : list row) (cases : list (nat * nat)) : Prop := forall c c', In c cases -> In c' cases -> w_sec (nth (fst c) rows no_row) = w_sec (nth (fst c') rows no_row) -> w_sec (nth (snd c) rows no_row) = w_sec (nth (snd c') rows no_row) ->
  List.length (stretch rows c) = List.length (stretch rows c') -> c = c'.
Lemma cell_at_map {A} t k (f : A -> cell) l d i : column t k = Some (map f l) -> (i < List.length l)%nat -> cell_at t k i = Some (f (nth i l d)).
Proof. intros C L. unfold cell_at. unfold column in C. rewrite C. rewrite nth_error_map, (nth_error_nth' l d L). reflexivity. Qed.
Definition no_fit : fit_out := failed 0 0.
Definition same_flags (os os' : list fit_out) (i : nat) : bool := Z.eqb (o_flags (nth i os no_fit)) (o_flags (nth i os' no_fit)).
Lemma join_spec clock posid rows cases os os' known known' ts td :
  fit_table clock posid rows Static cases os known ts -> fit_table clock posid rows Dynamic cases os' known' td -> no_clash known os -> no_clash known' os' -> List.length os = List.length cases -> List.length os' = List.length cases -> NoDup cases -> apart rows cases ->
  let kept := filter (same_flags os os') (seq 0 (List.length cases)) in
  exists j, inner_join ts td seven = Ok j /\ (forall k col, column ts k = Some col -> column j k = Some (at_rows kept col)) /\ (forall k col, column td k = Some col -> column j k = Some (at_rows kept col)) /\
    (forall k, In k (map fst j) -> In k (map fst ts) \/ In k (map fst td)) /\ height j = List.length kept.
Proof.
  intros FS FD NS NN LS LD NC AP kept. unfold inner_join.
  assert (KS : forall k, In k seven -> exists col, column ts k = Some col) by (intros k K; cbn in K; destruct K as [<-|[<-|[<-|[<-|[<-|[<-|[<-|[]]]]]]]]; eexists; [apply (ft_posid _ _ _ _ _ _ _ _ FS)|apply (ft_points _ _ _ _ _ _ _ _ FS)|apply (ft_start _ _ _ _ _ _ _ _ FS)|apply (ft_end _ _ _ _ _ _ _ _ FS)|apply (ft_start_sec _ _ _ _ _ _ _ _ FS)|apply (ft_end_sec _ _ _ _ _ _ _ _ FS)|apply (ft_flags _ _ _ _ _ _ _ _ FS)]).
  assert (KD : forall k, In k seven -> exists col, column td k = Some col) by (intros k K; cbn in K; destruct K as [<-|[<-|[<-|[<-|[<-|[<-|[<-|[]]]]]]]]; eexists; [apply (ft_posid _ _ _ _ _ _ _ _ FD)|apply (ft_points _ _ _ _ _ _ _ _ FD)|apply (ft_start _ _ _ _ _ _ _ _ FD)|apply (ft_end _ _ _ _ _ _ _ _ FD)|apply (ft_start_sec _ _ _ _ _ _ _ _ FD)|apply (ft_end_sec _ _ _ _ _ _ _ _ FD)|apply (ft_flags _ _ _ _ _ _ _ _ FD)]).
  assert (M : forall t : columns, (forall k, In k seven -> exists col, column t k = Some col) -> exists r, rmapM (lookup t) seven = Ok r).
  { intros t. generalize seven. induction l as [|k l IH]; intros H; [exists []; reflexivity|]. destruct IH as (r & Er); [intros; apply H; now right|]. destruct (H k (or_introl eq_refl)) as (col & C). apply lookup_get in C. exists (col :: r). cbn [rmapM]. rewrite C. cbn [rbind]. rewrite Er. reflexivity. }
  destruct (M ts KS) as (r1 & ->). destruct (M td KD) as (r2 & ->). cbn [rbind]. cbv zeta. rewrite (table_height _ _ _ _ _ _ _ _ FS NS LS), (table_height _ _ _ _ _ _ _ _ FD NN LD).
  set (n := List.length cases) in *. pose (same := fun i j : nat => forallb (fun k => match cell_at ts k i, cell_at td k j with Some a, Some b => cell_eqb a b | _, _ => false end) seven).
  assert (D : filter (fun ij => same (fst ij) (snd ij)) (list_prod (seq 0 n) (seq 0 n)) = map (fun i => (i, i)) kept).
  { apply diagonal_pairs; [apply seq_NoDup|apply incl_refl|]. intros i j Hi Hj. apply in_seq in Hi, Hj. assert (Li : (i < List.length cases)%nat) by lia. assert (Lj : (j < List.length cases)%nat) by lia. assert (Oi : (i < List.length os)%nat) by lia. assert (Oj : (j < List.length os')%nat) by lia.
    unfold same. cbn [seven forallb].
    rewrite (cell_at_map ts _ _ _ (0, 0)%nat i (ft_posid _ _ _ _ _ _ _ _ FS) Li), (cell_at_map td _ _ _ (0, 0)%nat j (ft_posid _ _ _ _ _ _ _ _ FD) Lj), (cell_at_map ts _ _ _ (0, 0)%nat i (ft_points _ _ _ _ _ _ _ _ FS) Li), (cell_at_map td _ _ _ (0, 0)%nat j (ft_points _ _ _ _ _ _ _ _ FD) Lj).
    rewrite (cell_at_map ts _ _ _ (0, 0)%nat i (ft_start _ _ _ _ _ _ _ _ FS) Li), (cell_at_map td _ _ _ (0, 0)%nat j (ft_start _ _ _ _ _ _ _ _ FD) Lj), (cell_at_map ts _ _ _ (0, 0)%nat i (ft_end _ _ _ _ _ _ _ _ FS) Li), (cell_at_map td _ _ _ (0, 0)%nat j (ft_end _ _ _ _ _ _ _ _ FD) Lj).
    rewrite (cell_at_map ts _ _ _ (0, 0)%nat i (ft_start_sec _ _ _ _ _ _ _ _ FS) Li), (cell_at_map td _ _ _ (0, 0)%nat j (ft_start_sec _ _ _ _ _ _ _ _ FD) Lj), (cell_at_map ts _ _ _ (0, 0)%nat i (ft_end_sec _ _ _ _ _ _ _ _ FS) Li), (cell_at_map td _ _ _ (0, 0)%nat j (ft_end_sec _ _ _ _ _ _ _ _ FD) Lj).
    rewrite (cell_at_map ts _ _ _ no_fit i (ft_flags _ _ _ _ _ _ _ _ FS) Oi), (cell_at_map td _ _ _ no_fit j (ft_flags _ _ _ _ _ _ _ _ FD) Oj). unfold same_flags. cbn [cell_eqb]. set (ci := nth i cases (0, 0)%nat). set (cj := nth j cases (0, 0)%nat). split.
    - intros H. repeat (apply andb_prop in H as [? H]). apply Z.eqb_eq in H1. apply Nat2Z.inj in H1. apply Reqb_true in H4, H5.
      assert (E : ci = cj) by (apply AP; auto; apply nth_In; assumption). assert (i = j) as -> by (apply (proj1 (NoDup_nth cases (0, 0)%nat) NC i j Li Lj E)). auto.
    - intros [-> Fl]. rewrite !String.eqb_refl, Z.eqb_refl, Fl, !(proj2 (Reqb_true _ _) eq_refl). reflexivity. }
  unfold same in D. rewrite D. rewrite !map_map. cbn [fst snd]. rewrite map_id. unfold gather. change (fun (kc : string * list cell) => (fst kc, map (fun i => nth i (snd kc) CNan) kept)) with (fun (kc : string * list cell) => (fst kc, at_rows kept (snd kc))).
  eexists. split; [reflexivity|]. split; [|split; [|split]].
  - intros k col C. unfold column in *. rewrite get_app, get_values, C. reflexivity.
  - intros k col C. destruct (in_dec string_dec k seven) as [K|K].
    + destruct (KS k K) as (cs & Cs). assert (Eq : at_rows kept col = at_rows kept cs); [|unfold column in *; rewrite get_app, get_values, Cs; cbn [option_map]; now rewrite Eq].
      assert (FL : at_rows kept (map (fun o => CInt (o_flags o)) os') = at_rows kept (map (fun o => CInt (o_flags o)) os)).
      { unfold at_rows. apply map_ext_in. intros i Hi. apply filter_In in Hi as [Hi Fl]. apply in_seq in Hi. unfold same_flags in Fl. apply Z.eqb_eq in Fl.
        assert (Q1 : forall l : list fit_out, (i < List.length l)%nat -> nth i (map (fun o => CInt (o_flags o)) l) CNan = CInt (o_flags (nth i l no_fit))) by (intros l Hl; rewrite (nth_indep _ CNan (CInt (o_flags no_fit))) by (now rewrite map_length); exact (map_nth (fun o => CInt (o_flags o)) l no_fit i)). rewrite !Q1 by lia. now rewrite Fl. }
      assert (Same : forall c1, column ts k = Some c1 -> column td k = Some c1 -> at_rows kept col = at_rows kept cs) by (intros c1 A B; congruence).
      cbn in K. destruct K as [<-|[<-|[<-|[<-|[<-|[<-|[<-|[]]]]]]]]; [apply (Same _ (ft_posid _ _ _ _ _ _ _ _ FS) (ft_posid _ _ _ _ _ _ _ _ FD))|apply (Same _ (ft_points _ _ _ _ _ _ _ _ FS) (ft_points _ _ _ _ _ _ _ _ FD))|apply (Same _ (ft_start _ _ _ _ _ _ _ _ FS) (ft_start _ _ _ _ _ _ _ _ FD))|apply (Same _ (ft_end _ _ _ _ _ _ _ _ FS) (ft_end _ _ _ _ _ _ _ _ FD))|
        apply (Same _ (ft_start_sec _ _ _ _ _ _ _ _ FS) (ft_start_sec _ _ _ _ _ _ _ _ FD))|apply (Same _ (ft_end_sec _ _ _ _ _ _ _ _ FS) (ft_end_sec _ _ _ _ _ _ _ _ FD))|].
      rewrite (ft_flags _ _ _ _ _ _ _ _ FS) in Cs. rewrite (ft_flags _ _ _ _ _ _ _ _ FD) in C. injection Cs as <-. injection C as <-. exact FL.
    + assert (Nt : dict_get String.eqb ts k = None).
      { destruct (dict_get String.eqb ts k) as [x|] eqn:Q; [|reflexivity]. exfalso. assert (I1 : In k (map fst ts)) by (apply keys_get; eauto). assert (I2 : In k (map fst td)) by (apply keys_get; eauto).
        destruct (table_suffix _ _ _ _ _ _ _ _ k FS NS I1) as [?|(x1 & E1)]; [contradiction|]. destruct (table_suffix _ _ _ _ _ _ _ _ k FD NN I2) as [?|(x2 & E2)]; [contradiction|]. rewrite E1 in E2. exact (suffix_last _ _ E2). }
      unfold column in *. rewrite get_app, !get_values, Nt. cbn [option_map]. rewrite (get_filter (fun k => negb (mem_str k seven))), C; [reflexivity|]. apply negb_true_iff. now apply mem_str_false.
  - intros k I. rewrite map_app in I. rewrite !map_map in I. cbn [fst] in I. apply in_app_or in I as [I|I]; [left; exact I|right]. apply in_map_iff in I as ([k' c] & <- & I). apply filter_In in I as [I _]. apply (in_map fst) in I. exact I.
  - unfold height. pose proof (ft_posid _ _ _ _ _ _ _ _ FS) as P. destruct ts as [|[m col] ts']; [discriminate|]. cbn [map app fst snd]. apply map_length.
Qed.
Lemma get_dset (d : columns) k v k' : dict_get String.eqb (dset d k v) k' = if String.eqb k' k then Some v else dict_get String.eqb d k'.
Proof.
  destruct (String.eqb_spec k' k) as [->|N].
  - apply lookup_get. apply lookup_same.
  - assert (E : lookup (dset d k v) k' = lookup d k') by (apply lookup_other; congruence). unfold lookup, dict_getE in E. destruct (dict_get String.eqb (dset d k v) k'), (dict_get String.eqb d k'); congruence.
Qed.
Lemma all_equal_spec l z : (exists r, l = z :: r) -> Forall (eq z) l -> all_equal l = Ok z.
Proof. intros (r & ->) F. pose proof (Forall_inv_tail F) as T. cbn [all_equal]. assert (X : forallb (Z.eqb z) r = true) by (apply forallb_forall; intros x I; rewrite Forall_forall in T; apply Z.eqb_eq; auto). now rewrite X. Qed.
Lemma nth_seq_id (kept : list nat) : map (fun a => nth a kept 0%nat) (seq 0 (List.length kept)) = kept.
Proof. induction kept as [|x kept IH]; [reflexivity|]. cbn [List.length seq map nth]. f_equal. rewrite <- seq_shift, map_map. exact IH. Qed.
Lemma sorted_map {A B} (f : A -> B) (R : B -> B -> Prop) l : StronglySorted (fun a b => R (f a) (f b)) l -> StronglySorted R (map f l).
Proof. induction 1 as [|a l S IH F]; [constructor|]. cbn [map]. constructor; [exact IH|]. rewrite Forall_map. exact F. Qed.
Lemma sorted_ext {A} (R R' : A -> A -> Prop) l : (forall a b, In a l -> In b l -> R a b -> R' a b) -> StronglySorted R l -> StronglySorted R' l.
Proof.
  intros H S. induction S as [|a l S IH F]; [constructor|]. constructor; [apply IH; intros; apply H; [now right|now right|assumption]|]. rewrite Forall_forall in *. intros b Ib. apply H; [now left|now right|now apply F].
Qed.
Lemma finish_spec argsort clock posid rows cases os os' known known' ts td j (kept : list nat) :
  fit_table clock posid rows Static cases os known ts -> fit_table clock posid rows Dynamic cases os' known' td -> no_clash known os -> no_clash known' os' ->
  sorts argsort -> rows <> [] -> (forall w w', In w rows -> In w' rows -> w_petal_id w = w_petal_id w' /\ w_petal_loc w = w_petal_loc w' /\ w_device_loc w = w_device_loc w') ->
  (forall k col, column ts k = Some col -> column j k = Some (at_rows kept col)) -> (forall k col, column td k = Some col -> column j k = Some (at_rows kept col)) -> (forall k, In k (map fst j) -> In k (map fst ts) \/ In k (map fst td)) ->
  height j = List.length kept -> (forall i, In i kept -> (i < List.length cases)%nat) ->
  exists t order, rbind (pass_through rows j) (sort_table argsort) = Ok t /\ Permutation order kept /\ StronglySorted (fun a b => end_of rows cases a <= end_of rows cases b) order /\ joined rows ts td order t.
Proof.
  intros FS FD NS NN SO NR PE HL HR HN HH HK. destruct rows as [|w0 rest] eqn:Er; [contradiction|]. rewrite <- Er in *. assert (I0 : In w0 rows) by (rewrite Er; now left).
  unfold pass_through. rewrite (all_equal_spec _ (w_petal_id w0)), (all_equal_spec _ (w_petal_loc w0)), (all_equal_spec _ (w_device_loc w0));
    [|rewrite Er; eexists; reflexivity|rewrite Forall_map; apply Forall_forall; intros w Iw; apply (PE w0 w I0 Iw)|rewrite Er; eexists; reflexivity|rewrite Forall_map; apply Forall_forall; intros w Iw; apply (PE w0 w I0 Iw)|rewrite Er; eexists; reflexivity|rewrite Forall_map; apply Forall_forall; intros w Iw; apply (PE w0 w I0 Iw)].
  cbn [rbind]. cbv zeta. rewrite HH. set (j3 := dset _ "DEVICE_LOC" _).
  assert (G3 : forall k, ~ In k ["PETAL_ID"; "PETAL_LOC"; "DEVICE_LOC"] -> dict_get String.eqb j3 k = dict_get String.eqb j k). { intros k K. unfold j3. rewrite !get_dset. destruct (String.eqb_spec k "DEVICE_LOC") as [->|_]; [destruct K; cbn; tauto|]. destruct (String.eqb_spec k "PETAL_LOC") as [->|_]; [destruct K; cbn; tauto|]. destruct (String.eqb_spec k "PETAL_ID") as [->|_]; [destruct K; cbn; tauto|]. reflexivity. }
  assert (GE : dict_get String.eqb j3 "DATA_END_DATE_SEC" = Some (map (fun i => CNum (end_of rows cases i)) kept)).
  { rewrite G3 by (cbn; intuition discriminate). pose proof (HL _ _ (ft_end_sec _ _ _ _ _ _ _ _ FS)) as E. unfold column in E. rewrite E. f_equal. unfold at_rows. apply map_ext_in. intros i Ii. unfold end_of. specialize (HK i Ii).
    rewrite (nth_indep _ CNan (CNum (w_sec (nth (snd (0, 0)%nat) rows no_row)))) by (now rewrite map_length). exact (map_nth (fun c => CNum (w_sec (nth (snd c) rows no_row))) cases (0, 0)%nat i). }
  unfold sort_table. apply lookup_get in GE. rewrite GE. cbn [rbind]. rewrite (rmapM_cells _ _ (end_of rows cases)) by reflexivity. cbn [rbind]. set (ends := map (end_of rows cases) kept). destruct (SO ends) as [P S]. set (p := argsort ends) in *.
  assert (Lp : forall a, In a p -> (a < List.length kept)%nat) by (intros a Ia; apply (Permutation_in _ P), in_seq in Ia; unfold ends in Ia; rewrite map_length in Ia; lia).
  set (order := map (fun a => nth a kept 0%nat) p).
  assert (G : forall col, gather (at_rows kept col) p = at_rows order col).
  { intros col. unfold gather, at_rows, order. rewrite map_map. apply map_ext_in. intros a Ia. specialize (Lp a Ia). rewrite (nth_indep _ CNan (nth 0%nat col CNan)) by (now rewrite map_length). exact (map_nth (fun i => nth i col CNan) kept 0%nat a). }
  eexists. exists order. split; [reflexivity|]. split; [|split].
  - unfold order. rewrite P. unfold ends. rewrite map_length, nth_seq_id. reflexivity.
  - unfold order. apply sorted_map. revert S. apply sorted_ext. intros a b Ia Ib. unfold ends. rewrite !(nth_indep (map (end_of rows cases) kept) 0 (end_of rows cases 0%nat)) by (rewrite map_length; auto). rewrite !map_nth. auto.
  - constructor; unfold column.
    + intros k col C. rewrite (get_values (fun c => gather c p)), G3.
      * pose proof (HL k col C) as E. unfold column in E. rewrite E. cbn [option_map]. now rewrite G.
      * intros Q. apply (not_petal _ _ _ _ _ _ _ _ k FS NS Q). apply keys_get. eauto.
    + intros k col C. rewrite (get_values (fun c => gather c p)), G3.
      * pose proof (HR k col C) as E. unfold column in E. rewrite E. cbn [option_map]. now rewrite G.
      * intros Q. apply (not_petal _ _ _ _ _ _ _ _ k FD NN Q). apply keys_get. eauto.
    + intros w Iw. destruct (PE w w0 Iw I0) as (E1 & E2 & E3).
      assert (X : forall z, gather (repeat (CInt z) (List.length kept)) p = map (fun _ => CInt z) order). { intros z. unfold gather, order. rewrite map_map. apply map_ext_in. intros a Ia. specialize (Lp a Ia). clear - Lp. revert a Lp. induction (List.length kept) as [|m IH]; intros a L; [lia|]. destruct a; [reflexivity|]. cbn. apply IH. lia. }
      rewrite !(get_values (fun c => gather c p)). unfold j3. rewrite !get_dset. cbn [option_map]. rewrite E1, E2, E3. split; [|split].
      * change (String.eqb "PETAL_ID" "DEVICE_LOC") with false. change (String.eqb "PETAL_ID" "PETAL_LOC") with false. rewrite String.eqb_refl. cbn [option_map]. now rewrite X.
      * change (String.eqb "PETAL_LOC" "DEVICE_LOC") with false. rewrite String.eqb_refl. cbn [option_map]. now rewrite X.
      * rewrite String.eqb_refl. cbn [option_map]. now rewrite X.
    + intros k I. rewrite map_map in I. cbn [fst] in I. change (map (fun x : string * list cell => fst x) j3) with (map fst j3) in I. unfold j3 in I. rewrite !dset_keys in I. cbn [In]. destruct I as [->|[->|[->|I]]]; [tauto|tauto|tauto|]. destruct (HN k I); tauto.
Qed.

Lemma best_unique q names os p p' : best_of q names os p -> best_of q names os p' -> p = p'.
Proof.
  intros (v & Ev & ND & K & V) (v' & Ev' & _ & K' & V'). assert (v = v') as <- by congruence.
  assert (E : forall k, In k names -> dict_get String.eqb p k = dict_get String.eqb p' k). { intros k I. destruct (V k I) as (m & Em & ->). destruct (V' k I) as (m' & Em' & ->). congruence. }
  clear V V' Ev Ev'. revert p p' K K' E. induction names as [|k names IH]; intros p p' K K' E.
  - apply map_eq_nil in K, K'. congruence.
  - apply NoDup_cons_iff in ND as [Nk ND]. destruct p as [|[k1 x] p]; [discriminate|]. destruct p' as [|[k2 x'] p']; [discriminate|]. cbn [map fst] in K, K'. injection K as -> K. injection K' as -> K'. f_equal.
    + specialize (E k (or_introl eq_refl)). cbn [dict_get] in E. rewrite String.eqb_refl in E. now injection E as ->.
    + apply (IH ND); [exact K|exact K'|]. intros a I. specialize (E a (or_intror I)). cbn [dict_get] in E. destruct (String.eqb_spec a k) as [Q|_]; [exfalso; apply Nk; rewrite <- Q; exact I|exact E].
Qed.
Lemma clashes_incl K K' e : incl K K' -> clashes K e -> clashes K' e.
Proof. intros I (e' & Ie & H). exists e'. split; [now apply I|exact H]. Qed.
Lemma unsuffixed g E : known_offsets g E -> map fst (filter (fun kb : string * bool => negb (snd kb)) (v_okeys g)) = seven.
Proof.
  intros (-> & _). rewrite filter_app, map_app. assert (N : filter (fun kb : string * bool => negb (snd kb)) (map (fun k => (k, true)) E) = []) by (induction E as [|e E IH]; [reflexivity|exact IH]). rewrite N. reflexivity.
Qed.
