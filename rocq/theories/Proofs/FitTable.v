(** The table of the fits of the windows. *)
From Verif.Model Require Import FitTable.
From Verif.Spec Require Import FileNames FitTable.
From Verif.Proofs Require Import Prelude RealNum PyString Fitter FitNames.
From Coq Require Import Permutation.
Local Open Scope string_scope.
Local Open Scope list_scope.

(** ** dictionaries *)
Lemma get_In (d : columns) k c : NoDup (map fst d) -> In (k, c) d -> dict_get String.eqb d k = Some c.
Proof.
  induction d as [|[k' c'] d IH]; [intros _ []|]. intros N [E|I]; cbn [dict_get].
  - injection E as -> ->. now rewrite String.eqb_refl.
  - cbn [map fst] in N. apply NoDup_cons_iff in N as [N1 N2]. destruct (String.eqb_spec k k') as [->|]; [|now apply IH]. exfalso. apply N1. apply (in_map fst) in I. exact I.
Qed.
Lemma get_Some {V} (d : dict string V) k c : dict_get String.eqb d k = Some c -> In (k, c) d.
Proof. induction d as [|[k' c'] d IH]; [discriminate|]. cbn [dict_get]. destruct (String.eqb_spec k k') as [->|]; [intros H; injection H as ->; now left|]. intros H. right. now apply IH. Qed.
Lemma get_none {V} (d : dict string V) k : dict_get String.eqb d k = None -> ~ In k (map fst d).
Proof. intros H I. apply mem_keys in I. unfold dict_mem in I. rewrite H in I. discriminate. Qed.
Lemma lookup_get {V} (d : dict string V) k c : lookup d k = Ok c <-> dict_get String.eqb d k = Some c.
Proof. unfold lookup, dict_getE. destruct (dict_get String.eqb d k); split; congruence. Qed.
Lemma get_map (f : string -> string) (d : columns) k : NoDup (map f (map fst d)) -> In k (map fst d) ->
  dict_get String.eqb (map (fun kc => (f (fst kc), snd kc)) d) (f k) = dict_get String.eqb d k.
Proof.
  induction d as [|[k' c'] d IH]; [intros _ []|]. cbn [map fst snd dict_get]. intros N I. apply NoDup_cons_iff in N as [N1 N2].
  destruct (String.eqb_spec k k') as [->|Hk]; [now rewrite String.eqb_refl|]. destruct I as [->|I]; [contradiction|].
  destruct (String.eqb_spec (f k) (f k')) as [E|_]; [|now apply IH]. exfalso. apply N1. rewrite <- E. now apply in_map.
Qed.

(** ** what one window appends *)
Lemma pushes_app a b out : pushes (a ++ b) out = rbind (pushes a out) (pushes b).
Proof. revert out. induction a as [|[k v] a IH]; intros out; [reflexivity|]. cbn [app pushes]. destruct (push (fst (k, v)) (snd (k, v)) out); cbn [rbind]; [apply IH|reflexivity]. Qed.
Lemma dset_present {V} (d : dict string V) k v : In k (map fst d) -> map fst (dset d k v) = map fst d.
Proof.
  unfold dset. induction d as [|[k' v'] d IH]; [intros []|]. cbn [map fst dict_set]. intros I. destruct (String.eqb_spec k k') as [->|Hk]; [reflexivity|]. cbn [map fst]. f_equal. apply IH. destruct I as [->|I]; [contradiction|exact I].
Qed.
Lemma dset_absent {V} (d : dict string V) k v : ~ In k (map fst d) -> dset d k v = d ++ [(k, v)].
Proof.
  unfold dset. induction d as [|[k' v'] d IH]; [reflexivity|]. cbn [map fst dict_set]. intros I. destruct (String.eqb_spec k k') as [->|Hk]; [exfalso; apply I; left; reflexivity|]. cbn [app]. f_equal. apply IH. intros I'. apply I. right. exact I'.
Qed.
Lemma pushes_spec l : forall out, (forall k, In k (map fst l) -> In k (map fst out)) ->
  exists out', pushes l out = Ok out' /\ map fst out' = map fst out /\
    forall k c, lookup out k = Ok c -> lookup out' k = Ok (c ++ map snd (filter (fun kv => String.eqb k (fst kv)) l)).
Proof.
  induction l as [|[k0 v0] l IH]; intros out H.
  - exists out. split; [reflexivity|]. split; [reflexivity|]. intros k c ->. cbn. now rewrite app_nil_r.
  - assert (I0 : In k0 (map fst out)) by (apply H; left; reflexivity). destruct (proj1 (lookup_keys out k0) I0) as [c0 E0].
    cbn [pushes fst snd]. unfold push. rewrite E0. cbn [rmap rbind]. pose proof (dset_present out k0 (c0 ++ [v0]) I0) as K.
    destruct (IH (dset out k0 (c0 ++ [v0]))) as (out' & E & K' & L); [intros k I; rewrite K; apply H; right; exact I|].
    exists out'. split; [exact E|]. split; [congruence|]. intros k c Ec. cbn [filter fst]. destruct (String.eqb_spec k k0) as [->|Hk].
    + rewrite (L k0 (c0 ++ [v0])) by apply lookup_same. assert (c = c0) as -> by congruence. cbn [map snd]. now rewrite <- app_assoc.
    + apply L. rewrite lookup_other by exact Hk. exact Ec.
Qed.

Definition cov_cells (o : fit_out) (k1 : string) (keys : list string) : list (string * cell) :=
  map (fun k2 => (cov_key k1 k2, CNum (covariance_of k1 k2 o))) (filter (fun k => negb (has_epsilon k)) keys).
Fixpoint fitted_cells (o : fit_out) (keys : list string) : list (string * cell) :=
  match keys with [] => [] | k1 :: rest => (k1, CNum (value_of k1 o)) :: (if has_epsilon k1 then [] else cov_cells o k1 (k1 :: rest)) ++ fitted_cells o rest end.
Lemma covariance_cell_of o a b : covariance_cell (o_cov o) a b = CNum (covariance_of a b o).
Proof.
  unfold covariance_cell, covariance_of, cov_key. destruct (dict_get String.eqb (o_cov o) ("COV." ++ a ++ "." ++ b)%string); [reflexivity|]. destruct (dict_get String.eqb (o_cov o) ("COV." ++ b ++ "." ++ a)%string); reflexivity.
Qed.
Lemma push_keys k v out out' : push k v out = Ok out' -> map fst out' = map fst out.
Proof.
  unfold push. destruct (lookup out k) as [c|] eqn:E; [|discriminate]. cbn. intros H. injection H as <-. apply dset_present. apply lookup_keys. eauto.
Qed.
Lemma mem_true {V} (d : dict string V) k : In k (map fst d) -> dict_mem String.eqb d k = true.
Proof. apply mem_keys. Qed.
Lemma mem_false {V} (d : dict string V) k : ~ In k (map fst d) -> dict_mem String.eqb d k = false.
Proof. intros H. destruct (dict_mem String.eqb d k) eqn:E; [|reflexivity]. apply mem_keys in E. contradiction. Qed.
Lemma push_cov_cells o k1 keys : forall out, (forall k, In k (map fst (cov_cells o k1 keys)) -> In k (map fst out)) -> push_cov (o_cov o) k1 keys out = pushes (cov_cells o k1 keys) out.
Proof.
  unfold cov_cells. induction keys as [|k2 keys IH]; intros out H; [reflexivity|]. cbn [push_cov filter] in *. destruct (has_epsilon k2); cbn [negb map pushes fst snd] in *; [apply IH, H|].
  rewrite mem_true by (apply H; left; reflexivity). rewrite covariance_cell_of. destruct (push (cov_key k1 k2) (CNum (covariance_of k1 k2 o)) out) as [out'|] eqn:E; [|reflexivity]. cbn [rbind]. apply IH. intros k I. rewrite (push_keys _ _ _ _ E). apply H. right. exact I.
Qed.
Lemma push_fitted_cells o keys : forall out, (forall k, In k (map fst (fitted_cells o keys)) -> In k (map fst out)) -> push_fitted o keys out = pushes (fitted_cells o keys) out.
Proof.
  induction keys as [|k1 keys IH]; intros out H; [reflexivity|]. cbn [push_fitted fitted_cells pushes fst snd] in *. change (match dict_get String.eqb (o_params o) k1 with Some v => v | None => 0%R end) with (value_of k1 o).
  destruct (push k1 (CNum (value_of k1 o)) out) as [out'|] eqn:E; [|reflexivity]. cbn [rbind]. apply push_keys in E. rewrite pushes_app.
  assert (Hc : (if has_epsilon k1 then Ok out' else push_cov (o_cov o) k1 (k1 :: keys) out') = pushes (if has_epsilon k1 then [] else cov_cells o k1 (k1 :: keys)) out').
  { assert (B : has_epsilon k1 = true \/ has_epsilon k1 = false) by (destruct (has_epsilon k1); auto). destruct B as [B|B]; rewrite B in *; [reflexivity|]. apply push_cov_cells. intros k I. rewrite E. apply H. cbn [map fst]. right. rewrite map_app. apply in_or_app. left. exact I. }
  rewrite Hc. destruct (pushes (if has_epsilon k1 then [] else cov_cells o k1 (k1 :: keys)) out') as [out2|] eqn:E2; [|reflexivity]. cbn [rbind]. apply IH.
  assert (K2 : map fst out2 = map fst out').
  { destruct (pushes_spec (if has_epsilon k1 then [] else cov_cells o k1 (k1 :: keys)) out') as (o3 & E3 & K3 & _); [|rewrite E2 in E3; injection E3 as <-; exact K3]. intros k I. rewrite E. apply H. cbn [map fst]. right. rewrite map_app. apply in_or_app. left. exact I. }
  intros k I. rewrite K2, E. apply H. cbn [map fst]. right. rewrite map_app. apply in_or_app. right. exact I.
Qed.
Lemma fitted_cells_offsets o D : Forall (fun k => has_epsilon k = true) D -> fitted_cells o D = map (fun k => (k, CNum (value_of k o))) D.
Proof. induction D as [|k D IH]; [reflexivity|]. intros F. cbn [fitted_cells map]. rewrite (Forall_inv F). cbn [app]. f_equal. apply IH. exact (Forall_inv_tail F). Qed.
Lemma cov_cells_offsets o k l D : Forall (fun k => has_epsilon k = true) D -> cov_cells o k (l ++ D) = cov_cells o k l.
Proof.
  intros F. unfold cov_cells. rewrite filter_app. replace (filter (fun k => negb (has_epsilon k)) D) with (@nil string); [now rewrite app_nil_r|]. induction D as [|e D IH]; [reflexivity|]. cbn [filter]. rewrite (Forall_inv F). apply IH. exact (Forall_inv_tail F).
Qed.
Lemma fitted_cells_app o l D : Forall (fun k => has_epsilon k = true) D -> fitted_cells o (l ++ D) = fitted_cells o l ++ map (fun k => (k, CNum (value_of k o))) D.
Proof.
  intros F. induction l as [|k l IH]; [apply fitted_cells_offsets, F|]. cbn [fitted_cells app]. rewrite IH. f_equal. rewrite app_assoc. f_equal. destruct (has_epsilon k); [reflexivity|]. f_equal. exact (cov_cells_offsets o k (k :: l) D F).
Qed.

(** ** the names *)
Fixpoint distinct (l : list string) : bool := match l with [] => true | k :: r => (negb (mem_str k r) && distinct r)%bool end.
Lemma distinct_NoDup l : distinct l = true -> NoDup l.
Proof. induction l as [|k l IH]; [constructor|]. cbn. intros H. apply andb_prop in H as [A B]. constructor; [|auto]. apply mem_str_false. now apply negb_true_iff. Qed.
Definition included (l m : list string) : bool := forallb (fun k => mem_str k m) l.
Lemma included_In l m : included l m = true -> forall k, In k l -> In k m.
Proof. unfold included. rewrite forallb_forall. intros H k I. apply mem_str_In, H, I. Qed.
Definition cov_names : list string := map (fun p => cov_key (fst p) (snd p)) (upper_pairs all_keys).
Definition base_names : list string := map fst output_keys0 ++ cov_names.
Lemma base_distinct : NoDup base_names.
Proof. apply distinct_NoDup. vm_compute. reflexivity. Qed.
Lemma base_plain k : In k base_names -> has_epsilon k = false.
Proof.
  intros I. assert (F : forallb (fun k => negb (has_epsilon k)) base_names = true) by (vm_compute; reflexivity). rewrite forallb_forall in F. apply negb_true_iff. now apply F.
Qed.
Lemma offset_has k : offset_name k -> has_epsilon k = true.
Proof. intros (s & _ & [->| ->]); apply eps_epsilon. Qed.
Lemma offset_not_base k : offset_name k -> ~ In k base_names.
Proof. intros H I. apply base_plain in I. rewrite offset_has in I by exact H. discriminate. Qed.
Lemma offsets_has E : Forall offset_name E -> Forall (fun k => has_epsilon k = true) E.
Proof. apply Forall_impl. exact offset_has. Qed.

Lemma fold_dset l : forall d : columns, NoDup (map fst d ++ l) -> fold_left (fun d k => dset d k []) l d = d ++ map (fun k => (k, [])) l.
Proof.
  induction l as [|k l IH]; intros d N; [cbn; now rewrite app_nil_r|]. cbn [fold_left map]. rewrite dset_absent.
  - rewrite IH; [now rewrite <- app_assoc|]. rewrite map_app. cbn [map fst]. now rewrite <- app_assoc.
  - apply NoDup_remove_2 in N. intros I. apply N. apply in_or_app. now left.
Qed.
Lemma NoDup_three {A} (a e c : list A) : NoDup (a ++ c) -> NoDup e -> (forall k, In k e -> ~ In k (a ++ c)) -> NoDup (a ++ e ++ c).
Proof.
  intros N1 N2 H. apply (Permutation_NoDup (l := e ++ a ++ c)); [rewrite app_assoc, (app_assoc a e c); apply Permutation_app_tail, Permutation_app_comm|]. revert N2 H. induction e as [|x e IH]; intros N2 H; [exact N1|]. cbn [app]. apply NoDup_cons_iff in N2 as [N2 N3]. constructor.
  - intros I. apply in_app_or in I as [I|I]; [contradiction|]. exact (H x (or_introl eq_refl) I).
  - apply IH; [exact N3|]. intros k I. apply H. now right.
Qed.
Definition start_names (E : list string) : list string := map fst output_keys0 ++ E ++ cov_names.
Lemma start_names_NoDup E : NoDup E -> Forall offset_name E -> NoDup (start_names E).
Proof. intros N F. apply NoDup_three; [exact base_distinct|exact N|]. rewrite Forall_forall in F. intros k I. now apply offset_not_base, F. Qed.
Lemma start_names_In E k : In k (start_names E) <-> In k base_names \/ In k E.
Proof. unfold start_names, base_names. rewrite !in_app_iff. tauto. Qed.
Lemma empty_output_eq g E : known_offsets g E -> empty_output (v_okeys g) = map (fun k => (k, [])) (start_names E).
Proof.
  intros (-> & N & F). unfold empty_output.
  assert (H : forall l d, fold_left (fun (d : columns) p => dset d (cov_key (fst p) (snd p)) []) l d = fold_left (fun d k => dset d k []) (map (fun p => cov_key (fst p) (snd p)) l) d).
  { induction l as [|p l IH]; intros d; [reflexivity|]. cbn [fold_left map]. apply IH. }
  rewrite H. fold cov_names. assert (M : map (fun kb : string * bool => (fst kb, @nil cell)) (output_keys0 ++ map (fun k => (k, true)) E) = map (fun k => (k, [])) (map fst output_keys0 ++ E)).
  { rewrite !map_app, !map_map. reflexivity. }
  rewrite M, fold_dset.
  - unfold start_names. rewrite (app_assoc _ E cov_names). symmetry. apply map_app.
  - rewrite map_map. cbn [fst]. rewrite map_id, <- app_assoc. now apply start_names_NoDup.
Qed.

(** ** registering new offsets *)
Lemma register_spec keys : forall fkeys (out : columns) (okeys : dict string bool), (forall k, In k (map fst okeys) -> In k (map fst out)) ->
  exists D N, register keys (fkeys, out, okeys) = (fkeys ++ D, out ++ map (fun k => (k, [])) N, okeys ++ map (fun k => (k, true)) N) /\
    NoDup D /\ NoDup N /\ (forall k, In k D <-> In k keys /\ has_epsilon k = true /\ ~ In k fkeys) /\ (forall k, In k N <-> In k D /\ ~ In k (map fst out)).
Proof.
  induction keys as [|k0 keys IH]; intros fkeys out okeys Hok.
  - exists [], []. cbn. rewrite !app_nil_r. repeat split; try constructor; try tauto; intros; contradiction.
  - change (register (k0 :: keys) (fkeys, out, okeys)) with (register keys (register1 k0 (fkeys, out, okeys))). unfold register1.
    assert (B : (negb (mem_str k0 fkeys) && has_epsilon k0)%bool = true \/ (negb (mem_str k0 fkeys) && has_epsilon k0)%bool = false) by (destruct (negb (mem_str k0 fkeys) && has_epsilon k0)%bool; auto). destruct B as [B|B]; rewrite B.
    + apply andb_prop in B as [B1 B2]. apply negb_true_iff, mem_str_false in B1.
      destruct (in_dec String.string_dec k0 (map fst out)) as [I|I].
      * rewrite (mem_true _ _ I). destruct (IH (fkeys ++ [k0]) out okeys Hok) as (D & N & E & ND & NN & HD & HN). rewrite E. exists (k0 :: D), N. rewrite <- app_assoc. split; [reflexivity|].
        split; [constructor; [|exact ND]; intros X; apply HD in X as (_ & _ & X); apply X; apply in_or_app; right; now left|]. split; [exact NN|]. split.
        -- intros k. split.
           ++ intros [<-|X]; [repeat split; auto; now left|]. apply HD in X as (X1 & X2 & X3). split; [now right|]. split; [exact X2|]. intros Y. apply X3. apply in_or_app. now left.
           ++ intros ([->|X1] & X2 & X3); [now left|]. destruct (String.string_dec k k0) as [->|Hk]; [now left|]. right. apply HD. split; [exact X1|]. split; [exact X2|]. intros Y. apply in_app_or in Y as [Y|[Y|[]]]; congruence.
        -- intros k. rewrite HN. split; [intros [X Y]; split; [now right|exact Y]|]. intros [[<-|X] Y]; [contradiction|auto].
      * rewrite (mem_false _ _ I). rewrite !dset_absent; [|intros X; apply I, Hok, X|exact I].
        destruct (IH (fkeys ++ [k0]) (out ++ [(k0, [])]) (okeys ++ [(k0, true)])) as (D & N & E & ND & NN & HD & HN).
        { intros k. rewrite !map_app, !in_app_iff. cbn. intros [X|X]; [left; now apply Hok|right; exact X]. }
        rewrite E. exists (k0 :: D), (k0 :: N). cbn [map]. rewrite <- !app_assoc. split; [reflexivity|].
        split; [constructor; [|exact ND]; intros X; apply HD in X as (_ & _ & X); apply X; apply in_or_app; right; now left|].
        split; [constructor; [|exact NN]; intros X; apply HN in X as (_ & X); apply X; rewrite map_app; apply in_or_app; right; now left|]. split.
        -- intros k. split.
           ++ intros [<-|X]; [repeat split; auto; now left|]. apply HD in X as (X1 & X2 & X3). split; [now right|]. split; [exact X2|]. intros Y. apply X3. apply in_or_app. now left.
           ++ intros ([->|X1] & X2 & X3); [now left|]. destruct (String.string_dec k k0) as [->|Hk]; [now left|]. right. apply HD. split; [exact X1|]. split; [exact X2|]. intros Y. apply in_app_or in Y as [Y|[Y|[]]]; congruence.
        -- intros k. split.
           ++ intros [<-|X]; [split; [now left|exact I]|]. apply HN in X as [X Y]. split; [now right|]. intros Z. apply Y. rewrite map_app. apply in_or_app. now left.
           ++ intros [[<-|X] Y]; [now left|]. destruct (String.string_dec k k0) as [->|Hk]; [now left|]. right. apply HN. split; [exact X|]. rewrite map_app. intros Z. apply in_app_or in Z as [Z|[Z|[]]]; [contradiction|]. cbn in Z. congruence.
    + destruct (IH fkeys out okeys Hok) as (D & N & E & ND & NN & HD & HN). exists D, N. split; [exact E|]. split; [exact ND|]. split; [exact NN|]. split; [|exact HN].
      intros k. rewrite HD. split; [intros (X1 & X2 & X3); split; [now right|]; auto|]. intros ([->|X1] & X2 & X3); [|auto]. apply mem_str_false in X3. rewrite X2, X3 in B. discriminate.
Qed.

(** ** the windows one after the other *)
Definition item : Type := nat * (nat * nat) * fit_out.
Definition fixed_cells (clock : fit_mode -> nat -> string) (posid : string) (rows : list row) (mode : fit_mode) (x : item) : list (string * cell) :=
  let '(i, c, o) := x in
  let first := nth (fst c) rows no_row in let final := nth (snd c) rows no_row in
  [("ANALYSIS_DATE", CStr (clock mode i)); ("POS_ID", CStr posid);
   ("DATA_START_DATE", CStr (w_date first)); ("DATA_END_DATE", CStr (w_date final));
   ("DATA_START_DATE_SEC", CNum (w_sec first)); ("DATA_END_DATE_SEC", CNum (w_sec final));
   ("NUM_POINTS", CInt (Z.of_nat (snd c) - Z.of_nat (fst c) + 1)); ("NUM_POINTS_IN_FIT", CInt (Z.of_nat (o_npts o)));
   ("FIT_ERROR", CNum (o_rms o)); ("FLAGS", CInt (o_flags o))].
Definition base_cells clock posid rows mode (x : item) : list (string * cell) := fixed_cells clock posid rows mode x ++ fitted_cells (snd x) all_keys.
Definition base_cell clock posid rows mode (k : string) (x : item) : cell :=
  match dict_get String.eqb (base_cells clock posid rows mode x) k with Some v => v | None => CNan end.
Lemma base_cells_names clock posid rows mode x : NoDup (map fst (base_cells clock posid rows mode x)) /\ forall k, In k (map fst (base_cells clock posid rows mode x)) <-> In k base_names.
Proof.
  assert (E : map fst (base_cells clock posid rows mode x) = map fst (base_cells (fun _ _ => "") "" [] Static (0%nat, (0%nat, 0%nat), {| o_params := []; o_cov := []; o_rms := 0; o_npts := 0; o_flags := 0%Z |}))) by (destruct x as [[i c] o]; reflexivity).
  rewrite E. split; [apply distinct_NoDup; vm_compute; reflexivity|]. intros k. split; apply included_In; vm_compute; reflexivity.
Qed.
Lemma filter_single (l : list (string * cell)) k v : NoDup (map fst l) -> In (k, v) l -> filter (fun kv => String.eqb k (fst kv)) l = [(k, v)].
Proof.
  induction l as [|[k' v'] l IH]; [intros _ []|]. cbn [map fst filter]. intros N I. apply NoDup_cons_iff in N as [N1 N2]. destruct I as [E|I].
  - injection E as -> ->. rewrite String.eqb_refl. f_equal. clear IH N2. induction l as [|[k2 v2] l IH]; [reflexivity|]. cbn [filter fst]. cbn [map fst] in N1. destruct (String.eqb_spec k k2) as [->|]; [exfalso; apply N1; now left|]. apply IH. intros X. apply N1. now right.
  - destruct (String.eqb_spec k k') as [->|]; [|now apply IH]. exfalso. apply N1. apply (in_map fst) in I. exact I.
Qed.
Lemma filter_none (l : list (string * cell)) k : ~ In k (map fst l) -> filter (fun kv => String.eqb k (fst kv)) l = [].
Proof.
  induction l as [|[k2 v2] l IH]; [reflexivity|]. cbn [filter fst map]. intros N1. destruct (String.eqb_spec k k2) as [->|]; [exfalso; apply N1; now left|]. apply IH. intros X. apply N1. now right.
Qed.
Fixpoint since (k : string) (l : list item) : list item := match l with [] => [] | x :: r => if mem_str k (offsets (snd x)) then x :: r else since k r end.
Lemma since_none k l : (forall x, In x l -> ~ In k (offsets (snd x))) -> since k l = [].
Proof. induction l as [|x l IH]; [reflexivity|]. intros H. cbn [since]. rewrite (proj2 (mem_str_false _ _)) by (apply H; now left). apply IH. intros y Y. apply H. now right. Qed.
Lemma since_snoc k (l : list item) (x : item) : (exists y, In y l /\ In k (offsets (snd y))) -> since k (l ++ [x]) = since k l ++ [x].
Proof.
  induction l as [|y l IH]; [intros (? & [] & _)|]. intros (z & I & H). cbn [app since]. destruct (mem_str k (offsets (snd y))) eqn:E; [reflexivity|]. apply IH. destruct I as [->|I]; [apply mem_str_false in E; contradiction|eauto].
Qed.
Lemma since_app_none k l m : (forall x, In x l -> ~ In k (offsets (snd x))) -> since k (l ++ m) = since k m.
Proof. induction l as [|x l IH]; [reflexivity|]. intros H. cbn [app since]. rewrite (proj2 (mem_str_false _ _)) by (apply H; now left). apply IH. intros y Y. apply H. now right. Qed.
Definition offset_cell (k : string) (x : item) : cell := CNum (value_of k (snd x)).

Record inv clock posid rows mode (E : list string) (l : list item) (s : loop_state) : Prop := {
  i_parts : exists D N, l_fitted s = all_keys ++ D /\ l_okeys s = output_keys0 ++ map (fun k => (k, true)) (E ++ N) /\ map fst (l_out s) = start_names E ++ N /\
    NoDup D /\ NoDup (E ++ N) /\ Forall offset_name (E ++ N) /\ (forall k, In k D <-> exists x, In x l /\ In k (offsets (snd x))) /\ (forall k, In k D -> In k (E ++ N)) /\ (forall k, In k N -> In k D) /\
    (forall k, In k (E ++ N) -> lookup (l_out s) k = Ok (map (offset_cell k) (since k l)));
  i_base : forall k, In k base_names -> lookup (l_out s) k = Ok (map (base_cell clock posid rows mode k) l) }.

Lemma inv_step fit clock posid rows mode reject E l s i c n1 b1 o : inv clock posid rows mode E l s -> inside rows c -> Forall offset_name (offsets o) ->
  fit (map w_move (stretch rows c)) mode (l_nominals s) (l_bounds s) reject = (Ok o, (n1, b1)) ->
  exists s', one_case fit clock posid rows mode reject i c s = Ok s' /\ inv clock posid rows mode E (l ++ [(i, c, o)]) s' /\ l_nominals s' = n1 /\ l_bounds s' = b1.
Proof.
  intros [(D & N & Ef & Ek & Eo & ND & NEN & FEN & HD & HDEN & HND & Lo) Lb] [I1 I2] Fo Efit. unfold one_case. change (window_of rows c) with (stretch rows c). rewrite Efit. cbn [rbind].
  assert (G : forall j, (j < List.length rows)%nat -> geti rows j = Ok (nth j rows no_row)). { intros j Hj. unfold geti. rewrite (nth_error_nth' rows no_row Hj). reflexivity. }
  rewrite (G (fst c)) by lia. cbn [rbind]. rewrite (G (snd c)) by lia. cbn [rbind].
  set (x := (i, c, o) : item). change (pushes _ (l_out s)) with (pushes (fixed_cells clock posid rows mode x) (l_out s)).
  destruct (base_cells_names clock posid rows mode x) as [BN BI].
  assert (Hin : forall k, In k base_names -> In k (map fst (l_out s))) by (intros k I; rewrite Eo; apply in_or_app; left; apply start_names_In; now left).
  destruct (pushes_spec (fixed_cells clock posid rows mode x) (l_out s)) as (out1 & E1 & K1 & L1). { intros k I. apply Hin, BI. unfold base_cells. rewrite map_app. apply in_or_app. now left. }
  rewrite E1. cbn [rbind].
  destruct (register_spec (map fst (o_params o)) (l_fitted s) out1 (l_okeys s)) as (D1 & N1 & ER & ND1 & NN1 & HD1 & HN1).
  { intros k. rewrite K1, Eo, Ek, map_app, map_map, map_id. unfold start_names. rewrite !in_app_iff. tauto. }
  rewrite ER. cbn [rbind].
  assert (Off : forall k, In k (offsets o) <-> In k (map fst (o_params o)) /\ has_epsilon k = true) by (intros k; unfold offsets; apply filter_In).
  rewrite Forall_forall in Fo.
  assert (D1off : Forall offset_name D1). { apply Forall_forall. intros k I. apply HD1 in I as (I & J & _). apply Fo, Off. auto. }
  assert (Doff : Forall offset_name D). { apply Forall_forall. intros k I. rewrite Forall_forall in FEN. apply FEN, HDEN, I. }
  assert (DDoff : Forall offset_name (D ++ D1)) by (apply Forall_app; auto).
  set (out2 := out1 ++ map (fun k => (k, [])) N1).
  assert (K2 : map fst out2 = start_names E ++ N ++ N1). { unfold out2. rewrite map_app, map_map. cbn [fst]. rewrite map_id, K1, Eo, <- app_assoc. reflexivity. }
  assert (InD : forall k, In k (D ++ D1) -> In k (map fst out2)).
  { intros k I. rewrite K2, !in_app_iff, start_names_In. apply in_app_or in I as [I|I].
    - apply HDEN, in_app_or in I as [I|I]; auto.
    - destruct (in_dec String.string_dec k (map fst out1)) as [J|J]; [rewrite K1, Eo, in_app_iff, start_names_In in J; tauto|]. right. right. apply HN1. auto. }
  rewrite Ef. assert (EF : push_fitted o ((all_keys ++ D) ++ D1) out2 = pushes (fitted_cells o all_keys ++ map (fun k => (k, CNum (value_of k o))) (D ++ D1)) out2).
  { rewrite <- app_assoc, push_fitted_cells; rewrite fitted_cells_app by (apply offsets_has, DDoff); [reflexivity|]. intros k I. rewrite map_app, map_map in I. cbn [fst] in I. rewrite map_id in I. apply in_app_or in I as [I|I]; [|now apply InD].
    rewrite K2. apply in_or_app. left. apply start_names_In. left. apply BI. unfold base_cells. rewrite map_app. apply in_or_app. now right. }
  rewrite EF. destruct (pushes_spec (fitted_cells o all_keys ++ map (fun k => (k, CNum (value_of k o))) (D ++ D1)) out2) as (out3 & E3 & K3 & L3).
  { intros k I. rewrite map_app, map_map in I. cbn [fst] in I. rewrite map_id in I. apply in_app_or in I as [I|I]; [|now apply InD].
    rewrite K2. apply in_or_app. left. apply start_names_In. left. apply BI. unfold base_cells. rewrite map_app. apply in_or_app. now right. }
  rewrite E3. cbn [rbind]. eexists. split; [reflexivity|]. cbn [l_out l_fitted l_okeys l_nominals l_bounds]. split; [|split; reflexivity].
  assert (NDD : NoDup (D ++ D1)). { assert (X : NoDup (D ++ D1 ++ [])); [|now rewrite app_nil_r in X]. apply NoDup_three; [now rewrite app_nil_r|exact ND1|]. intros k I. rewrite app_nil_r. intros J. apply HD1 in I as (_ & _ & I). apply I. rewrite Ef. apply in_or_app. now right. }
  assert (L2 : forall k cl, lookup out1 k = Ok cl -> lookup out2 k = Ok cl).
  { intros k cl. rewrite !lookup_get. unfold out2. clear. induction out1 as [|[k' c'] r IH]; [discriminate|]. cbn [dict_get app]. destruct (String.eqb k k'); auto. }
  assert (L2n : forall k, In k N1 -> lookup out2 k = Ok []).
  { intros k I. apply lookup_get. apply get_In; [|unfold out2; apply in_or_app; right; now apply (in_map (fun k => (k, @nil cell)))].
    rewrite K2. rewrite app_assoc. assert (X : NoDup ((start_names E ++ N) ++ N1 ++ [])); [|now rewrite app_nil_r in X]. apply NoDup_three; [rewrite app_nil_r|exact NN1|].
    - assert (X : NoDup (start_names E ++ N)); [|exact X]. unfold start_names. rewrite <- !app_assoc. apply (Permutation_NoDup (l := map fst output_keys0 ++ (E ++ N) ++ cov_names)); [rewrite <- app_assoc; do 2 apply Permutation_app_head; apply Permutation_app_comm|]. exact (start_names_NoDup (E ++ N) NEN FEN).
    - intros j J. rewrite app_nil_r, <- Eo, <- K1. now apply HN1. }
  split; cbn [l_out l_fitted l_okeys].
  - exists (D ++ D1), (N ++ N1). split; [now rewrite app_assoc|]. split; [rewrite Ek; rewrite (app_assoc E N N1), (map_app _ (E ++ N) N1); symmetry; apply app_assoc|]. split; [exact (eq_trans K3 K2)|]. split; [exact NDD|].
    assert (NE : NoDup (E ++ N ++ N1)).
    { rewrite app_assoc. assert (X : NoDup ((E ++ N) ++ N1 ++ [])); [|now rewrite app_nil_r in X]. apply NoDup_three; [now rewrite app_nil_r|exact NN1|]. intros j J. rewrite app_nil_r. apply HN1 in J as [_ J]. rewrite K1, Eo in J. intros X. apply J. unfold start_names. rewrite !in_app_iff in *. tauto. }
    split; [exact NE|]. split. { rewrite app_assoc. apply Forall_app. split; [exact FEN|]. apply Forall_forall. intros k I. rewrite Forall_forall in D1off. apply D1off. now apply HN1. }
    assert (HDD : forall k, In k (D ++ D1) <-> exists y, In y (l ++ [x]) /\ In k (offsets (snd y))).
    { intros k. split.
      - intros I. apply in_app_or in I as [I|I]; [apply HD in I as (y & Y & Y2); exists y; split; [apply in_or_app; now left|exact Y2]|]. exists x. split; [apply in_or_app; right; now left|]. apply HD1 in I as (I & J & _). apply Off. auto.
      - intros (y & Y & Y2). apply in_app_or in Y as [Y|[<-|[]]]; [apply in_or_app; left; apply HD; eauto|]. apply in_or_app. destruct (in_dec String.string_dec k D) as [I|I]; [now left|]. right. apply Off in Y2 as [Y1 Y2]. apply HD1. split; [exact Y1|]. split; [exact Y2|]. rewrite Ef. intros J. apply in_app_or in J as [J|J]; [|contradiction]. apply all_no_epsilon in J. congruence. }
    split; [exact HDD|]. split. { intros k I. apply in_app_or in I as [I|I]; [apply HDEN in I; rewrite !in_app_iff in *; tauto|]. destruct (in_dec String.string_dec k (map fst out1)) as [J|J].
      - rewrite K1, Eo, in_app_iff, start_names_In in J. rewrite !in_app_iff. destruct J as [[J|J]|J]; [|tauto|tauto]. exfalso. rewrite Forall_forall in D1off. exact (offset_not_base k (D1off k I) J).
      - rewrite !in_app_iff. right. right. apply HN1. auto. }
    split. { intros k I. apply in_or_app. apply in_app_or in I as [I|I]; [left; now apply HND|right; now apply HN1]. }
    intros k I.
    assert (Ok_ : offset_name k). { rewrite app_assoc in I. apply in_app_or in I as [I|I]; [rewrite Forall_forall in FEN; now apply FEN|]. rewrite Forall_forall in D1off. apply D1off. now apply HN1. }
    assert (Lk : lookup out2 k = Ok (map (offset_cell k) (since k l))).
    { rewrite app_assoc in I. apply in_app_or in I as [I|I].
      - apply L2. rewrite (L1 k _ (Lo k I)), filter_none; [cbn; now rewrite app_nil_r|]. intros X. apply (offset_not_base k Ok_), BI. unfold base_cells. rewrite map_app. apply in_or_app. now left.
      - rewrite (L2n k I). rewrite since_none; [reflexivity|]. intros y Y Y2. apply HN1 in I as [I _]. apply HD1 in I as (_ & _ & I). apply I. rewrite Ef. apply in_or_app. right. apply HD. eauto. }
    rewrite (L3 k _ Lk), filter_app, filter_none; [|intros X; apply (offset_not_base k Ok_), BI; unfold base_cells; rewrite map_app; apply in_or_app; now right]. cbn [app].
    destruct (in_dec String.string_dec k (D ++ D1)) as [J|J].
    + rewrite (filter_single _ k (CNum (value_of k o))); [|rewrite map_map; cbn [fst]; now rewrite map_id|now apply (in_map (fun k => (k, CNum (value_of k o))))]. cbn [map snd]. f_equal.
      apply HDD in J as (y & Y & Y2). destruct (in_dec String.string_dec k D) as [Dk|Dk].
      * rewrite since_snoc by (now apply HD). rewrite map_app. reflexivity.
      * assert (Z : forall z, In z l -> ~ In k (offsets (snd z))) by (intros z Hz Hz2; apply Dk, HD; eauto). rewrite (since_none k l Z), since_app_none by exact Z. apply in_app_or in Y as [Y|[<-|[]]]; [exfalso; exact (Z y Y Y2)|]. cbn [since]. apply mem_str_In in Y2. rewrite Y2. reflexivity.
    + rewrite filter_none; [|rewrite map_map; cbn [fst]; now rewrite map_id]. cbn. rewrite app_nil_r. f_equal. f_equal. assert (Z : forall z, In z (l ++ [x]) -> ~ In k (offsets (snd z))) by (intros z Hz Hz2; apply J, HDD; eauto).
      transitivity (@nil item); [apply since_none; intros z Hz; apply Z; apply in_or_app; now left|symmetry; apply since_none; exact Z].
  - intros k I. pose proof (Lb k I) as Lk. apply L1 in Lk. apply L2 in Lk. apply L3 in Lk. rewrite Lk. f_equal.
    assert (Fl : map snd (filter (fun kv => String.eqb k (fst kv)) (fixed_cells clock posid rows mode x)) ++ map snd (filter (fun kv => String.eqb k (fst kv)) (fitted_cells o all_keys ++ map (fun k => (k, CNum (value_of k o))) (D ++ D1))) = [base_cell clock posid rows mode k x]);
      [|rewrite <- app_assoc, Fl, (map_app _ l); reflexivity].
    rewrite <- (map_app snd), <- filter_app, app_assoc. change (fixed_cells clock posid rows mode x ++ fitted_cells o all_keys) with (base_cells clock posid rows mode x).
    rewrite filter_app, (filter_none (map _ (D ++ D1))); [|rewrite map_map; cbn [fst]; rewrite map_id; intros J; rewrite Forall_forall in DDoff; exact (offset_not_base k (DDoff k J) I)]. rewrite app_nil_r.
    pose proof (proj2 (BI k) I) as J. unfold base_cell. destruct (dict_get String.eqb (base_cells clock posid rows mode x) k) as [v|] eqn:G1.
    + rewrite (filter_single _ k v BN); [reflexivity|]. exact (get_Some _ _ _ G1).
    + exfalso. exact (get_none _ _ G1 J).
Qed.

Definition items (i : nat) (cs : list (nat * nat)) (os : list fit_out) : list item := combine (combine (seq i (List.length cs)) cs) os.
Lemma inv_start clock posid rows mode g E nominals bounds : known_offsets g E ->
  inv clock posid rows mode E [] {| l_out := empty_output (v_okeys g); l_fitted := all_keys; l_okeys := v_okeys g; l_nominals := nominals; l_bounds := bounds |}.
Proof.
  intros K. pose proof (empty_output_eq g E K) as Eo. destruct K as (Ek & N & F). pose proof (start_names_NoDup E N F) as NS.
  assert (M : map fst (map (fun k => (k, @nil cell)) (start_names E)) = start_names E) by (rewrite map_map; apply map_id).
  assert (L : forall k, In k (start_names E) -> lookup (empty_output (v_okeys g)) k = Ok []).
  { intros k I. apply lookup_get. rewrite Eo. apply get_In; [rewrite M; exact NS|]. now apply (in_map (fun k => (k, @nil cell))). }
  split; cbn [l_out l_fitted l_okeys].
  - exists [], []. rewrite !app_nil_r. split; [reflexivity|]. split; [exact Ek|]. split; [rewrite Eo; exact M|]. split; [constructor|]. split; [exact N|]. split; [exact F|].
    split; [intros k; split; [intros []|intros (x & [] & _)]|]. split; [intros k []|]. split; [intros k []|]. intros k I. apply L, start_names_In. now right.
  - intros k I. apply L, start_names_In. now left.
Qed.
Lemma inv_loop fit clock posid rows mode reject E n b cs os n2 b2 : fits fit rows mode reject n b cs os n2 b2 -> Forall (inside rows) cs -> Forall (fun o => Forall offset_name (offsets o)) os ->
  forall i l s, inv clock posid rows mode E l s -> l_nominals s = n -> l_bounds s = b ->
  exists s', case_fits fit clock posid rows mode reject i cs s = Ok s' /\ inv clock posid rows mode E (l ++ items i cs os) s' /\ l_nominals s' = n2 /\ l_bounds s' = b2.
Proof.
  induction 1 as [n b|n b c cs o os n1 b1 n2 b2 Ef Hf IH]; intros FI FO i l s I En Eb.
  - exists s. cbn. rewrite app_nil_r. auto.
  - subst n b. destruct (inv_step fit clock posid rows mode reject E l s i c n1 b1 o I (Forall_inv FI) (Forall_inv FO) Ef) as (s1 & E1 & I1 & En1 & Eb1).
    destruct (IH (Forall_inv_tail FI) (Forall_inv_tail FO) (S i) _ _ I1 En1 Eb1) as (s2 & E2 & I2 & R). exists s2. cbn [case_fits]. rewrite E1. cbn [rbind]. split; [exact E2|]. split; [|exact R].
    unfold items. cbn [List.length seq combine]. rewrite <- app_assoc in I2. exact I2.
Qed.
Lemma fits_error fit clock posid rows mode reject E n b cs os n2 b2 c rest e st : fits fit rows mode reject n b cs os n2 b2 -> Forall (inside rows) cs -> Forall (fun o => Forall offset_name (offsets o)) os ->
  fit (map w_move (stretch rows c)) mode n2 b2 reject = (Err e, st) ->
  forall i l s, inv clock posid rows mode E l s -> l_nominals s = n -> l_bounds s = b -> case_fits fit clock posid rows mode reject i (cs ++ c :: rest) s = Err e.
Proof.
  induction 1 as [n b|n b c' cs o os n1 b1 n2 b2 Ef Hf IH]; intros FI FO Ee i l s I En Eb.
  - subst n b. cbn [app case_fits]. unfold one_case. change (window_of rows c) with (stretch rows c). rewrite Ee. destruct st. reflexivity.
  - subst n b. destruct (inv_step fit clock posid rows mode reject E l s i c' n1 b1 o I (Forall_inv FI) (Forall_inv FO) Ef) as (s1 & E1 & I1 & En1 & Eb1).
    cbn [app case_fits]. rewrite E1. cbn [rbind]. exact (IH (Forall_inv_tail FI) (Forall_inv_tail FO) Ee (S i) _ _ I1 En1 Eb1).
Qed.
Lemma fits_length fit rows mode reject n b cs os n2 b2 : fits fit rows mode reject n b cs os n2 b2 -> List.length os = List.length cs.
Proof. induction 1; [reflexivity|]. cbn. now f_equal. Qed.
Lemma items_os i cs os : List.length os = List.length cs -> map snd (items i cs os) = os.
Proof.
  revert i os. induction cs as [|c cs IH]; intros i [|o os] L; try discriminate; [reflexivity|]. cbn [List.length] in L. unfold items. cbn [List.length seq combine map snd]. f_equal. apply IH. now injection L.
Qed.

(** ** the table *)
Lemma filter_get (p : list cell -> bool) (d : columns) k : NoDup (map fst d) -> dict_get String.eqb (filter (fun kc => p (snd kc)) d) k = match dict_get String.eqb d k with Some c => if p c then Some c else None | None => None end.
Proof.
  induction d as [|[k' c] d IH]; [reflexivity|]. cbn [map fst filter snd dict_get]. intros N. apply NoDup_cons_iff in N as [N1 N2]. specialize (IH N2). destruct (String.eqb_spec k k') as [->|Hk].
  - destruct (p c) eqn:P; cbn [dict_get]; [now rewrite String.eqb_refl|]. rewrite IH. destruct (dict_get String.eqb d k') as [c'|] eqn:G; [|reflexivity]. exfalso. apply N1. apply get_Some in G. apply (in_map fst) in G. exact G.
  - destruct (p c); cbn [dict_get]; [|exact IH]. apply String.eqb_neq in Hk. now rewrite Hk.
Qed.
Lemma NoDup_filter_keys (q : string * list cell -> bool) (d : columns) : NoDup (map fst d) -> NoDup (map fst (filter q d)).
Proof.
  induction d as [|[k c] d IH]; [auto|]. cbn [map fst filter]. intros N. apply NoDup_cons_iff in N as [N1 N2]. destruct (q (k, c)); [|now apply IH]. cbn [map fst]. constructor; [|now apply IH].
  intros I. apply N1. apply in_map_iff in I as ([k' c'] & <- & I). apply filter_In in I as [I _]. apply (in_map fst) in I. exact I.
Qed.
Lemma keys_get {V} (d : dict string V) k : In k (map fst d) <-> exists c, dict_get String.eqb d k = Some c.
Proof. rewrite lookup_keys. split; intros [c H]; exists c; now apply lookup_get. Qed.
Lemma map_nonempty {A B} (f : A -> B) l : l <> [] -> (List.length (map f l) =? 0)%nat = false.
Proof. intros H. rewrite map_length. destruct l; [congruence|reflexivity]. Qed.
Lemma since_length k l : (List.length (since k l) <= List.length l)%nat.
Proof. induction l as [|x l IH]; [auto|]. cbn [since]. destruct (mem_str k (offsets (snd x))); cbn [List.length]; lia. Qed.
Lemma since_full k (x : item) (l : list item) : In k (offsets (snd x)) -> since k (x :: l) = x :: l.
Proof. intros H. cbn [since]. apply mem_str_In in H. now rewrite H. Qed.
Lemma since_nonempty k l : (exists x, In x l /\ In k (offsets (snd x))) -> since k l <> [].
Proof. intros (x & I & H). induction l as [|y l IH]; [destruct I|]. cbn [since]. destruct (mem_str k (offsets (snd y))) eqn:M; [discriminate|]. destruct I as [->|I]; [apply mem_str_false in M; contradiction|auto]. Qed.

Lemma NoDup_out clock posid rows mode E l s : inv clock posid rows mode E l s -> NoDup (map fst (l_out s)).
Proof.
  intros [(D & N & Ef & Ek & Eo & ND & NEN & FEN & _) _]. rewrite Eo. unfold start_names. rewrite <- !app_assoc. apply (Permutation_NoDup (l := map fst output_keys0 ++ (E ++ N) ++ cov_names)); [rewrite <- app_assoc; do 2 apply Permutation_app_head; apply Permutation_app_comm|]. exact (start_names_NoDup (E ++ N) NEN FEN).
Qed.
Lemma in_filter_get (d : columns) k c : NoDup (map fst d) -> In (k, c) d <-> lookup d k = Ok c.
Proof. intros N. rewrite lookup_get. split; [now apply get_In|apply get_Some]. Qed.
Lemma make_table_none clock posid rows mode E s : inv clock posid rows mode E [] s -> make_table (l_out s) = Ok [].
Proof.
  intros I. pose proof (NoDup_out _ _ _ _ _ _ _ I) as N. destruct I as [(D & NN & Ef & Ek & Eo & _ & _ & _ & _ & _ & _ & Lo) Lb]. unfold make_table.
  assert (F : filter (fun kc => negb (List.length (snd kc) =? 0)%nat) (l_out s) = []); [|now rewrite F].
  assert (A : forall k c, In (k, c) (l_out s) -> c = []).
  { intros k c I. pose proof I as J. apply (in_map fst) in J. cbn in J. rewrite Eo in J. apply (in_filter_get _ _ _ N) in I. apply in_app_or in J as [J|J]; [apply start_names_In in J as [J|J]|].
    - rewrite (Lb k J) in I. now injection I.
    - rewrite Lo in I by (apply in_or_app; now left). now injection I.
    - rewrite Lo in I by (apply in_or_app; now right). now injection I. }
  revert A. generalize (l_out s). clear. intros d A. induction d as [|[k c] d IH]; [reflexivity|]. cbn [filter snd]. rewrite (A k c (or_introl eq_refl)). cbn. apply IH. intros k' c' I. apply (A k' c'). now right.
Qed.
Lemma make_table_exit clock posid rows mode E x l s k y : inv clock posid rows mode E (x :: l) s -> In y l -> In k (offsets (snd y)) -> ~ In k (offsets (snd x)) -> make_table (l_out s) = Err (SysExit 12).
Proof.
  intros I Y Y2 Hn. pose proof (NoDup_out _ _ _ _ _ _ _ I) as N. destruct I as [(D & NN & Ef & Ek & Eo & _ & _ & _ & HD & HDEN & _ & Lo) Lb]. unfold make_table.
  set (cols := filter (fun kc => negb (List.length (snd kc) =? 0)%nat) (l_out s)).
  assert (I1 : In ("POS_ID", map (base_cell clock posid rows mode "POS_ID") (x :: l)) cols). { apply filter_In. split; [|reflexivity]. apply in_filter_get; [exact N|]. apply Lb. left. reflexivity. }
  assert (Kd : exists y, In y (x :: l) /\ In k (offsets (snd y))) by (exists y; split; [now right|exact Y2]).
  assert (I2 : In (k, map (offset_cell k) (since k (x :: l))) cols).
  { apply filter_In. split; [|cbn [snd]; rewrite map_nonempty; [reflexivity|now apply since_nonempty]]. apply in_filter_get; [exact N|]. apply Lo, HDEN, HD, Kd. }
  assert (S1 : (List.length (since k (x :: l)) <= List.length l)%nat). { cbn [since]. apply mem_str_false in Hn. rewrite Hn. apply since_length. }
  destruct cols as [|[k0 c0] cs] eqn:Ec; [destruct I1|]. rewrite <- Ec in *.
  destruct (forallb (fun kc => (List.length (snd kc) =? List.length c0)%nat) cols) eqn:Ef2; [|reflexivity]. exfalso. rewrite forallb_forall in Ef2. pose proof (Ef2 _ I1) as A1. pose proof (Ef2 _ I2) as A2. cbn [snd] in A1, A2. apply Nat.eqb_eq in A1, A2. rewrite map_length in A1, A2. cbn [List.length] in A1. lia.
Qed.
Lemma make_table_Ok clock posid rows mode E x l s : inv clock posid rows mode E (x :: l) s -> (forall k y, In y l -> In k (offsets (snd y)) -> In k (offsets (snd x))) ->
  exists t, make_table (l_out s) = Ok t /\ NoDup (map fst t) /\ (forall k, In k (map fst t) <-> In k base_names \/ In k (offsets (snd x))) /\
    (forall k, In k base_names -> dict_get String.eqb t k = Some (map (base_cell clock posid rows mode k) (x :: l))) /\ (forall k, In k (offsets (snd x)) -> dict_get String.eqb t k = Some (map (offset_cell k) (x :: l))).
Proof.
  intros I Hall. pose proof (NoDup_out _ _ _ _ _ _ _ I) as N. destruct I as [(D & NN & Ef & Ek & Eo & _ & _ & FEN & HD & HDEN & _ & Lo) Lb]. unfold make_table.
  assert (HD' : forall k, In k D <-> In k (offsets (snd x))). { intros k. rewrite HD. split; [intros (y & [<-|Y] & Y2); [exact Y2|now apply (Hall k y)]|]. intros H. exists x. split; [now left|exact H]. }
  set (cols := filter (fun kc => negb (List.length (snd kc) =? 0)%nat) (l_out s)).
  assert (Gb : forall k, In k base_names -> dict_get String.eqb cols k = Some (map (base_cell clock posid rows mode k) (x :: l))).
  { intros k I. unfold cols. rewrite (filter_get (fun c => negb (List.length c =? 0)%nat)) by exact N. pose proof (Lb k I) as L. apply lookup_get in L. rewrite L. reflexivity. }
  assert (Go : forall k, In k (offsets (snd x)) -> dict_get String.eqb cols k = Some (map (offset_cell k) (x :: l))).
  { intros k I. unfold cols. rewrite (filter_get (fun c => negb (List.length c =? 0)%nat)) by exact N. pose proof (Lo k (HDEN k (proj2 (HD' k) I))) as L. apply lookup_get in L. rewrite (since_full k x l I) in L. rewrite L. reflexivity. }
  assert (Names : forall k, In k (map fst cols) <-> In k base_names \/ In k (offsets (snd x))).
  { intros k. split.
    - intros I. apply keys_get in I as [c G]. unfold cols in G. rewrite (filter_get (fun c => negb (List.length c =? 0)%nat)) in G by exact N. destruct (dict_get String.eqb (l_out s) k) as [c'|] eqn:G'; [|discriminate].
      assert (J : In k (map fst (l_out s))) by (apply keys_get; eauto). rewrite Eo, in_app_iff, start_names_In in J.
      assert (K : In k base_names \/ In k (E ++ NN)) by (rewrite in_app_iff; tauto). destruct K as [K|K]; [now left|]. right. apply HD'. apply HD. pose proof (Lo k K) as L. apply lookup_get in L. assert (c' = map (offset_cell k) (since k (x :: l))) as -> by congruence.
      destruct (in_dec String.string_dec k D) as [Dk|Dk]; [now apply HD|]. exfalso. assert (SN : since k (x :: l) = []) by (apply since_none; intros y Y Y2; apply Dk, HD; eauto). rewrite SN in G. cbn in G. discriminate.
    - intros [I|I]; apply keys_get; eexists; [now apply Gb|now apply Go]. }
  assert (Len : forall kc, In kc cols -> List.length (snd kc) = S (List.length l)).
  { intros [k c] I. pose proof I as J. apply (in_map fst) in J. apply Names in J. cbn [fst] in J. apply get_In in I; [|now apply NoDup_filter_keys]. cbn [snd]. destruct J as [J|J]; [pose proof (Gb k J) as G|pose proof (Go k J) as G]; rewrite I in G; apply (f_equal (fun o => match o with Some c => List.length c | None => 0%nat end)) in G; rewrite map_length in G; exact G. }
  exists cols. split; [|split; [now apply NoDup_filter_keys|auto]].
  destruct cols as [|[k0 c0] cs] eqn:Ec; [reflexivity|]. rewrite <- Ec in *. assert (L0 : List.length c0 = S (List.length l)) by (apply (Len (k0, c0)); rewrite Ec; now left).
  assert (FF : forallb (fun kc => (List.length (snd kc) =? List.length c0)%nat) cols = true); [|now rewrite FF]. apply forallb_forall. intros kc I. apply Nat.eqb_eq. now rewrite (Len kc I).
Qed.

(** ** null covariances *)
Lemma remove_get t k0 k : dict_get String.eqb (remove_column t k0) k = if String.eqb k k0 then None else dict_get String.eqb t k.
Proof.
  unfold remove_column. induction t as [|[k' c] t IH]; [cbn; destruct (String.eqb k k0); reflexivity|]. cbn [filter fst dict_get]. destruct (String.eqb_spec k' k0) as [->|H0]; cbn [negb dict_get].
  - rewrite IH. destruct (String.eqb_spec k k0); reflexivity.
  - rewrite IH. destruct (String.eqb_spec k k') as [->|]; [apply String.eqb_neq in H0; now rewrite H0|reflexivity].
Qed.
Definition off_diagonal (ps : list (string * string)) (k : string) : bool := existsb (fun p => (negb (String.eqb (fst p) (snd p)) && String.eqb k (cov_key (fst p) (snd p)))%bool) ps.
Definition drop_step (t : columns) (p : string * string) : columns :=
  if String.eqb (fst p) (snd p) then t
  else let k := cov_key (fst p) (snd p) in match dict_get String.eqb t k with Some c => if null_column c then remove_column t k else t | None => t end.
Lemma drop_steps ps : forall t, NoDup (map fst t) -> let t' := fold_left drop_step ps t in NoDup (map fst t') /\
  forall k, dict_get String.eqb t' k = match dict_get String.eqb t k with Some c => if (off_diagonal ps k && null_column c)%bool then None else Some c | None => None end.
Proof.
  induction ps as [|[a b] ps IH]; intros t N; cbn [fold_left].
  - split; [exact N|]. intros k. destruct (dict_get String.eqb t k); reflexivity.
  - assert (N1 : NoDup (map fst (drop_step t (a, b)))). { unfold drop_step. cbn [fst snd]. destruct (String.eqb a b); [exact N|]. cbv zeta. destruct (dict_get String.eqb t (cov_key a b)) as [c|]; [|exact N]. destruct (null_column c); [|exact N]. now apply NoDup_filter_keys. }
    destruct (IH _ N1) as [N2 G]. split; [exact N2|]. intros k. rewrite G. unfold off_diagonal. cbn [existsb fst snd]. fold (off_diagonal ps k). unfold drop_step. cbn [fst snd].
    destruct (String.eqb_spec a b) as [->|Hab]; cbn [negb andb orb]; [reflexivity|]. cbv zeta. destruct (String.eqb_spec k (cov_key a b)) as [->|Hk]; cbn [orb].
    + destruct (dict_get String.eqb t (cov_key a b)) as [c|] eqn:Gc; [|now rewrite Gc]. destruct (null_column c) eqn:Nc.
      * rewrite remove_get, String.eqb_refl. reflexivity.
      * rewrite Gc, Nc. now rewrite !andb_false_r.
    + destruct (dict_get String.eqb t (cov_key a b)) as [c|] eqn:Gc; [|reflexivity]. destruct (null_column c); [|reflexivity]. rewrite remove_get. apply String.eqb_neq in Hk. now rewrite Hk.
Qed.
Lemma drop_null_eq fkeys t : drop_null fkeys t = fold_left drop_step (list_prod fkeys fkeys) t.
Proof. reflexivity. Qed.
Lemma off_diagonal_true l k : off_diagonal (list_prod l l) k = true <-> exists a b, In a l /\ In b l /\ a <> b /\ k = cov_key a b.
Proof.
  unfold off_diagonal. rewrite existsb_exists. split.
  - intros ([a b] & I & H). apply in_prod_iff in I as [I J]. apply andb_prop in H as [H1 H2]. apply negb_true_iff, String.eqb_neq in H1. apply String.eqb_eq in H2. exists a, b. auto.
  - intros (a & b & I & J & H & ->). exists (a, b). split; [now apply in_prod|]. cbn [fst snd]. apply String.eqb_neq in H. rewrite H, String.eqb_refl. reflexivity.
Qed.
Lemma cov_epsilon a b : (has_epsilon a = true \/ has_epsilon b = true) -> has_epsilon (cov_key a b) = true.
Proof.
  rewrite !has_epsilon_find. unfold cov_key. intros [H|H]; apply occurs_find in H as (x & y & ->); apply find_occurs_true.
  - exists ("COV." ++ x)%string, (y ++ "." ++ b)%string. cbn [append]. now rewrite !app_assoc_s.
  - exists ("COV." ++ a ++ "." ++ x)%string, y. cbn [append]. rewrite !app_assoc_s. cbn [append]. rewrite ?app_assoc_s. reflexivity.
Qed.
Lemma cov_not_offset a b : ~ offset_name (cov_key a b).
Proof. intros H. destruct (offset_split _ H) as (P & d & [->| ->] & _ & _ & E); discriminate. Qed.

(** ** variances and errors *)
Definition err_key (k : string) : string := ("ERR." ++ k)%string.
Lemma rename_fresh t a b : In a (map fst t) -> ~ In b (map fst t) -> exists t', rename_column t a b = Ok t' /\ map fst t' = map (fun k => if String.eqb k a then b else k) (map fst t) /\
  forall k, dict_get String.eqb t' k = if String.eqb k b then dict_get String.eqb t a else if String.eqb k a then None else dict_get String.eqb t k.
Proof.
  intros I J. unfold rename_column. rewrite (mem_true _ _ I), (mem_false _ _ J). cbn [negb andb]. eexists. split; [reflexivity|]. split; [rewrite !map_map; reflexivity|]. intros k. clear I.
  induction t as [|[k' c] t IH]; [cbn; destruct (String.eqb k b), (String.eqb k a); reflexivity|]. cbn [map fst snd dict_get]. cbn [map fst In] in J. assert (Hb : k' <> b) by tauto. rewrite IH by tauto. clear IH.
  destruct (String.eqb_spec k' a) as [->|Ha].
  - rewrite String.eqb_refl. destruct (String.eqb_spec k b) as [->|Hk]; [reflexivity|]. destruct (String.eqb_spec k a); reflexivity.
  - destruct (String.eqb_spec k k') as [->|Hk].
    + apply String.eqb_neq in Hb. apply String.eqb_neq in Ha. now rewrite Hb, Ha.
    + apply not_eq_sym, String.eqb_neq in Ha. now rewrite Ha.
Qed.
Lemma NoDup_rename a b l : NoDup l -> ~ In b l -> NoDup (map (fun k => if String.eqb k a then b else k) l).
Proof.
  induction l as [|k l IH]; [constructor|]. intros N J. apply NoDup_cons_iff in N as [N1 N2]. cbn [map]. constructor; [|apply IH; [exact N2|intros X; apply J; now right]].
  intros I. apply in_map_iff in I as (k' & E & I). destruct (String.eqb_spec k a) as [Ha|Ha]; destruct (String.eqb_spec k' a) as [Ha'|Ha'].
  - apply N1. congruence.
  - apply J. right. congruence.
  - apply J. left. congruence.
  - apply N1. congruence.
Qed.
Lemma get_dset {V} (d : dict string V) k v j : dict_get String.eqb (dset d k v) j = if String.eqb j k then Some v else dict_get String.eqb d j.
Proof.
  destruct (String.eqb_spec j k) as [->|H]; [apply lookup_get, lookup_same|]. destruct (dict_get String.eqb d j) as [c|] eqn:E; [apply lookup_get in E; apply lookup_get; now rewrite lookup_other|].
  destruct (dict_get String.eqb (dset d k v) j) as [c|] eqn:E2; [|reflexivity]. apply lookup_get in E2. rewrite lookup_other in E2 by exact H. apply lookup_get in E2. congruence.
Qed.
Lemma errors_spec l : forall t, NoDup (map fst t) -> distinct (map (fun k => cov_key k k) l) = true -> distinct (map err_key l) = true -> (forall k, In k l -> ~ In (err_key k) (map fst t)) ->
  exists t', variances_to_errors l t = Ok t' /\ NoDup (map fst t') /\
    (forall n, (forall k, In k l -> n <> cov_key k k /\ n <> err_key k) -> dict_get String.eqb t' n = dict_get String.eqb t n) /\
    (forall k, In k l -> dict_get String.eqb t' (err_key k) = option_map (map sqrt_cell) (dict_get String.eqb t (cov_key k k)) /\ dict_get String.eqb t' (cov_key k k) = None).
Proof.
  assert (CE : forall a b, cov_key a a <> err_key b) by (intros a b; discriminate).
  induction l as [|k l IH]; intros t N Dc De Hf.
  - exists t. split; [reflexivity|]. split; [exact N|]. split; [reflexivity|]. intros k [].
  - pose proof (distinct_NoDup _ Dc) as Nc. pose proof (distinct_NoDup _ De) as Ne. cbn [map distinct] in Dc, De. apply andb_prop in Dc as [_ Dc]. apply andb_prop in De as [_ De]. cbn [map] in Nc, Ne. apply NoDup_cons_iff in Nc as [Nc _]. apply NoDup_cons_iff in Ne as [Ne _].
    assert (Nc' : forall j, In j l -> cov_key k k <> cov_key j j) by (intros j J Q; apply Nc; rewrite Q; now apply (in_map (fun k => cov_key k k))).
    assert (Ne' : forall j, In j l -> err_key k <> err_key j) by (intros j J Q; apply Ne; rewrite Q; now apply in_map).
    cbn [variances_to_errors]. fold (err_key k). cbv zeta. destruct (in_dec String.string_dec (cov_key k k) (map fst t)) as [I|I].
    + rewrite (mem_true _ _ I). destruct (rename_fresh t (cov_key k k) (err_key k) I (Hf k (or_introl eq_refl))) as (t1 & E1 & K1 & G1). rewrite E1. cbn [rbind].
      apply keys_get in I as [c Gc]. assert (G2 : lookup t1 (err_key k) = Ok c) by (apply lookup_get; rewrite G1, String.eqb_refl; exact Gc). rewrite G2. cbn [rbind].
      set (t2 := dset t1 (err_key k) (map sqrt_cell c)).
      assert (K2 : map fst t2 = map fst t1) by (apply dset_present, lookup_keys; eauto).
      assert (G3 : forall n, dict_get String.eqb t2 n = if String.eqb n (err_key k) then Some (map sqrt_cell c) else if String.eqb n (cov_key k k) then None else dict_get String.eqb t n).
      { intros n. unfold t2. rewrite get_dset, G1. destruct (String.eqb n (err_key k)); reflexivity. }
      destruct (IH t2) as (t' & E & N' & O & P); [rewrite K2, K1; apply NoDup_rename; [exact N|apply Hf; now left]|exact Dc|exact De| |].
      { intros j J X. apply keys_get in X as [c' X]. rewrite G3 in X. destruct (String.eqb_spec (err_key j) (err_key k)) as [Q|_]; [exact (Ne' j J (eq_sym Q))|]. destruct (String.eqb_spec (err_key j) (cov_key k k)) as [Q|_]; [discriminate Q|]. apply (Hf j (or_intror J)). apply keys_get. eauto. }
      exists t'. split; [exact E|]. split; [exact N'|]. split.
      * intros n Hn. rewrite O by (intros j J; apply Hn; now right). rewrite G3. destruct (Hn k (or_introl eq_refl)) as [H1 H2]. apply String.eqb_neq in H1, H2. now rewrite H1, H2.
      * intros j [<-|J].
        -- rewrite !O; [|intros j J; split; [now apply Nc'|apply CE]|intros j J; split; [apply not_eq_sym, CE|now apply Ne']]. rewrite !G3, String.eqb_refl, Gc. split; [reflexivity|]. destruct (String.eqb_spec (cov_key k k) (err_key k)) as [Q|_]; [discriminate Q|]. now rewrite String.eqb_refl.
        -- destruct (P j J) as [P1 P2]. split; [|exact P2]. rewrite P1, G3. destruct (String.eqb_spec (cov_key j j) (err_key k)) as [Q|_]; [discriminate Q|]. destruct (String.eqb_spec (cov_key j j) (cov_key k k)) as [Q|_]; [exfalso; exact (Nc' j J (eq_sym Q))|reflexivity].
    + rewrite (mem_false _ _ I). destruct (IH t N Dc De) as (t' & E & N' & O & P); [intros j J; apply Hf; now right|]. exists t'. split; [exact E|]. split; [exact N'|]. split.
      * intros n Hn. apply O. intros j J. apply Hn. now right.
      * assert (Gn : forall n, ~ In n (map fst t) -> dict_get String.eqb t n = None) by (intros n X; destruct (dict_get String.eqb t n) as [c|] eqn:Q; [exfalso; apply X, keys_get; eauto|reflexivity]).
        intros j [<-|J]; [|now apply P]. rewrite !O; [|intros j J; split; [now apply Nc'|apply CE]|intros j J; split; [apply not_eq_sym, CE|now apply Ne']]. rewrite (Gn _ I). split; [|reflexivity]. cbn. apply Gn, Hf. now left.
Qed.
Lemma errors_app l m : forall t, variances_to_errors (l ++ m) t = rbind (variances_to_errors l t) (variances_to_errors m).
Proof.
  induction l as [|k l IH]; intros t; [reflexivity|]. cbn [app variances_to_errors]. cbv zeta. destruct (dict_mem String.eqb t (cov_key k k)); [|apply IH]. destruct (rename_column t (cov_key k k) ("ERR." ++ k)%string) as [t1|]; [|reflexivity]. cbn [rbind]. destruct (lookup t1 ("ERR." ++ k)%string); [apply IH|reflexivity].
Qed.
Lemma errors_skip m t : (forall k, In k m -> ~ In (cov_key k k) (map fst t)) -> variances_to_errors m t = Ok t.
Proof.
  induction m as [|k m IH]; [reflexivity|]. intros H. cbn [variances_to_errors]. cbv zeta. rewrite (mem_false _ _ (H k (or_introl eq_refl))). apply IH. intros j J. apply H. now right.
Qed.

(** ** one renaming pass *)
Definition safe (f : string -> string) (U : list string) : Prop := forall a b, In a U -> In b U -> a <> b -> f a <> b /\ f a <> f b.
Definition renamed (f : string -> string) (t : columns) : columns := map (fun kc => (f (fst kc), snd kc)) t.
Lemma renamed_keys f t : map fst (renamed f t) = map f (map fst t).
Proof. unfold renamed. rewrite !map_map. reflexivity. Qed.
Lemma rename_names_spec key suf (B : columns) : let f := ren1 key suf in forall A : columns, NoDup (map fst B) -> safe f (map fst B) ->
  (forall b, In b (map fst B) -> ~ In b (map fst A) /\ ~ In (f b) (map fst A)) -> rename_names key (key ++ suf)%string (map fst B) (A ++ B) = Ok (A ++ renamed f B).
Proof.
  intros f. induction B as [|[n c] B IH]; intros A N S H; [reflexivity|]. cbn [map fst] in *. apply NoDup_cons_iff in N as [N1 N2].
  assert (S' : safe f (map fst B)) by (intros a b Ia Ib; apply S; now right).
  assert (Sn : forall b, In b (map fst B) -> f n <> b /\ f n <> f b) by (intros b Ib; apply S; [now left|now right|intros ->; contradiction]).
  assert (Sb : forall b, In b (map fst B) -> f b <> n) by (intros b Ib; apply (S b n); [now right|now left|intros ->; contradiction]).
  assert (Step : rename_names key (key ++ suf)%string (map fst B) ((A ++ [(f n, c)]) ++ B) = Ok ((A ++ [(f n, c)]) ++ renamed f B)).
  { apply IH; [exact N2|exact S'|]. intros b Ib. destruct (H b (or_intror Ib)) as [H1 H2]. destruct (Sn b Ib) as [H3 H4]. rewrite map_app. cbn [map fst]. split; intros X; apply in_app_or in X as [X|[X|[]]]; congruence || contradiction. }
  rewrite <- !app_assoc in Step. cbn [app] in Step. cbn [rename_names]. unfold renamed. cbn [map fst snd]. fold (renamed f B).
  assert (C : (0 <=? Verif.Model.PyString.find key n)%Z = true \/ (0 <=? Verif.Model.PyString.find key n)%Z = false) by (destruct (0 <=? Verif.Model.PyString.find key n)%Z; auto).
  destruct C as [C|C]; rewrite C.
  - assert (Ef : replace key (key ++ suf) n = f n) by (unfold f, ren1; now rewrite C). rewrite Ef. unfold rename_column.
    rewrite mem_true by (rewrite map_app; apply in_or_app; right; now left). cbn [negb]. destruct (H n (or_introl eq_refl)) as [H1 H2].
    assert (Coll : (dict_mem String.eqb (A ++ (n, c) :: B) (f n) && negb (String.eqb n (f n)))%bool = false).
    { destruct (String.eqb_spec n (f n)) as [E|E]; [apply andb_false_r|]. rewrite mem_false; [reflexivity|]. rewrite map_app. cbn [map fst]. intros X. apply in_app_or in X as [X|[X|X]]; [contradiction|congruence|]. destruct (Sn _ X) as [X1 _]. now apply X1. }
    rewrite Coll. cbn [rbind].
    assert (Em : map (fun kc : string * list cell => (if String.eqb (fst kc) n then f n else fst kc, snd kc)) (A ++ (n, c) :: B) = A ++ (f n, c) :: B).
    { assert (Id : forall d : columns, ~ In n (map fst d) -> map (fun kc : string * list cell => (if String.eqb (fst kc) n then f n else fst kc, snd kc)) d = d).
      { induction d as [|[k' c'] d IHd]; [reflexivity|]. cbn [map fst snd]. intros X. destruct (String.eqb_spec k' n) as [->|]; [exfalso; apply X; now left|]. f_equal. apply IHd. intros Y. apply X. now right. }
      rewrite map_app. cbn [map fst snd]. rewrite String.eqb_refl, (Id A H1), (Id B N1). reflexivity. }
    rewrite Em. exact Step.
  - assert (Ef : f n = n) by (unfold f, ren1; now rewrite C). rewrite Ef in *. exact Step.
Qed.
Lemma safe_NoDup f U : NoDup U -> safe f U -> NoDup (map f U).
Proof.
  intros N S. induction U as [|a U IH]; [constructor|]. cbn [map]. apply NoDup_cons_iff in N as [N1 N2]. constructor; [|apply IH; [exact N2|intros x y X Y; apply S; now right]].
  intros I. apply in_map_iff in I as (b & E & I). destruct (S b a) as [_ H]; [now right|now left|intros ->; contradiction|]. now apply H.
Qed.
Lemma safe_sub f U V : (forall a, In a U -> In a V) -> safe f V -> safe f U.
Proof. intros H S a b Ia Ib. apply S; auto. Qed.
(** all passes, with the keys that have a suffix *)
Lemma add_suffixes_spec mode okeys : let suf := mode_suffix mode in let keys := map fst (filter snd okeys) in forall t : columns, NoDup (map fst t) ->
  (forall pre key post, keys = pre ++ key :: post -> safe (ren1 key suf) (map (rens suf pre) (map fst t))) -> add_suffixes mode okeys t = Ok (renamed (rens suf keys) t) /\ NoDup (map fst (renamed (rens suf keys) t)).
Proof.
  intros suf keys. unfold keys. clear keys. induction okeys as [|[key v] okeys IH]; intros t N S.
  - cbn [add_suffixes filter map]. assert (Id : renamed (rens suf []) t = t) by (unfold renamed, rens; cbn [fold_left]; rewrite <- (map_id t) at 2; apply map_ext; intros []; reflexivity). rewrite Id. auto.
  - cbn [add_suffixes]. destruct v; cbn [filter snd map fst] in *; [|now apply IH].
    assert (S0 : safe (ren1 key suf) (map fst t)). { specialize (S [] key (map fst (filter snd okeys)) eq_refl). cbn in S. rewrite map_id in S. exact S. }
    pose proof (rename_names_spec key suf t [] N S0) as E. cbn [app] in E. fold suf. rewrite E; [|intros b _; split; intros []]. cbn [rbind].
    assert (N1 : NoDup (map fst (renamed (ren1 key suf) t))) by (rewrite renamed_keys; now apply safe_NoDup).
    destruct (IH (renamed (ren1 key suf) t) N1) as [E2 N2].
    { intros pre k post Ek. rewrite renamed_keys, map_map. specialize (S (key :: pre) k post). rewrite Ek in S. exact (S eq_refl). }
    assert (Q : renamed (rens suf (map fst (filter snd okeys))) (renamed (ren1 key suf) t) = renamed (rens suf (key :: map fst (filter snd okeys))) t) by (unfold renamed; rewrite map_map; reflexivity).
    rewrite <- Q. auto.
Qed.

(** ** the passes on the names of the table *)
Definition diagonal (k : string) : bool := existsb (fun a => String.eqb k (cov_key a a)) all_keys.
Definition table_names : list string := filter (fun k => negb (diagonal k)) base_names ++ map err_key all_keys.
Definition suffix_keys : list string := map fst (filter snd output_keys0).
Fixpoint splits (pre l : list string) : list (list string * string) := match l with [] => [] | k :: r => (pre, k) :: splits (pre ++ [k]) r end.
Lemma splits_In l : forall pre0 pre key post, l = pre ++ key :: post -> In (pre0 ++ pre, key) (splits pre0 l).
Proof.
  induction l as [|k l IH]; intros pre0 [|p pre] key post E; try discriminate; cbn [app] in E; injection E as -> E; cbn [splits].
  - left. now rewrite app_nil_r.
  - right. specialize (IH (pre0 ++ [p]) pre key post E). rewrite <- app_assoc in IH. exact IH.
Qed.
Definition safe_bool (fc : list (string * string)) : bool := forallb (fun a => forallb (fun b => (String.eqb (fst a) (fst b) || (negb (String.eqb (snd a) (fst b)) && negb (String.eqb (snd a) (snd b))))%bool) fc) fc.
Definition pass_check (suf : string) (pk : list string * string) : bool :=
  let fc := map (fun n => let a := rens suf (fst pk) n in (a, ren1 (snd pk) suf a)) table_names in
  (forallb (fun ab => negb (has_epsilon (fst ab)) && negb (has_epsilon (snd ab))) fc && safe_bool fc)%bool.
Lemma names_facts suf : good_suffix suf -> forallb (pass_check suf) (splits [] suffix_keys) = true /\ forallb (fun k => negb (all_chars letter k)) suffix_keys = true /\
  distinct (map (rens suf suffix_keys) table_names) = true /\ forallb (fun n => negb (has_epsilon (rens suf suffix_keys n))) table_names = true.
Proof. intros [->| ->]; (split; [vm_compute; reflexivity|]); (split; [vm_compute; reflexivity|]); (split; vm_compute; reflexivity). Qed.
Lemma split_app {A} (l m : list A) : forall pre key post, l ++ m = pre ++ key :: post -> (exists post', l = pre ++ key :: post') \/ exists pre', pre = l ++ pre' /\ m = pre' ++ key :: post.
Proof.
  induction l as [|x l IH]; intros pre key post E; [right; exists pre; auto|]. destruct pre as [|p pre]; cbn [app] in E.
  - injection E as -> E. left. exists l. reflexivity.
  - injection E as -> E. destruct (IH pre key post E) as [[post' ->]|(pre' & -> & ->)]; [left; exists post'; reflexivity|right; exists pre'; auto].
Qed.
Lemma rens_app suf a b n : rens suf (a ++ b) n = rens suf b (rens suf a n).
Proof. unfold rens. apply fold_left_app. Qed.
Lemma rens_foreign_keys suf keys e : Forall (fun k => all_chars letter k = false) keys -> offset_name e -> rens suf keys e = e.
Proof. intros F H. induction keys as [|k keys IH]; [reflexivity|]. unfold rens. cbn [fold_left]. rewrite foreign_key by (exact (Forall_inv F) || exact H). apply IH. exact (Forall_inv_tail F). Qed.
Lemma rens_foreign_name suf keys n : Forall offset_name keys -> has_epsilon n = false -> rens suf keys n = n.
Proof. intros F H. rewrite has_epsilon_find in H. induction keys as [|k keys IH]; [reflexivity|]. unfold rens. cbn [fold_left]. rewrite foreign_name by (exact (Forall_inv F) || exact H). apply IH. exact (Forall_inv_tail F). Qed.
Lemma rens_tagged suf P d keys : good_suffix suf -> (P = "EPSILON_T_" \/ P = "EPSILON_P_") -> all_chars is_digit d = true -> Forall offset_name keys -> form suf P d (rens suf keys (P ++ d)%string) /\ tagged P d (rens suf keys (P ++ d)%string).
Proof.
  intros GS HP Hd F. assert (G : forall n, form suf P d n -> tagged P d n -> form suf P d (rens suf keys n) /\ tagged P d (rens suf keys n)).
  { induction keys as [|k keys IH]; intros n Hf Ht; [auto|]. unfold rens. cbn [fold_left]. destruct (pass_tagged suf P d n k GS HP Hd (Forall_inv F) Hf Ht) as [Hf' Ht']. exact (IH (Forall_inv_tail F) _ Hf' Ht'). }
  apply G; [now left|now apply tagged_self].
Qed.
Lemma tagged_epsilon P d n : (P = "EPSILON_T_" \/ P = "EPSILON_P_") -> tagged P d n -> has_epsilon n = true.
Proof. intros HP (w & -> & _). rewrite has_epsilon_find. apply find_occurs_true. destruct HP as [->| ->]; [exists "", ("_T_" ++ w)%string|exists "", ("_P_" ++ w)%string]; reflexivity. Qed.
(** the tag of an offset, and that all passes keep it *)
Lemma offset_tag suf keys e : good_suffix suf -> Forall offset_name keys -> offset_name e -> exists P d, (P = "EPSILON_T_" \/ P = "EPSILON_P_") /\ all_chars is_digit d = true /\ d <> "" /\ e = (P ++ d)%string /\ form suf P d (rens suf keys e) /\ tagged P d (rens suf keys e).
Proof. intros GS F H. destruct (offset_split e H) as (P & d & HP & Hd & Hn & ->). exists P, d. destruct (rens_tagged suf P d keys GS HP Hd F). auto 10. Qed.
Lemma passes_safe suf D E' : good_suffix suf -> Forall offset_name D -> Forall offset_name E' ->
  forall pre key post, suffix_keys ++ E' = pre ++ key :: post -> safe (ren1 key suf) (map (rens suf pre) (table_names ++ D)).
Proof.
  intros GS FD FE pre key post E. destruct (names_facts suf GS) as (C1 & C2 & C3 & C4).
  rewrite forallb_forall in C1, C2, C4. apply distinct_NoDup in C3. rewrite Forall_forall in FD.
  assert (FK : Forall (fun k => all_chars letter k = false) suffix_keys) by (apply Forall_forall; intros k I; apply negb_true_iff, C2, I).
  intros a b Ia Ib Hab. apply in_map_iff in Ia as (a0 & <- & Ia). apply in_map_iff in Ib as (b0 & <- & Ib). apply in_app_or in Ia, Ib.
  destruct (split_app _ _ _ _ _ E) as [[post' E1]|(pre' & -> & E1)].
  - pose proof (C1 _ (splits_In suffix_keys [] pre key post' E1)) as C. unfold pass_check in C. cbn [app fst snd] in C. apply andb_prop in C as [Ce Cs]. rewrite forallb_forall in Ce.
    assert (FP : Forall (fun k => all_chars letter k = false) pre) by (rewrite E1 in FK; apply Forall_app in FK as [FK _]; exact FK).
    assert (Fk : all_chars letter key = false) by (rewrite Forall_forall in FK; apply FK; rewrite E1; apply in_or_app; right; now left).
    assert (Bn : forall n, In n table_names -> has_epsilon (rens suf pre n) = false /\ has_epsilon (ren1 key suf (rens suf pre n)) = false).
    { intros n I. pose proof (Ce _ (in_map (fun n => (rens suf pre n, ren1 key suf (rens suf pre n))) _ _ I)) as X. cbn [fst snd] in X. apply andb_prop in X as [X Y]. split; now apply negb_true_iff. }
    destruct Ia as [Ia|Ia], Ib as [Ib|Ib].
    + unfold safe_bool in Cs. rewrite forallb_forall in Cs. pose proof (Cs _ (in_map (fun n => (rens suf pre n, ren1 key suf (rens suf pre n))) _ _ Ia)) as X. rewrite forallb_forall in X. pose proof (X _ (in_map (fun n => (rens suf pre n, ren1 key suf (rens suf pre n))) _ _ Ib)) as Y. cbn [fst snd] in Y.
      apply orb_prop in Y as [Y|Y]; [apply String.eqb_eq in Y; contradiction|]. apply andb_prop in Y as [Y1 Y2]. apply negb_true_iff in Y1, Y2. apply String.eqb_neq in Y1, Y2. auto.
    + rewrite (rens_foreign_keys suf pre b0 FP (FD _ Ib)) in *. rewrite (foreign_key key suf b0 Fk (FD _ Ib)). destruct (Bn _ Ia) as [_ X]. assert (Y := offset_has _ (FD _ Ib)). split; intros Q; rewrite Q in X; congruence.
    + rewrite (rens_foreign_keys suf pre a0 FP (FD _ Ia)) in *. rewrite (foreign_key key suf a0 Fk (FD _ Ia)). destruct (Bn _ Ib) as [X1 X2]. assert (Y := offset_has _ (FD _ Ia)). split; intros Q; rewrite Q in Y; congruence.
    + rewrite (rens_foreign_keys suf pre a0 FP (FD _ Ia)) in *. rewrite (rens_foreign_keys suf pre b0 FP (FD _ Ib)) in *. rewrite !(foreign_key key suf) by (exact Fk || now apply FD). auto.
  - assert (FP : Forall offset_name pre') by (rewrite E1 in FE; apply Forall_app in FE as [FE _]; exact FE).
    assert (Fk : offset_name key) by (rewrite Forall_forall in FE; apply FE; rewrite E1; apply in_or_app; right; now left).
    assert (Bn : forall n, In n table_names -> has_epsilon (rens suf suffix_keys n) = false) by (intros n I; apply negb_true_iff, C4, I).
    assert (Rb : forall n, In n table_names -> rens suf (suffix_keys ++ pre') n = rens suf suffix_keys n /\ ren1 key suf (rens suf (suffix_keys ++ pre') n) = rens suf suffix_keys n).
    { intros n I. rewrite rens_app, rens_foreign_name by (exact FP || now apply Bn). split; [reflexivity|]. apply foreign_name; [rewrite <- has_epsilon_find; now apply Bn|exact Fk]. }
    assert (Ro : forall e, In e D -> exists P d, (P = "EPSILON_T_" \/ P = "EPSILON_P_") /\ e = (P ++ d)%string /\ tagged P d (rens suf (suffix_keys ++ pre') e) /\ tagged P d (ren1 key suf (rens suf (suffix_keys ++ pre') e))).
    { intros e I. rewrite rens_app, (rens_foreign_keys suf suffix_keys e FK (FD _ I)). destruct (offset_tag suf pre' e GS FP (FD _ I)) as (P & d & HP & Hd & _ & -> & Hf & Ht). exists P, d. split; [exact HP|]. split; [reflexivity|]. split; [exact Ht|]. exact (proj2 (pass_tagged suf P d _ key GS HP Hd Fk Hf Ht)). }
    destruct Ia as [Ia|Ia], Ib as [Ib|Ib].
    + destruct (Rb _ Ia) as [Ra1 Ra2], (Rb _ Ib) as [Rb1 Rb2]. rewrite Ra2, Rb2, Rb1. rewrite Ra1, Rb1 in Hab. auto.
    + destruct (Rb _ Ia) as [Ra1 Ra2]. destruct (Ro _ Ib) as (P & d & HP & _ & T1 & T2). rewrite Ra2. apply tagged_epsilon in T1, T2; [|exact HP|exact HP]. specialize (Bn _ Ia). split; intros Q; rewrite Q in Bn; congruence.
    + destruct (Rb _ Ib) as [Ra1 Ra2]. destruct (Ro _ Ia) as (P & d & HP & _ & T1 & T2). rewrite Ra2, Ra1. apply tagged_epsilon in T2; [|exact HP]. specialize (Bn _ Ib). split; intros Q; rewrite Q in T2; congruence.
    + destruct (Ro _ Ia) as (P & d & HP & -> & T1 & T2), (Ro _ Ib) as (P' & d' & HP' & -> & T1' & T2'). assert (Hne : ~ (P = P' /\ d = d')) by (intros [-> ->]; now apply Hab).
      split; intros Q; apply Hne.
      * rewrite Q in T2. exact (tagged_unique P d P' d' _ HP HP' T2 T1').
      * rewrite Q in T2. exact (tagged_unique P d P' d' _ HP HP' T2 T2').
Qed.
Definition final_name (suf : string) (E' : list string) : string -> string := rens suf (suffix_keys ++ E').
Lemma final_base suf E' n : good_suffix suf -> Forall offset_name E' -> In n table_names -> final_name suf E' n = rens suf suffix_keys n.
Proof.
  intros GS FE I. destruct (names_facts suf GS) as (_ & _ & _ & C4). rewrite forallb_forall in C4. unfold final_name. rewrite rens_app. apply rens_foreign_name; [exact FE|]. apply negb_true_iff, C4, I.
Qed.
Lemma final_offset suf E' e : good_suffix suf -> offset_name e -> final_name suf E' e = rens suf E' e.
Proof.
  intros GS H. destruct (names_facts suf GS) as (C1 & C2 & C3 & C4). rewrite forallb_forall in C2.
  unfold final_name. rewrite rens_app. f_equal. apply rens_foreign_keys; [|exact H]. apply Forall_forall. intros k I. apply negb_true_iff, C2, I.
Qed.
Lemma final_inj suf D E' : good_suffix suf -> Forall offset_name D -> Forall offset_name E' -> forall a b, In a (table_names ++ D) -> In b (table_names ++ D) -> final_name suf E' a = final_name suf E' b -> a = b.
Proof.
  intros GS FD FE a b Ia Ib Q. destruct (names_facts suf GS) as (_ & _ & C3 & C4). rewrite forallb_forall in C4. apply distinct_NoDup in C3. rewrite Forall_forall in FD.
  apply in_app_or in Ia, Ib. destruct Ia as [Ia|Ia], Ib as [Ib|Ib].
  - rewrite !final_base in Q by assumption. revert Ia Ib Q. revert C3. generalize table_names. intros l N. induction l as [|x l IH]; [intros []|]. cbn [map] in N. apply NoDup_cons_iff in N as [N1 N2]. intros [->|Ia] [->|Ib] Q; auto; exfalso; apply N1; [rewrite Q|rewrite <- Q]; now apply in_map.
  - exfalso. rewrite final_base in Q by assumption. rewrite (final_offset suf E' b GS (FD _ Ib)) in Q. destruct (offset_tag suf E' b GS FE (FD _ Ib)) as (P & d & HP & _ & _ & _ & _ & T). apply tagged_epsilon in T; [|exact HP]. rewrite <- Q in T. specialize (C4 _ Ia). rewrite T in C4. discriminate.
  - exfalso. rewrite (final_base suf E' b) in Q by assumption. rewrite (final_offset suf E' a GS (FD _ Ia)) in Q. destruct (offset_tag suf E' a GS FE (FD _ Ia)) as (P & d & HP & _ & _ & _ & _ & T). apply tagged_epsilon in T; [|exact HP]. rewrite Q in T. specialize (C4 _ Ib). rewrite T in C4. discriminate.
  - rewrite !final_offset in Q by auto. destruct (offset_tag suf E' a GS FE (FD _ Ia)) as (P & d & HP & _ & _ & -> & _ & T). destruct (offset_tag suf E' b GS FE (FD _ Ib)) as (P' & d' & HP' & _ & _ & -> & _ & T'). rewrite Q in T. destruct (tagged_unique P d P' d' _ HP HP' T T') as [-> ->]. reflexivity.
Qed.

(** ** the whole *)
Lemma table_names_In n : In n table_names <-> (In n base_names /\ diagonal n = false) \/ exists k, In k all_keys /\ n = err_key k.
Proof.
  unfold table_names. rewrite in_app_iff, filter_In, in_map_iff. split; intros [H|H].
  - left. destruct H as [H1 H2]. apply negb_true_iff in H2. auto.
  - right. destruct H as (k & <- & H). eauto.
  - left. destruct H as [H1 H2]. rewrite H2. auto.
  - right. destruct H as (k & H & ->). eauto.
Qed.
Lemma err_not_base k : In k all_keys -> ~ In (err_key k) base_names.
Proof. intros I J. assert (F : forallb (fun k => negb (mem_str (err_key k) base_names)) all_keys = true) by (vm_compute; reflexivity). rewrite forallb_forall in F. specialize (F k I). apply negb_true_iff, mem_str_false in F. contradiction. Qed.
Lemma err_not_offset k : ~ offset_name (err_key k).
Proof. intros H. destruct (offset_split _ H) as (P & d & [->| ->] & _ & _ & E); discriminate. Qed.
Lemma diagonal_base k : In k all_keys -> In (cov_key k k) base_names /\ off_diagonal (list_prod all_keys all_keys) (cov_key k k) = false.
Proof.
  intros I. assert (F : forallb (fun k => (mem_str (cov_key k k) base_names && negb (off_diagonal (list_prod all_keys all_keys) (cov_key k k)))%bool) all_keys = true) by (vm_compute; reflexivity). rewrite forallb_forall in F. specialize (F k I). apply andb_prop in F as [F1 F2]. apply mem_str_In in F1. apply negb_true_iff in F2. auto.
Qed.
Lemma off_diagonal_keys D k : Forall offset_name D -> In k base_names -> off_diagonal (list_prod (all_keys ++ D) (all_keys ++ D)) k = off_diagonal (list_prod all_keys all_keys) k.
Proof.
  intros F I. destruct (off_diagonal (list_prod (all_keys ++ D) (all_keys ++ D)) k) eqn:E1, (off_diagonal (list_prod all_keys all_keys) k) eqn:E2; try reflexivity; exfalso.
  - apply off_diagonal_true in E1 as (a & b & Ia & Ib & Hab & ->). rewrite Forall_forall in F. apply base_plain in I. apply in_app_or in Ia, Ib.
    destruct Ia as [Ia|Ia]; [|rewrite cov_epsilon in I; [discriminate|left; now apply offset_has, F]]. destruct Ib as [Ib|Ib]; [|rewrite cov_epsilon in I; [discriminate|right; now apply offset_has, F]].
    enough (X : off_diagonal (list_prod all_keys all_keys) (cov_key a b) = true) by congruence. apply off_diagonal_true. eauto 6.
  - enough (X : off_diagonal (list_prod (all_keys ++ D) (all_keys ++ D)) k = true) by congruence. apply off_diagonal_true in E2 as (a & b & Ia & Ib & Hab & ->). apply off_diagonal_true. exists a, b. rewrite !in_app_iff. auto.
Qed.

Definition base_column clock posid rows mode (l : list item) (n : string) : list cell := map (base_cell clock posid rows mode n) l.
Definition before_suffix clock posid rows mode (l : list item) (n : string) : option (list cell) :=
  if (off_diagonal (list_prod all_keys all_keys) n && null_column (base_column clock posid rows mode l n))%bool then None else Some (base_column clock posid rows mode l n).
Lemma table_spec clock posid rows mode E x l s : inv clock posid rows mode E (x :: l) s -> (forall k y, In y l -> In k (offsets (snd y)) -> In k (offsets (snd x))) -> Forall offset_name (offsets (snd x)) ->
  let suf := mode_suffix mode in
  exists t E', rbind (make_table (l_out s)) (fun t => rbind (variances_to_errors (l_fitted s) (drop_null (l_fitted s) t)) (add_suffixes mode (l_okeys s))) = Ok t /\
    l_okeys s = output_keys0 ++ map (fun k => (k, true)) E' /\ NoDup E' /\ Forall offset_name E' /\ (exists N, E' = E ++ N) /\ (forall e, In e E' <-> In e E \/ In e (offsets (snd x))) /\ NoDup (map fst t) /\
    (forall m, In m (map fst t) -> exists n, In n (table_names ++ offsets (snd x)) /\ m = final_name suf E' n) /\
    (forall n, In n base_names -> diagonal n = false -> dict_get String.eqb t (rens suf suffix_keys n) = before_suffix clock posid rows mode (x :: l) n) /\
    (forall k, In k all_keys -> dict_get String.eqb t (rens suf suffix_keys (err_key k)) = Some (map sqrt_cell (base_column clock posid rows mode (x :: l) (cov_key k k)))) /\
    (forall e, In e (offsets (snd x)) -> dict_get String.eqb t (rens suf E' e) = Some (map (offset_cell e) (x :: l))).
Proof.
  intros I Hall Fx suf. destruct (make_table_Ok clock posid rows mode E x l s I Hall) as (t0 & E0 & N0 & K0 & B0 & O0).
  destruct I as [(D & N & Ef & Ek & Eo & ND & NEN & FEN & HD & HDEN & HND & Lo) Lb].
  assert (HD' : forall k, In k D <-> In k (offsets (snd x))). { intros k. rewrite HD. split; [intros (y & [<-|Y] & Y2); [exact Y2|now apply (Hall k y)]|]. intros H. exists x. split; [now left|exact H]. }
  assert (FD : Forall offset_name D) by (apply Forall_forall; intros k I; rewrite Forall_forall in Fx; apply Fx, HD', I).
  pose proof (suffix_good mode : good_suffix suf) as GS. set (E' := E ++ N) in *.
  rewrite E0. cbn [rbind]. rewrite Ef, Ek, drop_null_eq. destruct (drop_steps (list_prod (all_keys ++ D) (all_keys ++ D)) t0 N0) as [N1 G1]. set (t1 := fold_left drop_step (list_prod (all_keys ++ D) (all_keys ++ D)) t0) in *.
  assert (B1 : forall n, In n base_names -> dict_get String.eqb t1 n = before_suffix clock posid rows mode (x :: l) n).
  { intros n I. rewrite G1, (B0 n I), (off_diagonal_keys D n FD I). reflexivity. }
  assert (O1 : forall e, In e (offsets (snd x)) -> dict_get String.eqb t1 e = Some (map (offset_cell e) (x :: l))).
  { intros e I. rewrite G1, (O0 e I). destruct (off_diagonal (list_prod (all_keys ++ D) (all_keys ++ D)) e) eqn:Q; [|reflexivity]. exfalso. apply off_diagonal_true in Q as (a & b & _ & _ & _ & ->). rewrite Forall_forall in Fx. exact (cov_not_offset a b (Fx _ I)). }
  assert (K1 : forall n, In n (map fst t1) -> In n base_names \/ In n (offsets (snd x))).
  { intros n I. apply keys_get in I as [c Q]. rewrite G1 in Q. destruct (dict_get String.eqb t0 n) as [c0|] eqn:Q0; [|discriminate]. apply K0, keys_get. eauto. }
  destruct (errors_spec all_keys t1 N1) as (t2 & E2 & N2 & Ot & Pt); [vm_compute; reflexivity|vm_compute; reflexivity| |].
  { intros k I J. apply K1 in J as [J|J]; [exact (err_not_base k I J)|]. rewrite Forall_forall in Fx. exact (err_not_offset k (Fx _ J)). }
  assert (B2 : forall n, In n base_names -> diagonal n = false -> dict_get String.eqb t2 n = before_suffix clock posid rows mode (x :: l) n).
  { intros n I Hd. rewrite Ot; [now apply B1|]. intros k J. split; intros Q.
    - assert (T : diagonal n = true); [|congruence]. unfold diagonal. apply existsb_exists. exists k. split; [exact J|]. now apply String.eqb_eq.
    - rewrite Q in I. exact (err_not_base k J I). }
  assert (O2 : forall e, In e (offsets (snd x)) -> dict_get String.eqb t2 e = Some (map (offset_cell e) (x :: l))).
  { intros e I. rewrite Ot; [now apply O1|]. rewrite Forall_forall in Fx. pose proof (Fx _ I) as X. intros k J. split; intros Q; rewrite Q in X; [exact (cov_not_offset _ _ X)|exact (err_not_offset _ X)]. }
  assert (R2 : forall k, In k all_keys -> dict_get String.eqb t2 (err_key k) = Some (map sqrt_cell (base_column clock posid rows mode (x :: l) (cov_key k k)))).
  { intros k I. destruct (Pt k I) as [Q _]. rewrite Q. destruct (diagonal_base k I) as [J1 J2]. rewrite (B1 _ J1). unfold before_suffix. rewrite J2. reflexivity. }
  assert (K2 : forall n, In n (map fst t2) -> In n (table_names ++ offsets (snd x))).
  { intros n I. apply in_or_app. rewrite table_names_In.
    destruct (existsb (fun k => String.eqb n (err_key k)) all_keys) eqn:X1. { apply existsb_exists in X1 as (k & J & Q). apply String.eqb_eq in Q. left. right. eauto. }
    destruct (diagonal n) eqn:X2. { exfalso. unfold diagonal in X2. apply existsb_exists in X2 as (k & J & Q). apply String.eqb_eq in Q. subst n. apply keys_get in I as [c I]. destruct (Pt k J) as [_ Q]. congruence. }
    assert (J : In n (map fst t1)).
    { apply keys_get in I as [c I]. rewrite Ot in I; [apply keys_get; eauto|]. intros k J. split; intros ->.
      - assert (T : diagonal (cov_key k k) = true); [|congruence]. unfold diagonal. apply existsb_exists. exists k. split; [exact J|apply String.eqb_refl].
      - assert (T : existsb (fun k0 => String.eqb (err_key k) (err_key k0)) all_keys = true); [|congruence]. apply existsb_exists. exists k. split; [exact J|apply String.eqb_refl]. }
    apply K1 in J as [J|J]; [left; left; auto|now right]. }
  rewrite errors_app, E2. cbn [rbind]. rewrite errors_skip.
  2:{ intros e I J. apply K2, in_app_or in J as [J|J].
      - assert (P : has_epsilon (cov_key e e) = true) by (apply cov_epsilon; left; rewrite Forall_forall in FD; now apply offset_has, FD).
        assert (F : forallb (fun n => negb (has_epsilon n)) table_names = true) by (vm_compute; reflexivity). rewrite forallb_forall in F. specialize (F _ J). rewrite P in F. discriminate.
      - rewrite Forall_forall in Fx. exact (cov_not_offset _ _ (Fx _ J)). }
  cbn [rbind].
  assert (Keys : map fst (filter snd (output_keys0 ++ map (fun k => (k, true)) E')) = suffix_keys ++ E').
  { rewrite filter_app, map_app. f_equal. clear. induction E' as [|e E' IH]; [reflexivity|]. cbn [map filter snd fst]. now f_equal. }
  destruct (add_suffixes_spec mode (output_keys0 ++ map (fun k => (k, true)) E') t2 N2) as [E3 N3].
  { intros pre key post Q. rewrite Keys in Q. apply (safe_sub _ _ (map (rens suf pre) (table_names ++ offsets (snd x)))); [|exact (passes_safe suf (offsets (snd x)) E' GS Fx FEN pre key post Q)].
    intros a Ia. apply in_map_iff in Ia as (n & <- & Ia). apply in_map. now apply K2. }
  fold suf in E3, N3. rewrite Keys in E3, N3. fold (final_name suf E') in E3, N3.
  assert (Get : forall n, In n (table_names ++ offsets (snd x)) -> dict_get String.eqb (renamed (final_name suf E') t2) (final_name suf E' n) = dict_get String.eqb t2 n).
  { intros n I. destruct (in_dec String.string_dec n (map fst t2)) as [J|J].
    - apply get_map; [rewrite <- renamed_keys; exact N3|exact J].
    - transitivity (@None (list cell)).
      + destruct (dict_get String.eqb (renamed (final_name suf E') t2) (final_name suf E' n)) as [c|] eqn:Q; [|reflexivity]. exfalso. assert (X : In (final_name suf E' n) (map fst (renamed (final_name suf E') t2))) by (apply keys_get; eauto).
        rewrite renamed_keys in X. apply in_map_iff in X as (n' & Q' & X). apply J. rewrite <- (final_inj suf (offsets (snd x)) E' GS Fx FEN n' n (K2 _ X) I Q'). exact X.
      + destruct (dict_get String.eqb t2 n) as [c|] eqn:Q; [|reflexivity]. exfalso. apply J, keys_get. eauto. }
  exists (renamed (final_name suf E') t2), E'. split; [exact E3|]. split; [reflexivity|]. split; [exact NEN|]. split; [exact FEN|]. split; [exists N; reflexivity|]. split.
  { intros e. unfold E'. rewrite in_app_iff. split; [intros [H|H]; [now left|right; now apply HD', HND]|]. intros [H|H]; [now left|]. apply in_app_or. now apply HDEN, HD'. }
  split; [exact N3|]. split. { intros m I. rewrite renamed_keys in I. apply in_map_iff in I as (n & <- & I). exists n. auto. }
  split. { intros n I Hd. assert (T : In n table_names) by (apply table_names_In; auto). rewrite <- (final_base suf E' n GS FEN T), Get by (apply in_or_app; now left). now apply B2. }
  split. { intros k I. assert (T : In (err_key k) table_names) by (apply table_names_In; eauto). rewrite <- (final_base suf E' _ GS FEN T), Get by (apply in_or_app; now left). now apply R2. }
  intros e I. rewrite Forall_forall in Fx. rewrite <- (final_offset suf E' e GS (Fx _ I)), Get by (apply in_or_app; now right). now apply O2.
Qed.

(** ** what the columns hold *)
Lemma items_index {B} (f : nat -> B) cs : forall i os, List.length os = List.length cs -> map (fun x : item => f (fst (fst x))) (items i cs os) = map f (seq i (List.length cs)).
Proof. induction cs as [|c cs IH]; intros i [|o os] L; try discriminate; [reflexivity|]. unfold items. cbn [List.length seq combine map fst snd]. f_equal. apply IH. now injection L. Qed.
Lemma items_window {B} (f : nat * nat -> B) cs : forall i os, List.length os = List.length cs -> map (fun x : item => f (snd (fst x))) (items i cs os) = map f cs.
Proof. induction cs as [|c cs IH]; intros i [|o os] L; try discriminate; [reflexivity|]. unfold items. cbn [List.length seq combine map fst snd]. f_equal. apply IH. now injection L. Qed.
Lemma items_fit {B} (f : fit_out -> B) cs : forall i os, List.length os = List.length cs -> map (fun x : item => f (snd x)) (items i cs os) = map f os.
Proof. induction cs as [|c cs IH]; intros i [|o os] L; try discriminate; [reflexivity|]. unfold items. cbn [List.length seq combine map fst snd]. f_equal. apply IH. now injection L. Qed.
Lemma value_cell clock posid rows mode k : In k all_keys -> forall x, base_cell clock posid rows mode k x = CNum (value_of k (snd x)).
Proof. intros I [[i c] o]. cbn [all_keys static_keys dynamic_keys app In] in I. repeat (destruct I as [<-|I]; [reflexivity|]). destruct I. Qed.
Lemma cov_cell clock posid rows mode a b : In (a, b) (upper_pairs all_keys) -> forall x, base_cell clock posid rows mode (cov_key a b) x = CNum (covariance_of a b (snd x)).
Proof. intros I [[i c] o]. cbn in I. repeat (destruct I as [I|I]; [injection I as <- <-; reflexivity|]). destruct I. Qed.
Lemma upper_pairs_In l a b : In (a, b) (upper_pairs l) <-> (a = b /\ In a l) \/ in_order a b l.
Proof.
  induction l as [|k l IH]; cbn [upper_pairs].
  - split; [intros []|]. intros [[_ []]|(x & y & z & E)]. destruct x; discriminate.
  - cbn [map app In]. rewrite in_app_iff, IH, in_map_iff. split.
    + intros [E|[(b' & E & I)|[[-> I]|(x & y & z & ->)]]].
      * injection E as <- <-. left. auto.
      * injection E as <- <-. right. apply in_split in I as (y & z & ->). exists [], y, z. reflexivity.
      * left. auto.
      * right. exists (k :: x), y, z. reflexivity.
    + intros [[-> [->|I]]|(x & y & z & E)]; [now left|right; right; left; auto|]. destruct x as [|k' x]; cbn [app] in E; injection E as -> ->.
      * right. left. exists b. split; [reflexivity|]. apply in_or_app. right. now left.
      * right. right. right. exists x, y, z. reflexivity.
Qed.
Lemma order_facts a b : in_order a b all_keys -> In (a, b) (upper_pairs all_keys) /\ In (cov_key a b) base_names /\ diagonal (cov_key a b) = false /\ off_diagonal (list_prod all_keys all_keys) (cov_key a b) = true /\
  forall suf, good_suffix suf -> rens suf suffix_keys (cov_key a b) = ("COV." ++ a ++ suf ++ "." ++ b ++ suf)%string.
Proof.
  intros H. assert (I : In (a, b) (upper_pairs all_keys)) by (apply upper_pairs_In; now right). split; [exact I|]. split; [apply in_or_app; right; exact (in_map (fun p => cov_key (fst p) (snd p)) _ _ I)|].
  assert (N : a <> b). { destruct H as (x & y & z & E). intros ->. assert (Nd : NoDup all_keys) by (apply distinct_NoDup; reflexivity). rewrite E in Nd. apply NoDup_remove_2 in Nd. apply Nd. rewrite !in_app_iff. right. right. now left. }
  assert (F : forallb (fun p => (String.eqb (fst p) (snd p) || (negb (diagonal (cov_key (fst p) (snd p))) && off_diagonal (list_prod all_keys all_keys) (cov_key (fst p) (snd p)) &&
     forallb (fun suf => String.eqb (rens suf suffix_keys (cov_key (fst p) (snd p))) ("COV." ++ fst p ++ suf ++ "." ++ snd p ++ suf)) ["_STATIC"; "_DYNAMIC"]))%bool) (upper_pairs all_keys) = true) by (vm_compute; reflexivity).
  rewrite forallb_forall in F. specialize (F _ I). cbn [fst snd] in F. apply orb_prop in F as [F|F]; [apply String.eqb_eq in F; contradiction|]. apply andb_prop in F as [F F3]. apply andb_prop in F as [F1 F2]. apply negb_true_iff in F1. split; [exact F1|]. split; [exact F2|].
  rewrite forallb_forall in F3. intros suf GS. apply String.eqb_eq, F3. destruct GS as [->| ->]; [now left|right; now left].
Qed.
Lemma key_names suf k : good_suffix suf -> In k all_keys -> rens suf suffix_keys k = (k ++ suf)%string /\ rens suf suffix_keys (err_key k) = ("ERR." ++ k ++ suf)%string.
Proof.
  intros GS I. assert (F : forallb (fun suf => forallb (fun k => (String.eqb (rens suf suffix_keys k) (k ++ suf) && String.eqb (rens suf suffix_keys (err_key k)) ("ERR." ++ k ++ suf))%bool) all_keys) ["_STATIC"; "_DYNAMIC"] = true) by (vm_compute; reflexivity).
  rewrite forallb_forall in F. assert (J : In suf ["_STATIC"; "_DYNAMIC"]) by (destruct GS as [->| ->]; [now left|right; now left]). specialize (F _ J). rewrite forallb_forall in F. specialize (F _ I). apply andb_prop in F as [F1 F2]. apply String.eqb_eq in F1, F2. auto.
Qed.
Lemma plain_names suf k : good_suffix suf -> In k ["POS_ID"; "NUM_POINTS"; "DATA_START_DATE"; "DATA_END_DATE"; "DATA_START_DATE_SEC"; "DATA_END_DATE_SEC"; "FLAGS"] -> rens suf suffix_keys k = k.
Proof. intros [->| ->] I; repeat (destruct I as [<-|I]; [vm_compute; reflexivity|]); destruct I. Qed.
Lemma dated_names suf k : good_suffix suf -> In k ["ANALYSIS_DATE"; "FIT_ERROR"; "NUM_POINTS_IN_FIT"] -> rens suf suffix_keys k = (k ++ suf)%string.
Proof. intros [->| ->] I; repeat (destruct I as [<-|I]; [vm_compute; reflexivity|]); destruct I. Qed.
Lemma table_names_cases n : In n table_names -> In n ["POS_ID"; "NUM_POINTS"; "DATA_START_DATE"; "DATA_END_DATE"; "DATA_START_DATE_SEC"; "DATA_END_DATE_SEC"; "FLAGS"] \/ In n ["ANALYSIS_DATE"; "FIT_ERROR"; "NUM_POINTS_IN_FIT"] \/ In n all_keys \/
  (exists k, In k all_keys /\ n = err_key k) \/ exists a b, in_order a b all_keys /\ n = cov_key a b.
Proof.
  intros I. apply table_names_In in I as [[I D]|I]; [|tauto]. apply in_app_or in I as [I|I].
  - assert (J : In n (["POS_ID"; "NUM_POINTS"; "DATA_START_DATE"; "DATA_END_DATE"; "DATA_START_DATE_SEC"; "DATA_END_DATE_SEC"; "FLAGS"] ++ ["ANALYSIS_DATE"; "FIT_ERROR"; "NUM_POINTS_IN_FIT"] ++ all_keys)) by (revert I; apply included_In; vm_compute; reflexivity). rewrite !in_app_iff in J. tauto.
  - apply in_map_iff in I as ([a b] & <- & I). cbn [fst snd] in *. apply upper_pairs_In in I as [[-> I]|I]; [|right; right; right; right; eauto]. exfalso. assert (T : diagonal (cov_key b b) = true); [|congruence]. unfold diagonal. apply existsb_exists. exists b. split; [exact I|apply String.eqb_refl].
Qed.
Lemma stretch_length rows c : inside rows c -> Z.of_nat (List.length (stretch rows c)) = (Z.of_nat (snd c) - Z.of_nat (fst c) + 1)%Z.
Proof. intros [H1 H2]. unfold stretch. rewrite firstn_length, skipn_length. lia. Qed.
Lemma null_column_true (f : fit_out -> R) os : null_column (map (fun o => CNum (f o)) os) = true <-> forall o, In o os -> f o = 0%R.
Proof.
  unfold null_column. rewrite forallb_forall. split.
  - intros H o I. specialize (H _ (in_map (fun o => CNum (f o)) _ _ I)). cbn in H. now apply Reqb_true.
  - intros H v I. apply in_map_iff in I as (o & <- & I). apply Reqb_true. now apply H.
Qed.
Lemma fit_table_spec clock posid rows mode E c cs o os s : inv clock posid rows mode E (items 0 (c :: cs) (o :: os)) s -> List.length os = List.length cs -> Forall (inside rows) (c :: cs) -> (forall k y, In y os -> In k (offsets y) -> In k (offsets o)) -> Forall offset_name (offsets o) ->
  exists t E', rbind (make_table (l_out s)) (fun t => rbind (variances_to_errors (l_fitted s) (drop_null (l_fitted s) t)) (add_suffixes mode (l_okeys s))) = Ok t /\
    l_okeys s = output_keys0 ++ map (fun k => (k, true)) E' /\ NoDup E' /\ Forall offset_name E' /\ (exists N, E' = E ++ N) /\ (forall e, In e E' <-> In e E \/ In e (offsets o)) /\ fit_table clock posid rows mode (c :: cs) (o :: os) E' t.
Proof.
  intros I L FI Hall Fo. set (l := items 0 (c :: cs) (o :: os)) in *.
  assert (L' : List.length (o :: os) = List.length (c :: cs)) by (cbn; now rewrite L).
  change l with ((0%nat, c, o) :: items 1 cs os) in I.
  destruct (table_spec clock posid rows mode E (0%nat, c, o) (items 1 cs os) s I) as (t & E' & Et & Ek & NE & FE & SE & HE & Nt & Names & Base & Errs & Offs).
  { intros k y Y Y2. cbn [snd]. apply (Hall k (snd y)); [|exact Y2]. rewrite <- (items_os 1 cs os L). now apply in_map. }
  { exact Fo. }
  cbn [snd] in *. change ((0%nat, c, o) :: items 1 cs os) with l in *. pose proof (suffix_good mode) as GS. set (suf := mode_suffix mode) in *.
  exists t, E'. split; [exact Et|]. split; [exact Ek|]. split; [exact NE|]. split; [exact FE|]. split; [exact SE|]. split; [exact HE|].
  assert (Plain : forall k f, In k (["POS_ID"; "NUM_POINTS"; "DATA_START_DATE"; "DATA_END_DATE"; "DATA_START_DATE_SEC"; "DATA_END_DATE_SEC"; "FLAGS"] ++ ["ANALYSIS_DATE"; "FIT_ERROR"; "NUM_POINTS_IN_FIT"] ++ all_keys) ->
    (forall x, base_cell clock posid rows mode k x = f x) -> dict_get String.eqb t (rens suf suffix_keys k) = Some (map f l)).
  { intros k f Ik Hf. assert (Fk : forallb (fun k => (mem_str k base_names && negb (diagonal k) && negb (off_diagonal (list_prod all_keys all_keys) k))%bool) (["POS_ID"; "NUM_POINTS"; "DATA_START_DATE"; "DATA_END_DATE"; "DATA_START_DATE_SEC"; "DATA_END_DATE_SEC"; "FLAGS"] ++ ["ANALYSIS_DATE"; "FIT_ERROR"; "NUM_POINTS_IN_FIT"] ++ all_keys) = true) by (vm_compute; reflexivity).
    rewrite forallb_forall in Fk. specialize (Fk _ Ik). apply andb_prop in Fk as [Fk F3]. apply andb_prop in Fk as [F1 F2]. apply mem_str_In in F1. apply negb_true_iff in F2, F3. rewrite (Base k F1 F2). unfold before_suffix. rewrite F3. cbn [andb]. unfold base_column. f_equal. apply map_ext. exact Hf. }
  assert (In7 : forall k, In k ["POS_ID"; "NUM_POINTS"; "DATA_START_DATE"; "DATA_END_DATE"; "DATA_START_DATE_SEC"; "DATA_END_DATE_SEC"; "FLAGS"] -> forall f, (forall x, base_cell clock posid rows mode k x = f x) -> dict_get String.eqb t k = Some (map f l)).
  { intros k Ik f Hf. rewrite <- (plain_names suf k GS Ik) at 1. apply Plain; [apply in_or_app; now left|exact Hf]. }
  assert (In3 : forall k, In k ["ANALYSIS_DATE"; "FIT_ERROR"; "NUM_POINTS_IN_FIT"] -> forall f, (forall x, base_cell clock posid rows mode k x = f x) -> dict_get String.eqb t (k ++ suf)%string = Some (map f l)).
  { intros k Ik f Hf. rewrite <- (dated_names suf k GS Ik). apply Plain; [apply in_or_app; right; apply in_or_app; now left|exact Hf]. }
  assert (Cov : forall a b, in_order a b all_keys -> dict_get String.eqb t ("COV." ++ a ++ suf ++ "." ++ b ++ suf)%string = if null_column (map (fun o => CNum (covariance_of a b o)) (o :: os)) then None else Some (map (fun o => CNum (covariance_of a b o)) (o :: os))).
  { intros a b H. destruct (order_facts a b H) as (P1 & P2 & P3 & P4 & P5). rewrite <- (P5 suf GS), (Base _ P2 P3). unfold before_suffix. rewrite P4. cbn [andb]. assert (C : base_column clock posid rows mode l (cov_key a b) = map (fun o => CNum (covariance_of a b o)) (o :: os)); [|now rewrite C].
    unfold base_column. rewrite (map_ext _ _ (cov_cell clock posid rows mode a b P1)). exact (items_fit (fun o => CNum (covariance_of a b o)) (c :: cs) 0 (o :: os) L'). }
  assert (Foff : forall e, In e (offsets o) -> offset_name e) by (rewrite Forall_forall in Fo; exact Fo).
  constructor; fold suf; unfold column.
  - exact Nt.
  - rewrite (In7 "POS_ID" ltac:(cbn; tauto) (fun _ => CStr posid)) by (intros [[i c'] o']; reflexivity). f_equal. exact (items_window (fun _ => CStr posid) (c :: cs) 0 (o :: os) L').
  - rewrite (In7 "NUM_POINTS" ltac:(cbn; tauto) (fun x => CInt (Z.of_nat (snd (snd (fst x))) - Z.of_nat (fst (snd (fst x))) + 1))) by (intros [[i c'] o']; reflexivity). f_equal.
    etransitivity; [exact (items_window (fun c => CInt (Z.of_nat (snd c) - Z.of_nat (fst c) + 1)) (c :: cs) 0 (o :: os) L')|]. apply map_ext_in. intros c' Ic. rewrite Forall_forall in FI. now rewrite stretch_length by (now apply FI).
  - rewrite (In7 "DATA_START_DATE" ltac:(cbn; tauto) (fun x => CStr (w_date (nth (fst (snd (fst x))) rows no_row)))) by (intros [[i c'] o']; reflexivity). f_equal. exact (items_window (fun c => CStr (w_date (nth (fst c) rows no_row))) (c :: cs) 0 (o :: os) L').
  - rewrite (In7 "DATA_END_DATE" ltac:(cbn; tauto) (fun x => CStr (w_date (nth (snd (snd (fst x))) rows no_row)))) by (intros [[i c'] o']; reflexivity). f_equal. exact (items_window (fun c => CStr (w_date (nth (snd c) rows no_row))) (c :: cs) 0 (o :: os) L').
  - rewrite (In7 "DATA_START_DATE_SEC" ltac:(cbn; tauto) (fun x => CNum (w_sec (nth (fst (snd (fst x))) rows no_row)))) by (intros [[i c'] o']; reflexivity). f_equal. exact (items_window (fun c => CNum (w_sec (nth (fst c) rows no_row))) (c :: cs) 0 (o :: os) L').
  - rewrite (In7 "DATA_END_DATE_SEC" ltac:(cbn; tauto) (fun x => CNum (w_sec (nth (snd (snd (fst x))) rows no_row)))) by (intros [[i c'] o']; reflexivity). f_equal. exact (items_window (fun c => CNum (w_sec (nth (snd c) rows no_row))) (c :: cs) 0 (o :: os) L').
  - rewrite (In7 "FLAGS" ltac:(cbn; tauto) (fun x => CInt (o_flags (snd x)))) by (intros [[i c'] o']; reflexivity). f_equal. exact (items_fit (fun o => CInt (o_flags o)) (c :: cs) 0 (o :: os) L').
  - rewrite (In3 "ANALYSIS_DATE" ltac:(cbn; tauto) (fun x => CStr (clock mode (fst (fst x))))) by (intros [[i c'] o']; reflexivity). f_equal. exact (items_index (fun i => CStr (clock mode i)) (c :: cs) 0 (o :: os) L').
  - rewrite (In3 "FIT_ERROR" ltac:(cbn; tauto) (fun x => CNum (o_rms (snd x)))) by (intros [[i c'] o']; reflexivity). f_equal. exact (items_fit (fun o => CNum (o_rms o)) (c :: cs) 0 (o :: os) L').
  - rewrite (In3 "NUM_POINTS_IN_FIT" ltac:(cbn; tauto) (fun x => CInt (Z.of_nat (o_npts (snd x))))) by (intros [[i c'] o']; reflexivity). f_equal. exact (items_fit (fun o => CInt (Z.of_nat (o_npts o))) (c :: cs) 0 (o :: os) L').
  - intros k Ik. rewrite <- (proj1 (key_names suf k GS Ik)). rewrite (Plain k (fun x => CNum (value_of k (snd x)))); [|apply in_or_app; right; apply in_or_app; now right|now apply value_cell]. f_equal. exact (items_fit (fun o => CNum (value_of k o)) (c :: cs) 0 (o :: os) L').
  - intros k Ik. rewrite <- (proj2 (key_names suf k GS Ik)), (Errs k Ik). f_equal. unfold base_column. rewrite map_map. transitivity (map (fun x : item => error_of k (snd x)) l); [|exact (items_fit (error_of k) (c :: cs) 0 (o :: os) L')].
    apply map_ext. intros x. rewrite cov_cell by (apply upper_pairs_In; left; auto). reflexivity.
  - intros a b H (o' & Io & Hn). rewrite (Cov a b H). destruct (null_column (map (fun o => CNum (covariance_of a b o)) (o :: os))) eqn:Q; [|reflexivity]. exfalso. apply Hn. now apply (proj1 (null_column_true (covariance_of a b) (o :: os)) Q).
  - intros a b H Hz. rewrite (Cov a b H). rewrite (proj2 (null_column_true (covariance_of a b) (o :: os)) Hz). reflexivity.
  - intros o1 rest e Eo Ie Nc. injection Eo as <- <-. destruct (offset_split e (Foff e Ie)) as (P & d & HP & Hd & Hn & Ee). 
    assert (R : rens suf E' e = (e ++ suf)%string). { rewrite Ee. apply rens_clear; auto; [rewrite <- Ee; apply HE; now right|]. intros k r Ik Hk Q. apply Nc. exists k. rewrite <- Ee in Hk, Q. split; [exact Ik|]. split; [exact Hk|]. now exists r. }
    rewrite <- R, (Offs e Ie). f_equal. exact (items_fit (fun o => CNum (value_of e o)) (c :: cs) 0 (o :: os) L').
  - intros e He (k & Ik & Hk & r & Q). destruct (dict_get String.eqb t (e ++ suf)%string) as [col|] eqn:G; [|reflexivity]. exfalso. assert (J : In (e ++ suf)%string (map fst t)) by (apply keys_get; eauto).
    destruct (Names _ J) as (n & In_ & En). destruct (offset_split e He) as (P & d & HP & Hd & Hn & Ee). assert (T1 : tagged P d (e ++ suf)%string) by (rewrite Ee; apply tagged_suffix; [exact GS|now apply tagged_self]).
    apply in_app_or in In_ as [In_|In_].
    + rewrite (final_base suf E' n GS FE In_) in En. pose proof (tagged_epsilon P d _ HP T1) as X. rewrite En in X. destruct (names_facts suf GS) as (_ & _ & _ & C4). rewrite forallb_forall in C4. specialize (C4 _ In_). rewrite X in C4. discriminate.
    + rewrite (final_offset suf E' n GS (Foff n In_)) in En. destruct (offset_tag suf E' n GS FE (Foff n In_)) as (P' & d' & HP' & _ & _ & En' & _ & T2). rewrite En in T1. destruct (tagged_unique P d P' d' _ HP HP' T1 T2) as [<- <-]. rewrite <- Ee in En'. subst n.
      revert En. rewrite Ee. intros En. symmetry in En. revert En. apply rens_clash; auto. exists k, r. rewrite <- Ee. auto.
  - intros o1 rest e Eo Ie. injection Eo as <- <-. destruct (offset_tag suf E' e GS FE (Foff e Ie)) as (P' & d' & HP' & _ & _ & _ & _ & (w & Ew & _)).
    assert (H : exists r, rens suf E' e = ("EPSILON_" ++ r)%string) by (rewrite Ew; destruct HP' as [->| ->]; [exists ("T_" ++ w)%string|exists ("P_" ++ w)%string]; reflexivity). destruct H as (r & Er). exists r. rewrite <- Er. split; [now apply rens_stripped; auto|].
    rewrite (Offs e Ie). f_equal. exact (items_fit (fun o => CNum (value_of e o)) (c :: cs) 0 (o :: os) L').
  - intros m J. destruct (Names _ J) as (n & In_ & ->). apply in_app_or in In_ as [In_|In_].
    + rewrite (final_base suf E' n GS FE In_). apply table_names_cases in In_ as [K|[K|[K|[(k & K & ->)|(a & b & K & ->)]]]].
      * left. now rewrite (plain_names suf n GS K).
      * right. left. exists n. split; [apply in_or_app; now left|]. exact (dated_names suf n GS K).
      * right. left. exists n. split; [apply in_or_app; now right|]. exact (proj1 (key_names suf n GS K)).
      * right. right. left. exists k. split; [exact K|]. exact (proj2 (key_names suf k GS K)).
      * right. right. right. left. exists a, b. split; [exact K|]. destruct (order_facts a b K) as (_ & _ & _ & _ & P5). exact (P5 suf GS).
    + right. right. right. right. exists o, os, n. split; [reflexivity|]. split; [exact In_|]. rewrite (final_offset suf E' n GS (Foff n In_)).
      split; [now apply rens_stripped; auto|]. destruct (Classical_Prop.classic (clashes E' n)) as [C|C]; [now left|right].
      destruct (offset_split n (Foff n In_)) as (P & d & HP & Hd & Hn & Ee). rewrite Ee. apply rens_clear; auto; [rewrite <- Ee; apply HE; now right|]. intros k r Ik Hk Q. apply C. exists k. rewrite <- Ee in Hk, Q. split; [exact Ik|]. split; [exact Hk|]. now exists r.
Qed.
