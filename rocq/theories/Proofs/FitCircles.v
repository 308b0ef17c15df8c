From Verif.Model Require Import FitCircles.
From Verif.Spec Require Import FitCircles Circles.
From Verif.Proofs Require Import Prelude RealNum Stats Circles.
From Coq Require Import Lra Lia.
Local Open Scope R_scope.
Local Open Scope list_scope.

Definition wf (t : list spot_row) : Prop := Forall (fun r => (0 <= r_pinhole r <= 9)%Z) t.
Lemma with_code_rows l p t : wf t -> (0 <= p <= 9)%Z -> with_code (l * 10 + p) t = rows_at l p t.
Proof.
  intros W Hp. unfold with_code, rows_at. apply filter_ext_in. intros r I. unfold wf in W. rewrite Forall_forall in W. specialize (W r I). unfold code.
  destruct (Z.eqb_spec (r_location r) l), (Z.eqb_spec (r_pinhole r) p), (Z.eqb_spec (r_location r * 10 + r_pinhole r) (l * 10 + p)); cbn; try reflexivity; lia.
Qed.
Lemma count_codes l p t : wf t -> (0 < l)%Z -> (0 <= p <= 9)%Z -> count_occ Z.eq_dec (codes t) (l * 10 + p)%Z = length (rows_at l p t).
Proof.
  intros W Hl Hp. unfold codes. induction W as [|r t Hr W IH]; [reflexivity|]. unfold rows_at in *. cbn [filter]. unfold code in *.
  destruct (Z.ltb_spec 0 (r_location r)).
  - cbn [map count_occ]. destruct (Z.eq_dec (r_location r * 10 + r_pinhole r) (l * 10 + p)) as [E|N].
    + assert (r_location r = l) by lia. assert (r_pinhole r = p) by lia. assert (((r_location r =? l) && (r_pinhole r =? p))%Z%bool = true) as -> by (rewrite !(proj2 (Z.eqb_eq _ _)) by assumption; reflexivity). cbn [length]. now rewrite IH.
    + assert (((r_location r =? l) && (r_pinhole r =? p))%Z%bool = false) as ->; [|exact IH]. apply Bool.not_true_iff_false. intros B. apply andb_prop in B as [B1 B2]. apply Z.eqb_eq in B1, B2. apply N. congruence.
  - assert ((r_location r =? l)%Z = false) as -> by (apply Z.eqb_neq; lia). exact IH.
Qed.
Lemma eqb_spec a b : Z.eqb a b = true <-> a = b.
Proof. apply Z.eqb_eq. Qed.
Lemma gather_one_other t d j k : j <> k -> dict_get Z.eqb (gather_one t d j) k = dict_get Z.eqb d k.
Proof. intros N. unfold gather_one. destruct (with_code j t) as [|r [|]]; try reflexivity. destruct (match dict_get Z.eqb d j with Some v => v | None => _ end) as [x e]. apply dict_get_set_other; [exact eqb_spec|congruence]. Qed.
Lemma fold_other t ks : forall d k, ~ In k ks -> dict_get Z.eqb (fold_left (gather_one t) ks d) k = dict_get Z.eqb d k.
Proof. induction ks as [|j ks IH]; intros d k N; [reflexivity|]. cbn [fold_left]. rewrite IH by (intros H; apply N; now right). apply gather_one_other. intros ->. apply N. now left. Qed.
Lemma fold_several t k : (forall r, with_code k t <> [r]) -> forall ks d, dict_get Z.eqb (fold_left (gather_one t) ks d) k = dict_get Z.eqb d k.
Proof.
  intros N. induction ks as [|j ks IH]; intros d; [reflexivity|]. cbn [fold_left]. rewrite IH. destruct (Z.eq_dec j k) as [->|D]; [|now apply gather_one_other]. unfold gather_one. destruct (with_code k t) as [|r [|]]; try reflexivity. now specialize (N r).
Qed.
Lemma gather_file_get t d l p : wf t -> (0 < l)%Z -> (0 <= p <= 9)%Z -> dict_get Z.eqb (gather_file d t) (l * 10 + p)%Z =
  match rows_at l p t with
  | [r] => Some (match dict_get Z.eqb d (l * 10 + p)%Z with Some (xs, e) => (xs ++ [r_xy r], e) | None => ([r_xy r], r_exp r) end)
  | _ => dict_get Z.eqb d (l * 10 + p)%Z
  end.
Proof.
  intros W Hl Hp. unfold gather_file. pose proof (with_code_rows l p t W Hp) as E. pose proof (count_codes l p t W Hl Hp) as C. set (k := (l * 10 + p)%Z) in *.
  destruct (rows_at l p t) as [|r [|r' q]].
  - apply fold_several. rewrite E. discriminate.
  - cbn [length] in C. assert (I : In k (codes t)) by (apply (count_occ_In Z.eq_dec); lia). apply in_split in I as (a & b & S). rewrite S in C |- *. rewrite count_occ_app in C. cbn [count_occ] in C. destruct (Z.eq_dec k k); [|congruence].
    assert (Na : ~ In k a) by (apply (count_occ_not_In Z.eq_dec); lia). assert (Nb : ~ In k b) by (apply (count_occ_not_In Z.eq_dec); lia).
    rewrite fold_left_app. cbn [fold_left]. rewrite fold_other by exact Nb. set (d' := fold_left (gather_one t) a d). assert (Ed : dict_get Z.eqb d' k = dict_get Z.eqb d k) by now apply fold_other.
    unfold gather_one, first_exp. rewrite E, Ed. destruct (dict_get Z.eqb d k) as [[xs e0]|]; apply (dict_get_set_same Z.eqb eqb_spec).
  - apply fold_several. rewrite E. discriminate.
Qed.
Definition single_exps (files : list (list spot_row)) (l p : Z) : list (R * R) := flat_map (fun t => match rows_at l p t with [r] => [r_exp r] | _ => [] end) files.
Lemma gather_files_get l p : (0 < l)%Z -> (0 <= p <= 9)%Z -> forall files d, Forall wf files -> dict_get Z.eqb (fold_left gather_file files d) (l * 10 + p)%Z =
  match dict_get Z.eqb d (l * 10 + p)%Z with
  | Some (xs, e) => Some (xs ++ measurements files l p, e)
  | None => option_map (fun e => (measurements files l p, e)) (hd_error (single_exps files l p))
  end.
Proof.
  intros Hl Hp. induction files as [|t files IH]; intros d W.
  - cbn. destruct (dict_get Z.eqb d _) as [[xs e]|]; [now rewrite app_nil_r|reflexivity].
  - inversion W as [|? ? Wt W']; subst. cbn [fold_left]. rewrite IH by exact W'. rewrite (gather_file_get t d l p Wt Hl Hp). unfold measurements, single_exps. cbn [flat_map]. fold (measurements files l p). fold (single_exps files l p).
    destruct (rows_at l p t) as [|r [|r' q]]; [reflexivity| |reflexivity]. destruct (dict_get Z.eqb d _) as [[xs e]|]; cbn; [now rewrite <- app_assoc|reflexivity].
Qed.
Lemma start_get t : forall ks (d : gathered) k, dict_get Z.eqb (fold_left (fun (d : gathered) k => dict_set Z.eqb d k ([], first_exp k t)) ks d) k = if in_dec Z.eq_dec k ks then Some ([], first_exp k t) else dict_get Z.eqb d k.
Proof.
  induction ks as [|j ks IH]; intros d k; [reflexivity|]. cbn [fold_left]. rewrite IH. destruct (in_dec Z.eq_dec k ks) as [I|N].
  - destruct (in_dec Z.eq_dec k (j :: ks)) as [_|X]; [reflexivity|]. exfalso. apply X. now right.
  - destruct (in_dec Z.eq_dec k (j :: ks)) as [[->|I]|X]; [|contradiction|].
    + apply (dict_get_set_same Z.eqb eqb_spec).
    + apply (dict_get_set_other Z.eqb eqb_spec). intros ->. apply X. now left.
Qed.
Lemma gather_get files l p : Forall wf files -> (0 < l)%Z -> (0 <= p <= 9)%Z -> dict_get Z.eqb (gather files) (l * 10 + p)%Z = option_map (fun e => (measurements files l p, e)) (expected files l p).
Proof.
  intros W Hl Hp. destruct files as [|t files]; [reflexivity|]. unfold gather. rewrite (gather_files_get l p Hl Hp _ _ W). inversion W as [|? ? Wt _]; subst. unfold start. rewrite start_get. unfold expected. fold (single_exps (t :: files) l p).
  pose proof (count_codes l p t Wt Hl Hp) as C. pose proof (with_code_rows l p t Wt Hp) as E. unfold first_exp. rewrite E. destruct (in_dec Z.eq_dec _ (codes t)) as [I|N].
  - apply (count_occ_In Z.eq_dec) in I. destruct (rows_at l p t) as [|r q]; [cbn in C; lia|]. reflexivity.
  - apply (count_occ_not_In Z.eq_dec) in N. destruct (rows_at l p t) as [|r q]; [reflexivity|cbn in C; lia].
Qed.
Definition proper (k : Z) : Prop := exists l p, (0 < l)%Z /\ (0 <= p <= 9)%Z /\ k = (l * 10 + p)%Z.
Lemma codes_proper t k : wf t -> In k (codes t) -> proper k.
Proof. intros W I. unfold codes in I. apply in_map_iff in I as (r & <- & I). apply filter_In in I as [I S]. apply Z.ltb_lt in S. unfold wf in W. rewrite Forall_forall in W. specialize (W r I). exists (r_location r), (r_pinhole r). auto. Qed.
Definition good_keys (d : gathered) : Prop := NoDup (map fst d) /\ forall k, In k (map fst d) -> proper k.
Lemma set_good d k v : good_keys d -> proper k -> good_keys (dict_set Z.eqb d k v).
Proof.
  intros [N P] H. split; [now apply (dict_set_NoDup Z.eqb eqb_spec)|]. intros j I. destruct (dict_set_keys Z.eqb eqb_spec d k v) as [E|[E _]]; rewrite E in I; [auto|]. apply in_app_iff in I as [I|[<-|[]]]; auto.
Qed.
Lemma gather_good files : Forall wf files -> good_keys (gather files).
Proof.
  intros W. destruct files as [|t files]; [split; [constructor|intros k []]|]. unfold gather.
  assert (S : good_keys (start t)).
  { unfold start. assert (P : forall k, In k (codes t) -> proper k) by (intros k; apply codes_proper; now inversion W). revert P. assert (G : good_keys []) by (split; [constructor|intros k []]). revert G. generalize (@nil (Z * (list (R * R) * (R * R)))) as d. induction (codes t) as [|k ks IH]; intros d G P; [exact G|]. cbn [fold_left]. apply IH; [|intros; apply P; now right]. apply set_good; [exact G|]. apply P. now left. }
  revert S W. generalize (start t) as d. generalize (t :: files) as fs. clear t files. induction fs as [|t fs IH]; intros d G W; [exact G|]. cbn [fold_left]. inversion W as [|? ? Wt W']; subst. apply IH; [|exact W'].
  unfold gather_file. assert (P : forall k, In k (codes t) -> proper k) by (intros k; now apply codes_proper). revert d G P. induction (codes t) as [|k ks IHk]; intros d G P; [exact G|]. cbn [fold_left]. apply IHk; [|intros; apply P; now right].
  unfold gather_one. destruct (with_code k t) as [|r [|]]; try exact G. destruct (match dict_get Z.eqb d k with Some v => v | None => _ end). apply set_good; [exact G|]. apply P. now left.
Qed.
Lemma get_of_In (d : gathered) k v : NoDup (map fst d) -> In (k, v) d -> dict_get Z.eqb d k = Some v.
Proof.
  induction d as [|[j w] d IH]; intros N I; [destruct I|]. cbn [map fst] in N. inversion N as [|? ? Nj N']; subst. cbn [dict_get]. destruct I as [E|I].
  - injection E as -> ->. now rewrite Z.eqb_refl.
  - destruct (Z.eqb_spec k j) as [->|]; [|auto]. exfalso. apply Nj, in_map_iff. exists (j, v). auto.
Qed.
Lemma gathered_In files k l e : Forall wf files -> In (k, (l, e)) (gather files) <-> exists loc p, (0 < loc)%Z /\ (0 <= p <= 9)%Z /\ k = (loc * 10 + p)%Z /\ l = measurements files loc p /\ expected files loc p = Some e.
Proof.
  intros W. destruct (gather_good files W) as [N P]. split.
  - intros I. destruct (P k) as (loc & p & Hl & Hp & E); [apply in_map_iff; exists (k, (l, e)); auto|]. exists loc, p. split; [exact Hl|]. split; [exact Hp|]. split; [exact E|]. apply (get_of_In _ _ _ N) in I. rewrite E, (gather_get files loc p W Hl Hp) in I. destruct (expected files loc p) as [e'|]; [|discriminate]. cbn in I. injection I as <- <-. auto.
  - intros (loc & p & Hl & Hp & -> & -> & E). apply (dict_get_In Z.eqb eqb_spec). rewrite (gather_get files loc p W Hl Hp), E. reflexivity.
Qed.
Lemma fit_circle_err leastsq P e : fit_circle leastsq P = Err e -> e = ValueError \/ (e = TypeError /\ P = []).
Proof.
  unfold fit_circle. destruct P as [|q P].
  - cbn. intros [= <-]. auto.
  - destruct (fast_fit_circle false (q :: P)) as [[c r]|e'] eqn:F.
    + destruct (bad_radius r); [intros [= <-]; auto|]. rewrite mean_Ok by discriminate. cbn [rbind]. destruct (bad_radius _); [intros [= <-]; auto|discriminate].
    + unfold fast_fit_circle in F. rewrite !mean_Ok in F by discriminate. cbn [rbind] in F. rewrite mean_Ok in F by discriminate. discriminate.
Qed.
