From Verif.Model Require Import RsznLookups.
From Verif.Spec Require Import RsznLookups.
From Verif.Proofs Require Import RealNum.
From Coq Require Import Lra.
Local Open Scope R_scope.

Definition increasing (l : list R) : Prop := forall i j, (i < j < length l)%nat -> nth i l 0 < nth j l 0.

Lemma bisect_spec arr x : increasing arr -> forall fuel imin imax, (imax - imin <= fuel)%nat -> (imin <= imax <= length arr)%nat ->
  (forall i, (i < imin)%nat -> nth i arr 0 <= x) -> (forall i, (imax <= i < length arr)%nat -> x < nth i arr 0) ->
  let k := bisect fuel arr x imin imax in (k <= length arr)%nat /\
  (forall i, (i < k)%nat -> nth i arr 0 <= x) /\ (forall i, (k <= i < length arr)%nat -> x < nth i arr 0).
Proof.
  intros Hi. induction fuel as [|fuel IH]; intros imin imax Hf Hm Hl Hr; cbn [bisect]; cbv zeta.
  - split; [lia|]. split; [exact Hl|]. intros i Hi'. apply Hr. lia.
  - destruct (Nat.ltb_spec imin imax) as [H|H].
    + set (mid := (imin + (imax - imin) / 2)%nat). assert (Hd : ((imax - imin) / 2 < imax - imin)%nat) by (apply Nat.div_lt; lia).
      unfold Rleb. destruct (Rle_dec (nth mid arr 0) x) as [C|C].
      * apply IH; [lia|lia| |exact Hr]. intros i Hi'. destruct (Nat.eq_dec i mid) as [->|N]; [exact C|]. specialize (Hi i mid ltac:(lia)). lra.
      * apply IH; [lia|lia|exact Hl|]. intros i Hi'. destruct (Nat.eq_dec i mid) as [->|N]; [lra|]. specialize (Hi mid i ltac:(lia)). lra.
    + split; [lia|]. split; [exact Hl|]. intros i Hi'. apply Hr. lia.
Qed.

Lemma on_table_unique xs ys x y y' : increasing xs -> on_table xs ys x y -> on_table xs ys x y' -> y = y'.
Proof.
  intros Hi. assert (W : forall i j y y', (i <= j)%nat -> (S i < length xs)%nat -> (S j < length xs)%nat ->
    nth i xs 0 <= x <= nth (S i) xs 0 -> (y - nth i ys 0) * (nth (S i) xs 0 - nth i xs 0) = (nth (S i) ys 0 - nth i ys 0) * (x - nth i xs 0) ->
    nth j xs 0 <= x <= nth (S j) xs 0 -> (y' - nth j ys 0) * (nth (S j) xs 0 - nth j xs 0) = (nth (S j) ys 0 - nth j ys 0) * (x - nth j xs 0) -> y = y').
  { clear y y'. intros i j y y' Hij Li Lj Ri Ei Rj Ej. pose proof (Hi i (S i) ltac:(lia)) as Si. pose proof (Hi j (S j) ltac:(lia)) as Sj.
    destruct (Nat.eq_dec i j) as [<-|N].
    - apply Rmult_eq_reg_r with (nth (S i) xs 0 - nth i xs 0); lra.
    - destruct (Nat.eq_dec (S i) j) as [<-|N']; [|specialize (Hi (S i) j ltac:(lia)); lra].
      assert (x = nth (S i) xs 0) by lra. subst x. assert (y = nth (S i) ys 0).
      { apply Rmult_eq_reg_r with (nth (S i) xs 0 - nth i xs 0); lra. }
      assert (Z : (y' - nth (S i) ys 0) * (nth (S (S i)) xs 0 - nth (S i) xs 0) = 0) by lra. apply Rmult_integral in Z as [?|?]; lra. }
  intros (i & Li & Ri & Ei) (j & Lj & Rj & Ej). destruct (le_lt_dec i j) as [H|H]; [exact (W i j y y' H Li Lj Ri Ei Rj Ej)|symmetry; apply (W j i y' y); auto; lia].
Qed.

Lemma interp_spec xs ys x : increasing xs -> (2 <= length xs)%nat -> nth 0 xs 0 <= x <= nth (length xs - 1) xs 0 ->
  exists y, interp xs ys x = Some y /\ on_table xs ys x y.
Proof.
  intros Hi L R. unfold interp, Rltb. destruct (Rlt_dec _ x); [lra|]. destruct (Rlt_dec x _); [lra|].
  destruct (bisect_spec xs x Hi (length xs) 0 (length xs)) as (Kn & Kl & Kr); [lia|lia|intros; lia|intros; lia|].
  set (k := bisect _ _ _ _ _) in *. destruct k as [|j]; [specialize (Kr 0%nat ltac:(lia)); lra|]. replace (S j - 1)%nat with j by lia.
  destruct (Nat.eqb_spec j (length xs - 1)) as [E|E].
  - eexists. split; [reflexivity|]. exists (j - 1)%nat. replace (S (j - 1)) with j by lia. split; [lia|]. pose proof (Kl j ltac:(lia)). pose proof (Hi (j - 1)%nat j ltac:(lia)).
    cbv zeta. rewrite <- E in R. replace x with (nth j xs 0) by lra. split; lra.
  - pose proof (Hi j (S j) ltac:(lia)). pose proof (Kl j ltac:(lia)). pose proof (Kr (S j) ltac:(lia)). unfold Reqb. destruct (Req_EM_T _ x) as [Ex|Ex].
    + eexists. split; [reflexivity|]. exists j. split; [lia|]. cbv zeta. split; [lra|]. rewrite Ex. lra.
    + eexists. split; [reflexivity|]. exists j. split; [lia|]. cbv zeta. split; [lra|]. field. lra.
Qed.
Lemma interp_None xs ys x : x < nth 0 xs 0 \/ nth (length xs - 1) xs 0 < x -> interp xs ys x = None.
Proof.
  intros H. unfold interp, Rltb. destruct (Rlt_dec _ x); [reflexivity|]. destruct (Rlt_dec x _); [reflexivity|lra].
Qed.
Lemma increasing_le l i j : increasing l -> (i <= j < length l)%nat -> nth i l 0 <= nth j l 0.
Proof. intros H L. destruct (Nat.eq_dec i j) as [->|N]; [lra|]. specialize (H i j ltac:(lia)). lra. Qed.
Lemma on_table_range xs ys x y : increasing xs -> on_table xs ys x y -> nth 0 xs 0 <= x <= nth (length xs - 1) xs 0.
Proof.
  intros Hi (i & L & R & _). pose proof (increasing_le xs 0 i Hi ltac:(lia)). pose proof (increasing_le xs (S i) (length xs - 1) Hi ltac:(lia)). lra.
Qed.
Lemma interp_iff xs ys x y : increasing xs -> (2 <= length xs)%nat -> interp xs ys x = Some y <-> on_table xs ys x y.
Proof.
  intros Hi L. split.
  - intros E. destruct (Rle_dec (nth 0 xs 0) x) as [A|A]; [destruct (Rle_dec x (nth (length xs - 1) xs 0)) as [B|B]|].
    + destruct (interp_spec xs ys x Hi L (conj A B)) as (y' & E' & T). congruence.
    + rewrite interp_None in E by lra. discriminate.
    + rewrite interp_None in E by lra. discriminate.
  - intros T. destruct (interp_spec xs ys x Hi L (on_table_range _ _ _ _ Hi T)) as (y' & E' & T'). rewrite E'. f_equal. eapply on_table_unique; eauto.
Qed.
Lemma interp_is_None xs ys x : increasing xs -> (2 <= length xs)%nat -> interp xs ys x = None <-> x < nth 0 xs 0 \/ nth (length xs - 1) xs 0 < x.
Proof.
  intros Hi L. split; [|apply interp_None]. intros E. destruct (Rle_dec (nth 0 xs 0) x) as [A|A]; [|lra]. destruct (Rle_dec x (nth (length xs - 1) xs 0)) as [B|B]; [|lra].
  destruct (interp_spec xs ys x Hi L (conj A B)) as (y' & E' & _). congruence.
Qed.

Lemma on_table_inverse xs ys x y : increasing xs -> increasing ys -> length xs = length ys -> on_table xs ys x y -> on_table ys xs y x.
Proof.
  intros Hx Hy L (i & Li & R & E). exists i. split; [lia|]. cbv zeta. pose proof (Hx i (S i) ltac:(lia)). pose proof (Hy i (S i) ltac:(lia)).
  split; [|lra]. split.
  - apply Rmult_le_reg_r with (nth (S i) xs 0 - nth i xs 0); [lra|]. nra.
  - apply Rmult_le_reg_r with (nth (S i) xs 0 - nth i xs 0); [lra|]. nra.
Qed.
Lemma interp_inverse xs ys x y : increasing xs -> increasing ys -> length xs = length ys -> (2 <= length xs)%nat ->
  interp xs ys x = Some y <-> interp ys xs y = Some x.
Proof.
  intros Hx Hy L L2. rewrite !interp_iff by (try assumption; lia). split; apply on_table_inverse; auto.
Qed.
Lemma on_table_mono xs ys x y x' y' : increasing xs -> increasing ys -> length xs = length ys -> on_table xs ys x y -> on_table xs ys x' y' -> x < x' -> y < y'.
Proof.
  intros Hx Hy L T T' H. pose proof T as U. pose proof T' as U'. apply on_table_inverse in U; try assumption. apply on_table_inverse in U'; try assumption.
  assert (N : y <> y'). { intros ->. pose proof (on_table_unique _ _ _ _ _ Hy U U'). lra. }
  clear U U'. enough (y <= y') by lra. destruct T as (i & Li & Ri & Ei), T' as (j & Lj & Rj & Ej).
  pose proof (Hx i (S i) ltac:(lia)). pose proof (Hy i (S i) ltac:(lia)). pose proof (Hx j (S j) ltac:(lia)). pose proof (Hy j (S j) ltac:(lia)).
  destruct (le_lt_dec i j) as [Hij|Hij]; [|pose proof (increasing_le xs (S j) i Hx ltac:(lia)); lra].
  destruct (Nat.eq_dec i j) as [<-|Nij].
  - apply Rmult_le_reg_r with (nth (S i) xs 0 - nth i xs 0); [lra|]. nra.
  - pose proof (increasing_le ys (S i) j Hy ltac:(lia)). apply Rle_trans with (nth (S i) ys 0); [|apply Rle_trans with (nth j ys 0); [assumption|]].
    + apply Rmult_le_reg_r with (nth (S i) xs 0 - nth i xs 0); [lra|]. nra.
    + apply Rmult_le_reg_r with (nth (S j) xs 0 - nth j xs 0); [lra|]. nra.
Qed.
Lemma interp_mono xs ys x y x' y' : increasing xs -> increasing ys -> length xs = length ys -> (2 <= length xs)%nat ->
  interp xs ys x = Some y -> interp xs ys x' = Some y' -> x < x' -> y < y'.
Proof. intros Hx Hy L L2. rewrite !interp_iff by assumption. intros. eapply on_table_mono; [exact Hx|exact Hy|exact L| | |]; eassumption. Qed.
Lemma nth_opp l i : nth i (map Ropp l) 0 = - nth i l 0.
Proof. rewrite <- Ropp_0 at 1. rewrite map_nth. reflexivity. Qed.
Lemma on_table_opp xs ys x y : on_table xs ys x y -> on_table xs (map Ropp ys) x (- y).
Proof. intros (i & L & R & E). exists i. split; [exact L|]. cbv zeta. rewrite !nth_opp. split; [exact R|]. lra. Qed.
Lemma interp_anti xs ys x y x' y' : increasing xs -> increasing (map Ropp ys) -> length xs = length ys -> (2 <= length xs)%nat ->
  interp xs ys x = Some y -> interp xs ys x' = Some y' -> x < x' -> y' < y.
Proof.
  intros Hx Hy L L2. rewrite !interp_iff by assumption. intros T T' H. enough (- y < - y') by lra.
  eapply (on_table_mono xs (map Ropp ys)); [exact Hx|exact Hy|now rewrite map_length| | |exact H]; now apply on_table_opp.
Qed.

(** *** The table *)
Fixpoint incrb (l : list Z) : bool := match l with a :: (b :: _) as t => Z.ltb a b && incrb t | _ => true end.
Lemma incrb_spec c l : 0 < c -> incrb l = true -> increasing (map (fun z => IZR z / c) l).
Proof.
  intros Hc. assert (S : incrb l = true -> forall i j, (i < j < length l)%nat -> (nth i l 0 < nth j l 0)%Z).
  { induction l as [|a l IH]; [cbn; lia|]. destruct l as [|b l]; [cbn; lia|]. intros E. change (Z.ltb a b && incrb (b :: l) = true) in E. apply andb_prop in E as [E1 E2]. apply Z.ltb_lt in E1. specialize (IH E2).
    intros i j Hj. destruct j as [|j]; [lia|]. destruct i as [|i].
    - change (nth (Datatypes.S j) (a :: b :: l) 0%Z) with (nth j (b :: l) 0%Z). change (nth 0 (a :: b :: l) 0%Z) with a. destruct j as [|j]; [exact E1|]. specialize (IH 0%nat (Datatypes.S j) ltac:(cbn in *; lia)). change (nth 0 (b :: l) 0%Z) with b in IH. lia.
    - apply (IH i j). cbn in *. lia. }
  intros E i j H. rewrite map_length in H. specialize (S E i j H).
  rewrite !(nth_indep (map _ l) 0 (IZR 0 / c)) by (rewrite map_length; lia). rewrite !(map_nth (fun z => IZR z / c)).
  apply Rmult_lt_compat_r; [now apply Rinv_0_lt_compat|]. now apply IZR_lt.
Qed.
Lemma pow9 : 0 < 10 ^ 9. Proof. apply pow_lt. lra. Qed.
Lemma inc_R : increasing col_R.
Proof.
  replace col_R with (map (fun z => IZR z / 1) (map (fun t => fst (fst (fst t))) focal_surface_lookup)).
  - apply incrb_spec; [lra|vm_compute; reflexivity].
  - rewrite map_map. unfold col_R. apply map_ext. intros [[[a b] c] d]. cbn. field.
Qed.
Lemma inc_S : increasing col_S.
Proof.
  replace col_S with (map (fun z => IZR z / 10 ^ 9) (map (fun t => snd (fst t)) focal_surface_lookup)).
  - apply incrb_spec; [apply pow9|vm_compute; reflexivity].
  - rewrite map_map. unfold col_S. apply map_ext. intros [[[a b] c] d]. reflexivity.
Qed.
Lemma inc_N : increasing col_N.
Proof.
  replace col_N with (map (fun z => IZR z / 10 ^ 9) (map (fun t => snd t) focal_surface_lookup)).
  - apply incrb_spec; [apply pow9|vm_compute; reflexivity].
  - rewrite map_map. unfold col_N. apply map_ext. intros [[[a b] c] d]. reflexivity.
Qed.
Lemma dec_Z : increasing (map Ropp col_Z).
Proof.
  replace (map Ropp col_Z) with (map (fun z => IZR z / 10 ^ 9) (map (fun t => Z.opp (snd (fst (fst t)))) focal_surface_lookup)).
  - apply incrb_spec; [apply pow9|vm_compute; reflexivity].
  - unfold col_Z. rewrite !map_map. apply map_ext. intros [[[a b] c] d]. cbn [fst snd]. rewrite opp_IZR. unfold Rdiv. lra.
Qed.
Lemma len_table : length focal_surface_lookup = 501%nat.
Proof. vm_compute. reflexivity. Qed.
Lemma len_R : length col_R = 501%nat. Proof. unfold col_R. now rewrite map_length, len_table. Qed.
Lemma len_S : length col_S = 501%nat. Proof. unfold col_S. now rewrite map_length, len_table. Qed.
Lemma len_N : length col_N = 501%nat. Proof. unfold col_N. now rewrite map_length, len_table. Qed.
Lemma len_Z : length col_Z = 501%nat. Proof. unfold col_Z. now rewrite map_length, len_table. Qed.
Lemma nth_col (f : Z * Z * Z * Z -> R) i t : nth_error focal_surface_lookup i = Some t -> nth i (map f focal_surface_lookup) 0 = f t.
Proof. intros E. apply (map_nth_error f) in E. now apply nth_error_nth. Qed.
Lemma row0 : nth_error focal_surface_lookup 0 = Some (0, 0, 0, 1722000)%Z.
Proof. reflexivity. Qed.
Lemma row500 : nth_error focal_surface_lookup 500 = Some (500, -28465658440, 501123800500, 9735219020)%Z.
Proof. vm_compute. reflexivity. Qed.
Ltac ends := rewrite ?len_R, ?len_S, ?len_Z, ?len_N; change (501 - 1)%nat with 500%nat; unfold col_R, col_S, col_N, col_Z;
  rewrite ?(nth_col _ _ _ row0), ?(nth_col _ _ _ row500); cbn; field_simplify; try reflexivity.
Lemma z2r_nan z : z2r z = None.
Proof.
  unfold z2r, interp, Rltb. rewrite len_Z. change (501 - 1)%nat with 500%nat. destruct (Rlt_dec _ z) as [A|A]; [reflexivity|]. destruct (Rlt_dec z _) as [B|B]; [reflexivity|].
  exfalso. unfold col_Z in *. rewrite (nth_col _ _ _ row500) in A. rewrite (nth_col _ _ _ row0) in B. cbn in A, B. lra.
Qed.
