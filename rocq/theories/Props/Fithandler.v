From Verif.Model Require Import Fithandler.
From Verif.Proofs Require Import Prelude RealNum Numpy Stats Trig Fithandler ZhaoBurge.
From Verif.Spec Require Import Numpy Fithandler.
From Coq Require Import Lra Lia Permutation Sorted.
Local Open Scope R_scope.

(** C49. With two or more datum dates the analysis windows are different from each other, lie in the table, begin and end at
    the rows of two datum dates, are more than data_window rows apart and cannot begin at a later datum date and still be so.
    Only the window of the last datum date may be shorter, and then begins at the first one. Every datum date which is far
    enough from the first one ends a window, and so does the last one. *)
Theorem C49_windows : forall times dates data_window, ascending times -> times <> [] -> ascending dates -> (2 <= length dates)%nat ->
  exists cases, define_cases times dates data_window = Ok cases /\ NoDup cases /\
  (forall s f, In (s, f) cases -> (s <= f < length times)%nat /\ exists i j, (i < j < length dates)%nat /\ row_of times (nth i dates 0) s /\ row_of times (nth j dates 0) f /\
     ((s + data_window < f)%nat \/ (i = 0%nat /\ j = (length dates - 1)%nat)) /\
     forall i' s', (i < i' < j)%nat -> row_of times (nth i' dates 0) s' -> (f <= s' + data_window)%nat) /\
  (forall j r f, (1 <= j < length dates)%nat -> row_of times (nth 0 dates 0) r -> row_of times (nth j dates 0) f -> (r + data_window < f)%nat \/ j = (length dates - 1)%nat -> exists s, In (s, f) cases).
Proof.
  intros times dates dw A N AD L. destruct (rmapM_row times dates A N) as (rows & E & LR & R). unfold define_cases. destruct (Nat.eqb_spec (length dates) 1); [lia|].
  rewrite (rmapM_removelast _ _ _ E), (rmapM_tl _ _ _ E). cbn [rbind]. cbv zeta.
  destruct (loop_spec rows dw ltac:(lia) (tl rows) 0 []) as (cases & Ec & ND & _ & W & C); [destruct rows; cbn in *; lia|reflexivity|constructor|]. exists cases. split; [exact Ec|]. split; [exact ND|]. split.
  - intros s f Hc. destruct (W (s, f) Hc) as [[]|(J & HJ & i & Hi & Eq & Wd & Sh)]. injection Eq as -> ->. pose proof (R i ltac:(lia)) as Ri. pose proof (R (S J) ltac:(lia)) as Rj. split.
    + split; [|apply Rj]. refine (row_of_mono times _ _ _ _ _ Ri Rj). apply asc_nth; [exact AD|lia].
    + exists i, (S J). split; [lia|]. split; [exact Ri|]. split; [exact Rj|]. split; [destruct Wd as [Wd|[Wd1 Wd2]]; [now left|right; lia]|].
      intros i' s' Hi' Rs. rewrite (row_of_unique _ _ _ _ Rs (R i' ltac:(lia))). apply Sh. lia.
  - intros j r f Hj Rr Rf Cond. rewrite (row_of_unique _ _ _ _ Rf (R j ltac:(lia))). rewrite (row_of_unique _ _ _ _ Rr (R 0%nat ltac:(lia))) in Cond. rewrite (row_of_unique _ _ _ _ Rf (R j ltac:(lia))) in Cond. destruct j as [|J]; [lia|]. apply C; [lia|]. destruct Cond; [now left|right; lia].
Qed.
Print Assumptions C49_windows.
(** With one datum date the windows all begin at the first row; the k-th ends data_window rows further than the one before, and the last one at the last row. *)
Theorem C49_single : forall times d data_window, times <> [] -> (0 < data_window)%nat -> exists cases, define_cases times [d] data_window = Ok cases /\ NoDup cases /\
  (forall s f, In (s, f) cases -> s = 0%nat /\ (f < length times)%nat /\ ((f + 1) mod data_window = 0 \/ f = length times - 1)%nat) /\
  In (0, length times - 1)%nat cases /\ length cases = ((length times + data_window - 1) / data_window)%nat.
Proof.
  intros times d dw N D. unfold define_cases. cbn [length Nat.eqb]. unfold single_date_cases. destruct dw as [|dw']; [lia|]. set (dw := S dw') in *. assert (Ln : (0 < length times)%nat) by (destruct times; [congruence|cbn; lia]). set (n := length times) in *. clearbody n dw. clear dw' N times.
  set (m := ((n + dw - 1) / dw)%nat). assert (M : (dw * m <= n + dw - 1 < dw * (m + 1))%nat). { unfold m. pose proof (Nat.div_mod_eq (n + dw - 1) dw). pose proof (Nat.mod_upper_bound (n + dw - 1) dw ltac:(lia)). nia. }
  assert (K : forall k, (k < m)%nat -> (k * dw < n)%nat) by (intros k Hk; nia). eexists. split; [reflexivity|]. split; [|split; [|split]].
  - apply map_NoDup_in; [|apply seq_NoDup]. intros x y Hx Hy E. apply in_seq in Hx, Hy. injection E as E. pose proof (K x ltac:(lia)). pose proof (K y ltac:(lia)). destruct (lt_eq_lt_dec x y) as [[H1|H1]|H1]; [|exact H1|]; exfalso.
    + assert (x * dw + dw <= y * dw)%nat by nia. lia.
    + assert (y * dw + dw <= x * dw)%nat by nia. lia.
  - intros s f H. apply in_map_iff in H. destruct H as (k & E & Hk). injection E as <- <-. split; [reflexivity|]. split; [lia|]. destruct (le_lt_dec (n - 1) (k * dw + dw - 1)) as [H|H]; [right; lia|left]. rewrite Nat.min_r by lia. replace (k * dw + dw - 1 + 1)%nat with ((k + 1) * dw)%nat by lia. apply Nat.mod_mul. lia.
  - apply in_map_iff. exists (m - 1)%nat. assert (1 <= m)%nat by nia. split; [|apply in_seq; lia]. f_equal. assert ((m - 1) * dw + dw = m * dw)%nat by nia. assert (n <= m * dw)%nat by nia. lia.
  - now rewrite map_length, seq_length.
Qed.
Print Assumptions C49_single.
(** So with one datum date a later window has more rows than asked for: it is not data_window rows long. *)
Theorem C49_single_size_refuted : exists times d, ascending times /\ define_cases times [d] 2 = Ok [(0, 1); (0, 3)]%nat.
Proof. exists [0; 1; 2; 3], 0. split; [repeat constructor; lra|]. reflexivity. Qed.
Print Assumptions C49_single_size_refuted.
(** The rows after the row of the last datum date are in no window. *)
Theorem C49_tail_refuted : forall times dates data_window cases f, ascending times -> times <> [] -> ascending dates -> (2 <= length dates)%nat -> define_cases times dates data_window = Ok cases ->
  row_of times (last dates 0) f -> forall s e, In (s, e) cases -> (e <= f)%nat.
Proof.
  intros times dates dw cases f A N AD L E Rf s e Hc. destruct (C49_windows times dates dw A N AD L) as (cases' & E' & _ & W & _). assert (cases' = cases) by congruence. subst cases'. destruct (W s e Hc) as (_ & i & j & Hj & _ & Rj & _). refine (row_of_mono times _ _ _ _ _ Rj Rf).
  rewrite last_nth by (intros ->; cbn in L; lia). apply asc_nth; [exact AD|lia].
Qed.
Print Assumptions C49_tail_refuted.
(** The datum dates which run_best_fits uses begin at the first date, are one period apart and stop before the last date. *)
Theorem C49_dates : forall times period_days, ascending times -> times <> [] -> 0 < period_days ->
  forall d, In d (datum_dates times period_days) <-> exists k, d = nth 0 times 0 + INR k * (period_days * 86400) /\ d < last times 0.
Proof.
  intros times p A N P d. unfold datum_dates, arange. set (a := hd 0 times). assert (a = nth 0 times 0) as <- by (unfold a; destruct times; reflexivity). set (b := last times 0). set (q := p * 24 * 60 * 60). replace (p * 86400) with q by (unfold q; lra). assert (Q : 0 < q) by (unfold q; lra).
  pose proof (Rfloor_spec (- ((b - a) / q))) as F. set (z := Rfloor _) in *. assert (QQ : (b - a) / q * q = b - a) by (field; lra). rewrite in_map_iff. split.
  - intros (k & <- & Hk). apply in_seq in Hk. exists k. split; [reflexivity|]. assert (Kz : (Z.of_nat k <= - z - 1)%Z) by lia. apply IZR_le in Kz. rewrite <- INR_IZR_INZ, minus_IZR, opp_IZR in Kz. assert (INR k < (b - a) / q) by lra. assert (INR k * q < (b - a) / q * q) by (now apply Rmult_lt_compat_r). lra.
  - intros (k & -> & Hk). exists k. split; [reflexivity|]. apply in_seq. split; [lia|]. assert (INR k < (b - a) / q). { apply Rmult_lt_reg_r with q; [exact Q|]. lra. } assert (Kz : INR k < - IZR z) by lra. rewrite INR_IZR_INZ, <- opp_IZR in Kz. apply lt_IZR in Kz. lia.
Qed.
Print Assumptions C49_dates.
(** Moves at one single time give no datum date and no window at all. *)
Theorem C49_same_time_refuted : forall times period_days data_window, times <> [] -> 0 < period_days -> Forall (fun t => t = hd 0 times) times ->
  datum_dates times period_days = [] /\ define_cases times (datum_dates times period_days) data_window = Ok [].
Proof.
  intros times p dw N P F. assert (D : datum_dates times p = []); [|rewrite D; split; reflexivity]. unfold datum_dates, arange. assert (E : last times 0 = hd 0 times). { rewrite last_nth by exact N. rewrite Forall_forall in F. apply F, nth_In. destruct times; [congruence|cbn; lia]. }
  rewrite E. replace ((hd 0 times - hd 0 times) / (p * 24 * 60 * 60)) with 0 by (field; lra). rewrite Ropp_0. rewrite (Rfloor_unique 0 0) by lra. reflexivity.
Qed.
Print Assumptions C49_same_time_refuted.
(** Seven moves, three datum dates: the last window ends at row 4, rows 5 and 6 are left out. *)
Example C49_example : ascending [0; 1; 2; 3; 4; 5; 6] /\ ascending [0; 2; 4] /\ define_cases [0; 1; 2; 3; 4; 5; 6] [0; 2; 4] 1 = Ok [(0, 2); (2, 4)]%nat.
Proof.
  split; [repeat constructor; lra|]. split; [repeat constructor; lra|].
  assert (T : forall a b, a < b -> Rltb a b = true) by (intros; now apply Rltb_true). assert (F : forall a b, b <= a -> Rltb a b = false) by (intros; now apply Rltb_false). assert (T' : forall a b, a <= b -> Rleb a b = true) by (intros; now apply Rleb_true). assert (F' : forall a b, b < a -> Rleb a b = false) by (intros; now apply Rleb_false).
  unfold define_cases. cbn [length Nat.eqb removelast tl rmapM]. unfold row_idx_for_time, where_. cbn [last where_from length].
  repeat first [rewrite T by lra|rewrite F by lra|rewrite T' by lra|rewrite F' by lra]. reflexivity.
Qed.

(** C76. The filters keep enabled rows only, one for each move sequence number among them, in increasing order. *)
Theorem C76_filters : forall argsort t, is_argsort argsort -> exists out, apply_filters argsort t = Ok out /\ StronglySorted Z.lt (map m_sequence out) /\
  (forall r, In r out -> In r t /\ m_enabled r = true) /\ (forall r, In r t -> m_enabled r = true -> exists r', In r' out /\ m_sequence r' = m_sequence r).
Proof. exact filters_spec. Qed.
Print Assumptions C76_filters.
Example C76_example : exists argsort, is_argsort argsort /\
  let row e q d := {| m_enabled := e; m_sequence := q; m_date_sec := d |} in
  apply_filters argsort [row true 5%Z 0; row false 6%Z 1; row true 5%Z 2; row true 3%Z 3] = Ok [row true 3%Z 3; row true 5%Z 0].
Proof. exists isort_argsort. split; [apply isort_is_argsort|]. reflexivity. Qed.

(** C77. The static parameters are medians over a set of windows with the smallest errors: any window not worse than one
    of the set is in it, it holds more than q (n-1) of the n windows, and exactly the next integer when all errors differ. *)
Definition nearest_rank (n : nat) (q : R) (k : nat) : Prop := INR k <= q * INR (n - 1) < INR k + 1.
Theorem C77_selection : forall windows q nkeys, 0 <= q <= 1 -> windows <> [] -> exists params sel, best_static windows q nkeys = Ok params /\ length params = nkeys /\
  (forall w, In w sel -> In w windows) /\ (forall w w', In w sel -> In w' windows -> fst w' <= fst w -> In w' sel) /\
  q * INR (length windows - 1) < INR (length sel) /\
  (NoDup (map fst windows) -> exists k, nearest_rank (length windows) q k /\ length sel = S k) /\
  (forall k, (k < nkeys)%nat -> median (map (fun w => nth k (snd w) 0) sel) = Ok (nth k params 0)) /\
  (forall k lo hi, (k < nkeys)%nat -> (forall w, In w windows -> lo <= nth k (snd w) 0 <= hi) -> lo <= nth k params 0 <= hi).
Proof.
  intros windows q nk Q N. assert (N' : map fst windows <> []) by (destruct windows; [congruence|discriminate]). destruct (percentile_spec (map fst windows) q Q N') as (v & k & E & K & Kl & V & H). rewrite map_length in K, Kl, H.
  set (sel := filter (fun w => Rleb (fst w) v) windows). 
  pose proof (sort_R_perm (map fst windows)) as P. pose proof (sort_R_sorted (map fst windows)) as S. set (s := sort_R (map fst windows)) in *. assert (Ls : length s = length windows) by (rewrite (Permutation_length P); apply map_length).
  assert (Cn : length sel = length (filter (fun x => Rleb x v) s)). { rewrite (Permutation_length (filter_perm _ _ _ P)). unfold sel. clear. induction windows as [|w l IH]; [reflexivity|]. cbn. destruct (Rleb (fst w) v); cbn; now rewrite IH. }
  assert (Cl : (k + 1 <= length sel)%nat). { rewrite Cn. apply filter_count_le; [lia|]. intros i Hi. apply Rleb_true. pose proof (sorted_nth s i k S ltac:(lia)). lra. }
  assert (Ns : sel <> []) by (intros Z; rewrite Z in Cl; cbn in Cl; lia).
  assert (M : forall j, exists m, median (map (fun w => nth j (snd w) 0) sel) = Ok m) by (intros j; apply median_total; destruct sel; [congruence|discriminate]).
  set (g := fun j => match median (map (fun w => nth j (snd w) 0) sel) with Ok m => m | Err _ => 0 end). assert (G : forall j, median (map (fun w => nth j (snd w) 0) sel) = Ok (g j)) by (intros j; unfold g; destruct (M j) as [m ->]; reflexivity).
  assert (Nth : forall j, (j < nk)%nat -> nth j (map g (seq 0 nk)) 0 = g j). { intros j Hj. rewrite nth_indep with (d' := g 0%nat) by (rewrite map_length, seq_length; exact Hj). rewrite map_nth, seq_nth by exact Hj. reflexivity. }
  exists (map g (seq 0 nk)), sel. split; [|split; [|split; [|split; [|split; [|split; [|split]]]]]].
  - unfold best_static. rewrite E. cbn [rbind]. cbv zeta. fold sel. apply rmapM_total. intros j _. apply G.
  - now rewrite map_length, seq_length.
  - intros w Hw. apply filter_In in Hw. apply Hw.
  - intros w w' Hw Hw' L. apply filter_In in Hw. destruct Hw as [_ Hw]. apply Rleb_true in Hw. apply filter_In. split; [exact Hw'|]. apply Rleb_true. lra.
  - apply le_INR in Cl. rewrite plus_INR in Cl. cbn [INR] in Cl. lra.
  - intros ND. exists k. split; [exact K|]. assert (NDs : NoDup s) by (now apply (Permutation_NoDup (Permutation_sym P))). enough (length sel <= k + 1)%nat by lia. rewrite Cn.
    destruct (le_lt_dec (length windows) (k + 1)) as [Hk|Hk]; [pose proof (filter_length_le' s v); lia|].
    assert (Lt : nth k s 0 < nth (k + 1) s 0). { pose proof (sorted_nth s k (k + 1) S ltac:(lia)) as [Lt|Eq]; [exact Lt|]. exfalso. apply (proj1 (NoDup_nth s 0) NDs k (k + 1)%nat) in Eq; lia. }
    assert (Up : (length s - (k + 1) <= length (filter (fun x => negb (Rleb x v)) s))%nat). { apply filter_count_ge; [lia|]. intros i Hi. destruct (H i ltac:(lia)) as [_ Hi']. specialize (Hi' Lt). apply negb_true_iff, Rleb_false. exact Hi'. }
    pose proof (filter_split s v). lia.
  - intros j Hj. rewrite Nth by exact Hj. apply G.
  - intros j lo hi Hj B. rewrite Nth by exact Hj. apply (median_bounds _ _ lo hi (G j)). apply Forall_forall. intros x Hx. apply in_map_iff in Hx. destruct Hx as (w & <- & Hw). apply filter_In in Hw. apply B, Hw.
Qed.
Print Assumptions C77_selection.
(** Three windows, the better two are kept. *)
Example C77_example : 0 <= 0.5 <= 1 /\ NoDup (map fst [(0.3, [1]); (0.1, [2]); (0.2, [4])]) /\ nearest_rank 3 0.5 1.
Proof. split; [lra|]. split; [cbn; repeat constructor; cbn; intros H; repeat destruct H as [H|H]; try lra; auto|]. unfold nearest_rank. cbn. lra. Qed.
