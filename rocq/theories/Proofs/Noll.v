From Verif.Model Require Import ZhaoBurge.
From Verif.Proofs Require Import Trig.
From Coq Require Import Lra Lia ZArith.
Local Open Scope R_scope.

Lemma trunc_eq x k : (0 <= k)%Z -> IZR k <= x < IZR k + 1 -> trunc x = k.
Proof.
  intros Hk H. unfold trunc, Rltb. apply IZR_le in Hk. destruct (Rlt_dec x 0) as [L|L]; [lra|]. now apply Rfloor_unique.
Qed.

(** The size of m for the d-th index of order n. *)
Definition noll_m (n d : Z) : Z := if (n mod 2 =? 0)%Z then (2 * ((d + 1) / 2))%Z else (2 * (d / 2) + 1)%Z.
Lemma noll_spec noll n d : (0 <= d <= n)%Z -> (2 * noll = n * (n + 1) + 2 + 2 * d)%Z ->
  convertNolltoBW noll = (n, if (0 <? noll mod 2)%Z then (- noll_m n d)%Z else noll_m n d).
Proof.
  intros Hd Hn. unfold convertNolltoBW.
  assert (HR : 2 * IZR noll = IZR n * (IZR n + 1) + 2 + 2 * IZR d).
  { replace (2 * IZR noll) with (IZR (2 * noll)) by (rewrite mult_IZR; reflexivity). rewrite Hn, !plus_IZR, !mult_IZR, plus_IZR. reflexivity. }
  assert (Hd1 : 0 <= IZR d) by (apply IZR_le; lia). assert (Hd2 : IZR d <= IZR n) by (apply IZR_le; lia).
  assert (E1 : trunc (-0.5 + sqrt (2 * IZR noll - 1.75)) = n).
  { apply trunc_eq; [lia|]. assert (L : IZR n + 0.5 <= sqrt (2 * IZR noll - 1.75)).
    { rewrite <- (sqrt_square (IZR n + 0.5)) by lra. apply sqrt_le_1; nra. }
    assert (U : sqrt (2 * IZR noll - 1.75) < IZR n + 1.5).
    { rewrite <- (sqrt_square (IZR n + 1.5)) by lra. apply sqrt_lt_1; nra. }
    lra. }
  rewrite E1. assert (E2 : trunc (0.5 * IZR n ^ 2 + 0.5 * IZR n + 1) = (noll - d)%Z).
  { apply trunc_eq; [nia|]. rewrite minus_IZR. split; nra. }
  rewrite E2. replace (noll - (noll - d))%Z with d by lia. f_equal. unfold noll_m.
  assert (M : forall k : Z, (0 <= k)%Z -> IZR (k / 2) <= IZR k / 2 <= IZR (k / 2) + 1 / 2 /\ ((k mod 2 = 0)%Z -> IZR (k / 2) = IZR k / 2) /\ ((k mod 2 = 1)%Z -> IZR (k / 2) + 1 / 2 = IZR k / 2)).
  { intros k Hk. pose proof (Z.div_mod k 2 ltac:(lia)) as D. assert (DR : IZR k = 2 * IZR (k / 2) + IZR (k mod 2)) by (rewrite D at 1; rewrite plus_IZR, mult_IZR; reflexivity).
    destruct (Z.mod_pos_bound k 2 ltac:(lia)) as [B1 B2]. assert (C : (k mod 2 = 0 \/ k mod 2 = 1)%Z) by lia. destruct C as [C|C]; rewrite C in DR |- *; (split; [lra|split; intros; [|]]; try lia; lra). }
  destruct (n mod 2 =? 0)%Z.
  - assert (T : trunc (0.5 * IZR d + 0.7) = ((d + 1) / 2)%Z).
    { apply trunc_eq; [apply Z.div_pos; lia|]. destruct (M d ltac:(lia)) as (M1 & M2 & M3). destruct (M (d + 1)%Z ltac:(lia)) as (N1 & N2 & N3). rewrite plus_IZR in *.
      assert (C : (d mod 2 = 0 \/ d mod 2 = 1)%Z) by (pose proof (Z.mod_pos_bound d 2); lia). destruct C as [C|C].
      - assert (C' : ((d + 1) mod 2 = 1)%Z) by (Z.to_euclidean_division_equations; lia). specialize (N3 C'). lra.
      - assert (C' : ((d + 1) mod 2 = 0)%Z) by (Z.to_euclidean_division_equations; lia). specialize (N2 C'). lra. }
    now rewrite T.
  - assert (T : trunc (0.5 * IZR d + 1.2) = (d / 2 + 1)%Z).
    { apply trunc_eq; [pose proof (Z.div_pos d 2); lia|]. destruct (M d ltac:(lia)) as (M1 & M2 & M3). rewrite plus_IZR.
      assert (C : (d mod 2 = 0 \/ d mod 2 = 1)%Z) by (pose proof (Z.mod_pos_bound d 2); lia). destruct C as [C|C]; [specialize (M2 C)|specialize (M3 C)]; lra. }
    rewrite T. destruct (0 <? noll mod 2)%Z; lia.
Qed.
Lemma noll_decomp noll : (1 <= noll)%Z -> exists n d, (0 <= d <= n)%Z /\ (2 * noll = n * (n + 1) + 2 + 2 * d)%Z.
Proof.
  intros H. replace noll with (1 + (noll - 1))%Z by lia. assert (P : (0 <= noll - 1)%Z) by lia. revert P. generalize (noll - 1)%Z. clear. intros k. revert k. apply natlike_ind.
  - exists 0%Z, 0%Z. lia.
  - intros k Hk (n & d & Hd & E). destruct (Z.eq_dec d n) as [->|N]; [exists (n + 1)%Z, 0%Z|exists n, (d + 1)%Z]; lia.
Qed.
Lemma n_parity n : (n * (n + 1) mod 2 = 0)%Z.
Proof. pose proof (Z.mod_pos_bound n 2 ltac:(lia)). rewrite Z.mul_mod, (Z.add_mod n 1) by lia. assert (C : (n mod 2 = 0 \/ n mod 2 = 1)%Z) by lia. destruct C as [-> | ->]; reflexivity. Qed.
Ltac divs := Z.to_euclidean_division_equations; lia.

Lemma noll_range noll n m : (1 <= noll)%Z -> convertNolltoBW noll = (n, m) ->
  (Z.abs m <= n)%Z /\ Z.Even (n - m) /\ ((0 < m)%Z -> Z.Even noll) /\ ((m < 0)%Z -> Z.Odd noll).
Proof.
  intros H E. destruct (noll_decomp noll H) as (n' & d & Hd & Hn). rewrite (noll_spec noll n' d Hd Hn) in E. injection E as <- <-.
  assert (B : (0 <= noll_m n' d <= n')%Z /\ Z.Even (n' - noll_m n' d)).
  { unfold noll_m. destruct (Z.eqb_spec (n' mod 2) 0) as [P|P].
    - split; [divs|]. exists (n' / 2 - (d + 1) / 2)%Z. divs.
    - split; [divs|]. exists (n' / 2 - d / 2)%Z. divs. }
  destruct B as [B1 [q B2]]. destruct (Z.ltb_spec 0 (noll mod 2)) as [O|O].
  - split; [lia|]. split; [exists (q + noll_m n' d)%Z; lia|]. split; [lia|]. intros _. exists (noll / 2)%Z. divs.
  - split; [lia|]. split; [exists q; lia|]. split; [|lia]. intros _. exists (noll / 2)%Z. divs.
Qed.
Lemma noll_onto n m : (Z.abs m <= n)%Z -> Z.Even (n - m) -> exists noll, (1 <= noll)%Z /\ convertNolltoBW noll = (n, m).
Proof.
  intros Hm [q Hq]. set (T := (n * (n + 1) / 2)%Z). assert (HT : (2 * T = n * (n + 1))%Z) by (unfold T; pose proof (n_parity n); pose proof (Z.div_mod (n * (n + 1)) 2); lia).
  assert (W : exists d, (0 <= d <= n)%Z /\ noll_m n d = Z.abs m /\ ((0 < m)%Z -> ((T + 1 + d) mod 2 = 0)%Z) /\ ((m < 0)%Z -> ((T + 1 + d) mod 2 = 1)%Z)).
  { unfold noll_m. destruct (Z.eqb_spec (n mod 2) 0) as [P|P].
    - destruct (Z.eq_dec m 0) as [->|Nm]; [exists 0%Z; repeat split; try lia; divs|].
      assert (V : exists p, (Z.abs m = 2 * p)%Z) by (exists (Z.abs m / 2)%Z; divs). destruct V as [p Hp].
      destruct (Z.eq_dec ((T + 1 + 2 * p) mod 2) (if 0 <? m then 0 else 1)%Z) as [C|C].
      + exists (2 * p)%Z. repeat split; try lia; [divs| |]; intros; destruct (Z.ltb_spec 0 m); lia.
      + exists (2 * p - 1)%Z. repeat split; try lia; [divs| |]; intros; destruct (Z.ltb_spec 0 m); divs.
    - assert (V : exists p, (Z.abs m = 2 * p + 1)%Z) by (exists (Z.abs m / 2)%Z; divs). destruct V as [p Hp].
      destruct (Z.eq_dec ((T + 1 + 2 * p) mod 2) (if 0 <? m then 0 else 1)%Z) as [C|C].
      + exists (2 * p)%Z. repeat split; try lia; [divs| |]; intros; destruct (Z.ltb_spec 0 m); lia.
      + exists (2 * p + 1)%Z. repeat split; try lia; [divs| |]; intros; destruct (Z.ltb_spec 0 m); divs. }
  destruct W as (d & Hd & E & P1 & P2). exists (T + 1 + d)%Z. split; [nia|]. rewrite (noll_spec _ n d) by lia. rewrite E. f_equal.
  destruct (Z.ltb_spec 0 ((T + 1 + d) mod 2)) as [L|L]; destruct (Z.lt_trichotomy m 0) as [S|[S|S]]; try lia.
Qed.
Lemma noll_m_inj n d d' : (0 <= d <= n)%Z -> (0 <= d' <= n)%Z -> noll_m n d = noll_m n d' -> (d mod 2 = d' mod 2 \/ noll_m n d = 0)%Z -> d = d'.
Proof. unfold noll_m. intros. destruct (Z.eqb_spec (n mod 2) 0); divs. Qed.
Lemma noll_inj k k' : (1 <= k)%Z -> (1 <= k')%Z -> convertNolltoBW k = convertNolltoBW k' -> k = k'.
Proof.
  intros H H' E. destruct (noll_decomp k H) as (n & d & Hd & Hn). destruct (noll_decomp k' H') as (n' & d' & Hd' & Hn').
  rewrite (noll_spec k n d Hd Hn), (noll_spec k' n' d' Hd' Hn') in E. injection E as <- E.
  assert (P : (0 <= noll_m n d)%Z /\ (0 <= noll_m n d')%Z) by (unfold noll_m; destruct (n mod 2 =? 0)%Z; divs).
  enough (d = d') by lia. apply (noll_m_inj n); [exact Hd|exact Hd'| |].
  - destruct (0 <? k mod 2)%Z, (0 <? k' mod 2)%Z; lia.
  - destruct (Z.eq_dec (noll_m n d) 0) as [Z0|Z0]; [now right|left]. destruct (Z.ltb_spec 0 (k mod 2)), (Z.ltb_spec 0 (k' mod 2)); try lia; divs.
Qed.
Lemma noll_order k k' n m n' m' : (1 <= k)%Z -> (k < k')%Z -> convertNolltoBW k = (n, m) -> convertNolltoBW k' = (n', m') ->
  (n < n' \/ n = n' /\ Z.abs m <= Z.abs m')%Z.
Proof.
  intros H L E E'. destruct (noll_decomp k H) as (a & d & Hd & Hn). destruct (noll_decomp k' ltac:(lia)) as (a' & d' & Hd' & Hn').
  rewrite (noll_spec k a d Hd Hn) in E. rewrite (noll_spec k' a' d' Hd' Hn') in E'. injection E as <- <-. injection E' as <- <-.
  destruct (Z.lt_trichotomy a a') as [?|[<-|?]]; [now left| |exfalso; nia]. right. split; [reflexivity|]. assert (d < d')%Z by lia.
  assert (noll_m a d <= noll_m a d')%Z by (unfold noll_m; destruct (a mod 2 =? 0)%Z; divs). assert (0 <= noll_m a d)%Z by (unfold noll_m; destruct (a mod 2 =? 0)%Z; divs).
  destruct (0 <? k mod 2)%Z, (0 <? k' mod 2)%Z; lia.
Qed.

(** *** Wyant indices *)
Lemma wyant_spec w h i : (0 <= i <= 2 * h)%Z -> w = (h ^ 2 + i)%Z -> convertWyanttoBW w = ((h + i / 2)%Z, if (0 <? i mod 2)%Z then (- (h - i / 2))%Z else (h - i / 2)%Z).
Proof.
  intros Hi ->. unfold convertWyanttoBW. assert (Hi1 : 0 <= IZR i) by (apply IZR_le; lia). assert (Hi2 : IZR i <= 2 * IZR h) by (rewrite <- mult_IZR; apply IZR_le; lia).
  assert (E : trunc (sqrt (IZR (h ^ 2 + i))) = h).
  { replace (h ^ 2)%Z with (h * h)%Z by ring. rewrite plus_IZR, mult_IZR. apply trunc_eq; [lia|]. split.
    - rewrite <- (sqrt_square (IZR h)) at 1 by lra. apply sqrt_le_1; nra.
    - rewrite <- (sqrt_square (IZR h + 1)) by lra. apply sqrt_lt_1; nra. }
  rewrite E. replace (h ^ 2 + i - h ^ 2)%Z with i by lia.
  assert (T : trunc (IZR i / 2) = (i / 2)%Z).
  { apply trunc_eq; [apply Z.div_pos; lia|]. pose proof (Z.div_mod i 2 ltac:(lia)) as D. assert (DR : IZR i = 2 * IZR (i / 2) + IZR (i mod 2)) by (rewrite D at 1; rewrite plus_IZR, mult_IZR; reflexivity).
    destruct (Z.mod_pos_bound i 2 ltac:(lia)) as [B1 B2]. assert (0 <= IZR (i mod 2)) by (apply IZR_le; lia). assert (IZR (i mod 2) <= 1) by (apply IZR_le; lia). lra. }
  now rewrite T.
Qed.
Lemma wyant_decomp w : (0 <= w)%Z -> exists h i, (0 <= i <= 2 * h)%Z /\ w = (h ^ 2 + i)%Z.
Proof. intros H. exists (Z.sqrt w), (w - Z.sqrt w ^ 2)%Z. pose proof (Z.sqrt_spec w H) as S. cbv zeta in S. replace (Z.sqrt w ^ 2)%Z with (Z.sqrt w * Z.sqrt w)%Z by ring. split; lia. Qed.
Lemma wyant_range w n m : (0 <= w)%Z -> convertWyanttoBW w = (n, m) -> (Z.abs m <= n)%Z /\ Z.Even (n - m).
Proof.
  intros H E. destruct (wyant_decomp w H) as (h & i & Hi & Hw). rewrite (wyant_spec w h i Hi Hw) in E. injection E as <- <-.
  destruct (0 <? i mod 2)%Z; (split; [divs|]); [exists h; lia|exists (i / 2)%Z; lia].
Qed.
Lemma wyant_onto n m : (Z.abs m <= n)%Z -> Z.Even (n - m) -> exists w, (0 <= w)%Z /\ convertWyanttoBW w = (n, m).
Proof.
  intros Hm [q Hq]. set (h := ((n + Z.abs m) / 2)%Z). set (k := ((n - Z.abs m) / 2)%Z).
  assert (Hh : (2 * h = n + Z.abs m)%Z) by (unfold h; divs). assert (Hk : (2 * k = n - Z.abs m)%Z) by (unfold k; divs).
  destruct (Z.ltb_spec m 0) as [S|S].
  - exists (h ^ 2 + (2 * k + 1))%Z. split; [nia|]. rewrite (wyant_spec _ h (2 * k + 1)) by lia. replace ((2 * k + 1) / 2)%Z with k by divs. replace ((2 * k + 1) mod 2)%Z with 1%Z by divs. cbn. f_equal; lia.
  - exists (h ^ 2 + 2 * k)%Z. split; [nia|]. rewrite (wyant_spec _ h (2 * k)) by lia. replace (2 * k / 2)%Z with k by divs. replace ((2 * k) mod 2)%Z with 0%Z by divs. cbn. f_equal; lia.
Qed.
Lemma wyant_inj w w' : (0 <= w)%Z -> (0 <= w')%Z -> convertWyanttoBW w = convertWyanttoBW w' -> w = w'.
Proof.
  intros H H' E. destruct (wyant_decomp w H) as (h & i & Hi & Hw). destruct (wyant_decomp w' H') as (h' & i' & Hi' & Hw').
  rewrite (wyant_spec w h i Hi Hw), (wyant_spec w' h' i' Hi' Hw') in E. injection E as E1 E2.
  assert (A : (0 <= h - i / 2)%Z /\ (0 <= h' - i' / 2)%Z) by divs.
  assert (C : (h = h' /\ i / 2 = i' / 2)%Z) by (destruct (0 <? i mod 2)%Z, (0 <? i' mod 2)%Z; lia). destruct C as [-> C].
  assert (i = i'); [|lia]. destruct (Z.ltb_spec 0 (i mod 2)), (Z.ltb_spec 0 (i' mod 2)); divs.
Qed.
