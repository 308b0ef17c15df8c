(** Proofs about the Echo22 transformation: the coefficients of the two polynomial fits, exactly. *)
From Coq Require Import Lra Lia.
From Verif.Model Require Import Echo22.
From Verif.Spec Require Import LinAlg.
From Verif.Proofs Require Import RealNum LinAlg.
Local Open Scope R_scope.

(** ** Fits of integer data *)
Fixpoint zeval (num : list Z) (ks : list nat) (z : Z) : Z :=
  match num, ks with n :: num', k :: ks' => (n * z ^ Z.of_nat k + zeval num' ks' z)%Z | _, _ => 0%Z end.
Definition residuals (num : list Z) (den : Z) (ks : list nat) (data : list (Z * Z)) : list (Z * Z) := map (fun p => (fst p, zeval num ks (fst p) - den * snd p)%Z) data.
Fixpoint moment (k : nat) (rs : list (Z * Z)) : Z := match rs with [] => 0%Z | (z, r) :: t => (z ^ Z.of_nat k * r + moment k t)%Z end.
Definition normal_eqs (num : list Z) (den : Z) (ks : list nat) (data : list (Z * Z)) : bool :=
  let rs := residuals num den ks data in forallb (fun k => Z.eqb (moment k rs) 0) ks.
Fixpoint coefs (num : list Z) (ks : list nat) (s d : R) : list R :=
  match num, ks with n :: num', k :: ks' => IZR n * s ^ k / d :: coefs num' ks' s d | _, _ => [] end.

Lemma coefs_length num ks s d : length num = length ks -> length (coefs num ks s d) = length ks.
Proof. revert ks. induction num as [|n num IH]; intros [|k ks] L; cbn in *; try discriminate; auto. Qed.
Lemma dot_coefs num ks s d z : s <> 0 -> d <> 0 -> dot (coefs num ks s d) (map (fun k => (IZR z / s) ^ k) ks) = IZR (zeval num ks z) / d.
Proof.
  intros Hs Hd. revert ks. induction num as [|n num IH]; intros [|k ks]; cbn [coefs map dot zeval]; try (unfold Rdiv; ring).
  rewrite IH, plus_IZR, mult_IZR, <- pow_IZR. unfold Rdiv at 2. rewrite Rpow_mult_distr, pow_inv. field. split; first [exact Hd|now apply pow_nonzero].
Qed.
Lemma samples_powers ks xs ys : length xs = length ys -> samples (map (fun k => map (fun x => x ^ k) xs) ks) ys = map (fun p => (map (fun k => fst p ^ k) ks, snd p)) (combine xs ys).
Proof.
  revert ys. induction xs as [|x xs IH]; intros [|y ys] L; cbn in L; try discriminate; cbn [samples combine map]; [reflexivity|]. f_equal.
  - rewrite map_map. reflexivity.
  - rewrite map_map. cbn [tl map]. apply IH. lia.
Qed.

Lemma polyfit_ints deg data num den s u : s <> 0 -> u <> 0 -> den <> 0%Z -> length num = S deg ->
  let xs := map (fun p => IZR (fst p) / s) data in let ys := map (fun p => IZR (snd p) / u) data in
  independent (S deg) (map (fun p => (map (fun k => fst p ^ k) (powers deg), snd p)) (combine xs ys)) ->
  normal_eqs num den (powers deg) data = true ->
  polyfit xs ys deg = Ok (coefs num (powers deg) s (IZR den * u)).
Proof.
  intros Hs Hu Hd L xs ys I E. assert (Lk : length (powers deg) = S deg) by (unfold powers; now rewrite rev_length, seq_length).
  assert (Hdu : IZR den * u <> 0) by (apply Rmult_integral_contrapositive; split; [now apply not_0_IZR|exact Hu]).
  assert (Lxy : length xs = length ys) by (unfold xs, ys; now rewrite !map_length).
  set (H := vander deg xs). assert (LH : length H = S deg) by (unfold H, vander; now rewrite map_length).
  assert (W : Forall (fun r => length r = length ys) H) by (unfold H, vander; rewrite Forall_map; apply Forall_forall; intros k _; now rewrite map_length).
  destruct (normal_fit_independent H ys W) as [p P]; [rewrite LH; unfold H, vander; rewrite samples_powers by exact Lxy; exact I|].
  unfold polyfit. fold H. unfold normal_fit in P. rewrite P. f_equal. symmetry.
  apply linalg_solve_Ok in P; [|unfold gram, matvec; now rewrite !map_length|apply gram_square]. destruct P as (_ & _ & U). apply U.
  { unfold gram. rewrite map_length, LH, coefs_length by congruence. exact Lk. }
  rewrite (gram_matvec H _ ys W). unfold H at 2. unfold vander. rewrite samples_powers by exact Lxy. rewrite map_map. cbn [fst].
  unfold matvec, H, vander. rewrite !map_map. apply map_ext_in. intros k Hk. unfold normal_eqs in E. cbv zeta in E. rewrite forallb_forall in E. specialize (E k Hk). apply Z.eqb_eq in E.
  assert (Q : forall ds : list (Z * Z), let xs := map (fun p => IZR (fst p) / s) ds in let ys := map (fun p => IZR (snd p) / u) ds in
    dot (map (fun x => x ^ k) xs) (map (fun p => dot (coefs num (powers deg) s (IZR den * u)) (map (fun k => fst p ^ k) (powers deg))) (combine xs ys)) - dot (map (fun x => x ^ k) xs) ys
    = IZR (moment k (residuals num den (powers deg) ds)) / (s ^ k * (IZR den * u))).
  { intros ds. cbv zeta. induction ds as [|[z w] ds IH]; unfold residuals in *; cbn [map combine dot moment fst snd]; [unfold Rdiv; ring|].
    rewrite dot_coefs by assumption. rewrite plus_IZR, mult_IZR, minus_IZR, mult_IZR, <- pow_IZR.
    match goal with |- ?a * ?b + ?c - (?a * ?d + ?e) = _ => replace (a * b + c - (a * d + e)) with (a * (b - d) + (c - e)) by ring end. rewrite IH.
    unfold Rdiv at 1. rewrite Rpow_mult_distr, pow_inv. field. repeat split; first [exact Hu|now apply not_0_IZR|now apply pow_nonzero]. }
  specialize (Q data). cbv zeta in Q. fold xs ys in Q. rewrite E in Q. unfold Rdiv at 1 in Q. rewrite Rmult_0_l in Q. lra.
Qed.

(** Solutions of the integer normal equations, found by a script and checked below. *)
Definition r2t_num : list Z := [14792412900109229; 13555407636784253425; (-61923827798826312238435); 293285070649111212761815; 209114217491530995101467687806; 93672670075173993101449260]%Z.
Definition r2t_den : Z := 50822675793536557928160%Z.
Definition t2r_num : list Z := [3765393432589477054106439012846973671439395373577645801682268886700105355045041695605224862713324418863219740437339479354709321096395631802968074585423134776997689376013806966262586500763923268802119980335398997743574663; (-2060712537116633446177615623370565700288030575747159402671570825366387653001034774773101010191767486391307968891085639994835548969971883553519271244033825893592305650010140417040799005790505155645559433714724142080006363752313695); 255840176304870750130820705101042578689888076546289958227683428998874758949910405446132132330840175123685746909449804175756965652380359883482519437161873566952926509797161615351376114682866190493667747854758930598058601684554611012496191615; (-111688931850307948893075833276345315244728786722381298934681244655801610488513139275709191381177796183334972311556665594262290570007987642193073434375143969027876280211424162310145932683858298837429155462890839593388991493838356856705286221905445); 15299388187628792486631112692372708066261143196301005760008707140323423815920561684230399368158988689975897119676185021896347102533563051232587192285450219728801513734804601386214349934045180527355431083514312760691067772249344580184980555740998737152830456902; 6411406536072039693134271326942050805259641966800516203295487028910681427299716151921842258712086646207354821268603130602127093153840173248552534202965302846225046121653984768897277088977521773183312589938981830106518503394194717407697559187433404695609319896080]%Z.
Definition t2r_den : Z := 62954221497639915123651468988570307161785448894494692166812010032770760746823027137293044599306599817905411361771117441380516030632776363252524354012501476479350499977316724097761001091556495450037380152029420561894713692399195550562403777771145927277490038614306640%Z.

Lemma powers5 : powers 5 = [5; 4; 3; 2; 1; 0]%nat.
Proof. reflexivity. Qed.
(** The 416 rows used. *)
Definition used : list (Z * Z) := filter (fun r => Z.leb (fst r) 415) echo22_platescale.
Lemma used_rows : filter (fun r => Rleb (fst r) rscale) echo22 = map (fun r => (IZR (fst r), IZR (snd r) / 1000000000)) used.
Proof.
  unfold echo22, used, rscale. induction echo22_platescale as [|r l IH]; [reflexivity|]. cbn [map filter fst]. rewrite IH.
  destruct (Z.leb_spec (fst r) 415) as [H|H].
  - assert (Rleb (IZR (fst r)) 415 = true) as -> by (apply Rleb_true; now apply IZR_le). reflexivity.
  - assert (Rleb (IZR (fst r)) 415 = false) as -> by (apply Rleb_false; now apply IZR_lt). reflexivity.
Qed.

Lemma r2t_normal : normal_eqs r2t_num r2t_den (powers 5) used = true.
Proof. vm_cast_no_check (eq_refl true). Qed.
Definition swap (p : Z * Z) : Z * Z := (snd p, fst p).
Lemma t2r_normal : normal_eqs t2r_num t2r_den (powers 5) (map swap used) = true.
Proof. vm_cast_no_check (eq_refl true). Qed.

Lemma combine_map {A B C} (f : A -> B) (g : A -> C) l : combine (map f l) (map g l) = map (fun a => (f a, g a)) l.
Proof. induction l; cbn; [reflexivity|]. now f_equal. Qed.
(** A polynomial of degree 5 that vanishes at the rows 0, 83, 166, 249, 332, 415 is zero. *)
Lemma r2t_independent : independent 6 (map (fun p => (map (fun k => fst p ^ k) (powers 5), snd p)) (combine (map (fun p => IZR (fst p) / 415) used) (map (fun p => IZR (snd p) / 1000000000) used))).
Proof.
  intros p L H. do 6 (destruct p as [|? p]; [discriminate|]). destruct p; [|discriminate].
  assert (K : forall i z w, nth_error used i = Some (z, w) -> combination [r; r0; r1; r2; r3; r4] (map (fun k => (IZR z / 415) ^ k) (powers 5)) = 0).
  { intros i z w E. apply (H (map (fun k => (IZR z / 415) ^ k) (powers 5), IZR w / 1000000000)). apply in_map_iff. exists (IZR z / 415, IZR w / 1000000000). split; [reflexivity|].
    apply nth_error_In in E. rewrite combine_map. apply in_map_iff. exists (z, w). split; [reflexivity|]. exact E. }
  pose proof (K 0%nat _ _ eq_refl) as K0. pose proof (K 83%nat _ _ eq_refl) as K1. pose proof (K 166%nat _ _ eq_refl) as K2.
  pose proof (K 249%nat _ _ eq_refl) as K3. pose proof (K 332%nat _ _ eq_refl) as K4. pose proof (K 415%nat _ _ eq_refl) as K5.
  clear K H. rewrite powers5 in *. cbn [map combination pow] in *. 
  cbn [repeat]. repeat f_equal; lra.
Qed.
Lemma t2r_independent : independent 6 (map (fun p => (map (fun k => fst p ^ k) (powers 5), snd p)) (combine (map (fun p => IZR (fst p) / 1000000000) (map swap used)) (map (fun p => IZR (snd p) / 1) (map swap used)))).
Proof.
  intros p L H. do 6 (destruct p as [|? p]; [discriminate|]). destruct p; [|discriminate].
  assert (K : forall i z w, nth_error used i = Some (z, w) -> combination [r; r0; r1; r2; r3; r4] (map (fun k => (IZR w / 1000000000) ^ k) (powers 5)) = 0).
  { intros i z w E. apply (H (map (fun k => (IZR w / 1000000000) ^ k) (powers 5), IZR z / 1)). apply in_map_iff. exists (IZR w / 1000000000, IZR z / 1). split; [reflexivity|].
    apply nth_error_In in E. rewrite combine_map. apply in_map_iff. exists (w, z). split; [reflexivity|]. apply in_map_iff. exists (z, w). split; [reflexivity|exact E]. }
  pose proof (K 0%nat _ _ eq_refl) as K0. pose proof (K 83%nat _ _ eq_refl) as K1. pose proof (K 166%nat _ _ eq_refl) as K2.
  pose proof (K 249%nat _ _ eq_refl) as K3. pose proof (K 332%nat _ _ eq_refl) as K4. pose proof (K 415%nat _ _ eq_refl) as K5.
  clear K H. rewrite powers5 in *. cbn [map combination pow] in *.
  cbn [repeat]. repeat f_equal; lra.
Qed.

Definition r2t : list R := coefs r2t_num (powers 5) 415 (IZR r2t_den * 1000000000).
Definition t2r : list R := coefs t2r_num (powers 5) 1000000000 (IZR t2r_den * 1).
Lemma fit_values : fit_r2theta 5 = Ok (r2t, t2r).
Proof.
  unfold fit_r2theta. cbv zeta. rewrite used_rows. rewrite !map_map. cbn [fst snd].
  pose proof (polyfit_ints 5 used r2t_num r2t_den 415 1000000000 ltac:(lra) ltac:(lra) ltac:(discriminate) eq_refl r2t_independent r2t_normal) as A.
  pose proof (polyfit_ints 5 (map swap used) t2r_num t2r_den 1000000000 1 ltac:(lra) ltac:(lra) ltac:(discriminate) eq_refl t2r_independent t2r_normal) as B.
  cbv zeta in A, B. unfold rscale. rewrite A. cbn [rbind]. rewrite !map_map in B. cbn [fst snd swap] in B.
  replace (map (fun x => IZR (fst x)) used) with (map (fun x => IZR (fst x) / 1) used) by (apply map_ext; intros; lra).
  rewrite B. reflexivity.
Qed.
