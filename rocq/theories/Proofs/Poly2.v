(** Polynomials in x and y with rational coefficients. *)
From Coq Require Import List Arith Lia QArith Qreals Reals Lra.
From Coquelicot Require Import Coquelicot.
From Verif.Spec Require Import DiskMean.
Import ListNotations.
Local Open Scope R_scope.

Definition mono : Type := (Q * (nat * nat))%type.
Definition poly2 := list mono.
Definition meval (m : mono) (x y : R) : R := Q2R (fst m) * (x ^ fst (snd m) * y ^ snd (snd m)).
Fixpoint peval (p : poly2) (x y : R) : R := match p with [] => 0 | m :: p => meval m x y + peval p x y end.

Lemma peval_app p q x y : peval (p ++ q) x y = peval p x y + peval q x y.
Proof. induction p; cbn; [lra|]. rewrite IHp. lra. Qed.
Definition mmono (a b : mono) : mono := (Qred (fst a * fst b)%Q, ((fst (snd a) + fst (snd b))%nat, (snd (snd a) + snd (snd b))%nat)).
Lemma Q2R_red q : Q2R (Qred q) = Q2R q.
Proof. apply Qeq_eqR, Qred_correct. Qed.
Lemma mmono_eval a b x y : meval (mmono a b) x y = meval a x y * meval b x y.
Proof. unfold meval, mmono. cbn [fst snd]. rewrite Q2R_red, Q2R_mult, !pow_add. ring. Qed.
(** Merging equal monomials. *)
Fixpoint minsert (a : mono) (p : poly2) : poly2 :=
  match p with
  | [] => [a]
  | b :: r => if (Nat.eqb (fst (snd a)) (fst (snd b)) && Nat.eqb (snd (snd a)) (snd (snd b)))%bool then (Qred (fst a + fst b)%Q, snd b) :: r else b :: minsert a r
  end.
Definition norm (p : poly2) : poly2 := fold_right minsert [] p.
Lemma minsert_eval a p x y : peval (minsert a p) x y = meval a x y + peval p x y.
Proof.
  induction p as [|b p IH]; cbn [minsert peval]; [reflexivity|]. destruct (Nat.eqb_spec (fst (snd a)) (fst (snd b))) as [E1|E1]; cbn [andb].
  - destruct (Nat.eqb_spec (snd (snd a)) (snd (snd b))) as [E2|E2]; cbn [peval].
    + unfold meval. cbn [fst snd]. rewrite Q2R_red, Q2R_plus, E1, E2. ring.
    + rewrite IH. ring.
  - cbn [peval]. rewrite IH. ring.
Qed.
Lemma norm_eval p x y : peval (norm p) x y = peval p x y.
Proof. induction p as [|a p IH]; cbn; [reflexivity|]. rewrite minsert_eval. fold (norm p). now rewrite IH. Qed.
Definition pscale (c : Q) (p : poly2) : poly2 := map (fun m => (Qred (c * fst m)%Q, snd m)) p.
Lemma pscale_eval c p x y : peval (pscale c p) x y = Q2R c * peval p x y.
Proof. unfold pscale. induction p as [|a p IH]; cbn [map peval]; [ring|]. rewrite IH. unfold meval. cbn [fst snd]. rewrite Q2R_red, Q2R_mult. ring. Qed.
Definition pmul (p q : poly2) : poly2 := norm (flat_map (fun a => map (mmono a) q) p).
Lemma pmul_eval p q x y : peval (pmul p q) x y = peval p x y * peval q x y.
Proof.
  unfold pmul. rewrite norm_eval. induction p as [|a p IH]; cbn; [ring|]. rewrite peval_app, IH.
  enough (E : peval (map (mmono a) q) x y = meval a x y * peval q x y) by (rewrite E; ring).
  clear. induction q as [|b q IH]; cbn; [ring|]. rewrite IH, mmono_eval. ring.
Qed.
Definition padd (p q : poly2) : poly2 := norm (p ++ q).
Lemma padd_eval p q x y : peval (padd p q) x y = peval p x y + peval q x y.
Proof. unfold padd. now rewrite norm_eval, peval_app. Qed.
(** Zero test. *)
Definition pis0 (p : poly2) : bool := forallb (fun m => Qeq_bool (fst m) 0) (norm p).
Lemma pis0_eval p x y : pis0 p = true -> peval p x y = 0.
Proof.
  unfold pis0. rewrite <- norm_eval. induction (norm p) as [|a q IH]; cbn; [reflexivity|]. intros E. apply andb_prop in E as [E1 E2].
  rewrite IH by exact E2. unfold meval. apply Qeq_bool_eq, Qeq_eqR in E1. rewrite E1. unfold Q2R. cbn. ring.
Qed.
Definition peqb (p q : poly2) : bool := pis0 (p ++ pscale (-1) q).
Lemma peqb_eval p q x y : peqb p q = true -> peval p x y = peval q x y.
Proof.
  intros E. apply (pis0_eval _ x y) in E. rewrite peval_app, pscale_eval in E. replace (Q2R (-1)) with (-1) in E by (unfold Q2R; cbn; lra). lra.
Qed.
(** Derivatives. *)
Definition mdx (m : mono) : mono := (Qred (fst m * inject_Z (Z.of_nat (fst (snd m))))%Q, (pred (fst (snd m)), snd (snd m))).
Definition mdy (m : mono) : mono := (Qred (fst m * inject_Z (Z.of_nat (snd (snd m))))%Q, (fst (snd m), pred (snd (snd m)))).
Definition pdx (p : poly2) : poly2 := map mdx p.
Definition pdy (p : poly2) : poly2 := map mdy p.
Lemma Q2R_nat n : Q2R (inject_Z (Z.of_nat n)) = INR n.
Proof. unfold Q2R, inject_Z. cbn. rewrite INR_IZR_INZ. field. Qed.
Lemma pdx_derive p x y : derivable_pt_lim (fun t => peval p t y) x (peval (pdx p) x y).
Proof.
  apply is_derive_Reals. unfold pdx, pdy. induction p as [|a p IH]; cbn [map peval]; [auto_derive; [exact I|reflexivity]|].
  apply (is_derive_plus (fun t => meval a t y) (fun t => peval p t y)); [|exact IH]. unfold meval, mdx. cbn [fst snd]. rewrite Q2R_red, Q2R_mult, Q2R_nat. auto_derive; [exact I|]. ring.
Qed.
Lemma pdy_derive p x y : derivable_pt_lim (fun t => peval p x t) y (peval (pdy p) x y).
Proof.
  apply is_derive_Reals. unfold pdx, pdy. induction p as [|a p IH]; cbn [map peval]; [auto_derive; [exact I|reflexivity]|].
  apply (is_derive_plus (fun t => meval a x t) (fun t => peval p x t)); [|exact IH]. unfold meval, mdy. cbn [fst snd]. rewrite Q2R_red, Q2R_mult, Q2R_nat. auto_derive; [exact I|]. ring.
Qed.
(** Mean over the unit disk. *)
Fixpoint w0 (i j : nat) : Q := (match j with O => if Nat.eqb i 0 then 1 else 0 | S O => 0 | S (S j') => Qred ((Z.of_nat (j' + 1) # Pos.of_nat (i + j' + 2)) * w0 i j') end)%Q.
Fixpoint ww (i j : nat) : Q := (match i with O => w0 0 j | S O => w0 1 j | S (S i') => Qred ((Z.of_nat (i' + 1) # Pos.of_nat (i' + j + 2)) * ww i' j) end)%Q.
Definition mmean (m : mono) : Q := Qred (fst m * (2 # Pos.of_nat (fst (snd m) + snd (snd m) + 2)) * ww (fst (snd m)) (snd (snd m)))%Q.
Fixpoint pmean (p : poly2) : Q := match p with [] => 0%Q | m :: p => Qred (mmean m + pmean p)%Q end.
Lemma Q2R_frac a b : (0 < b)%nat -> Q2R (Z.of_nat a # Pos.of_nat b) = INR a / INR b.
Proof.
  intros H. unfold Q2R. cbn [Qnum Qden]. rewrite <- INR_IZR_INZ. unfold Rdiv. f_equal. f_equal. rewrite INR_IZR_INZ. f_equal. destruct b; [lia|]. rewrite <- Pos.of_nat_succ. cbn. lia.
Qed.
Ltac req := match goal with |- @eq _ ?a ?b => change (@eq R a b) end.
Lemma trig_base (i j : nat) : (i <= 1)%nat -> (j <= 1)%nat -> is_RInt (fun t => cos t ^ i * sin t ^ j) 0 (2 * PI) (2 * PI * (if Nat.eqb i 0 then if Nat.eqb j 0 then 1 else 0 else 0)).
Proof.
  intros Hi Hj. assert (C : cos (2 * PI) = 1) by apply cos_2PI. assert (S : sin (2 * PI) = 0) by apply sin_2PI.
  destruct i as [|[|i]]; [| |lia]; (destruct j as [|[|j]]; [| |lia]); cbn [Nat.eqb].
  - apply (is_RInt_ext (fun _ => 1)); [intros; req; cbn [pow]; ring|]. replace (2 * PI * 1) with (scal (2 * PI - 0) 1) by (cbn; unfold mult; cbn; ring). apply (is_RInt_const 0 (2 * PI) (1 : R_NormedModule)).
  - apply (is_RInt_ext sin); [intros; req; cbn [pow]; ring|]. replace (2 * PI * 0) with (minus (- cos (2 * PI)) (- cos 0)) by (rewrite C, cos_0; unfold minus, plus, opp; cbn; ring).
    apply (is_RInt_derive (fun t => - cos t)); [intros x _; auto_derive; [exact I|req; ring]|intros x _; apply continuity_pt_filterlim, continuity_sin].
  - apply (is_RInt_ext cos); [intros; req; cbn [pow]; ring|]. replace (2 * PI * 0) with (minus (sin (2 * PI)) (sin 0)) by (rewrite S, sin_0; unfold minus, plus, opp; cbn; ring).
    apply (is_RInt_derive sin); [intros x _; auto_derive; [exact I|req; ring]|intros x _; apply continuity_pt_filterlim, continuity_cos].
  - apply (is_RInt_ext (fun t => cos t * sin t)); [intros; req; cbn [pow]; ring|]. replace (2 * PI * 0) with (minus (sin (2 * PI) ^ 2 / 2) (sin 0 ^ 2 / 2)) by (rewrite S, sin_0; unfold minus, plus, opp; cbn; field).
    apply (is_RInt_derive (fun t => sin t ^ 2 / 2)); [intros x _; auto_derive; [exact I|field]|].
    intros x _. apply continuity_pt_filterlim, continuity_pt_mult; [apply continuity_cos|apply continuity_sin].
Qed.
Lemma trig_cont (i j : nat) x : continuous (fun t => cos t ^ i * sin t ^ j) x.
Proof. apply (ex_derive_continuous (fun t => cos t ^ i * sin t ^ j)). auto_derive. exact I. Qed.
Lemma cont_lin (a b : R) (i j k l : nat) x : continuous (fun t => a * (cos t ^ i * sin t ^ j) + b * (cos t ^ k * sin t ^ l)) x.
Proof. apply (ex_derive_continuous (fun t => a * (cos t ^ i * sin t ^ j) + b * (cos t ^ k * sin t ^ l))). auto_derive. exact I. Qed.
Lemma sin_sq x : sin x ^ 2 = 1 - cos x ^ 2.
Proof. pose proof (sin2_cos2 x) as H. unfold Rsqr in H. lra. Qed.
Lemma trig_red_i i j v : is_RInt (fun t => cos t ^ i * sin t ^ j) 0 (2 * PI) v ->
  is_RInt (fun t => cos t ^ (S (S i)) * sin t ^ j) 0 (2 * PI) ((INR i + 1) / (INR i + INR j + 2) * v).
Proof.
  intros H. pose proof (pos_INR i). pose proof (pos_INR j). set (N := INR i + INR j + 2).
  assert (HD : is_RInt (fun t => N * (cos t ^ (S (S i)) * sin t ^ j) + - (INR i + 1) * (cos t ^ i * sin t ^ j)) 0 (2 * PI) 0).
  { replace 0 with (minus (cos (2 * PI) ^ (S i) * sin (2 * PI) ^ (S j)) (cos 0 ^ (S i) * sin 0 ^ (S j))) at 2 by (rewrite sin_2PI, sin_0; unfold minus, plus, opp; cbn; ring).
    apply (is_RInt_derive (fun t => cos t ^ (S i) * sin t ^ (S j))); [|intros x _; apply cont_lin].
    intros x _. auto_derive; [exact I|]. change (match i with O => 1 | S _ => INR i + 1 end) with (INR (S i)). change (match j with O => 1 | S _ => INR j + 1 end) with (INR (S j)).
    rewrite !S_INR. cbn [pow]. unfold N. pose proof (sin_sq x) as Q.
    transitivity (- (INR i + 1) * sin x ^ 2 * (cos x ^ i * sin x ^ j) + (INR j + 1) * cos x ^ 2 * (cos x ^ i * sin x ^ j)); [ring|]. rewrite Q. ring. }
  apply (is_RInt_scal _ _ _ (INR i + 1)) in H. pose proof (is_RInt_plus _ _ _ _ _ _ HD H) as P. apply (is_RInt_scal _ _ _ (/ N)) in P.
  eapply is_RInt_ext in P; [|intros x _; unfold scal, plus; cbn; unfold mult; cbn; reflexivity].
  replace ((INR i + 1) / N * v) with (scal (/ N) (plus 0 (scal (INR i + 1) v))) by (unfold scal, plus; cbn; unfold mult; cbn; unfold Rdiv; ring).
  apply (is_RInt_ext (fun x => / N * (N * (cos x ^ S (S i) * sin x ^ j) + - (INR i + 1) * (cos x ^ i * sin x ^ j) + (INR i + 1) * (cos x ^ i * sin x ^ j)))); [|exact P].
  intros x _. req. field. unfold N. lra.
Qed.

Lemma trig_red_j i j v : is_RInt (fun t => cos t ^ i * sin t ^ j) 0 (2 * PI) v ->
  is_RInt (fun t => cos t ^ i * sin t ^ (S (S j))) 0 (2 * PI) ((INR j + 1) / (INR i + INR j + 2) * v).
Proof.
  intros H. pose proof (pos_INR i). pose proof (pos_INR j). assert (N : INR i + INR j + 2 <> 0) by lra.
  assert (P := is_RInt_plus _ _ _ _ _ _ H (is_RInt_scal _ _ _ (-1) _ (trig_red_i i j v H))).
  replace ((INR j + 1) / (INR i + INR j + 2) * v) with (plus v (scal (-1) ((INR i + 1) / (INR i + INR j + 2) * v))) by (unfold scal, plus; cbn; unfold mult; cbn; field; exact N).
  eapply is_RInt_ext; [|exact P]. intros x _. unfold scal, plus; cbn; unfold mult; cbn. pose proof (sin_sq x) as Q.
  transitivity (cos x ^ i * sin x ^ j * (1 - cos x ^ 2)); [ring|]. rewrite <- Q. ring.
Qed.
Lemma w0_spec i j : (i <= 1)%nat -> is_RInt (fun t => cos t ^ i * sin t ^ j) 0 (2 * PI) (2 * PI * Q2R (w0 i j)).
Proof.
  intros Hi. revert j. assert (W : forall j, is_RInt (fun t => cos t ^ i * sin t ^ j) 0 (2 * PI) (2 * PI * Q2R (w0 i j)) /\ is_RInt (fun t => cos t ^ i * sin t ^ (S j)) 0 (2 * PI) (2 * PI * Q2R (w0 i (S j)))).
  { induction j as [|j [IH1 IH2]].
    - split.
      + pose proof (trig_base i 0 Hi ltac:(lia)) as B. cbn [Nat.eqb] in B. cbn [w0]. replace (Q2R (if Nat.eqb i 0 then 1 else 0)) with (if Nat.eqb i 0 then 1 else 0) by (destruct (Nat.eqb i 0); unfold Q2R; cbn; lra). exact B.
      + pose proof (trig_base i 1 Hi ltac:(lia)) as B. cbn [Nat.eqb] in B. cbn [w0]. replace (Q2R 0) with (if Nat.eqb i 0 then 0 else 0) by (destruct (Nat.eqb i 0); unfold Q2R; cbn; lra). exact B.
    - split; [exact IH2|]. apply trig_red_j in IH1. change (w0 i (S (S j))) with (Qred ((Z.of_nat (j + 1) # Pos.of_nat (i + j + 2)) * w0 i j)%Q). rewrite Q2R_red, Q2R_mult, Q2R_frac by lia.
      rewrite !plus_INR. change (INR 1) with 1. change (INR 2) with (1 + 1). replace (1 + 1) with 2 by ring. replace (2 * PI * ((INR j + 1) / (INR i + INR j + 2) * Q2R (w0 i j))) with ((INR j + 1) / (INR i + INR j + 2) * (2 * PI * Q2R (w0 i j))) by ring. exact IH1. }
  intros j. exact (proj1 (W j)).
Qed.
Lemma ww_spec i j : is_RInt (fun t => cos t ^ i * sin t ^ j) 0 (2 * PI) (2 * PI * Q2R (ww i j)).
Proof.
  revert i. assert (W : forall i, is_RInt (fun t => cos t ^ i * sin t ^ j) 0 (2 * PI) (2 * PI * Q2R (ww i j)) /\ is_RInt (fun t => cos t ^ (S i) * sin t ^ j) 0 (2 * PI) (2 * PI * Q2R (ww (S i) j))).
  { induction i as [|i [IH1 IH2]].
    - split; [apply (w0_spec 0); lia|apply (w0_spec 1); lia].
    - split; [exact IH2|]. apply trig_red_i in IH1. change (ww (S (S i)) j) with (Qred ((Z.of_nat (i + 1) # Pos.of_nat (i + j + 2)) * ww i j)%Q). rewrite Q2R_red, Q2R_mult, Q2R_frac by lia.
      rewrite !plus_INR. change (INR 1) with 1. change (INR 2) with (1 + 1). replace (1 + 1) with 2 by ring. replace (2 * PI * ((INR i + 1) / (INR i + INR j + 2) * Q2R (ww i j))) with ((INR i + 1) / (INR i + INR j + 2) * (2 * PI * Q2R (ww i j))) by ring. exact IH1. }
  intros i. exact (proj1 (W i)).
Qed.
Lemma pow_int n : is_RInt (fun r => r ^ n) 0 1 (/ (INR n + 1)).
Proof.
  pose proof (pos_INR n). replace (/ (INR n + 1)) with (minus (1 ^ (S n) / (INR n + 1)) (0 ^ (S n) / (INR n + 1))) by (rewrite pow1; cbn [pow]; unfold minus, plus, opp; cbn; field; lra).
  apply (is_RInt_derive (fun r => r ^ (S n) / (INR n + 1))).
  - intros x _. auto_derive; [exact I|]. change (match n with O => 1 | S _ => INR n + 1 end) with (INR (S n)). rewrite S_INR. field. lra.
  - intros x _. apply (ex_derive_continuous (fun r => r ^ n)). auto_derive. exact I.
Qed.
Lemma RIplus (f g : R -> R) a b (u v : R) : is_RInt f a b u -> is_RInt g a b v -> is_RInt (fun x => f x + g x) a b (u + v).
Proof. intros F G. exact (is_RInt_plus f g a b u v F G). Qed.
Lemma RIscal (f : R -> R) a b k (u : R) : is_RInt f a b u -> is_RInt (fun x => k * f x) a b (k * u).
Proof. intros F. exact (is_RInt_scal f a b k u F). Qed.
Lemma RIext (f g : R -> R) a b (u v : R) : (forall x, f x = g x) -> u = v -> is_RInt f a b u -> is_RInt g a b v.
Proof. intros E <- F. eapply is_RInt_ext; [|exact F]. intros x _. apply E. Qed.
Lemma RI0 a b : is_RInt (fun _ : R => 0) a b 0.
Proof. pose proof (is_RInt_const a b (0 : R_NormedModule)) as K. apply (RIext (fun _ => 0) _ a b (scal (b - a) 0)); [reflexivity| |exact K]. unfold scal; cbn; unfold mult; cbn; ring. Qed.
Lemma pmean_disk p : disk_mean (peval p) (Q2R (pmean p)).
Proof.
  induction p as [|a p IH].
  - exists (fun _ => 0). split.
    + intros t. apply (RIext (fun _ => 0) _ _ _ 0); [intros; cbn; ring|reflexivity|apply RI0].
    + apply (RIext (fun _ => 0) _ _ _ 0); [reflexivity|unfold Q2R; cbn; ring|apply RI0].
  - destruct IH as (g & G1 & G2). destruct a as [c [i j]].
    exists (fun t => (Q2R c * / INR (i + j + 2)) * (cos t ^ i * sin t ^ j) + g t). split.
    + intros t. apply (RIext (fun r => Q2R c * (cos t ^ i * sin t ^ j) * r ^ (i + j + 1) + peval p (r * cos t) (r * sin t) * r) _ _ _ (Q2R c * (cos t ^ i * sin t ^ j) * / (INR (i + j + 1) + 1) + g t)).
      * intros x. cbn [peval]. unfold meval. cbn [fst snd]. rewrite !Rpow_mult_distr, !pow_add. cbn [pow]. ring.
      * replace (INR (i + j + 2)) with (INR (i + j + 1) + 1) by (rewrite !plus_INR; cbn; ring). ring.
      * apply RIplus; [|apply G1]. apply RIscal, pow_int.
    + cbn [pmean]. apply (RIext (fun t => (Q2R c * / INR (i + j + 2)) * (cos t ^ i * sin t ^ j) + g t) _ _ _ ((Q2R c * / INR (i + j + 2)) * (2 * PI * Q2R (ww i j)) + Q2R (pmean p) * PI)); [reflexivity| |].
      * rewrite Q2R_red, Q2R_plus. unfold mmean. cbn [fst snd]. rewrite Q2R_red, !Q2R_mult. change (2 # Pos.of_nat (i + j + 2)) with (Z.of_nat 2 # Pos.of_nat (i + j + 2)). rewrite Q2R_frac by lia. change (INR 2) with 2. unfold Rdiv. ring.
      * apply RIplus; [|exact G2]. apply RIscal, ww_spec.
Qed.
Lemma disk_mean_ext f g v : (forall x y, f x y = g x y) -> disk_mean f v -> disk_mean g v.
Proof.
  intros E (h & H1 & H2). exists h. split; [|exact H2]. intros t. eapply RIext; [|reflexivity|apply H1]. intros x. cbn. now rewrite E.
Qed.
Lemma disk_mean_scale c f v : disk_mean f v -> disk_mean (fun x y => c * f x y) (c * v).
Proof.
  intros (h & H1 & H2). exists (fun t => c * h t). split.
  - intros t. eapply RIext; [|reflexivity|exact (RIscal _ _ _ c _ (H1 t))]. intros x. cbn. ring.
  - eapply RIext; [| |exact (RIscal _ _ _ c _ H2)]; [reflexivity|]. ring.
Qed.
