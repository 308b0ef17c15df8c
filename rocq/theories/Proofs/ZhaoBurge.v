(** The 33 vector polynomials: gradients, divergence free fields, and an orthonormal system. *)
From Verif.Model Require Import ZhaoBurge.
From Verif.Spec Require Import LinAlg DiskMean ZhaoBurge SimpleCorr.
From Verif.Proofs Require Import Prelude Trig Noll Poly2 Zernike LinAlg.
From Coq Require Import Lra Lia ZArith QArith Qreals.
Local Open Scope R_scope.

(** Each term is 1/2 sqrt(K) times sums of Zernike polynomials with signs. *)
Definition zbdata (polid : Z) : option (Z * list (Z * Z) * list (Z * Z)) :=
  match polid with
  | 0 => Some (4, [(1, 1)], [])
  | 1 => Some (4, [], [(1, 1)])
  | 2 => Some (8, [(1, 2)], [(1, 3)])
  | 3 => Some (8, [(1, 3)], [(1, 2)])
  | 4 => Some (8, [(1, 2)], [(-1, 3)])
  | 5 => Some (6, [(1, 5)], [(1, 4); (-1, 6)])
  | 6 => Some (6, [(1, 4); (1, 6)], [(1, 5)])
  | 7 => Some (12, [(1, 5)], [(1, 6)])
  | 8 => Some (12, [(1, 6)], [(-1, 5)])
  | 9 => Some (16, [(1, 8)], [(1, 7)])
  | 10 => Some (8, [(1, 8); (1, 10)], [(-1, 7); (1, 9)])
  | 11 => Some (8, [(1, 7); (1, 9)], [(1, 8); (-1, 10)])
  | 12 => Some (16, [(1, 10)], [(-1, 9)])
  | 13 => Some (16, [(1, 9)], [(1, 10)])
  | 14 => Some (10, [(1, 11); (1, 12)], [(1, 13)])
  | 15 => Some (10, [(1, 13)], [(1, 11); (-1, 12)])
  | 16 => Some (10, [(1, 12); (1, 14)], [(1, 15); (-1, 13)])
  | 17 => Some (10, [(1, 13); (1, 15)], [(1, 12); (-1, 14)])
  | 18 => Some (20, [(1, 14)], [(-1, 15)])
  | 19 => Some (20, [(1, 15)], [(1, 14)])
  | 20 => Some (24, [(1, 16)], [(1, 17)])
  | 21 => Some (12, [(1, 17); (1, 19)], [(1, 16); (-1, 18)])
  | 22 => Some (12, [(1, 16); (1, 18)], [(-1, 17); (1, 19)])
  | 23 => Some (12, [(1, 19); (1, 21)], [(1, 18); (-1, 20)])
  | 24 => Some (12, [(1, 18); (1, 20)], [(-1, 19); (1, 21)])
  | 25 => Some (24, [(1, 21)], [(1, 20)])
  | 26 => Some (24, [(1, 20)], [(-1, 21)])
  | 27 => Some (8, [(1, 3)], [(-1, 2)])
  | 28 => Some (6, [(1, 4); (-1, 6)], [(-1, 5)])
  | 29 => Some (6, [(1, 5)], [(-1, 4); (-1, 6)])
  | 30 => Some (16, [(1, 7)], [(-1, 8)])
  | 31 => Some (8, [(-1, 7); (1, 9)], [(-1, 8); (-1, 10)])
  | 32 => Some (8, [(1, 8); (-1, 10)], [(-1, 7); (-1, 9)])
  | _ => None
  end%Z.
Definition comb (l : list (Z * Z)) : poly2 := norm (flat_map (fun sn => pscale (inject_Z (fst sn)) (zp (snd sn))) l).
Lemma Q2R_inject z : Q2R (inject_Z z) = IZR z.
Proof. unfold Q2R, inject_Z. cbn. field. Qed.
Lemma Q2R_0 : Q2R 0 = 0.
Proof. unfold Q2R. cbn. field. Qed.
Lemma comb_eval l x y : peval (comb l) x y = fold_right (fun sn r => IZR (fst sn) * peval (zp (snd sn)) x y + r) 0 l.
Proof. unfold comb. rewrite norm_eval. induction l as [|sn l IH]; cbn [flat_map fold_right]; [reflexivity|]. now rewrite peval_app, pscale_eval, IH, Q2R_inject. Qed.
Lemma rh_mul s v : (0 <= s)%Z -> rh * (sqrt (IZR s) * v) = 0.5 * (sqrt (IZR (2 * s)) * v).
Proof.
  intros H. apply IZR_le in H. rewrite mult_IZR. unfold rh. rewrite <- !Rmult_assoc. f_equal. rewrite <- sqrt_mult by lra. replace (2 * IZR s) with (4 * (0.5 * IZR s)) by lra.
  rewrite (sqrt_mult 4) by lra. replace (sqrt 4) with 2 by (replace 4 with (2 * 2) by ring; rewrite sqrt_square; lra). lra.
Qed.
Lemma rh_mul' s v : (0 <= s)%Z -> - rh * (sqrt (IZR s) * v) = - (0.5 * (sqrt (IZR (2 * s)) * v)).
Proof. intros H. rewrite <- rh_mul by exact H. ring. Qed.
Definition half_root (K : Z) : R := 0.5 * sqrt (IZR K).
Lemma term_poly polid K A B x y : zbdata polid = Some (K, A, B) ->
  exists name, getZhaoBurgeTerm polid x y = Ok (half_root K * peval (comb A) x y, half_root K * peval (comb B) x y, name).
Proof.
  intros H. unfold zbdata in H.
  repeat match type of H with context [match ?v with _ => _ end] => is_var v; destruct v; try discriminate H end;
  injection H as <- <- <-; (eexists; cbn [getZhaoBurgeTerm]; rewrite !getZ_poly by lia; repeat match goal with |- context [nth (Z.to_nat ?n) squares 0%Z] => let v := eval vm_compute in (nth (Z.to_nat n) squares 0%Z) in change (nth (Z.to_nat n) squares 0%Z) with v end;
    rewrite ?comb_eval; cbn [fold_right fst snd]; rewrite ?rh_mul, ?rh_mul' by lia; unfold half_root; cbn [Z.mul Pos.mul];
    f_equal; f_equal; f_equal; try reflexivity; try (replace (sqrt 4) with 2 by (replace 4 with (2 * 2) by ring; rewrite sqrt_square; lra); rewrite sqrt_1); lra).
Qed.

(** *** Potentials *)
Definition pot (A B : poly2) : poly2 :=
  map (fun m => (Qred (fst m / inject_Z (Z.of_nat (S (fst (snd m))))), (S (fst (snd m)), snd (snd m)))) A ++
  map (fun m => (Qred (fst m / inject_Z (Z.of_nat (S (snd (snd m))))), (fst (snd m), S (snd (snd m))))) (filter (fun m => Nat.eqb (fst (snd m)) 0) B).
Definition is_gradient (p A B : poly2) : bool := (peqb (pdx p) A && peqb (pdy p) B)%bool.
Definition ids (n : nat) : list Z := map Z.of_nat (seq 0 n).
Lemma in_ids n z : (0 <= z < Z.of_nat n)%Z -> In z (ids n).
Proof. intros H. unfold ids. apply in_map_iff. exists (Z.to_nat z). split; [lia|]. apply in_seq. lia. Qed.
Lemma zbdata_some z : (0 <= z < 33)%Z -> exists K A B, zbdata z = Some (K, A, B).
Proof.
  intros H. pose proof (in_ids 33 z H) as I. assert (F : forallb (fun z => match zbdata z with Some _ => true | None => false end) (ids 33) = true) by (vm_compute; reflexivity).
  rewrite forallb_forall in F. specialize (F z I). destruct (zbdata z) as [[[K A] B]|]; [eauto|discriminate].
Qed.
Definition gradient_ok (z : Z) : bool := match zbdata z with Some (K, A, B) => is_gradient (pot (comb A) (comb B)) (comb A) (comb B) | None => false end.
Definition stream_ok (z : Z) : bool := match zbdata z with Some (K, A, B) => is_gradient (pot (pscale (-1) (comb B)) (comb A)) (pscale (-1) (comb B)) (comb A) | None => false end.
Lemma gradients_ok : forallb gradient_ok (ids 27) = true.
Proof. vm_compute. reflexivity. Qed.
Lemma streams_ok : forallb stream_ok (map (fun z => z + 27)%Z (ids 6)) = true.
Proof. vm_compute. reflexivity. Qed.
Lemma derive_scale c f x v : derivable_pt_lim f x v -> derivable_pt_lim (fun t => c * f t) x (c * v).
Proof. intros H. exact (derivable_pt_lim_scal f c x v H). Qed.
Lemma S_gradient polid : (0 <= polid <= 26)%Z -> exists phi : R -> R -> R, forall x y, exists vx vy name,
  getZhaoBurgeTerm polid x y = Ok (vx, vy, name) /\ derivable_pt_lim (fun t => phi t y) x vx /\ derivable_pt_lim (fun t => phi x t) y vy.
Proof.
  intros H. pose proof gradients_ok as G. rewrite forallb_forall in G. specialize (G polid (in_ids 27 polid ltac:(lia))). unfold gradient_ok in G.
  destruct (zbdata polid) as [[[K A] B]|] eqn:E; [|discriminate]. apply andb_prop in G as [G1 G2].
  exists (fun x y => half_root K * peval (pot (comb A) (comb B)) x y). intros x y. destruct (term_poly polid K A B x y E) as [name T]. do 3 eexists. split; [exact T|].
  rewrite <- (peqb_eval _ _ x y G1), <- (peqb_eval _ _ x y G2). split; [apply (derive_scale _ (fun t => peval _ t y)), pdx_derive|apply (derive_scale _ (fun t => peval _ x t)), pdy_derive].
Qed.
Lemma T_stream polid : (27 <= polid <= 32)%Z -> exists psi : R -> R -> R, forall x y, exists vx vy name,
  getZhaoBurgeTerm polid x y = Ok (vx, vy, name) /\ derivable_pt_lim (fun t => psi x t) y vx /\ derivable_pt_lim (fun t => psi t y) x (- vy).
Proof.
  intros H. pose proof streams_ok as G. rewrite forallb_forall in G. specialize (G polid). assert (I : In polid (map (fun z => z + 27)%Z (ids 6))).
  { apply in_map_iff. exists (polid - 27)%Z. split; [lia|]. apply in_ids. lia. }
  specialize (G I). unfold stream_ok in G. destruct (zbdata polid) as [[[K A] B]|] eqn:E; [|discriminate]. apply andb_prop in G as [G1 G2].
  exists (fun x y => half_root K * peval (pot (pscale (-1) (comb B)) (comb A)) x y). intros x y. destruct (term_poly polid K A B x y E) as [name T]. do 3 eexists. split; [exact T|].
  split.
  - rewrite <- (peqb_eval _ _ x y G2). apply (derive_scale _ (fun t => peval _ x t)), pdy_derive.
  - replace (- (half_root K * peval (comb B) x y)) with (half_root K * peval (pscale (-1) (comb B)) x y) by (rewrite pscale_eval; replace (Q2R (-1)) with (-1) by (unfold Q2R; cbn; lra); ring).
    rewrite <- (peqb_eval _ _ x y G1). apply (derive_scale _ (fun t => peval _ t y)), pdx_derive.
Qed.
(** Curl and divergence. *)
Definition curl_ok (z : Z) : bool := match zbdata z with Some (K, A, B) => peqb (pdy (comb A)) (pdx (comb B)) | None => false end.
Definition div_ok (z : Z) : bool := match zbdata z with Some (K, A, B) => pis0 (pdx (comb A) ++ pdy (comb B)) | None => false end.
Lemma curls_ok : forallb curl_ok (ids 27) = true.
Proof. vm_compute. reflexivity. Qed.
Lemma divs_ok : forallb div_ok (map (fun z => z + 27)%Z (ids 6)) = true.
Proof. vm_compute. reflexivity. Qed.
Lemma S_curl polid : (0 <= polid <= 26)%Z -> forall x y, exists d,
  derivable_pt_lim (fun t => vx_of (getZhaoBurgeTerm polid x t)) y d /\ derivable_pt_lim (fun t => vy_of (getZhaoBurgeTerm polid t y)) x d.
Proof.
  intros H x y. pose proof curls_ok as G. rewrite forallb_forall in G. specialize (G polid (in_ids 27 polid ltac:(lia))). unfold curl_ok in G.
  destruct (zbdata polid) as [[[K A] B]|] eqn:E; [|discriminate]. exists (half_root K * peval (pdy (comb A)) x y). split.
  - apply (derivable_pt_lim_ext (fun t => half_root K * peval (comb A) x t)); [|apply derive_scale, pdy_derive]. intros t. destruct (term_poly polid K A B x t E) as [name ->]. reflexivity.
  - rewrite (peqb_eval _ _ x y G). apply (derivable_pt_lim_ext (fun t => half_root K * peval (comb B) t y)); [|apply (derive_scale _ (fun t => peval (comb B) t y)), pdx_derive]. intros t. destruct (term_poly polid K A B t y E) as [name ->]. reflexivity.
Qed.
Lemma T_div polid : (27 <= polid <= 32)%Z -> forall x y, exists d,
  derivable_pt_lim (fun t => vx_of (getZhaoBurgeTerm polid t y)) x d /\ derivable_pt_lim (fun t => vy_of (getZhaoBurgeTerm polid x t)) y (- d).
Proof.
  intros H x y. pose proof divs_ok as G. rewrite forallb_forall in G. specialize (G polid). assert (I : In polid (map (fun z => z + 27)%Z (ids 6))).
  { apply in_map_iff. exists (polid - 27)%Z. split; [lia|]. apply in_ids. lia. }
  specialize (G I). unfold div_ok in G. destruct (zbdata polid) as [[[K A] B]|] eqn:E; [|discriminate]. exists (half_root K * peval (pdx (comb A)) x y). split.
  - apply (derivable_pt_lim_ext (fun t => half_root K * peval (comb A) t y)); [|apply (derive_scale _ (fun t => peval (comb A) t y)), pdx_derive]. intros t. destruct (term_poly polid K A B t y E) as [name ->]. reflexivity.
  - apply (pis0_eval _ x y) in G. rewrite peval_app in G. replace (- (half_root K * peval (pdx (comb A)) x y)) with (half_root K * peval (pdy (comb B)) x y) by (replace (peval (pdy (comb B)) x y) with (- peval (pdx (comb A)) x y) by lra; ring).
    apply (derivable_pt_lim_ext (fun t => half_root K * peval (comb B) x t)); [|apply derive_scale, pdy_derive]. intros t. destruct (term_poly polid K A B x t E) as [name ->]. reflexivity.
Qed.

(** *** Orthonormality *)
Definition inner (A B A' B' : poly2) : Q := pmean (padd (pmul A A') (pmul B B')).
Definition table : list (Z * (Z * poly2 * poly2)) := map (fun z => (z, match zbdata z with Some (K, A, B) => (K, comb A, comb B) | None => (0%Z, [], []) end)) (ids 33).
Definition ortho_ok : bool :=
  let t := table in
  forallb (fun e => forallb (fun f => let '(z, (K, A, B)) := e in let '(z', (K', A', B')) := f in
    Qeq_bool (inner A B A' B') (if Z.eqb z z' then 4 / inject_Z K else 0)) t) t.
Lemma ortho_ok_true : ortho_ok = true.
Proof. vm_compute. reflexivity. Qed.
Lemma table_in z K A B : (0 <= z <= 32)%Z -> zbdata z = Some (K, A, B) -> In (z, (K, comb A, comb B)) table.
Proof. intros H E. unfold table. apply in_map_iff. exists z. rewrite E. split; [reflexivity|]. apply in_ids. lia. Qed.
Lemma zbK_pos z K A B : zbdata z = Some (K, A, B) -> (0 < K)%Z.
Proof.
  intros H. unfold zbdata in H. repeat match type of H with context [match ?v with _ => _ end] => is_var v; destruct v; try discriminate H end; injection H as <- <- <-; lia.
Qed.
Lemma orthonormal i j : (0 <= i <= 32)%Z -> (0 <= j <= 32)%Z ->
  disk_mean (fun x y => vx_of (getZhaoBurgeTerm i x y) * vx_of (getZhaoBurgeTerm j x y) + vy_of (getZhaoBurgeTerm i x y) * vy_of (getZhaoBurgeTerm j x y)) (if Z.eqb i j then 1 else 0).
Proof.
  intros Hi Hj. destruct (zbdata_some i ltac:(lia)) as (K & A & B & E). destruct (zbdata_some j ltac:(lia)) as (K' & A' & B' & E').
  pose proof ortho_ok_true as O. unfold ortho_ok in O. rewrite forallb_forall in O. specialize (O _ (table_in _ _ _ _ Hi E)). cbv beta in O. rewrite forallb_forall in O. specialize (O _ (table_in _ _ _ _ Hj E')). cbv beta iota in O. apply Qeq_bool_eq, Qeq_eqR in O.
  pose proof (pmean_disk (padd (pmul (comb A) (comb A')) (pmul (comb B) (comb B')))) as D. fold (inner (comb A) (comb B) (comb A') (comb B')) in D. rewrite O in D. clear O.
  apply (disk_mean_scale (half_root K * half_root K')) in D.
  replace (if Z.eqb i j then 1 else 0) with (half_root K * half_root K' * Q2R (if Z.eqb i j then 4 / inject_Z K else 0)).
  - eapply disk_mean_ext; [|exact D]. intros x y. cbn beta. destruct (term_poly i K A B x y E) as [n1 ->]. destruct (term_poly j K' A' B' x y E') as [n2 ->]. cbn [vx_of vy_of]. rewrite padd_eval, !pmul_eval. ring.
  - destruct (Z.eqb_spec i j) as [->|N]; [|unfold Q2R; cbn; ring]. rewrite E in E'. injection E' as <- <- <-. pose proof (zbK_pos _ _ _ _ E) as P. pose proof (IZR_lt _ _ P) as PR.
    unfold half_root. rewrite Q2R_div, Q2R_inject by (intros Q; apply Qeq_eqR in Q; rewrite Q2R_inject, Q2R_0 in Q; lra).
    replace (0.5 * sqrt (IZR K) * (0.5 * sqrt (IZR K))) with (0.25 * (sqrt (IZR K) * sqrt (IZR K))) by lra. rewrite sqrt_sqrt by lra. unfold Q2R. cbn. field. lra.
Qed.
(** The scalar polynomials of the table of normalisations. *)
Definition ztable : list (Z * poly2) := map (fun z => (z, zp z)) (map (fun z => z + 1)%Z (ids 37)).
Definition zortho_ok : bool :=
  let t := ztable in
  forallb (fun e => forallb (fun f => Qeq_bool (pmean (pmul (snd e) (snd f))) (if Z.eqb (fst e) (fst f) then 1 / inject_Z (nth (Z.to_nat (fst e)) squares 0%Z) else 0)) t) t.
Lemma zortho_ok_true : zortho_ok = true.
Proof. vm_compute. reflexivity. Qed.
Lemma getZ_orthonormal i j : (1 <= i <= 37)%Z -> (1 <= j <= 37)%Z -> disk_mean (fun x y => getZ i x y * getZ j x y) (if Z.eqb i j then 1 else 0).
Proof.
  intros Hi Hj. assert (I : forall z, (1 <= z <= 37)%Z -> In (z, zp z) ztable).
  { intros z Hz. unfold ztable. apply in_map_iff. exists z. split; [reflexivity|]. apply in_map_iff. exists (z - 1)%Z. split; [lia|]. apply in_ids. lia. }
  pose proof zortho_ok_true as O. unfold zortho_ok in O. rewrite forallb_forall in O. specialize (O _ (I i Hi)). cbv beta in O. rewrite forallb_forall in O. specialize (O _ (I j Hj)). cbv beta in O. cbn [fst snd] in O. apply Qeq_bool_eq, Qeq_eqR in O.
  pose proof (pmean_disk (pmul (zp i) (zp j))) as D. rewrite O in D. clear O. apply (disk_mean_scale (normalizeArea i * normalizeArea j)) in D.
  replace (if Z.eqb i j then 1 else 0) with (normalizeArea i * normalizeArea j * Q2R (if Z.eqb i j then 1 / inject_Z (nth (Z.to_nat i) squares 0%Z) else 0)).
  - eapply disk_mean_ext; [|exact D]. intros x y. cbn beta. rewrite !getZ_poly, pmul_eval by lia. unfold normalizeArea. ring.
  - destruct (Z.eqb_spec i j) as [->|N]; [|unfold Q2R; cbn; ring]. assert (P : (0 < nth (Z.to_nat j) squares 0)%Z).
    { assert (F : forallb (fun z => (0 <? nth (Z.to_nat z) squares 0)%Z) (map (fun z => z + 1)%Z (ids 37)) = true) by (vm_compute; reflexivity). rewrite forallb_forall in F. apply Z.ltb_lt, F. apply in_map_iff. exists (j - 1)%Z. split; [lia|]. apply in_ids. lia. }
    pose proof (IZR_lt _ _ P) as PR. unfold normalizeArea. rewrite Q2R_div, Q2R_inject by (intros Q; apply Qeq_eqR in Q; rewrite Q2R_inject, Q2R_0 in Q; lra).
    rewrite sqrt_sqrt by lra. unfold Q2R. cbn -[nth squares]. field. lra.
Qed.
Lemma squares_noll j : (1 <= j <= 37)%Z -> nth (Z.to_nat j) squares 0%Z = (let '(n, m) := convertNolltoBW j in if (m =? 0)%Z then n + 1 else 2 * (n + 1))%Z.
Proof.
  intros H. rewrite nollc_spec by lia.
  assert (F : forallb (fun j => Z.eqb (nth (Z.to_nat j) squares 0%Z) (let '(n, m) := nollc j in if (m =? 0)%Z then n + 1 else 2 * (n + 1))%Z) (map (fun z => z + 1)%Z (ids 37)) = true) by (vm_compute; reflexivity).
  rewrite forallb_forall in F. apply Z.eqb_eq, F. apply in_map_iff. exists (j - 1)%Z. split; [lia|]. apply in_ids. lia.
Qed.

(** *** Evaluation *)
Definition valid_id (z : Z) : Prop := (0 <= z <= 32)%Z.
Lemma term_Ok z x y : valid_id z -> exists name, getZhaoBurgeTerm z x y = Ok (vx_of (getZhaoBurgeTerm z x y), vy_of (getZhaoBurgeTerm z x y), name).
Proof. intros H. destruct (zbdata_some z ltac:(unfold valid_id in H; lia)) as (K & A & B & E). destruct (term_poly z K A B x y E) as [name ->]. cbn. eauto. Qed.
Lemma term_Err z x y : ~ valid_id z -> getZhaoBurgeTerm z x y = Err (SysExit 0).
Proof.
  intros H. unfold valid_id in H. destruct (getZhaoBurgeTerm z x y) as [t|e] eqn:E.
  - exfalso. apply H. unfold getZhaoBurgeTerm in E. repeat match type of E with context [match ?v with _ => _ end] => is_var v; destruct v; try discriminate E end; lia.
  - unfold getZhaoBurgeTerm in E. repeat match type of E with context [match ?v with _ => _ end] => is_var v; destruct v; try discriminate E end; congruence.
Qed.
Definition vxs (polids : list Z) (x y : R) : list R := map (fun z => vx_of (getZhaoBurgeTerm z x y)) polids.
Definition vys (polids : list Z) (x y : R) : list R := map (fun z => vy_of (getZhaoBurgeTerm z x y)) polids.
Lemma add_terms_Ok x y polids : forall coeffs acc, Forall valid_id polids ->
  add_terms (combine polids coeffs) x y acc = Ok (fst acc + combination coeffs (vxs polids x y), snd acc + combination coeffs (vys polids x y)).
Proof.
  induction polids as [|z polids IH]; intros coeffs acc H.
  - cbn. destruct acc. cbn. destruct coeffs; cbn; rewrite !Rplus_0_r; reflexivity.
  - inversion H as [|? ? Hz Hr]; subst. destruct coeffs as [|c coeffs]; cbn [combine add_terms combination vxs vys map]; [destruct acc; cbn; rewrite !Rplus_0_r; reflexivity|].
    destruct (term_Ok z x y Hz) as [name E]. rewrite E at 1. cbn [rbind]. rewrite IH by exact Hr. cbn [fst snd]. f_equal. f_equal; unfold vxs, vys; ring.
Qed.
Lemma XY_Ok polids coeffs x y : Forall valid_id polids -> getZhaoBurgeXY polids coeffs x y = Ok (combination coeffs (vxs polids x y), combination coeffs (vys polids x y)).
Proof. intros H. unfold getZhaoBurgeXY. rewrite add_terms_Ok by exact H. cbn. now rewrite !Rplus_0_l. Qed.
Lemma XY_Err polids coeffs x y : ~ Forall valid_id (map fst (combine polids coeffs)) -> getZhaoBurgeXY polids coeffs x y = Err (SysExit 0).
Proof.
  unfold getZhaoBurgeXY. generalize (0, 0). generalize (combine polids coeffs). induction l as [|[z c] l IH]; intros acc H; [exfalso; apply H; constructor|]. cbn [add_terms].
  assert (D : {valid_id z} + {~ valid_id z}) by (unfold valid_id; destruct (Z_le_dec 0 z), (Z_le_dec z 32); [left|right|right|right]; lia). destruct D as [V|V].
  - destruct (term_Ok z x y V) as [name ->]. cbn [rbind]. apply IH. intros F. apply H. cbn. constructor; assumption.
  - now rewrite term_Err.
Qed.
Lemma combination_lin a u b v h : length u = length v -> combination (lin_comb a u b v) h = a * combination u h + b * combination v h.
Proof.
  revert v h. induction u as [|x u IH]; intros [|y v] h L; cbn in *; try lia; [ring|]. destruct h as [|z h]; [ring|]. rewrite IH by lia. ring.
Qed.
Lemma combination_app u v h k : length u = length h -> combination (u ++ v) (h ++ k) = combination u h + combination v k.
Proof. revert h. induction u as [|x u IH]; intros [|z h] L; cbn in *; try lia; [ring|]. rewrite IH by lia. ring. Qed.

(** *** The fit *)
Lemma samples_map {A} (zs : list Z) (g : Z -> A -> R) (h : A -> R) l : samples (map (fun z => map (g z) l) zs) (map h l) = map (fun a => (map (fun z => g z a) zs, h a)) l.
Proof.
  induction l as [|a l IH]; cbn [map samples]; [reflexivity|]. rewrite <- IH. f_equal; [f_equal; rewrite map_map; reflexivity|]. f_equal. rewrite map_map. reflexivity.
Qed.
Notation datum := ((R * R) * (R * R))%type.
Definition tagged (data : list datum) : list (bool * datum) := map (fun d => (true, d)) data ++ map (fun d => (false, d)) data.
Definition gval (z : Z) (t : bool * datum) : R := let p := fst (snd t) in if fst t then vx_of (getZhaoBurgeTerm z (fst p) (snd p)) else vy_of (getZhaoBurgeTerm z (fst p) (snd p)).
Definition gdat (t : bool * datum) : R := let d := snd t in if fst t then fst (snd d) - fst (fst d) else snd (snd d) - snd (fst d).
Lemma column_Ok (data : list datum) z : valid_id z -> zb_column (map fst data) z = Ok (map (gval z) (tagged data)).
Proof.
  intros H. unfold zb_column.
  assert (E : exists ts, rmapM (fun p => getZhaoBurgeTerm z (fst p) (snd p)) (map fst data) = Ok ts /\ map (fun t => fst (fst t)) ts = map (fun d => gval z (true, d)) data /\ map (fun t => snd (fst t)) ts = map (fun d => gval z (false, d)) data).
  { induction data as [|d data IH]; [exists []; cbn; auto|]. destruct IH as (ts & E & E1 & E2). cbn [map rmapM]. destruct (term_Ok z (fst (fst d)) (snd (fst d)) H) as [name T]. rewrite T. cbn [rbind]. rewrite E. cbn [rbind]. eexists. split; [reflexivity|]. cbn [map fst snd]. rewrite E1, E2. auto. }
  destruct E as (ts & -> & E1 & E2). cbn [rbind]. rewrite E1, E2. unfold tagged. rewrite map_app, !map_map. reflexivity.
Qed.
Lemma columns_Ok (data : list datum) polids : Forall valid_id polids -> rmapM (zb_column (map fst data)) polids = Ok (map (fun z => map (gval z) (tagged data)) polids).
Proof. induction 1 as [|z polids H F IH]; [reflexivity|]. cbn [rmapM map]. now rewrite column_Ok, IH. Qed.
Lemma combine_fst_snd {A B} (l : list (A * B)) : combine (map fst l) (map snd l) = l.
Proof. induction l as [|[a b] l IH]; cbn; congruence. Qed.
Definition zb_samples (polids : list Z) (data : list datum) := map (fun a => (map (fun z => gval z a) polids, gdat a)) (tagged data).
Lemma fit_normal data polids : Forall valid_id polids ->
  fitZhaoBurge (map fst data) (map snd data) (Some polids) =
  rbind (normal_fit (map (fun z => map (gval z) (tagged data)) polids) (map gdat (tagged data))) (fun c => Ok (polids, c)).
Proof.
  intros H. unfold fitZhaoBurge. rewrite columns_Ok by exact H. cbn [rbind]. rewrite combine_fst_snd. unfold normal_fit. do 3 f_equal. f_equal. unfold tagged. rewrite map_app, !map_map. f_equal; apply map_ext; intros [p q]; reflexivity.
Qed.
Lemma sum_sq_misfit polids q data : Forall valid_id polids -> sum_sq q (zb_samples polids data) = misfit (fun p => displaced (getZhaoBurgeXY polids q (fst p) (snd p)) p) data.
Proof.
  intros H. unfold sum_sq, zb_samples, tagged, misfit. rewrite !map_app, !map_map. rewrite fold_right_app.
  assert (G : forall a b (l : list datum) (f g : datum -> R), (forall d, In d l -> a d + b d = g d) -> fold_right Rplus (fold_right Rplus 0 (map b l)) (map a l) = fold_right Rplus 0 (map g l)); [|].
  { intros a b l f g E. assert (X : forall s, fold_right Rplus s (map a l) = fold_right Rplus 0 (map a l) + s) by (clear; intros s; induction l as [|d l IH]; cbn; [ring|rewrite IH; ring]). rewrite X.
    clear X. induction l as [|d l IH]; cbn; [ring|]. rewrite <- IH by (intros; apply E; now right). rewrite <- (E d) by now left. ring. }
  apply (G _ _ data (fun _ => 0)). intros d _. cbn [fst snd]. rewrite XY_Ok by exact H. unfold displaced. cbn [fst snd]. unfold gval, gdat, vxs, vys. cbn [fst snd]. ring.
Qed.
Lemma zb_independent polids data : Forall valid_id polids ->
  independent (length polids) (zb_samples polids data) <->
  (forall c, length c = length polids -> (forall d, In d data -> getZhaoBurgeXY polids c (fst (fst d)) (snd (fst d)) = Ok (0, 0)) -> c = repeat 0 (length polids)).
Proof.
  intros H. unfold independent, zb_samples. split; intros I c L Z.
  - apply I; [exact L|]. intros s Hs. apply in_map_iff in Hs as (a & <- & Ha). cbn [fst]. unfold tagged in Ha. apply in_app_or in Ha as [Ha|Ha]; apply in_map_iff in Ha as (d & <- & Hd); specialize (Z d Hd); rewrite XY_Ok in Z by exact H; injection Z as Z1 Z2; assumption.
  - apply I; [exact L|]. intros d Hd. rewrite XY_Ok by exact H. f_equal. f_equal.
    + apply (Z (map (fun z => gval z (true, d)) polids, gdat (true, d))). apply in_map_iff. exists (true, d). split; [reflexivity|]. apply in_or_app. left. now apply in_map.
    + apply (Z (map (fun z => gval z (false, d)) polids, gdat (false, d))). apply in_map_iff. exists (false, d). split; [reflexivity|]. apply in_or_app. right. now apply in_map.
Qed.
Lemma wide_cols data polids : Forall (fun r => length r = length (map gdat (tagged data))) (map (fun z => map (gval z) (tagged data)) polids).
Proof. rewrite Forall_map. apply Forall_forall. intros. now rewrite !map_length. Qed.
Lemma fit_Ok data polids : Forall valid_id polids -> independent (length polids) (zb_samples polids data) ->
  exists c, fitZhaoBurge (map fst data) (map snd data) (Some polids) = Ok (polids, c) /\ least_squares (length polids) (zb_samples polids data) c.
Proof.
  intros H I. rewrite fit_normal by exact H. pose proof (wide_cols data polids) as W. unfold zb_samples in *. rewrite <- samples_map in *.
  destruct (normal_fit_independent _ _ W) as [c E]; [now rewrite map_length|]. exists c. rewrite E. split; [reflexivity|]. apply normal_fit_Ok in E as [L _]; [|exact W]. now rewrite map_length in L.
Qed.
Lemma fit_singular data polids : Forall valid_id polids -> ~ independent (length polids) (zb_samples polids data) ->
  fitZhaoBurge (map fst data) (map snd data) (Some polids) = Err LinAlgError.
Proof.
  intros H I. rewrite fit_normal by exact H. pose proof (wide_cols data polids) as W. unfold zb_samples in *. rewrite <- samples_map in *.
  destruct (normal_fit _ _) as [c|e] eqn:E.
  - apply normal_fit_Ok in E as [_ E]; [|exact W]. rewrite map_length in E. contradiction.
  - apply normal_fit_Err in E as [-> _]; [reflexivity|exact W].
Qed.
Lemma fit_default pts ptsp : fitZhaoBurge pts ptsp None = fitZhaoBurge pts ptsp (Some default_polids).
Proof. reflexivity. Qed.

(** *** The fit of scale, rotation and offset *)
Lemma transform_similarity x y s t ox oy polids coeffs : Forall valid_id polids ->
  transform x y s t ox oy (Some polids) (Some coeffs) = (let p := similarity s t (x + ox, y + oy) in Ok (displaced (getZhaoBurgeXY polids coeffs (fst p) (snd p)) p)).
Proof.
  intros H. unfold transform. unfold similarity. cbn [fst snd]. rewrite !(Rmult_comm _ s). rewrite XY_Ok by exact H. reflexivity.
Qed.
Lemma transform_plain x y s t ox oy c : transform x y s t ox oy None c = Ok (similarity s t (x + ox, y + oy)).
Proof. unfold transform, similarity. cbn [fst snd]. now rewrite !(Rmult_comm _ s). Qed.
Lemma rmapM_total {A B} (f : A -> res B) (g : A -> B) l : (forall a, In a l -> f a = Ok (g a)) -> rmapM f l = Ok (map g l).
Proof. induction l as [|a l IH]; intros H; cbn; [reflexivity|]. rewrite H, IH by (intros; try apply H; cbn; auto). reflexivity. Qed.
Lemma misfit_combine (f : R * R -> R * R) data : Rsum (map (fun '(q, p) => (fst q - fst p) ^ 2 + (snd q - snd p) ^ 2) (combine (map f (map fst data)) (map snd data))) = misfit f data.
Proof. unfold misfit, Rsum. induction data as [|d data IH]; cbn [map combine fold_right]; [reflexivity|]. rewrite <- IH. ring. Qed.
(** The map described by the parameters. *)
Definition full_map (polids : list Z) (coeffs : list R) (prm : R * R * R * R) (p : R * R) : R * R :=
  let '(s, t, ox, oy) := prm in let q := similarity s t (fst p + ox, snd p + oy) in displaced (getZhaoBurgeXY polids coeffs (fst q) (snd q)) q.
Lemma fit_func_misfit polids coeffs fs fr data s t ox oy : Forall valid_id polids ->
  fit_func (Some polids) (Some coeffs) fs fr (map fst data) (map snd data) (s, t, ox, oy) = Ok (misfit (full_map polids coeffs (or_fixed fs s, or_fixed fr t, ox, oy)) data).
Proof.
  intros H. unfold fit_func. rewrite (rmapM_total _ (full_map polids coeffs (or_fixed fs s, or_fixed fr t, ox, oy))) by (intros; now apply transform_similarity). cbn [rbind]. rewrite misfit_combine.
  destruct fs, fr; cbn [or_fixed]; f_equal; ring.
Qed.
Lemma full_map_misfit polids c prm data : let '(s, t, ox, oy) := prm in misfit (full_map polids c prm) data =
  misfit (fun p => displaced (getZhaoBurgeXY polids c (fst p) (snd p)) p) (map (fun d => (similarity s t (fst (fst d) + ox, snd (fst d) + oy), snd d)) data).
Proof. destruct prm as [[[s t] ox] oy]. unfold misfit. rewrite map_map. reflexivity. Qed.
Lemma fit_Ok_inv data polids zc : Forall valid_id polids -> fitZhaoBurge (map fst data) (map snd data) (Some polids) = Ok zc ->
  independent (length polids) (zb_samples polids data).
Proof.
  intros H E. rewrite fit_normal in E by exact H. pose proof (wide_cols data polids) as W. unfold zb_samples in *. rewrite <- samples_map in *.
  destruct (normal_fit _ _) as [c|e] eqn:N; [|discriminate]. apply normal_fit_Ok in N as [_ I]; [|exact W]. now rewrite map_length in I.
Qed.
Lemma peval_zp2 x y : peval (zp 2) x y = x.
Proof. replace (zp 2) with Xp by (vm_compute; reflexivity). apply Xp_eval. Qed.
Lemma peval_zp3 x y : peval (zp 3) x y = y.
Proof. replace (zp 3) with Yp by (vm_compute; reflexivity). apply Yp_eval. Qed.
Lemma getZ1 x y : getZ 1 x y = 1.
Proof. rewrite getZ_poly by lia. change (nth (Z.to_nat 1) squares 0%Z) with 1%Z. rewrite sqrt_1. replace (zp 1) with [(1%Q, (0%nat, 0%nat))] by (vm_compute; reflexivity). cbn. unfold meval. cbn. rewrite Q2R_1. ring. Qed.
Lemma S4_T4 x y : getZhaoBurgeTerm 2 x y = Ok (sqrt 2 * x, sqrt 2 * y, "S4"%string) /\ getZhaoBurgeTerm 27 x y = Ok (sqrt 2 * y, - (sqrt 2 * x), "T4"%string).
Proof.
  assert (E8 : sqrt 8 = 2 * sqrt 2) by (replace 8 with (2 * 2 * 2) by ring; rewrite sqrt_mult, sqrt_square by lra; reflexivity).
  cbn [getZhaoBurgeTerm]. rewrite !getZ_poly, peval_zp2, peval_zp3 by lia. change (nth (Z.to_nat 2) squares 0%Z) with 4%Z. change (nth (Z.to_nat 3) squares 0%Z) with 4%Z. rewrite !rh_mul, !rh_mul' by lia. cbn [Z.mul Pos.mul]. rewrite E8. split; (f_equal; f_equal; f_equal; lra).
Qed.
