(** Cholesky pivots and quadratic form of a covariance matrix bordered by one more observation. *)
From Verif.Model Require Import Turbulence.
From Verif.Proofs Require Import Prelude RealNum Stats LinAlg Turbulence Gaussian.
From Coq Require Import Reals Lra.
Local Open Scope R_scope.

Definition border (A : list (list R)) (b : list R) (c : R) : list (list R) := map (fun rv => fst rv ++ [snd rv]) (combine A b) ++ [b ++ [c]].
Lemma border_length A b c : length b = length A -> length (border A b c) = S (length A).
Proof. intros L. unfold border. rewrite app_length, map_length, combine_length, L, Nat.min_id. cbn. lia. Qed.
Lemma border_square A b c : square A -> length b = length A -> square (border A b c).
Proof.
  intros Sq L. unfold square. rewrite border_length by exact L. unfold border. apply Forall_app. split; [|constructor; [rewrite app_length; cbn; lia|constructor]].
  apply Forall_map, Forall_forall. intros [r v] H. apply in_combine_l in H. unfold square in Sq. rewrite Forall_forall in Sq. cbn [fst snd]. rewrite app_length, (Sq r H). cbn. lia.
Qed.
Lemma border_matvec A b c v t : square A -> length b = length A -> length v = length A -> matvec (border A b c) (v ++ [t]) = axpy (matvec A v) t b ++ [dot b v + c * t].
Proof.
  intros Sq L Lv. unfold border, matvec. rewrite map_app. cbn [map]. rewrite dot_app by lia. cbn [dot]. rewrite Rplus_0_r. f_equal. rewrite map_map. unfold square in Sq. rewrite <- Lv in Sq. clear Lv. revert b L. induction A as [|r A IH]; intros [|x b] L; try discriminate; [reflexivity|]. apply Forall_cons_iff in Sq as [Lr Sq].
  cbn [combine map axpy fst snd]. rewrite IH by (try assumption; cbn in L; lia). rewrite dot_app by exact Lr. cbn [dot]. f_equal. ring.
Qed.
(** the first column of a symmetric matrix *)
Lemma first_column a b rows : square ((a :: b) :: rows) -> symmetric ((a :: b) :: rows) -> map (hd 0) rows = b.
Proof.
  intros Sq Sy. set (n := length rows) in *. assert (LA : length rows = n) by reflexivity. unfold square in Sq. cbn [length] in Sq. rewrite LA in Sq. apply Forall_cons_iff in Sq as [L0 F]. cbn in L0. injection L0 as Lb.
  apply list_eq_nth; [rewrite map_length; lia|]. rewrite map_length, LA. intros i Hi.
  assert (E := Sy (unit_vec (S n) 0) (unit_vec (S n) (S i))). cbn [length] in E. rewrite LA in E. specialize (E (unit_vec_length _ _) (unit_vec_length _ _)). rewrite dot_comm in E.
  rewrite !dot_unit in E; try lia; try (rewrite matvec_length; cbn; lia).
  assert (M0 : matvec ((a :: b) :: rows) (unit_vec (S n) 0) = a :: map (hd 0) rows).
  { unfold matvec. cbn [map]. f_equal; [rewrite dot_comm, dot_unit by (cbn; lia); reflexivity|]. clear -F. clearbody n. induction F as [|r rows Lr F IH]; [reflexivity|]. cbn [map]. rewrite IH. f_equal. rewrite dot_comm, dot_unit by lia. now destruct r. }
  rewrite M0 in E. cbn [nth] in E. unfold matvec in E. cbn [map nth] in E. rewrite E. rewrite dot_comm, dot_unit by (cbn; lia). reflexivity.
Qed.
Lemma schur_facts a b rows : square ((a :: b) :: rows) -> symmetric ((a :: b) :: rows) -> square (schur a b rows) /\ symmetric (schur a b rows).
Proof.
  intros Sq Sy. assert (Hd := first_column a b rows Sq Sy). assert (LA : length rows = length rows) by reflexivity. set (n := length rows) in *. unfold square in Sq. cbn [length] in Sq. fold n in Sq. apply Forall_cons_iff in Sq as [L0 F]. cbn in L0. injection L0 as Lb.
  assert (LS : length (schur a b rows) = n) by (unfold schur; now rewrite map_length).
  assert (Fb : Forall (fun r : list R => length r = S (length b)) rows) by (rewrite Lb; exact F).
  assert (Tm : forall z v, length v = n -> matvec ((a :: b) :: rows) (z :: v) = (a * z + dot b v) :: axpy (matvec (map (@tl R) rows) v) z b).
  { intros z v Lv. unfold matvec at 1. cbn [map dot]. f_equal. transitivity (axpy (matvec (map (@tl R) rows) v) z (map (hd 0) rows)); [|now rewrite Hd]. apply (matvec_cons_hd rows z v). rewrite Lv. exact F. }
  assert (LT : forall v, length (matvec (map (@tl R) rows) v) = n) by (intros v; rewrite matvec_length, map_length; reflexivity).
  assert (St : forall u v, length u = n -> length v = n -> dot (matvec (map (@tl R) rows) u) v = dot u (matvec (map (@tl R) rows) v)).
  { intros u v Lu Lv. assert (E := Sy (0 :: u) (0 :: v)). cbn [length] in E. fold n in E. specialize (E ltac:(lia) ltac:(lia)). rewrite !Tm in E by assumption. cbn [dot] in E. rewrite dot_axpy, dot_axpy_r in E by (rewrite LT; lia). lra. }
  split.
  - unfold square. rewrite LS. unfold schur. apply Forall_map. eapply Forall_impl; [|exact F]. cbn. intros r Lr. rewrite axpy_length; destruct r; cbn in *; lia.
  - intros u v Lu Lv. rewrite LS in *. rewrite !schur_matvec, Hd by (assumption || lia). rewrite dot_axpy, dot_axpy_r by (rewrite LT; lia). rewrite (St u v Lu Lv), (dot_comm u b). unfold Rdiv. ring.
Qed.
(** the pivots of the bordered matrix *)
Lemma pivots_border n : forall A b c w l, length A = n -> square A -> symmetric A -> length b = n -> length w = n -> matvec A w = b -> pivots n A = Some l -> 0 < c - dot b w -> pivots (S n) (border A b c) = Some (l ++ [c - dot b w]).
Proof.
  induction n as [|n IH]; intros A b c w l LA Sq Sy Lb Lw Aw P V.
  - destruct A; [|discriminate]. destruct b; [|discriminate]. cbn in P. injection P as <-. cbn [dot] in *. change (border [] [] c) with [[c]]. cbn [pivots app map]. rewrite (proj2 (Rltb_true 0 c)) by lra. do 2 f_equal. lra.
  - destruct A as [|r0 rows]; [discriminate|]. destruct b as [|b0 b']; [discriminate|]. destruct w as [|w0 w']; [discriminate|]. cbn in LA, Lb, Lw. injection LA as LA. injection Lb as Lb. injection Lw as Lw.
    assert (Sq' := Sq). unfold square in Sq'. cbn [length] in Sq'. rewrite LA in Sq'. apply Forall_cons_iff in Sq' as [L0 F]. destruct r0 as [|a r]; [discriminate|]. cbn in L0. injection L0 as Lr.
    assert (Hd := first_column a r rows Sq Sy). destruct (schur_facts a r rows Sq Sy) as [SqS SyS]. assert (LS : length (schur a r rows) = n) by (unfold schur; now rewrite map_length).
    cbn [pivots] in P. destruct (Rltb 0 a) eqn:Ea; [|discriminate]. fold (schur a r rows) in P. destruct (pivots n (schur a r rows)) as [l'|] eqn:P'; [|discriminate]. injection P as <-. apply Rltb_true in Ea as Pa.
    unfold matvec in Aw. cbn [map dot] in Aw. injection Aw as A0 Aw. fold (matvec rows (w0 :: w')) in Aw.
    assert (Fr : Forall (fun q : list R => length q = S (length r)) rows) by (rewrite Lr; exact F). assert (Fw : Forall (fun q : list R => length q = S (length w')) rows) by (rewrite Lw; exact F).
    rewrite (matvec_cons_hd rows w0 w' Fw), Hd in Aw.
    set (b1 := axpy b' (- (b0 / a)) r). assert (Lb1 : length b1 = n) by (unfold b1; rewrite axpy_length; lia).
    assert (E1 : matvec (schur a r rows) w' = b1).
    { rewrite schur_matvec, Hd by (assumption || lia). unfold b1. rewrite <- Aw. assert (LT : length (matvec (map (@tl R) rows) w') = n) by (rewrite matvec_length, map_length; exact LA). apply list_eq_nth; [rewrite !axpy_length; rewrite ?axpy_length; lia|]. intros i Hi. rewrite axpy_length in Hi by lia. rewrite !axpy_nth; rewrite ?axpy_length; try lia. rewrite <- A0. field. lra. }
    assert (E2 : c - b0 / a * b0 - dot b1 w' = c - (b0 * w0 + dot b' w')). { unfold b1. rewrite dot_axpy by lia. rewrite <- A0. field. lra. }
    assert (P2 := IH (schur a r rows) b1 (c - b0 / a * b0) w' l' LS SqS SyS Lb1 Lw E1 P'). rewrite E2 in P2. specialize (P2 V).
    assert (Eb : border ((a :: r) :: rows) (b0 :: b') c = (a :: r ++ [b0]) :: map (fun rv => fst rv ++ [snd rv]) (combine rows b') ++ [b0 :: b' ++ [c]]) by reflexivity. rewrite Eb.
    remember (S n) as m eqn:Em. cbn [pivots]. rewrite Ea. subst m.
    assert (Es : map (fun q => axpy (tl q) (- (hd 0 q / a)) (r ++ [b0])) (map (fun rv => fst rv ++ [snd rv]) (combine rows b') ++ [b0 :: b' ++ [c]]) = border (schur a r rows) b1 (c - b0 / a * b0)).
    { rewrite map_app. unfold border. f_equal.
      - unfold b1. rewrite map_map. replace (axpy b' (- (b0 / a)) r) with (axpy b' (- (b0 / a)) (map (hd 0) rows)) by now rewrite Hd. unfold schur.
        assert (G : forall rs q bs, Forall (fun x : list R => length x = S (length q)) rs -> map (fun rv => axpy (tl (fst rv ++ [snd rv])) (- (hd 0 (fst rv ++ [snd rv]) / a)) (q ++ [b0])) (combine rs bs) = map (fun rv => fst rv ++ [snd rv]) (combine (map (fun x => axpy (tl x) (- (hd 0 x / a)) q) rs) (axpy bs (- (b0 / a)) (map (hd 0) rs)))).
        { induction rs as [|x rs IHr]; intros q bs Fq; [reflexivity|]. destruct bs as [|y bs]; [reflexivity|]. apply Forall_cons_iff in Fq as [Lx Fq]. cbn [combine map axpy fst snd]. rewrite IHr by exact Fq. f_equal. destruct x as [|x0 x]; [discriminate|]. cbn [app tl hd]. cbn in Lx. injection Lx as Lx. rewrite axpy_app by exact Lx. cbn [axpy]. do 2 f_equal. unfold Rdiv. ring. }
        apply G. exact Fr.
      - cbn [map tl hd]. do 2 f_equal. rewrite axpy_app by lia. cbn [axpy]. unfold b1. do 2 f_equal. ring. }
    rewrite Es, P2. reflexivity.
Qed.
(** one more observation *)
Lemma border_definite_pivot A b c w : square A -> length b = length A -> length w = length A -> matvec A w = b -> definite (border A b c) -> 0 < c - dot b w.
Proof.
  intros Sq Lb Lw Aw D. assert (X := D (vscale (-1) w ++ [1])). rewrite border_length in X by exact Lb. assert (Lv : length (vscale (-1) w) = length A) by (unfold vscale; now rewrite map_length). specialize (X ltac:(rewrite app_length; cbn; lia)).
  rewrite border_matvec in X by assumption. rewrite matvec_vscale, Aw in X. rewrite dot_app in X by (rewrite axpy_length; rewrite ?Lv; unfold vscale; rewrite ?map_length; lia). rewrite dot_axpy_r in X by (unfold vscale; now rewrite map_length). rewrite !dot_vscale_l, !dot_vscale_r, (dot_comm w b) in X. cbn [dot] in X.
  enough (0 < dot b w * -1 * -1 + 1 * (dot b w * -1) + (1 * (dot b w * -1 + c * 1) + 0)) by lra. apply X. intros E. apply (f_equal (fun l => last l 0)) in E. rewrite last_last in E. replace (S (length A)) with (length A + 1)%nat in E by lia. rewrite repeat_app in E. cbn [repeat] in E. rewrite last_last in E. lra.
Qed.
Lemma border_quadratic A b c w z d x : square A -> symmetric A -> length b = length A -> length w = length A -> length z = length A -> matvec A w = b -> matvec A z = d -> c - dot b w <> 0 ->
  let t := (x - dot b z) / (c - dot b w) in let z' := axpy z (- t) w ++ [t] in
  matvec (border A b c) z' = d ++ [x] /\ length z' = S (length A) /\ dot (d ++ [x]) z' = dot d z + (x - dot b z) ^ 2 / (c - dot b w).
Proof.
  intros Sq Sy Lb Lw Lz Aw Az N t z'. assert (Ld : length d = length A) by (rewrite <- Az; apply matvec_length). assert (La : length (axpy z (- t) w) = length A) by (rewrite axpy_length; lia). split; [|split].
  - unfold z'. rewrite border_matvec by assumption. rewrite matvec_axpy, Az, Aw by lia. f_equal.
    + apply list_eq_nth; [rewrite !axpy_length; rewrite ?axpy_length; lia|]. intros i Hi. rewrite axpy_length in Hi by (rewrite axpy_length; lia). rewrite axpy_length in Hi by lia. rewrite !axpy_nth; rewrite ?axpy_length; try lia. ring.
    + f_equal. rewrite dot_axpy_r by lia. unfold t. field. exact N.
  - unfold z'. rewrite app_length. cbn. lia.
  - unfold z'. rewrite dot_app by lia. rewrite dot_axpy_r by lia. assert (M : dot d w = dot b z) by (rewrite <- Az, Sy by lia; rewrite Aw; apply dot_comm). rewrite M. cbn [dot]. unfold t. field. exact N.
Qed.
(** covariance matrices *)
Lemma add_diag_border c A b d : square A -> length b = length A -> add_diag c (border A b d) = border (add_diag c A) b (d + c).
Proof.
  intros Sq L. unfold add_diag. rewrite border_length by exact L. set (f := fun ir : nat * list R => map (fun jv => if Nat.eqb (fst ir) (fst jv) then snd jv + c else snd jv) (combine (seq 0 (length (snd ir))) (snd ir))).
  replace (S (length A)) with (length A + 1)%nat by lia. rewrite seq_app. cbn [seq Nat.add]. unfold border at 1.
  assert (CA : forall (X Y : Type) (u u' : list X) (v v' : list Y), length u = length v -> combine (u ++ u') (v ++ v') = combine u v ++ combine u' v').
  { clear. intros X Y. induction u as [|x u IH]; intros u' [|y v] v' H; try discriminate; [reflexivity|]. cbn. f_equal. apply IH. cbn in H. lia. }
  rewrite CA by (rewrite seq_length, map_length, combine_length, L, Nat.min_id; reflexivity). rewrite map_app. unfold border. f_equal.
  - cbn [combine map]. 
    assert (G : forall rs bs k, Forall (fun r : list R => length r = length A) rs -> length bs = length rs -> (k + length rs <= length A)%nat -> map f (combine (seq k (length rs)) (map (fun rv => fst rv ++ [snd rv]) (combine rs bs))) = map (fun rv => fst rv ++ [snd rv]) (combine (map f (combine (seq k (length rs)) rs)) bs)).
    { induction rs as [|r rs IH]; intros bs k F Lb Hk; [reflexivity|]. destruct bs as [|y bs]; [discriminate|]. apply Forall_cons_iff in F as [Lr F]. cbn [length seq combine map fst snd] in *. rewrite IH by (try assumption; lia). f_equal. unfold f. cbn [fst snd].
      rewrite app_length. cbn [length]. rewrite seq_app, CA by now rewrite seq_length. rewrite map_app. cbn [seq combine map fst snd Nat.add]. rewrite Lr. destruct (Nat.eqb_spec k (length A)) as [E|_]; [lia|]. reflexivity. }
    apply (G A b 0%nat); [exact Sq|exact L|lia].
  - cbn [combine map]. f_equal. unfold f. cbn [fst snd]. rewrite app_length. cbn [length]. rewrite seq_app, CA by now rewrite seq_length. rewrite map_app. cbn [seq combine map fst snd Nat.add]. rewrite L, Nat.eqb_refl. f_equal.
    rewrite <- L. clear. assert (G : forall (l : list R) k n, (k + length l <= n)%nat -> map (fun jv : nat * R => if Nat.eqb n (fst jv) then snd jv + c else snd jv) (combine (seq k (length l)) l) = l).
    { induction l as [|x l IH]; intros k n H; [reflexivity|]. cbn [length seq combine map fst snd] in *. destruct (Nat.eqb_spec n k); [lia|]. f_equal. apply IH. lia. } apply G. lia.
Qed.
Lemma cov_border k ps p : (forall p q, k p q = k q p) -> cov_matrix k (ps ++ [p]) (ps ++ [p]) = border (cov_matrix k ps ps) (map (fun q => k q p) ps) (k p p).
Proof.
  intros Sy. unfold cov_matrix, border. rewrite map_app. cbn [map]. rewrite map_app. cbn [map]. f_equal. assert (G : forall qs, map (fun q => map (fun p0 => k p0 q) (ps ++ [p])) qs = map (fun rv => fst rv ++ [snd rv]) (combine (map (fun q => map (fun p0 => k p0 q) ps) qs) (map (fun q => k q p) qs))).
  { induction qs as [|q qs IH]; [reflexivity|]. cbn [map combine fst snd]. rewrite IH, map_app. cbn [map]. now rewrite (Sy p q). } apply G.
Qed.
