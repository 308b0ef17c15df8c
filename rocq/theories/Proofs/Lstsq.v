(** A least squares solver for any samples, by orthogonalisation: there is one. *)
From Verif.Model Require Import TurbulencePol.
From Verif.Proofs Require Import Prelude RealNum Stats LinAlg Turbulence TurbulencePol.
From Coq Require Import Reals Lra.
From Verif.Spec Require Import LinAlg.
Local Open Scope R_scope.

Fixpoint comb (n : nat) (p : list R) (H : list (list R)) : list R := match p, H with c :: p, r :: H => axpy (comb n p H) c r | _, _ => repeat 0 n end.
Lemma comb_length n p H : Forall (fun r => length r = n) H -> length (comb n p H) = n.
Proof. intros F. revert p. induction F as [|r H L F IH]; intros [|c p]; cbn; try apply repeat_length. rewrite axpy_length; rewrite IH; auto. Qed.
Lemma dot_comb n x p H : Forall (fun r => length r = n) H -> length x = n -> dot x (comb n p H) = dot p (map (dot x) H).
Proof.
  intros F Lx. revert p. induction F as [|r H L F IH]; intros [|c p]; cbn [comb map]; rewrite ?dot_repeat0, ?dot_nil_r; try reflexivity.
  rewrite dot_axpy_r by (rewrite comb_length; auto). rewrite IH. cbn [dot]. ring.
Qed.
Fixpoint lsq (n : nat) (H : list (list R)) (v : list R) : list R :=
  match H with
  | [] => []
  | w :: H => let a := lsq n H w in let c := lsq n H v in
              let r := axpy w (-1) (comb n a H) in let t := if Reqb (dot r r) 0 then 0 else dot r v / dot r r in t :: axpy c (- t) a
  end.
Lemma lsq_length n H v : length (lsq n H v) = length H.
Proof. revert v. induction H as [|w H IH]; intros v; [reflexivity|]. cbn. now rewrite axpy_length; rewrite !IH. Qed.
Lemma dot_axpy_l p f q x : length p = length q -> dot (axpy p f q) x = dot p x + f * dot q x.
Proof. intros L. rewrite !(dot_comm _ x). now apply dot_axpy_r. Qed.
Lemma lsq_normal n H : Forall (fun r => length r = n) H -> forall v, length v = n -> forall x, In x H -> dot x v = dot (lsq n H v) (map (dot x) H).
Proof.
  induction 1 as [|w H Lw F IH]; intros v Lv x [].
  - subst x. cbn [lsq map dot]. set (a := lsq n H w). set (c := lsq n H v). set (r := axpy w (-1) (comb n a H)). assert (La : length a = length H) by apply lsq_length. assert (Lc : length c = length H) by apply lsq_length.
    assert (Lr : length r = n) by (unfold r; rewrite axpy_length; rewrite ?comb_length; congruence).
    assert (O : forall y, In y H -> dot y r = 0). { intros y Hy. unfold r. rewrite Forall_forall in F. rewrite dot_axpy_r by (rewrite comb_length; [congruence|now apply Forall_forall]). rewrite dot_comb by (try apply Forall_forall; auto). pose proof (IH w Lw y Hy) as I. fold a in I. rewrite <- I. ring. }
    assert (Oc : forall p, dot (comb n p H) r = 0). { intros p. clearbody r. clear - O F Lr. revert p. induction F as [|y H Ly F IHF]; intros [|e p]; cbn [comb]; try (rewrite dot_comm; apply dot_repeat0).
      rewrite dot_axpy_l by (rewrite comb_length; auto). rewrite (IHF (fun z Hz => O z (or_intror Hz)) p). rewrite (O y (or_introl eq_refl)). ring. }
    assert (Wr : dot w r = dot r r). { unfold r at 2. rewrite dot_axpy_l by (rewrite comb_length; congruence). rewrite Oc. ring. }
    rewrite dot_axpy_l by congruence.
    assert (Ww : dot w w = dot r r + dot a (map (dot w) H)). { rewrite <- Wr. unfold r. rewrite dot_axpy_r by (rewrite comb_length; congruence). rewrite dot_comb by auto. ring. }
    assert (Wv : dot w v = dot r v + dot c (map (dot w) H)).
    { assert (E : dot (comb n a H) v = dot c (map (dot w) H)). { rewrite dot_comm, dot_comb by auto. transitivity (dot a (map (fun x => dot c (map (dot x) H)) H)).
        - f_equal. apply map_ext_in. intros y Hy. rewrite dot_comm. unfold c. apply IH; assumption.
        - transitivity (dot c (map (fun x => dot a (map (dot x) H)) H)); [|f_equal; apply map_ext_in; intros y Hy; rewrite (dot_comm w y); symmetry; unfold a; now apply IH].
          assert (B : forall (p q : list R) (A B : list (list R)), dot p (map (fun x => dot q (map (dot x) B)) A) = dot q (map (fun y => dot p (map (dot y) A)) B)).
          { clear. intros p q A B. revert p. induction A as [|x A IHA]; intros p.
            - cbn [map]. rewrite dot_nil_r. clear. revert q. induction B; intros [|f q]; cbn [map dot]; try reflexivity. rewrite <- IHB. ring.
            - destruct p as [|e p]; cbn [map dot].
              + clear. revert q. induction B; intros [|f q]; cbn [map dot]; try reflexivity. rewrite <- IHB. ring.
              + rewrite IHA. clear. revert q. induction B as [|y B IHB]; intros [|f q]; cbn [map dot]; try ring. rewrite (dot_comm y x). rewrite <- IHB. ring. }
          apply B. }
      rewrite <- E. unfold r. rewrite dot_axpy_l by (rewrite comb_length; congruence). ring. }
    rewrite Ww, Wv. destruct (Reqb (dot r r) 0) eqn:Z.
    + apply Reqb_true in Z. apply dot_self_zero in Z. assert (Z' : dot r v = 0) by (rewrite dot_comm, Z; apply dot_repeat0). rewrite Z'. ring.
    + assert (Nz : dot r r <> 0) by (intros X; apply Reqb_true in X; congruence). field. exact Nz.
  - cbn [lsq map dot]. set (a := lsq n H w). set (c := lsq n H v). set (t := if Reqb _ 0 then _ else _). rewrite dot_axpy_l by (unfold a, c; now rewrite !lsq_length). unfold a, c. rewrite <- (IH v Lv x) by assumption. rewrite <- (IH w Lw x) by assumption. ring.
Qed.
Definition columns (k : nat) (ss : list (list R * R)) : list (list R) := map (fun j => map (fun s => nth j (fst s) 0) ss) (seq 0 k).
Lemma columns_samples k ss : Forall (fun s => length (fst s) = k) ss -> samples (columns k ss) (map snd ss) = ss.
Proof.
  induction 1 as [|s ss L F IH]; [reflexivity|]. unfold columns in *. cbn [map samples]. rewrite !map_map. cbn [hd tl]. f_equal; [|exact IH]. destruct s as [h y]. cbn [fst snd] in *. f_equal. rewrite <- L. clear. induction h as [|x h IH]; [reflexivity|]. cbn [length seq map nth]. f_equal. rewrite <- seq_shift, map_map. exact IH.
Qed.
Definition solver (k : nat) (ss : list (list R * R)) : res (list R) := Ok (lsq (length ss) (columns k ss) (map snd ss)).
Lemma solver_lstsq : is_lstsq solver.
Proof.
  intros k ss F. unfold solver. set (H := columns k ss). set (v := map snd ss). exists (lsq (length ss) H v). assert (LH : length H = k) by (unfold H, columns; now rewrite map_length, seq_length). split; [reflexivity|]. split; [now rewrite lsq_length|].
  assert (W : Forall (fun r => length r = length ss) H) by (apply Forall_map, Forall_forall; intros; now rewrite map_length). assert (Lv : length v = length ss) by apply map_length. intros q Lq.
  assert (N : matvec (gram H) (lsq (length ss) H v) = matvec H v). { unfold gram, matvec. rewrite map_map. apply map_ext_in. intros x Hx. rewrite (dot_comm (map (dot x) H)). symmetry. apply lsq_normal; assumption. }
  assert (Lc := lsq_length (length ss) H v). set (p := lsq (length ss) H v) in *. clearbody p. assert (E : samples H v = ss) by now apply columns_samples. rewrite <- Lv in W. rewrite <- E. clearbody H v.
  rewrite (normal_pythagoras H v p q W Lc (eq_trans Lq (eq_sym LH)) N). assert (0 <= Rsum (map (fun x => x ^ 2) (map (fun s => dot (axpy q (-1) p) (fst s)) (samples H v)))) by (apply Rsum_nonneg; rewrite Forall_map; apply Forall_forall; intros; apply pow2_ge_0). lra.
Qed.
