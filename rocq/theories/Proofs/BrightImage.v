(** Lemmas about the phi arm detection. *)
From Verif.Model Require Import BrightImage.
From Verif.Proofs Require Import Prelude RealNum Stats Pos2ptl.
From Coq Require Import Reals Lra.
Local Open Scope R_scope.

Lemma Forall2_nth_l {A B} {P : A -> B -> Prop} {l l' i a} : Forall2 P l l' -> nth_error l i = Some a -> exists b, nth_error l' i = Some b /\ P a b.
Proof. intros F. revert i. induction F as [|x y l l' Hx F IH]; intros [|i] H; try discriminate; [injection H as ->; exists y; auto|exact (IH i H)]. Qed.
Lemma Forall2_nth_r {A B} {P : A -> B -> Prop} {l l' i b} : Forall2 P l l' -> nth_error l' i = Some b -> exists a, nth_error l i = Some a /\ P a b.
Proof. intros F. revert i. induction F as [|x y l l' Hx F IH]; intros [|i] H; try discriminate; [injection H as ->; exists x; auto|exact (IH i H)]. Qed.
Lemma Forall2_impl_in {A B} {P Q : A -> B -> Prop} {l l'} : Forall2 P l l' -> (forall x y, In x l -> P x y -> Q x y) -> Forall2 Q l l'.
Proof. induction 1 as [|x y l l' Hx F IH]; intros H; constructor; [apply H; [now left|exact Hx]|]. apply IH. intros; apply H; [now right|assumption]. Qed.
Lemma disk_01 pad r u : In r (disk pad) -> In u r -> u = 0 \/ u = 1.
Proof. unfold disk. rewrite in_map_iff. intros (i & <- & _). rewrite in_map_iff. intros (j & <- & _). destruct (_ <? _)%Z; auto. Qed.
Lemma mask_twice N a d : (forall r u, In r d -> In u r -> u = 0 \/ u = 1) -> pixel_map2 Rmult (pixel_map (fun u => u / N) (pixel_map2 Rmult a d)) d = pixel_map (fun u => u / N) (pixel_map2 Rmult a d).
Proof.
  unfold pixel_map2, pixel_map. revert d. induction a as [|r a IH]; intros d H; [reflexivity|]. destruct d as [|s d]; [reflexivity|]. cbn [combine map fst snd]. f_equal; [|apply IH; intros; eapply H; [right|]; eassumption].
  assert (H0 : forall u, In u s -> u = 0 \/ u = 1) by (intros u; apply H; now left). clear - H0. revert s H0. induction r as [|u r IH]; intros s H0; [reflexivity|]. destruct s as [|v s]; [reflexivity|]. cbn [combine map fst snd]. f_equal; [|apply IH; intros; apply H0; now right]. destruct (H0 v (or_introl eq_refl)) as [-> | ->]; unfold Rdiv; ring.
Qed.
Lemma Rsum_cons u l : Rsum (u :: l) = u + Rsum l.
Proof. reflexivity. Qed.
Lemma sum_scaled N a : N <> 0 -> pixel_sum (pixel_map (fun u => u ^ 2) (pixel_map (fun u => u / N) a)) = pixel_sum (pixel_map (fun u => u ^ 2) a) / N ^ 2.
Proof.
  intros HN. unfold pixel_sum, pixel_map. induction a as [|r a IH]; cbn [map]; rewrite ?Rsum_cons; [unfold Rsum; cbn; field; exact HN|]. rewrite IH. enough (Rsum (map (fun u => u ^ 2) (map (fun u => u / N) r)) = Rsum (map (fun u => u ^ 2) r) / N ^ 2) as -> by (field; exact HN).
  induction r as [|u r IHr]; cbn [map]; rewrite ?Rsum_cons; [unfold Rsum; cbn; field; exact HN|]. rewrite IHr. field. exact HN.
Qed.
Lemma sum_nonneg a : 0 <= pixel_sum (pixel_map (fun u => u ^ 2) a).
Proof.
  unfold pixel_sum, pixel_map. induction a as [|r a IH]; cbn [map]; rewrite ?Rsum_cons; [unfold Rsum; cbn; lra|]. enough (0 <= Rsum (map (fun u => u ^ 2) r)) by lra. clear. induction r as [|u r IH]; cbn [map]; rewrite ?Rsum_cons; [unfold Rsum; cbn; lra|]. assert (X := pow2_ge_0 u). lra.
Qed.
Lemma norm2_sq a : norm2 a ^ 2 = pixel_sum (pixel_map (fun u => u ^ 2) a).
Proof. unfold norm2. replace (sqrt _ ^ 2) with (sqrt (pixel_sum (pixel_map (fun u => u ^ 2) a)) * sqrt (pixel_sum (pixel_map (fun u => u ^ 2) a))) by ring. apply sqrt_sqrt, sum_nonneg. Qed.
Lemma norm_one a : norm2 a <> 0 -> norm2 (pixel_map (fun u => u / norm2 a) a) = 1.
Proof. intros H. unfold norm2 at 1. rewrite sum_scaled by exact H. rewrite <- norm2_sq. replace (norm2 a ^ 2 / norm2 a ^ 2) with 1 by (field; exact H). apply sqrt_1. Qed.
Lemma pixel_map_id f a : (forall u, f u = u) -> pixel_map f a = a.
Proof. intros H. unfold pixel_map. induction a as [|r a IH]; [reflexivity|]. cbn [map]. rewrite IH. f_equal. induction r as [|u r IHr]; [reflexivity|]. cbn. now rewrite H, IHr. Qed.

(** shapes *)
Lemma shape_spec n a : shape_ok n a = true <-> length a = n /\ forall r, In r a -> length r = n.
Proof. unfold shape_ok. rewrite Bool.andb_true_iff, Nat.eqb_eq, forallb_forall. split; intros [H1 H2]; (split; [exact H1|]); intros r Hr; apply Nat.eqb_eq; auto. Qed.
Lemma disk_shape pad : shape_ok (2 * pad + 1) (disk pad) = true.
Proof. apply shape_spec. unfold disk. split; [now rewrite map_length, seq_length|]. intros r Hr. apply in_map_iff in Hr as (i & <- & _). now rewrite map_length, seq_length. Qed.
Lemma map2_shape f n a b : shape_ok n a = true -> shape_ok n b = true -> shape_ok n (pixel_map2 f a b) = true.
Proof.
  rewrite !shape_spec. intros [La Ha] [Lb Hb]. unfold pixel_map2. split; [rewrite map_length, combine_length, La, Lb; apply Nat.min_id|]. intros r Hr. apply in_map_iff in Hr as ([r1 r2] & <- & Hr). cbn [fst snd]. rewrite map_length, combine_length, (Ha r1), (Hb r2); [apply Nat.min_id|eapply in_combine_r; exact Hr|eapply in_combine_l; exact Hr].
Qed.
Lemma map_shape f n a : shape_ok n a = true -> shape_ok n (pixel_map f a) = true.
Proof. rewrite !shape_spec. intros [La Ha]. unfold pixel_map. split; [now rewrite map_length|]. intros r Hr. apply in_map_iff in Hr as (r' & <- & Hr). rewrite map_length. auto. Qed.

Definition square (t : template) : bool := match t with Nans _ => true | Finite a => match a with [] => false | r :: _ => Nat.eqb (length a) (length r) end end.
(** the template is normalised once for all *)
Lemma normalise_again t t' : normalise t = Ok t' -> normalise t' = Ok t' /\ t_size t' = t_size t /\ square t' = true /\ square t = true.
Proof.
  destruct t as [a|n]; cbn [normalise].
  - cbv zeta. set (pad := (length a / 2)%nat). destruct (shape_ok (2 * pad + 1) a) eqn:S; [|discriminate]. intros H. apply Ok_inj in H. subst t'. assert (S' := proj1 (shape_spec _ _) S).
    assert (Sq : square (Finite a) = true). { destruct S' as [L Hr]. cbn. destruct a as [|r a]; [cbn in L; lia|]. rewrite (Hr r (or_introl eq_refl)), L. apply Nat.eqb_refl. }
    set (m := pixel_map2 Rmult a (disk pad)). assert (Sm : shape_ok (2 * pad + 1) m = true) by (apply map2_shape; [exact S|apply disk_shape]). destruct (Reqb (norm2 m) 0) eqn:Z.
    + cbn [normalise t_size]. fold pad. rewrite (proj1 S'), Nat.eqb_refl. auto.
    + assert (Nz : norm2 m <> 0) by (intros X; apply Reqb_true in X; congruence). set (a' := pixel_map (fun u => u / norm2 m) m). assert (Sa : shape_ok (2 * pad + 1) a' = true) by now apply map_shape. assert (La : length a' = length a) by (apply shape_spec in Sa as [-> _]; symmetry; apply S').
      cbn [normalise t_size]. cbv zeta. rewrite La. fold pad. rewrite Sa. assert (M : pixel_map2 Rmult a' (disk pad) = a') by (unfold a', m; apply mask_twice, disk_01). rewrite M. assert (N1 : norm2 a' = 1) by now apply norm_one. rewrite N1. assert (B : Reqb 1 0 = false) by (destruct (Reqb 1 0) eqn:X; [apply Reqb_true in X; lra|reflexivity]). rewrite B.
      split; [rewrite pixel_map_id by (intros; field); reflexivity|]. split; [reflexivity|]. split; [|exact Sq]. apply shape_spec in Sa as [L Hr]. cbn. destruct a' as [|r a'']; [cbn in L; lia|]. rewrite (Hr r (or_introl eq_refl)), L. apply Nat.eqb_refl.
  - destruct (Nat.eqb n _) eqn:E; [|discriminate]. intros H. apply Ok_inj in H. subst t'. cbn [normalise t_size square]. rewrite E. auto.
Qed.

Section Detect.
Variable canny : list (list R) -> R -> list (list R).
Variable rotate : list (list R) -> R -> list (list R).
Variable round : R -> Z.
Lemma detect_eq image step t xy : detect_phi_arm canny rotate round image step t xy = if negb (square t) then Err AssertionError else rbind (cut round image (t_size t / 2) (fst xy) (snd xy)) (fun sm => rbind (normalise t) (fun t' => rmap (fun d => (d, t')) (search canny rotate t' (t_size t / 2) (fst sm) (snd sm) step))).
Proof. reflexivity. Qed.
Lemma detect_state image step t xy d t' : detect_phi_arm canny rotate round image step t xy = Ok (d, t') -> normalise t = Ok t' /\ forall xy', detect_phi_arm canny rotate round image step t' xy' = detect_phi_arm canny rotate round image step t xy'.
Proof.
  rewrite detect_eq. intros H. destruct (square t) eqn:Sq; cbn [negb] in H; [|discriminate]. destruct (cut _ _ _ _ _) as [sm|]; [|discriminate]. cbn [rbind] in H. destruct (normalise t) as [t1|] eqn:E; [|discriminate]. cbn [rbind] in H. destruct (search _ _ _ _ _ _ _) as [d1|]; [|discriminate]. cbn [rmap] in H. apply Ok_inj in H. injection H as _ <-. split; [reflexivity|].
  intros xy'. rewrite !detect_eq. destruct (normalise_again _ _ E) as (E2 & Sz & Sq' & _). rewrite Sq, Sq', Sz, E, E2. reflexivity.
Qed.
Lemma serial_fresh image step t spots : serial canny rotate round image step t spots = rmapM (fun s => rmap fst (detect_phi_arm canny rotate round image step t s)) spots.
Proof.
  revert t. induction spots as [|s spots IH]; intros t; [reflexivity|]. cbn [serial rmapM]. destruct (detect_phi_arm _ _ _ _ _ t s) as [[d t']|e] eqn:E; [|reflexivity]. cbn [rbind rmap fst snd]. rewrite IH. destruct (detect_state _ _ _ _ _ _ E) as [_ Same].
  rewrite (rmapM_ext (fun s => rmap fst (detect_phi_arm canny rotate round image step t' s)) (fun s => rmap fst (detect_phi_arm canny rotate round image step t s)) spots); [|intros x _; now rewrite Same]. now destruct (rmapM _ _).
Qed.
End Detect.
Lemma rmapM_concat {A B} (f : A -> res B) ls : rmapM f (List.concat ls) = rmap (@List.concat _) (rmapM (rmapM f) ls).
Proof.
  induction ls as [|l ls IH]; [reflexivity|]. cbn [List.concat rmapM]. assert (App : forall l1 l2, rmapM f (l1 ++ l2) = rbind (rmapM f l1) (fun a => rmap (app a) (rmapM f l2))).
  { clear. induction l1 as [|x l1 IH]; intros l2; cbn [app rmapM rbind]; [now destruct (rmapM f l2)|]. destruct (f x); [|reflexivity]. cbn [rbind]. rewrite IH. destruct (rmapM f l1); [|reflexivity]. cbn [rbind]. now destruct (rmapM f l2). }
  rewrite App, IH. destruct (rmapM f l); [|reflexivity]. cbn [rbind]. now destruct (rmapM (rmapM f) ls).
Qed.

(** [argmax] *)
Lemma nan_index_none l : nan_index l = None <-> forall o, In o l -> o <> None.
Proof.
  induction l as [|[u|] l IH]; cbn [nan_index].
  - split; [intros _ o []|reflexivity].
  - destruct (nan_index l) as [i|]; cbn.
    + split; [discriminate|]. intros H. exfalso. assert (X : Some i = None) by (apply IH; intros o Ho; apply H; now right). discriminate.
    + split; [|reflexivity]. intros _ o [<-|Ho]; [discriminate|]. now apply IH.
  - split; [discriminate|]. intros H. exfalso. now apply (H None (or_introl eq_refl)).
Qed.
Lemma nan_index_some l i : nan_index l = Some i -> nth_error l i = Some None.
Proof. revert i. induction l as [|[u|] l IH]; intros i H; cbn in H; [discriminate| |now injection H as <-]. destruct (nan_index l) as [j|]; [|discriminate]. injection H as <-. cbn. now apply IH. Qed.
Lemma max_index_spec l : (forall o, In o l -> o <> None) -> forall pre b u, nth_error pre b = Some (Some u) -> (forall v, In (Some v) pre -> v <= u) ->
  exists w, nth_error (pre ++ l) (max_index l (length pre) (b, u)) = Some (Some w) /\ forall v, In (Some v) (pre ++ l) -> v <= w.
Proof.
  induction l as [|o l IH]; intros Hn pre b u Hb Hm; cbn [max_index fst].
  - rewrite app_nil_r. exists u. auto.
  - destruct o as [v|]; [|exfalso; now apply (Hn None (or_introl eq_refl))]. cbn [snd].
    assert (E : pre ++ Some v :: l = (pre ++ [Some v]) ++ l) by now rewrite <- app_assoc. rewrite E. replace (S (length pre)) with (length (pre ++ [Some v])) by (rewrite app_length; cbn; lia).
    assert (Hn' : forall o, In o l -> o <> None) by (intros; apply Hn; now right). destruct (Rltb u v) eqn:B.
    + apply Rltb_true in B. apply IH; [exact Hn'|rewrite nth_error_app2, Nat.sub_diag by lia; reflexivity|]. intros x Hx. apply in_app_or in Hx as [Hx|[Hx|[]]]; [apply Hm in Hx; lra|injection Hx as ->; lra].
    + apply Rltb_false in B. apply IH; [exact Hn'|rewrite nth_error_app1; [exact Hb|apply nth_error_Some; congruence]|]. intros x Hx. apply in_app_or in Hx as [Hx|[Hx|[]]]; [now apply Hm|injection Hx as <-; lra].
Qed.
Lemma argmax_max l i : (forall o, In o l -> o <> None) -> argmax l = Ok i -> exists w, nth_error l i = Some (Some w) /\ forall v, In (Some v) l -> v <= w.
Proof.
  intros Hn H. destruct l as [|o r]; [discriminate|]. unfold argmax in H. rewrite (proj2 (nan_index_none _) Hn) in H. apply Ok_inj in H. subst i. destruct o as [u|]; [|exfalso; now apply (Hn None (or_introl eq_refl))].
  apply (max_index_spec r (fun o Ho => Hn o (or_intror Ho)) [Some u] 0%nat u eq_refl). intros v [E|[]]. injection E as ->. lra.
Qed.
Lemma argmax_nan l i : In None l -> argmax l = Ok i -> nth_error l i = Some None.
Proof.
  intros Hn H. destruct l as [|o r]; [contradiction|]. unfold argmax in H. destruct (nan_index (o :: r)) as [j|] eqn:E; [apply Ok_inj in H; subst j; now apply nan_index_some|]. exfalso. now apply (proj1 (nan_index_none _) E None Hn).
Qed.
