(** bin/compute_distance_from_center: the distances and the counts (C117). *)
From Verif.Model Require Import CenterDistance.
From Verif.Spec Require Import CenterDistance.
From Verif.Proofs Require Import Prelude RealNum.
From Coq Require Import Lia Lra.
Local Open Scope R_scope.
Local Open Scope string_scope.
Local Open Scope list_scope.

(** A device has one entry: the distance of its last spot from its first row of the metrology, or -1 if it was asked for and has no spot. *)
Theorem C117_distance t m posids : NoDup (map fst (measure t m posids)) /\
  forall p x, In (p, x) (measure t m posids) <->
    asked posids p /\
    ((exists a s b v, t = a ++ s :: b /\ seen_as m s v /\ d_id v = p /\ x = sqrt ((s_x s - d_x v) ^ 2 + (s_y s - d_y v) ^ 2) /\
        forall s' v', In s' b -> seen_as m s' v' -> d_id v' <> p) \/
     (posids <> None /\ x = -1 /\ forall s v, In s t -> seen_as m s v -> d_id v <> p)).
Proof.
  assert (EQ : forall a b, String.eqb a b = true <-> a = b) by apply String.eqb_eq.
  assert (Fst : forall s, match filter (fun v => (d_loc v =? s_loc s)%Z) m with [] => forall v, ~ exists a b, m = a ++ v :: b /\ d_loc v = s_loc s /\ Forall (fun w => d_loc w <> s_loc s) a
     | v :: _ => forall w, (exists a b, m = a ++ w :: b /\ d_loc w = s_loc s /\ Forall (fun w => d_loc w <> s_loc s) a) <-> w = v end).
  { intros s. induction m as [|v l IH]; [intros v (a & b & E & _); destruct a; discriminate|]. cbn [filter]. destruct (Z.eqb_spec (d_loc v) (s_loc s)) as [E|D].
    - intros w. split; [|intros ->; exists [], l; auto]. intros ([|a0 a] & b & [= <- _] & H & F); [reflexivity|]. inversion F; contradiction.
    - destruct (filter _ l) as [|v0 r]; intros w.
      + intros ([|a0 a] & b & [= <- El] & H & F); [contradiction|]. inversion F; subst. apply (IH w). eauto.
      + rewrite <- IH. split; [intros ([|a0 a] & b & [= <- El] & H & F); [contradiction|]; inversion F; subst; eauto|]. intros (a & b & -> & H & F). exists (v :: a), b. auto. }
  assert (Wn : forall p, wanted posids p = true <-> asked posids p).
  { intros p. destruct posids as [l|]; cbn; [|tauto]. rewrite existsb_exists. split; [intros (q & I & E); apply EQ in E; now subst|]. intros I. exists p. split; [exact I|]. apply String.eqb_refl. }
  assert (S0 : NoDup (map fst (start posids)) /\ forall p x, dict_get String.eqb (start posids) p = Some x <-> asked posids p /\ posids <> None /\ x = -1).
  { destruct posids as [l|]; [|split; [constructor|]; intros p x; split; [discriminate|]; intros (_ & N & _); congruence]. cbn [start asked]. clear - EQ. induction l as [|q l IH] using rev_ind; [split; [constructor|]; intros p x; split; [discriminate|]; intros ([] & _)|]. destruct IH as [N IH]. rewrite fold_left_app. cbn [fold_left]. split; [now apply (dict_set_NoDup String.eqb EQ)|]. intros p x. rewrite in_app_iff. cbn [In]. destruct (String.eqb_spec p q) as [->|D].
    - rewrite (dict_get_set_same String.eqb EQ). split; [intros [= <-]; split; [auto|]; split; [discriminate|reflexivity]|]. intros (_ & _ & ->). reflexivity.
    - rewrite (dict_get_set_other String.eqb EQ) by congruence. rewrite IH. split; intros (I & _ & H); (split; [|split; [discriminate|exact H]]); [auto|]. destruct I as [I|[I|[]]]; [exact I|congruence]. }
  assert (G : NoDup (map fst (measure t m posids)) /\ forall p x, dict_get String.eqb (measure t m posids) p = Some x <-> asked posids p /\
    ((exists a s b v, t = a ++ s :: b /\ seen_as m s v /\ d_id v = p /\ x = sqrt ((s_x s - d_x v) ^ 2 + (s_y s - d_y v) ^ 2) /\ forall s' v', In s' b -> seen_as m s' v' -> d_id v' <> p) \/
     (posids <> None /\ x = -1 /\ forall s v, In s t -> seen_as m s v -> d_id v <> p))).
  { induction t as [|s t IH] using rev_ind.
    - cbn. split; [apply S0|]. intros p x. rewrite (proj2 S0). split; [intros (A & N & X); split; [exact A|]; right; repeat split; auto; intros ? ? []|]. intros (A & [(a & s & b & v & E & _)|(N & X & _)]); [destruct a; discriminate|auto].
    - destruct IH as [N IH]. unfold measure. rewrite fold_left_app. fold (measure t m posids). cbn [fold_left].
      (* a spot that is not of p changes nothing for p *)
      assert (Same : forall p x, (forall v, seen_as m s v -> d_id v <> p) ->
         (dict_get String.eqb (measure t m posids) p = Some x <-> asked posids p /\
         ((exists a s0 b v, t ++ [s] = a ++ s0 :: b /\ seen_as m s0 v /\ d_id v = p /\ x = sqrt ((s_x s0 - d_x v) ^ 2 + (s_y s0 - d_y v) ^ 2) /\ forall s' v', In s' b -> seen_as m s' v' -> d_id v' <> p) \/
          (posids <> None /\ x = -1 /\ forall s0 v, In s0 (t ++ [s]) -> seen_as m s0 v -> d_id v <> p)))).
      { intros p x No. rewrite IH. split; intros (A & [(a & s0 & b & v & E & Se & Hd & X & L)|(Np & X & L)]); (split; [exact A|]).
        - left. exists a, s0, (b ++ [s]), v. split; [rewrite E, <- app_assoc; reflexivity|]. split; [exact Se|]. split; [exact Hd|]. split; [exact X|]. intros s' v' I. apply in_app_iff in I as [I|[<-|[]]]; [eauto|apply No].
        - right. split; [exact Np|]. split; [exact X|]. intros s' v' I. apply in_app_iff in I as [I|[<-|[]]]; [eauto|apply No].
        - left. destruct b as [|y b] using rev_ind; [apply app_inj_tail in E as [_ <-]; exfalso; exact (No v Se Hd)|]. rewrite app_comm_cons, app_assoc in E. apply app_inj_tail in E as [-> ->]. exists a, s0, b, v. repeat split; auto; try apply Se. intros s' v' I. apply L. apply in_app_iff. auto.
        - right. repeat split; auto. intros s' v' I. apply L. apply in_app_iff. auto. }
      unfold step. destruct (Z.ltb_spec (s_loc s) 0) as [Lt|Ge]; [split; [exact N|]; intros p x; apply Same; intros v (P & _); lia|]. specialize (Fst s). destruct (filter _ m) as [|v r]; [split; [exact N|]; intros p x; apply Same; intros v (_ & H); exfalso; exact (Fst v H)|].
      assert (Sv : forall w, seen_as m s w <-> w = v) by (intros w; rewrite <- Fst; unfold seen_as; tauto). destruct (wanted posids (d_id v)) eqn:W.
      + split; [now apply (dict_set_NoDup String.eqb EQ)|]. intros p x. destruct (String.eqb_spec p (d_id v)) as [->|D].
        * rewrite (dict_get_set_same String.eqb EQ). apply Wn in W. split.
          -- intros [= <-]. split; [exact W|]. left. exists t, s, [], v. split; [reflexivity|]. split; [now apply Sv|]. split; [reflexivity|]. split; [reflexivity|]. intros ? ? [].
          -- intros (_ & [(a & s0 & b & w & E & Se & Hd & X & L)|(_ & _ & L)]).
             ++ destruct b as [|y b] using rev_ind; [apply app_inj_tail in E as [_ <-]; apply Sv in Se as ->; now rewrite X|]. rewrite app_comm_cons, app_assoc in E. apply app_inj_tail in E as [_ <-]. exfalso. apply (L s v); [apply in_app_iff; right; now left|now apply Sv|reflexivity].
             ++ exfalso. apply (L s v); [apply in_app_iff; right; now left|now apply Sv|reflexivity].
        * rewrite (dict_get_set_other String.eqb EQ) by congruence. apply Same. intros w Hw. apply Sv in Hw as ->. congruence.
      + split; [exact N|]. intros p x. destruct (String.eqb_spec p (d_id v)) as [->|D]; [|apply Same; intros w Hw; apply Sv in Hw as ->; congruence]. assert (NA : ~ asked posids (d_id v)) by (rewrite <- Wn; congruence). rewrite IH. split; intros (A & _); contradiction. }
  destruct G as [N G]. split; [exact N|]. intros p x. rewrite <- G. split; [|apply (dict_get_In String.eqb EQ)].
  intros I. clear - N I. induction (measure t m posids) as [|[k v] d IH]; [destruct I|]. cbn [map fst] in N. inversion N as [|? ? Nk N']; subst. cbn. destruct I as [[= -> ->]|I]; [now rewrite String.eqb_refl|]. destruct (String.eqb_spec p k) as [<-|]; [exfalso; apply Nk; apply in_map_iff; exists (p, x); auto|auto].
Qed.
Print Assumptions C117_distance.
(** The numbers printed count the entries, an entry at distance exactly zero is in none of them, and the lists name the devices of their ranges. *)
Theorem C117_summary d : let s := summarize d in
  how_many (fun e : string * R => 0 < snd e) d (matched s) /\ how_many (fun e : string * R => snd e < 0) d (unmatched s) /\
  how_many (fun e : string * R => 0 < snd e < 3) d (below3 s) /\ how_many (fun e : string * R => 0 < snd e < 4) d (below4 s) /\
  how_many (fun e : string * R => 0 < snd e < 5) d (below5 s) /\ how_many (fun e : string * R => 0 < snd e < 6) d (below6 s) /\
  (exists zero, how_many (fun e : string * R => snd e = 0) d zero /\ (matched s + unmatched s + zero)%Z = Z.of_nat (List.length d)) /\
  (forall p, In p (over6 s) <-> exists x, In (p, x) d /\ 6 < x) /\ (forall p, In p (from5to6 s) <-> exists x, In (p, x) d /\ 5 < x <= 6) /\
  (forall p, In p (from4to5 s) <-> exists x, In (p, x) d /\ 4 < x <= 5) /\ (forall p, In p (from3to4 s) <-> exists x, In (p, x) d /\ 3 < x <= 4).
Proof.
  intros s. assert (C : forall (f : R -> bool) (P : R -> Prop), (forall x, f x = true <-> P x) -> how_many (fun e : string * R => P (snd e)) d (count (fun e : string * R => f (snd e)) d)).
  { intros f P H. unfold count. induction d as [|[p x] l IH]; [constructor|]. cbn [filter snd]. destruct (f x) eqn:E.
    - cbn [List.length]. rewrite Nat2Z.inj_succ. unfold Z.succ. apply hm_yes; [now apply H|exact IH].
    - apply hm_no; [cbn; rewrite <- H; congruence|exact IH]. }
  assert (M : forall (f : R -> bool) (P : R -> Prop), (forall x, f x = true <-> P x) -> forall p, In p (map fst (filter (fun e : string * R => f (snd e)) d)) <-> exists x, In (p, x) d /\ P x).
  { intros f P H p. rewrite in_map_iff. split; [intros ([q x] & <- & I); apply filter_In in I as [I F]; apply H in F; eauto|]. intros (x & I & Px). exists (p, x). split; [reflexivity|]. apply filter_In. split; [exact I|now apply H]. }
  assert (B : forall (f g : R -> bool) (P Q : R -> Prop), (forall x, f x = true <-> P x) -> (forall x, g x = true <-> Q x) -> forall x, (f x && g x)%bool = true <-> P x /\ Q x) by (intros f g P Q Hf Hg x; now rewrite Bool.andb_true_iff, Hf, Hg).
  assert (L : forall a x, Rltb a x = true <-> a < x) by (intros; apply Rltb_true). assert (L' : forall a x, Rltb x a = true <-> x < a) by (intros; apply Rltb_true). assert (Le : forall a x, Rleb x a = true <-> x <= a) by (intros; apply Rleb_true).
  split; [apply (C _ _ (L 0))|]. split; [apply (C _ (fun x => x < 0)), (L' 0)|]. split; [apply (C _ (fun x => 0 < x < 3)), (B _ _ _ _ (L 0) (L' 3))|]. split; [apply (C _ (fun x => 0 < x < 4)), (B _ _ _ _ (L 0) (L' 4))|]. split; [apply (C _ (fun x => 0 < x < 5)), (B _ _ _ _ (L 0) (L' 5))|]. split; [apply (C _ (fun x => 0 < x < 6)), (B _ _ _ _ (L 0) (L' 6))|].
  split.
  { exists (count (fun e : string * R => Reqb (snd e) 0) d). split; [apply (C (fun x => Reqb x 0) (fun x => x = 0)); intros; apply Reqb_true|]. unfold s, summarize, matched, unmatched, count. clear. induction d as [|[p x] l IH]; [reflexivity|]. cbn [filter snd List.length]. rewrite Nat2Z.inj_succ, <- IH. destruct (Rltb 0 x) eqn:E1; destruct (Rltb x 0) eqn:E2; destruct (Reqb x 0) eqn:E3; cbn [List.length]; rewrite ?Nat2Z.inj_succ; try lia; exfalso; rewrite ?Rltb_true, ?Rltb_false, ?Reqb_true, ?Reqb_false in *; lra. }
  split; [apply (M _ _ (L 6))|]. split; [apply (M _ (fun x => 5 < x <= 6)), (B _ _ _ _ (L 5) (Le 6))|]. split; [apply (M _ (fun x => 4 < x <= 5)), (B _ _ _ _ (L 4) (Le 5))|]. apply (M _ (fun x => 3 < x <= 4)), (B _ _ _ _ (L 3) (Le 4)).
Qed.
Print Assumptions C117_summary.
Example C117_example : let m := [{| d_loc := 1; d_id := "M1"; d_x := 0; d_y := 0 |}; {| d_loc := 2; d_id := "M2"; d_x := 10; d_y := 0 |}] in
  measure [{| s_loc := -1; s_x := 5; s_y := 5 |}; {| s_loc := 2; s_x := 13; s_y := 4 |}] m (Some ["M1"; "M2"]) = [("M1", -1); ("M2", sqrt ((13 - 10) ^ 2 + (4 - 0) ^ 2))] /\ sqrt ((13 - 10) ^ 2 + (4 - 0) ^ 2) = 5.
Proof. split; [reflexivity|]. replace ((13 - 10) ^ 2 + (4 - 0) ^ 2) with (5 * 5) by lra. apply sqrt_square. lra. Qed.
(** A positioner with a spot exactly at its centre is neither matched nor unmatched. *)
Theorem C117_partition_refuted : exists t m l, NoDup l /\ let s := summarize (measure t m (Some l)) in (matched s + unmatched s)%Z <> Z.of_nat (List.length l).
Proof.
  exists [{| s_loc := 1; s_x := 0; s_y := 0 |}], [{| d_loc := 1; d_id := "M1"; d_x := 0; d_y := 0 |}], ["M1"]. split; [repeat constructor; intros []|]. cbn. assert (E : sqrt ((0 - 0) * ((0 - 0) * 1) + (0 - 0) * ((0 - 0) * 1)) = 0) by (replace ((0 - 0) * ((0 - 0) * 1) + (0 - 0) * ((0 - 0) * 1)) with 0 by lra; apply sqrt_0). unfold count. cbn. rewrite E. assert (Rltb 0 0 = false) as -> by (apply Rltb_false; lra). cbn. lia.
Qed.
Print Assumptions C117_partition_refuted.
