(** Four points whose triangles can be told apart, used in examples. *)
From Verif.Spec Require Import Match.
From Coq Require Import List Reals Lra.
Import ListNotations.

Definition base4 : list (R * R) := [(0, 0); (3, 4); (8, 6); (15, 8)]%R.
Lemma base_shapes : distinct_shapes base4.
Proof.
  intros a b c a' b' c' Ha Hb Hc Ha' Hb' Hc' O O' E.
    assert (C1 : ((fst b - fst a) / distance a b = (fst b' - fst a') / distance a' b')%R) by (unfold shape in E; congruence).
    assert (C2 : (((fst b - fst a) * (fst c - fst a) + (snd b - snd a) * (snd c - snd a)) / (distance a b * distance a c) =
                 ((fst b' - fst a') * (fst c' - fst a') + (snd b' - snd a') * (snd c' - snd a')) / (distance a' b' * distance a' c'))%R)
      by (unfold shape in E; congruence).
    clear E.
    assert (S : forall r, (0 <= r)%R -> forall v, (v = r * r)%R -> sqrt v = r) by (intros r Hr v ->; now apply sqrt_square).
    assert (D1 : distance (0,0)%R (3,4)%R = 5%R) by (unfold distance; apply S; cbn; lra).
    assert (D2 : distance (0,0)%R (8,6)%R = 10%R) by (unfold distance; apply S; cbn; lra).
    assert (D3 : distance (0,0)%R (15,8)%R = 17%R) by (unfold distance; apply S; cbn; lra).
    assert (D4 : (distance (3,4) (8,6) * distance (3,4) (8,6) = 29 /\ 0 < distance (3,4) (8,6))%R).
    { unfold distance. split; [rewrite sqrt_sqrt; cbn; lra|apply sqrt_lt_R0; cbn; lra]. }
    set (d := distance (3,4)%R (8,6)%R) in *.
    assert (T : forall x y z : R * R, In x base4 -> In y base4 -> In z base4 -> (fst x < fst y < fst z)%R ->
      (x, y, z) = ((0,0),(3,4),(8,6))%R \/ (x, y, z) = ((0,0),(3,4),(15,8))%R \/
      (x, y, z) = ((0,0),(8,6),(15,8))%R \/ (x, y, z) = ((3,4),(8,6),(15,8))%R).
    { clear. intros x y z Hx Hy Hz. unfold base4 in *. cbn in Hx, Hy, Hz.
      destruct Hx as [<-|[<-|[<-|[<-|[]]]]], Hy as [<-|[<-|[<-|[<-|[]]]]]; cbn [fst]; intros H; try (exfalso; lra);
      destruct Hz as [<-|[<-|[<-|[<-|[]]]]]; cbn [fst] in H; try (exfalso; lra); auto. }
    apply T in O; auto. apply T in O'; auto. destruct D4 as [D4 D5].
    destruct O as [O|[O|[O|O]]], O' as [O'|[O'|[O'|O']]]; injection O as -> -> ->; injection O' as -> -> ->;
      try (repeat split; reflexivity); exfalso; cbn [fst snd] in C1, C2; fold d in C1, C2; rewrite ?D1, ?D2, ?D3 in C1; rewrite ?D1, ?D2, ?D3 in C2;
      replace (5 * 10)%R with 50%R in C2 by lra; replace (5 * 17)%R with 85%R in C2 by lra; replace (10 * 17)%R with 170%R in C2 by lra;
      try lra;
      apply (f_equal (fun v => v * d)%R) in C1; replace ((8 - 3) / d * d)%R with 5%R in C1 by (field; lra);
      assert (Hd : (d = 25 / 3 \/ d = 50 / 8)%R) by (first [left; lra|right; lra]); destruct Hd as [Hd|Hd]; rewrite Hd in D4; lra.
Qed.
