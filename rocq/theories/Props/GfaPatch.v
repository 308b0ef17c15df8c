(** C127: the corners of the guide cameras from planes fitted to stars. *)
From Coq Require Import Lra Lia Permutation.
From Verif.Model Require Import Ptl2fp CheckMoving GfaPatch.
From Verif.Spec Require Import Numpy GfaPatch.
From Verif.Proofs Require Import Prelude RealNum Numpy Gfa2fp GfaPatch.
From Verif.Props Require Import Gfa2fp.
Local Open Scope R_scope.
Local Open Scope list_scope.

Lemma planes_split p : In p planes -> In p [0; 2; 5; 8]%Z \/ In p [3; 7]%Z.
Proof. intros H. apply in_planes in H. cbn. intuition lia. Qed.
Lemma pinholes_range h : In h pinhole_ids <-> (1 <= h <= 4)%Z.
Proof. rewrite in_pinholes. lia. Qed.
Lemma written_petals d A M rows : write_gfa_patch d A M = Ok rows -> exists l, Forall2 (fun p rs => patch_petal d A M p = Ok rs) planes l /\ rows = concat l.
Proof.
  unfold write_gfa_patch. fold planes. destruct (rmapM _ planes) as [l|] eqn:E; [|discriminate]. cbn [rmap]. intros H. injection H as <-. exists l. split; [|reflexivity]. now apply rmapM_Ok_Forall2.
Qed.
Lemma filter_same p l : (forall r, In r l -> p_loc r = p) -> filter (fun r => Z.eqb (p_loc r) p) l = l.
Proof. induction l as [|r l IH]; intros H; [reflexivity|]. cbn [filter]. rewrite (H r (or_introl eq_refl)), Z.eqb_refl. f_equal. apply IH. intros u I. apply H. now right. Qed.
Lemma filter_other p q l : p <> q -> (forall r, In r l -> p_loc r = p) -> filter (fun r => Z.eqb (p_loc r) q) l = [].
Proof. intros N. induction l as [|r l IH]; intros H; [reflexivity|]. cbn [filter]. rewrite (H r (or_introl eq_refl)). destruct (Z.eqb_spec p q); [contradiction|]. apply IH. intros u I. apply H. now right. Qed.
Lemma petal_loc_of d A M p rs : In p planes -> patch_petal d A M p = Ok rs -> forall r, In r rs -> p_loc r = p.
Proof.
  intros Hp E. destruct (petal_spec d A M p rs Hp E) as (a & b & g1 & g2 & g3 & g4 & z1 & z2 & z3 & z4 & f1 & f2 & f3 & f4 & q1 & q2 & q3 & q4 & r1 & r2 & r3 & r4 & -> & _ & _ & _ & _ & _ & _ & R1 & R2 & R3 & R4 & _).
  unfold is_row in *. intros r [<-|[<-|[<-|[<-|[]]]]]; tauto.
Qed.
(** The rows of a petal in the output are those made for it *)
Lemma rows_of_petal d A M p : forall ps l, NoDup ps -> (forall q, In q ps -> In q planes) -> Forall2 (fun p rs => patch_petal d A M p = Ok rs) ps l -> In p ps ->
  patch_petal d A M p = Ok (filter (fun r => Z.eqb (p_loc r) p) (concat l)).
Proof.
  intros ps l N S F. induction F as [|q rs ps l E F IH]; intros I; [destruct I|]. inversion N as [|? ? N1 N2]; subst. cbn [concat]. rewrite filter_app.
  assert (P : forall r, In r rs -> p_loc r = q) by (apply (petal_loc_of d A M q rs); [apply S; now left|exact E]).
  destruct I as [<-|I].
  - rewrite (filter_same q rs P). assert (O : filter (fun r => Z.eqb (p_loc r) q) (concat l) = []).
    { clear - F N1 S. induction F as [|u us ps l E F IH]; [reflexivity|]. cbn [concat]. rewrite filter_app. rewrite (filter_other u q us).
      - apply IH; [intros v [<-|Iv]; [apply S; now left|apply S; right; now right]|]. intros K. apply N1. now right.
      - intros ->. apply N1. now left.
      - apply (petal_loc_of d A M u us); [apply S; right; now left|exact E]. }
    rewrite O, app_nil_r. exact E.
  - rewrite (filter_other q p rs); [|intros ->; contradiction|exact P]. apply IH; [exact N2|intros u Iu; apply S; now right|exact I].
Qed.
Lemma planes_nodup : NoDup planes.
Proof. unfold planes. repeat constructor; cbn; intuition discriminate. Qed.
Lemma petal_written d A M rows p : write_gfa_patch d A M = Ok rows -> In p planes -> patch_petal d A M p = Ok (filter (fun r => Z.eqb (p_loc r) p) rows).
Proof. intros E Hp. destruct (written_petals d A M rows E) as (l & F & ->). apply (rows_of_petal d A M p planes); [apply planes_nodup|auto|exact F|exact Hp]. Qed.

Lemma petals_in_planes d A M ps l : (forall q, In q ps -> In q planes) -> Forall2 (fun p rs => patch_petal d A M p = Ok rs) ps l -> Forall2 (fun p rs => In p planes /\ patch_petal d A M p = Ok rs) ps l.
Proof. intros S E. induction E as [|p rs ps l E F IH]; constructor; [split; [apply S; now left|exact E]|]. apply IH. intros q Iq. apply S. now right. Qed.
(** C127: the script ends when both tables have the rows it needs and all six petals an alignment, and only then *)
Theorem C127_written d A M : 
  (averages A -> measures M -> aligned d -> exists rows, write_gfa_patch d A M = Ok rows /\ map (fun r => (p_loc r, p_pinhole r)) rows = list_prod planes [1; 2; 3; 4]%Z) /\
  (~ (averages A /\ measures M) -> aligned d -> write_gfa_patch d A M = Err AssertionError) /\
  (averages A -> measures M -> ~ aligned d -> write_gfa_patch d A M = Err KeyError).
Proof.
  split; [|split].
  - intros HA HM HD. assert (P : forall p, In p planes -> exists rs, patch_petal d A M p = Ok rs).
    { intros p Hp. apply guesses_petal; [exact Hp| |now apply HD]. intros h Hh. destruct (planes_split p Hp) as [I|I].
      - apply (guess_measured d A M p h I Hh). apply HM; [exact I|now apply pinholes_range].
      - apply (guess_average d A M p h I Hh); [split; [apply HA|apply HA; now apply pinholes_range]|now apply HD]. }
    destruct (rmapM_all _ planes P) as (l & E). exists (concat l). unfold write_gfa_patch. fold planes. rewrite E. split; [reflexivity|].
    apply rmapM_Ok_Forall2 in E. assert (E' : Forall2 (fun p rs => In p planes /\ patch_petal d A M p = Ok rs) planes l) by (apply petals_in_planes; [auto|exact E]).
    clear - E'. revert E'. generalize planes at 2 3. intros ps E'.
    induction E' as [|p rs qs l [Hp E] F IH]; [reflexivity|]. cbn [concat list_prod]. rewrite map_app. rewrite IH. f_equal.
    destruct (petal_spec d A M p rs Hp E) as (a & b & g1 & g2 & g3 & g4 & z1 & z2 & z3 & z4 & f1 & f2 & f3 & f4 & q1 & q2 & q3 & q4 & r1 & r2 & r3 & r4 & -> & _ & _ & _ & _ & _ & _ & R1 & R2 & R3 & R4 & _).
    unfold is_row in *. cbn [map]. repeat f_equal; tauto.
  - intros H HD. assert (X : forall p h, In p planes -> In h pinhole_ids -> guess_of d A M p h = Err AssertionError \/ exists g, guess_of d A M p h = Ok g).
    { intros p h Hp Hh. destruct (planes_split p Hp) as [I|I].
      - destruct (guess_measured d A M p h I Hh) as [G1 G2]. destruct (Nat.eq_dec (length (petal_rows M p h)) 1); auto.
      - destruct (guess_average d A M p h I Hh) as (G1 & _ & G2). destruct (petal_dec A) as [V|V]; [|left; apply G2; tauto]. destruct (Nat.eq_dec (length (avg_rows A h)) 8); [right; apply G1; auto|left; apply G2; tauto]. }
    assert (Y : exists p h, In p planes /\ In h pinhole_ids /\ guess_of d A M p h = Err AssertionError).
    { destruct (Exists_dec (fun ph => length (petal_rows M (fst ph) (snd ph)) <> 1%nat) (list_prod [0; 2; 5; 8]%Z pinhole_ids)) as [D|D].
      { intros [p h]. destruct (Nat.eq_dec (length (petal_rows M (fst (p, h)) (snd (p, h)))) 1); [right; tauto|now left]. }
      - apply Exists_exists in D as ([p h] & I & L). apply in_prod_iff in I as [Ip Ih]. exists p, h. split; [cbn in Ip; unfold planes; cbn; tauto|]. split; [exact Ih|]. now apply (guess_measured d A M p h Ip Ih).
      - assert (HM : measures M).
        { intros p h Ip Ih. destruct (Nat.eq_dec (length (petal_rows M p h)) 1) as [L|L]; [exact L|]. exfalso. apply D, Exists_exists. exists (p, h). split; [|exact L]. apply in_prod; [exact Ip|now apply pinholes_range]. }
        exists 3%Z. destruct (petal_dec A) as [V|V].
        + destruct (Exists_dec (fun h => length (avg_rows A h) <> 8%nat) pinhole_ids) as [W|W]; [intros h; destruct (Nat.eq_dec (length (avg_rows A h)) 8); [right; tauto|now left]| |].
          * apply Exists_exists in W as (h & Ih & L). exists h. split; [unfold planes; cbn; tauto|]. split; [exact Ih|]. apply (guess_average d A M 3 h); [cbn; tauto|exact Ih|tauto].
          * exfalso. apply H. split; [|exact HM]. split; [exact V|]. intros h Ih. destruct (Nat.eq_dec (length (avg_rows A h)) 8) as [L|L]; [exact L|]. exfalso. apply W, Exists_exists. exists h. split; [now apply pinholes_range|exact L].
        + exists 1%Z. assert (I1 : In 1%Z pinhole_ids) by (unfold pinhole_ids; cbn; tauto). split; [unfold planes; cbn; tauto|]. split; [exact I1|]. apply (guess_average d A M 3 1); [cbn; tauto|exact I1|tauto]. }
    unfold write_gfa_patch. fold planes. rewrite (rmapM_error _ AssertionError planes); [reflexivity| |].
    + intros p Hp. destruct (Exists_dec (fun h => guess_of d A M p h = Err AssertionError) pinhole_ids) as [D|D].
      { intros h. destruct (guess_of d A M p h) as [g|e]; [right; discriminate|]. destruct e; try (right; discriminate). now left. }
      * left. apply Exists_exists in D. apply guesses_fail; [exact Hp|intros h Hh; now apply X|exact D].
      * right. apply guesses_petal; [exact Hp| |now apply HD]. intros h Hh. destruct (X p h Hp Hh) as [G|G]; [|exact G]. exfalso. apply D, Exists_exists. now exists h.
    + destruct Y as (p & h & Hp & Hh & G). exists p. split; [exact Hp|]. apply guesses_fail; [exact Hp|intros k Hk; now apply X|now exists h].
  - intros HA HM HD. assert (Q : forall p, In p planes -> (exists al, dict_get Z.eqb d p = Some al) -> exists rs, patch_petal d A M p = Ok rs).
    { intros p Hp D. apply guesses_petal; [exact Hp| |exact D]. intros h Hh. destruct (planes_split p Hp) as [I|I].
      - apply (guess_measured d A M p h I Hh). apply HM; [exact I|now apply pinholes_range].
      - apply (guess_average d A M p h I Hh); [split; [apply HA|apply HA; now apply pinholes_range]|exact D]. }
    assert (K : forall p, In p planes -> dict_get Z.eqb d p = None -> patch_petal d A M p = Err KeyError).
    { intros p Hp D. destruct (planes_split p Hp) as [I|I].
      - apply align_fail; [exact Hp| |exact D]. intros h Hh. apply (guess_measured d A M p h I Hh). apply HM; [exact I|now apply pinholes_range].
      - assert (G : forall h, In h pinhole_ids -> guess_of d A M p h = Err KeyError) by (intros h Hh; apply (guess_average d A M p h I Hh); [split; [apply HA|apply HA; now apply pinholes_range]|exact D]).
        apply guesses_fail; [exact Hp|intros h Hh; left; now apply G|]. exists 1%Z. assert (I1 : In 1%Z pinhole_ids) by (unfold pinhole_ids; cbn; tauto). split; [exact I1|now apply G]. }
    unfold write_gfa_patch. fold planes. rewrite (rmapM_error _ KeyError planes); [reflexivity| |].
    + intros p Hp. destruct (dict_get Z.eqb d p) as [al|] eqn:D; [right; apply Q; [exact Hp|now exists al]|left; now apply K].
    + destruct (Exists_dec (fun p => dict_get Z.eqb d p = None) planes) as [D|D]; [intros p; destruct (dict_get Z.eqb d p); [right; discriminate|now left]| |].
      * apply Exists_exists in D as (p & Hp & D). exists p. split; [exact Hp|now apply K].
      * exfalso. apply HD. intros p Hp. destruct (dict_get Z.eqb d p) as [al|] eqn:E; [now exists al|]. exfalso. apply D, Exists_exists. now exists p.
Qed.
Print Assumptions C127_written.
(** The corners of a petal: the plane at the four pixels, moved back along the normal of the sensor that has the heights of the tables; no trace of the first places is left,
    but if the first three are on a line seen from above nothing is a number *)
Theorem C127_corners d A M rows p : write_gfa_patch d A M = Ok rows -> In p planes ->
  exists a b g1 g2 g3 g4 r1 r2 r3 r4, filter (fun r => Z.eqb (p_loc r) p) rows = [r1; r2; r3; r4] /\ map p_pinhole [r1; r2; r3; r4] = [1; 2; 3; 4]%Z /\ In (p, a) coeff_x_fp /\ In (p, b) coeff_y_fp /\
    first_place d A M p 1 g1 (p_z r1) /\ first_place d A M p 2 g2 (p_z r2) /\ first_place d A M p 3 g3 (p_z r3) /\ first_place d A M p 4 g4 (p_z r4) /\
    let '(nx, ny, nz) := normal_of (plane a (corner 1), plane b (corner 1), p_z r1) (plane a (corner 2), plane b (corner 2), p_z r2) (plane a (corner 3), plane b (corner 3), p_z r3) in
    nz <> 0 /\ forall r, In r [r1; r2; r3; r4] ->
    (open_corner g1 g2 g3 -> p_x r = Some (plane a (corner (p_pinhole r)) - 2.23 * (nx / nz)) /\ p_y r = Some (plane b (corner (p_pinhole r)) - 2.23 * (ny / nz))) /\
    (~ open_corner g1 g2 g3 -> p_x r = None /\ p_y r = None).
Proof.
  intros E Hp. apply (petal_written d A M rows p E) in Hp as E'. destruct (petal_spec d A M p _ Hp E') as (a & b & g1 & g2 & g3 & g4 & z1 & z2 & z3 & z4 & f1 & f2 & f3 & f4 & q1 & q2 & q3 & q4 & r1 & r2 & r3 & r4 & Er & Ia & Ib & P1 & P2 & P3 & P4 & R1 & R2 & R3 & R4 & _ & N).
  exists a, b, g1, g2, g3, g4, r1, r2, r3, r4. unfold is_row in *. destruct R1 as (_ & _ & H1 & _ & X1 & Y1 & Z1 & _), R2 as (_ & _ & H2 & _ & X2 & Y2 & Z2 & _), R3 as (_ & _ & H3 & _ & X3 & Y3 & Z3 & _), R4 as (_ & _ & H4 & _ & X4 & Y4 & Z4 & _).
  rewrite Z1, Z2, Z3, Z4. split; [exact Er|]. split; [cbn [map]; now rewrite H1, H2, H3, H4|]. do 6 (split; [assumption|]). destruct (normal_of _ _ _) as [[nx ny] nz]. destruct N as (Nz & N1 & N2). split; [exact Nz|].
  intros r I. split; intros O.
  - specialize (N1 O). injection N1 as -> -> -> ->. cbn [option_map fst snd] in *. destruct I as [<-|[<-|[<-|[<-|[]]]]]; [rewrite H1, X1, Y1|rewrite H2, X2, Y2|rewrite H3, X3, Y3|rewrite H4, X4, Y4]; split; reflexivity.
  - specialize (N2 O). injection N2 as -> -> -> ->. cbn [option_map] in *. destruct I as [<-|[<-|[<-|[<-|[]]]]]; auto.
Qed.
Print Assumptions C127_corners.
(** More than two of the ten turns change nothing, whatever the plane and the heights *)
Theorem C127_two_turns planar z guess n : turns (2 + n) planar z guess = turns 2 planar z guess.
Proof. change (2 + n)%nat with (S (S n)). now rewrite !turns_two. Qed.
Print Assumptions C127_two_turns.
(** With the written corners as metrology, gfa2fp of a pixel is the plane that was fitted to the stars *)
Theorem C127_round_trip d A M rows p argsort G : write_gfa_patch d A M = Ok rows -> In p planes -> is_argsort argsort -> complete G ->
  (exists gs, Forall2 as_metrology (filter (fun r => Z.eqb (p_loc r) p) rows) gs /\ Permutation (gfa_rows G p) gs) ->
  exists a b, In (p, a) coeff_x_fp /\ In (p, b) coeff_y_fp /\ forall q, gfa2fp argsort G p q = Ok (plane a q, plane b q).
Proof.
  intros E Hp AS C (gs & F & P). destruct (C127_corners d A M rows p E Hp) as (a & b & g1 & g2 & g3 & g4 & r1 & r2 & r3 & r4 & Er & H & Ia & Ib & _ & _ & _ & _ & N). exists a, b. split; [exact Ia|]. split; [exact Ib|].
  rewrite Er in F. inversion F as [|? s1 ? ? F1 Q1]; subst. inversion Q1 as [|? s2 ? ? F2 Q2]; subst. inversion Q2 as [|? s3 ? ? F3 Q3]; subst. inversion Q3 as [|? s4 ? ? F4 Q4]; subst. inversion Q4; subst.
  unfold as_metrology in *. destruct F1 as (_ & _ & h1 & x1 & y1 & z1), F2 as (_ & _ & h2 & x2 & y2 & z2), F3 as (_ & _ & h3 & x3 & y3 & z3), F4 as (_ & _ & h4 & x4 & y4 & z4).
  cbn [map] in H. injection H as H1 H2 H3 H4. rewrite H1 in h1. rewrite H2 in h2. rewrite H3 in h3. rewrite H4 in h4.
  assert (K : corners G p s1 s2 s3 s4) by (split; [exact P|]; lia).
  assert (Rp : (0 <= p <= 9)%Z) by (apply in_planes in Hp; lia).
  intros q. pose proof (C74_pixels_to_focal_plane argsort G p s1 s2 s3 s4 q AS C Rp K) as T.
  rewrite z1, z2, z3 in N. 
  destruct (normal_of (plane a (corner 1), plane b (corner 1), g_z s1) (plane a (corner 2), plane b (corner 2), g_z s2) (plane a (corner 3), plane b (corner 3), g_z s3)) as [[nx ny] nz] eqn:EN. destruct N as [Nz N].
  destruct (open_dec g1 g2 g3) as [O|O]; [|destruct (N r1 (or_introl eq_refl)) as [_ N1]; destruct (N1 O); congruence].
  assert (V : forall r, In r [r1; r2; r3; r4] -> p_x r = Some (plane a (corner (p_pinhole r)) - 2.23 * (nx / nz)) /\ p_y r = Some (plane b (corner (p_pinhole r)) - 2.23 * (ny / nz))) by (intros r I; now apply N).
  destruct (V r1) as [X1 Y1]; [cbn; tauto|]. destruct (V r2) as [X2 Y2]; [cbn; tauto|]. destruct (V r3) as [X3 Y3]; [cbn; tauto|]. destruct (V r4) as [X4 Y4]; [cbn; tauto|].
  rewrite x1, H1 in X1. rewrite y1, H1 in Y1. rewrite x2, H2 in X2. rewrite y2, H2 in Y2. rewrite x3, H3 in X3. rewrite y3, H3 in Y3. rewrite x4, H4 in X4. rewrite y4, H4 in Y4.
  injection X1 as X1. injection X2 as X2. injection X3 as X3. injection X4 as X4. injection Y1 as Y1. injection Y2 as Y2. injection Y3 as Y3. injection Y4 as Y4.
  set (dx := 2.23 * (nx / nz)) in *. set (dy := 2.23 * (ny / nz)) in *.
  assert (EN' : normal_of (g_x s1, g_y s1, g_z s1) (g_x s2, g_y s2, g_z s2) (g_x s3, g_y s3, g_z s3) = (nx, ny, nz)).
  { rewrite <- EN, X1, X2, X3, Y1, Y2, Y3. unfold normal_of. f_equal; [f_equal|]; ring. }
  rewrite EN' in T. destruct T as [T _]. fold dx dy in T.
  assert (Sl : slopes s1 s2 s3 s4 <> 0).
  { destruct (coeffs p Hp) as (a' & b' & Ia' & Ib' & _ & _ & _ & S). assert (a' = a) as ->.
    { apply in_planes in Hp. clear - Hp Ia Ia'. unfold coeff_x_fp in *. cbn [In] in *. repeat (destruct Hp as [->|Hp]); [..|subst p]; repeat match goal with H : _ \/ _ |- _ => destruct H as [H|H] | H : False |- _ => destruct H | H : (_, _) = (_, _) |- _ => first [discriminate H|injection H as H] end; congruence. }
    assert (b' = b) as ->.
    { apply in_planes in Hp. clear - Hp Ib Ib'. unfold coeff_y_fp in *. cbn [In] in *. repeat (destruct Hp as [->|Hp]); [..|subst p]; repeat match goal with H : _ \/ _ |- _ => destruct H as [H|H] | H : False |- _ => destruct H | H : (_, _) = (_, _) |- _ => first [discriminate H|injection H as H] end; congruence. }
    unfold slopes. rewrite X1, X2, X3, X4, Y1, Y2, Y3, Y4. destruct a as [[a0 a1] a2], b as [[b0 b1] b2]. cbn [fst snd] in S. unfold plane, corner. cbn -[Rplus Rmult IZR Rminus Rdiv].
    intros Z. apply S. rewrite <- Z. field. }
  rewrite (T Sl Nz). f_equal. rewrite X1, X2, X3, X4, Y1, Y2, Y3, Y4. destruct a as [[a0 a1] a2], b as [[b0 b1] b2]. unfold corner_fit, plane, corner. cbn -[Rplus Rmult IZR Rminus Rdiv dx dy]. destruct q as [x y]. cbn [fst snd]. f_equal; field.
Qed.
Print Assumptions C127_round_trip.
(** The petal coordinates are left out for measured petals; for the others, if the petal is only turned about the axis, ptl2fp takes them to the written place in the focal plane *)
Theorem C127_petal_coordinates d A M rows p r : write_gfa_patch d A M = Ok rows -> In r rows -> In p planes -> p_loc r = p ->
  (measured p = true -> p_ptl r = (None, None, None)) /\
  (measured p = false -> snd (p_ptl r) = Some (p_z r) /\ forall al, dict_get Z.eqb d p = Some al -> alpha al = 0 -> beta al = 0 ->
    match fst (p_ptl r) with
    | (Some x, Some y) => exists X Y, p_x r = Some X /\ p_y r = Some Y /\ ptl2fp d p x y (Some (p_z r)) = Ok (Some (X, Y, p_z r + Tz al))
    | q => q = (None, None) /\ forall X Y, p_x r = Some X -> p_y r = Some Y -> r2z (sqrt (X ^ 2 + Y ^ 2)) = None
    end).
Proof.
  intros E I Hp L. pose proof (petal_written d A M rows p E Hp) as E'.
  assert (I' : In r (filter (fun r => Z.eqb (p_loc r) p) rows)) by (apply filter_In; split; [exact I|now apply Z.eqb_eq]).
  destruct (petal_spec d A M p _ Hp E') as (a & b & g1 & g2 & g3 & g4 & z1 & z2 & z3 & z4 & f1 & f2 & f3 & f4 & q1 & q2 & q3 & q4 & r1 & r2 & r3 & r4 & Er & _ & _ & _ & _ & _ & _ & R1 & R2 & R3 & R4 & (P1 & P2 & P3 & P4) & _). rewrite Er in I'.
  assert (X : exists h z f q, is_row p h z f q r /\ ptl_of d p f = Ok q) by (destruct I' as [<-|[<-|[<-|[<-|[]]]]]; do 4 eexists; split; eassumption).
  destruct X as (h & z & f & q & (_ & _ & _ & Q & Fx & Fy & Fz & _) & T). rewrite Q, Fx, Fy, Fz. split; intros Mp; rewrite Mp; [reflexivity|]. split; [reflexivity|]. intros al D A0 B0. cbn [fst].
  unfold ptl_of, fp2ptl, dict_getE in T. rewrite D in T. destruct f as [[X Y]|]; cbn [rbind rmap] in T; [|injection T as <-; cbn; split; [reflexivity|discriminate]].
  unfold nominal_z in T. destruct (r2z (sqrt (X ^ 2 + Y ^ 2))) as [z0|] eqn:Rz0; cbn [option_map] in T; injection T as <-; cbn [option_map fst snd].
  - exists X, Y. split; [reflexivity|]. split; [reflexivity|]. unfold ptl2fp, dict_getE. rewrite D. cbn [rbind nominal_z option_map]. f_equal. f_equal.
    unfold rotation, translation, Rxyz, mmul, Rz, Ry, Rx, mdot, transpose, dot3, add3, Ptl2fp.sub3, cx, cy. rewrite A0, B0, cos_0, sin_0. cbn [fst snd].
    set (c := cos (gamma al)). set (s := sin (gamma al)). assert (S : s * s + c * c = 1) by (unfold s, c; pose proof (sin2_cos2 (gamma al)) as S; unfold Rsqr in S; exact S).
    f_equal; [f_equal|].
    + transitivity ((s * s + c * c) * (X - Tx al) + Tx al); [ring|rewrite S; ring].
    + transitivity ((s * s + c * c) * (Y - Ty al) + Ty al); [ring|rewrite S; ring].
    + ring.
  - split; [reflexivity|]. intros X' Y' EX EY. injection EX as <-. injection EY as <-. exact Rz0.
Qed.
Print Assumptions C127_petal_coordinates.
Lemma forall2_right {X Y} (P : X -> Y -> Prop) l m : Forall2 P l m -> forall y, In y m -> exists x, P x y.
Proof. induction 1 as [|x y l m H F IH]; intros z I; [destruct I|]. destruct I as [<-|I]; [now exists x|now apply IH]. Qed.
(** The petal numbers are those that get_petal_loc takes back to the location, and no two locations have the same camera *)
Theorem C127_numbers d A M rows r : write_gfa_patch d A M = Ok rows -> In r rows -> get_petal_loc (p_id r) = Ok (p_loc r) /\ forall r', In r' rows -> p_device r' = p_device r -> p_loc r' = p_loc r.
Proof.
  intros E I. assert (K : forall u, In u rows -> get_petal_id (p_loc u) = Ok (p_id u) /\ get_gfa_device (p_loc u) = Ok (p_device u) /\ In (p_loc u) planes).
  { intros u Iu. destruct (written_petals d A M rows E) as (l & F & Er). rewrite Er in Iu. apply in_concat in Iu as (rs & Irs & Iu). apply (petals_in_planes d A M planes l) in F; [|auto].
    assert (X : exists p, In p planes /\ patch_petal d A M p = Ok rs) by (exact (forall2_right _ _ _ F rs Irs)). destruct X as (p & Hp & Ep).
    destruct (petal_spec d A M p rs Hp Ep) as (a & b & g1 & g2 & g3 & g4 & z1 & z2 & z3 & z4 & f1 & f2 & f3 & f4 & q1 & q2 & q3 & q4 & r1 & r2 & r3 & r4 & -> & _ & _ & _ & _ & _ & _ & R1 & R2 & R3 & R4 & _).
    unfold is_row in *. destruct Iu as [<-|[<-|[<-|[<-|[]]]]]; [destruct R1 as (H1 & H2 & _ & _ & _ & _ & _ & H3)|destruct R2 as (H1 & H2 & _ & _ & _ & _ & _ & H3)|destruct R3 as (H1 & H2 & _ & _ & _ & _ & _ & H3)|destruct R4 as (H1 & H2 & _ & _ & _ & _ & _ & H3)]; rewrite H2; auto. }
  destruct (K r I) as (K1 & K2 & K3). apply in_planes in K3. split.
  - repeat (destruct K3 as [K3|K3]); rewrite K3 in *; cbn in K1; injection K1 as <-; reflexivity.
  - intros r' I' D. destruct (K r' I') as (_ & K5 & K6). apply in_planes in K6. rewrite D in K5. repeat (destruct K3 as [K3|K3]); rewrite K3 in *; cbn in K2; injection K2 as K2; rewrite <- K2 in K5; repeat (destruct K6 as [K6|K6]); rewrite K6 in *; cbn in K5; first [reflexivity|discriminate K5].
Qed.
Print Assumptions C127_numbers.

(** Cameras of 0.01 mm pixels, the third corner 1 mm above the others *)
Definition example_row (p h : Z) : mrow :=
  let q := (fst (corner h) / 100, snd (corner h) / 100, if Z.eqb h 3 then 1 else 0) in {| m_petal := p; m_pinhole := h; m_gfa := true; m_ptl := q; m_fp := q |}.
Definition example_tables : list mrow := flat_map (fun p => map (example_row p) [4; 2; 1; 3]%Z) [9; 0; 1; 2; 4; 5; 6; 8]%Z ++ [{| m_petal := 3; m_pinhole := 1; m_gfa := false; m_ptl := (0, 0, 0); m_fp := (0, 0, 0) |}].
Example C127_example : averages example_tables /\ measures example_tables /\ aligned petal_alignments /\
  exists rows r, write_gfa_patch petal_alignments example_tables example_tables = Ok rows /\ In r rows /\ p_loc r = 0%Z /\ p_pinhole r = 1%Z /\ p_id r = 4%Z /\ p_ptl r = (None, None, None) /\ p_z r = 0 /\
    p_x r = Some (91.8290008897 - 2.23 * (0.0046691204 / (1031 * (0.0142564754 * 0.0141891317 + 0.0046691204 * 0.0046540723)))) /\
    p_y r = Some (-396.9957752088 + 2.23 * (0.0142564754 / (1031 * (0.0142564754 * 0.0141891317 + 0.0046691204 * 0.0046540723)))).
Proof.
  assert (HA : averages example_tables).
  { split; [apply Forall_forall; unfold example_tables; cbn [flat_map map app]; repeat constructor; cbn; lia|]. intros h Hh. assert (h = 1 \/ h = 2 \/ h = 3 \/ h = 4)%Z as H by lia. destruct H as [->|[->|[->| ->]]]; reflexivity. }
  assert (HM : measures example_tables).
  { intros p h Hp Hh. assert (h = 1 \/ h = 2 \/ h = 3 \/ h = 4)%Z as H by lia. cbn in Hp. destruct Hp as [<-|[<-|[<-|[<-|[]]]]]; destruct H as [->|[->|[->| ->]]]; reflexivity. }
  assert (HD : aligned petal_alignments) by (intros p Hp; apply in_planes in Hp; repeat (destruct Hp as [->|Hp]); [..|subst p]; eexists; reflexivity).
  split; [exact HA|]. split; [exact HM|]. split; [exact HD|]. destruct (C127_written petal_alignments example_tables example_tables) as (W & _). destruct (W HA HM HD) as (rows & E & _). exists rows.
  destruct (C127_corners _ _ _ rows 0 E) as (a & b & g1 & g2 & g3 & g4 & r1 & r2 & r3 & r4 & Er & Eh & Ia & Ib & P1 & P2 & P3 & _ & N); [unfold planes; cbn; tauto|].
  assert (a = (91.8290008897, 0.0142564754, -0.0046540723)) as -> by (unfold coeff_x_fp in Ia; cbn [In] in Ia; repeat (destruct Ia as [Ia|Ia]; [first [discriminate Ia|injection Ia as <-; reflexivity]|]); destruct Ia).
  assert (b = (-396.9957752088, 0.0046691204, 0.0141891317)) as -> by (unfold coeff_y_fp in Ib; cbn [In] in Ib; repeat (destruct Ib as [Ib|Ib]; [first [discriminate Ib|injection Ib as <-; reflexivity]|]); destruct Ib).
  unfold first_place in P1, P2, P3. cbn [measured Z.eqb orb negb] in P1, P2, P3.
  destruct P1 as (t1 & x1 & y1 & T1 & V1 & ->), P2 as (t2 & x2 & y2 & T2 & V2 & ->), P3 as (t3 & x3 & y3 & T3 & V3 & ->).
  assert (t1 = example_row 0 1) as -> by (change (petal_rows example_tables 0 1) with [example_row 0 1] in T1; congruence).
  assert (t2 = example_row 0 2) as -> by (change (petal_rows example_tables 0 2) with [example_row 0 2] in T2; congruence).
  assert (t3 = example_row 0 3) as -> by (change (petal_rows example_tables 0 3) with [example_row 0 3] in T3; congruence).
  unfold example_row, corner in V1, V2, V3. cbn [m_fp Z.eqb Pos.eqb fst snd] in V1, V2, V3. injection V1 as X1 Y1 Z1. injection V2 as X2 Y2 Z2. injection V3 as X3 Y3 Z3.
  cbn [map] in Eh. injection Eh as H1 H2 H3 H4.
  assert (I : In r1 (filter (fun r => Z.eqb (p_loc r) 0) rows)) by (rewrite Er; now left). apply filter_In in I as [I L]. apply Z.eqb_eq in L.
  exists r1. split; [exact E|]. split; [exact I|]. split; [exact L|]. split; [exact H1|].
  split; [destruct (C127_numbers _ _ _ rows r1 E I) as [K _]; rewrite L in K; unfold get_petal_loc, petal_locs in K; clear - E I L; destruct (written_petals _ _ _ rows E) as (l & F & Er)|].
  1:{ pose proof (petal_written _ _ _ rows 0 E ltac:(unfold planes; cbn; tauto)) as Ep. destruct (petal_spec _ _ _ 0 _ ltac:(unfold planes; cbn; tauto) Ep) as (a & b & g1 & g2 & g3 & g4 & z1 & z2 & z3 & z4 & f1 & f2 & f3 & f4 & q1 & q2 & q3 & q4 & s1 & s2 & s3 & s4 & Es & _ & _ & _ & _ & _ & _ & R1 & R2 & R3 & R4 & _).
      assert (I' : In r1 (filter (fun r => Z.eqb (p_loc r) 0) rows)) by (apply filter_In; split; [exact I|now apply Z.eqb_eq]). rewrite Es in I'. unfold is_row in *.
      destruct I' as [<-|[<-|[<-|[<-|[]]]]]; [destruct R1 as [R _]|destruct R2 as [R _]|destruct R3 as [R _]|destruct R4 as [R _]]; cbn in R; congruence. }
  split; [apply (C127_petal_coordinates _ _ _ rows 0 r1 E I ltac:(unfold planes; cbn; tauto) L); reflexivity|]. split; [now rewrite <- Z1|].
  rewrite <- Z1, <- Z2, <- Z3 in N. unfold normal_of, plane, corner in N. cbn [Z.eqb Pos.eqb fst snd] in N. destruct N as [_ N]. destruct (N r1 (or_introl eq_refl)) as [N1 _]. destruct N1 as [Nx Ny].
  { cbn [open_corner fst snd]. rewrite <- X1, <- X2, <- X3, <- Y1, <- Y2, <- Y3. lra. }
  rewrite H1 in Nx, Ny. cbn [Z.eqb Pos.eqb fst snd] in Nx, Ny. rewrite Nx, Ny. split; f_equal; lra.
Qed.
(** The rows of petal 0 as metrology *)
Definition back (r : prow) : gfa_row :=
  {| g_is_gfa := true; g_petal := p_loc r; g_pinhole := p_pinhole r; g_x := match p_x r with Some x => x | None => 0 end; g_y := match p_y r with Some y => y | None => 0 end; g_z := p_z r |}.
Example C127_round_trip_example : exists rows, write_gfa_patch petal_alignments example_tables example_tables = Ok rows /\
  let G := map back (filter (fun r => Z.eqb (p_loc r) 0) rows) in
  complete G /\ Forall2 as_metrology (filter (fun r => Z.eqb (p_loc r) 0) rows) G /\ gfa_rows G 0 = G /\
  gfa2fp isort_argsort G 0 (1000, 0) = Ok (106.0854762897, -392.3266548088).
Proof.
  destruct C127_example as (HA & HM & HD & _). destruct (C127_written petal_alignments example_tables example_tables) as (W & _). destruct (W HA HM HD) as (rows & E & _). exists rows. split; [exact E|]. intros G.
  assert (H0 : In 0%Z planes) by (unfold planes; cbn; tauto).
  destruct (C127_corners _ _ _ rows 0 E H0) as (a & b & g1 & g2 & g3 & g4 & r1 & r2 & r3 & r4 & Er & Eh & Ia & Ib & P1 & P2 & P3 & _ & N).
  assert (L : forall r, In r [r1; r2; r3; r4] -> p_loc r = 0%Z) by (intros r I; rewrite <- Er in I; apply filter_In in I as [_ I]; now apply Z.eqb_eq in I).
  assert (C : complete G).
  { unfold G. rewrite Er. intros p Hp. unfold gfa_rows. cbn [map filter back g_is_gfa g_petal andb]. rewrite !L by (cbn; tauto). destruct (Z.eqb 0 p); [right|left]; reflexivity. }
  assert (K : gfa_rows G 0 = G) by (unfold G; rewrite Er; unfold gfa_rows; cbn [map filter back g_is_gfa g_petal andb]; rewrite !L by (cbn; tauto); reflexivity).
  unfold first_place in P1, P2, P3. cbn [measured Z.eqb orb negb] in P1, P2, P3.
  destruct P1 as (t1 & x1 & y1 & T1 & V1 & ->), P2 as (t2 & x2 & y2 & T2 & V2 & ->), P3 as (t3 & x3 & y3 & T3 & V3 & ->).
  assert (t1 = example_row 0 1) as -> by (change (petal_rows example_tables 0 1) with [example_row 0 1] in T1; congruence).
  assert (t2 = example_row 0 2) as -> by (change (petal_rows example_tables 0 2) with [example_row 0 2] in T2; congruence).
  assert (t3 = example_row 0 3) as -> by (change (petal_rows example_tables 0 3) with [example_row 0 3] in T3; congruence).
  unfold example_row, corner in V1, V2, V3. cbn [m_fp Z.eqb Pos.eqb fst snd] in V1, V2, V3. injection V1 as X1 Y1 _. injection V2 as X2 Y2 _. injection V3 as X3 Y3 _.
  assert (F : Forall2 as_metrology (filter (fun r => Z.eqb (p_loc r) 0) rows) G).
  { unfold G. rewrite Er. destruct (normal_of _ _ _) as [[nx ny] nz]. destruct N as [_ N].
    assert (S : forall r, In r [r1; r2; r3; r4] -> as_metrology r (back r)).
    { intros r I. destruct (N r I) as [N1 _]. destruct N1 as [Nx Ny]; [cbn [open_corner fst snd]; rewrite <- X1, <- X2, <- X3, <- Y1, <- Y2, <- Y3; lra|].
      unfold as_metrology, back. cbn [g_is_gfa g_petal g_pinhole g_x g_y g_z]. rewrite Nx, Ny. repeat split; reflexivity. }
    cbn [map]. repeat (constructor; [apply S; cbn; tauto|]). constructor. }
  split; [exact C|]. split; [exact F|]. split; [exact K|].
  destruct (C127_round_trip _ _ _ rows 0 isort_argsort G E H0 isort_is_argsort C) as (a' & b' & Ia' & Ib' & T); [exists G; split; [exact F|rewrite K; apply Permutation_refl]|].
  rewrite T. assert (a' = (91.8290008897, 0.0142564754, -0.0046540723)) as -> by (unfold coeff_x_fp in Ia'; cbn [In] in Ia'; repeat (destruct Ia' as [Ia'|Ia']; [first [discriminate Ia'|injection Ia' as <-; reflexivity]|]); destruct Ia').
  assert (b' = (-396.9957752088, 0.0046691204, 0.0141891317)) as -> by (unfold coeff_y_fp in Ib'; cbn [In] in Ib'; repeat (destruct Ib' as [Ib'|Ib']; [first [discriminate Ib'|injection Ib' as <-; reflexivity]|]); destruct Ib').
  unfold plane. cbn [fst snd]. f_equal. f_equal; lra.
Qed.
