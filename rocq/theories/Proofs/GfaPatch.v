From Coq Require Import Lra Lia.
From Verif.Model Require Import Ptl2fp GfaPatch.
From Verif.Spec Require Import GfaPatch.
From Verif.Proofs Require Import Prelude RealNum Gfa2fp.
Local Open Scope R_scope.
Local Open Scope list_scope.

Definition row_at (v : R * R * R) : gfa_row := {| g_is_gfa := true; g_petal := 0; g_pinhole := 0; g_x := cx v; g_y := cy v; g_z := cz v |}.
Lemma offs_spec a b c rest : let '(nx, ny, nz) := normal_of a b c in
  ccd_to_fs_offs (a :: b :: c :: rest) = if Reqb nz 0 then Err NonFinite else Ok (2.23 * (nx / nz), 2.23 * (ny / nz)).
Proof.
  pose proof (shift_spec (row_at a) (row_at b) (row_at c) []) as H. destruct a as [[x0 y0] z0], b as [[x1 y1] z1], c as [[x2 y2] z2]. exact H.
Qed.
Definition shifted (planar : list point) (z : list R) : res (list (option point)) :=
  match planar, z with
  | a :: b :: c :: _, z0 :: z1 :: z2 :: _ =>
      let '(nx, ny, nz) := normal_of (fst a, snd a, z0) (fst b, snd b, z1) (fst c, snd c, z2) in
      if Reqb nz 0 then Err NonFinite else Ok (map (fun q => Some (fst q - 2.23 * (nx / nz), snd q - 2.23 * (ny / nz))) planar)
  | _, _ => Err IndexError
  end.
(** Shifting all points by the same offsets changes no difference *)
Lemma turn_shifted planar z dx dy : turn planar z (map (fun q => Some (fst q - dx, snd q - dy)) planar) = shifted planar z.
Proof.
  unfold turn, shifted. destruct planar as [|a [|b [|c planar]]]; [destruct z; reflexivity|destruct z as [|? [|]]; reflexivity|destruct z as [|? [|? [|]]]; reflexivity|]. destruct z as [|z0 [|z1 [|z2 z]]]; [reflexivity..|].
  cbn [map firstn with_z rmap rbind fst snd].
  pose proof (offs_spec (fst a - dx, snd a - dy, z0) (fst b - dx, snd b - dy, z1) (fst c - dx, snd c - dy, z2) []) as H.
  assert (E : normal_of (fst a - dx, snd a - dy, z0) (fst b - dx, snd b - dy, z1) (fst c - dx, snd c - dy, z2) = normal_of (fst a, snd a, z0) (fst b, snd b, z1) (fst c, snd c, z2)).
  { unfold normal_of. f_equal; [f_equal|]; ring. }
  rewrite E in H. destruct (normal_of _ _ _) as [[nx ny] nz]. replace (with_z [] z) with (@Ok (list (R * R * R)) []) by (destruct z; reflexivity). cbn [rmap rbind]. rewrite H. destruct (Reqb nz 0); reflexivity.
Qed.
Lemma turns_two planar z guess n : turns (S (S n)) planar z guess = rbind (turn planar z guess) (fun _ => shifted planar z).
Proof.
  cbn [turns]. destruct (turn planar z guess) as [g|e] eqn:E; [|reflexivity]. cbn [rbind].
  assert (F : exists dx dy, g = map (fun q => Some (fst q - dx, snd q - dy)) planar).
  { unfold turn in E. destruct (with_z _ _); [|discriminate]. cbn [rbind] in E. destruct (ccd_to_fs_offs _) as [[dx dy]|]; [|discriminate]. cbn [rbind] in E. injection E as <-. now exists dx, dy. }
  destruct F as (dx & dy & ->). rewrite turn_shifted.
  destruct (shifted planar z) as [g|e] eqn:S1; [|reflexivity]. cbn [rbind].
  assert (G : turn planar z g = Ok g).
  { unfold shifted in S1. destruct planar as [|a [|b [|c planar]]]; try discriminate. destruct z as [|z0 [|z1 [|z2 z]]]; try discriminate.
    destruct (normal_of (fst a, snd a, z0) (fst b, snd b, z1) (fst c, snd c, z2)) as [[nx ny] nz] eqn:N. destruct (Reqb nz 0) eqn:Z; [discriminate|]. injection S1 as <-.
    change (turn (a :: b :: c :: planar) (z0 :: z1 :: z2 :: z) (map (fun q => Some (fst q - 2.23 * (nx / nz), snd q - 2.23 * (ny / nz))) (a :: b :: c :: planar)) = Ok (map (fun q => Some (fst q - 2.23 * (nx / nz), snd q - 2.23 * (ny / nz))) (a :: b :: c :: planar))).
    rewrite turn_shifted. unfold shifted. rewrite N, Z. reflexivity. }
  clear S1. induction n as [|n IH]; [reflexivity|]. cbn [turns]. rewrite G. exact IH.
Qed.
(** *** The tables *)
Lemma in_planes p : In p planes <-> p = 0%Z \/ p = 2%Z \/ p = 3%Z \/ p = 5%Z \/ p = 7%Z \/ p = 8%Z.
Proof. unfold planes. cbn. intuition (try lia). Qed.
Lemma in_pinholes h : In h pinhole_ids <-> h = 1%Z \/ h = 2%Z \/ h = 3%Z \/ h = 4%Z.
Proof. unfold pinhole_ids. cbn. intuition (try lia). Qed.
Lemma has_real_spec p : has_real_metrology p = if ((0 <=? p) && (p <=? 9))%bool%Z then Ok (measured p) else Err AssertionError.
Proof.
  unfold has_real_metrology, one_of, measured. destruct ((0 <=? p)%Z && (p <=? 9)%Z)%bool eqn:E.
  - apply andb_prop in E as [E1 E2]. apply Z.leb_le in E1, E2. assert (p = 0 \/ p = 1 \/ p = 2 \/ p = 3 \/ p = 4 \/ p = 5 \/ p = 6 \/ p = 7 \/ p = 8 \/ p = 9)%Z as H by lia.
    repeat (destruct H as [->|H]; [reflexivity|]). subst. reflexivity.
  - destruct (existsb _ _) eqn:X; [|reflexivity]. apply existsb_exists in X as (q & I & Q). apply Z.eqb_eq in Q. subst q. exfalso. apply Bool.andb_false_iff in E. cbn in I. destruct E as [E|E]; apply Z.leb_gt in E; lia.
Qed.
Lemma real_flags A : (forall t, In t A -> (0 <= m_petal t <= 9)%Z) -> rmapM (fun t => has_real_metrology (m_petal t)) A = Ok (map (fun t => measured (m_petal t)) A).
Proof.
  induction A as [|t A IH]; intros H; [reflexivity|]. cbn [rmapM map]. rewrite has_real_spec. assert ((0 <=? m_petal t)%Z && (m_petal t <=? 9)%Z = true)%bool as ->.
  { specialize (H t (or_introl eq_refl)). apply andb_true_intro. split; apply Z.leb_le; lia. }
  cbn [rbind]. rewrite IH by (intros u I; apply H; now right). reflexivity.
Qed.
Lemma real_flags_fail A : ~ (forall t, In t A -> (0 <= m_petal t <= 9)%Z) -> rmapM (fun t => has_real_metrology (m_petal t)) A = Err AssertionError.
Proof.
  induction A as [|t A IH]; intros H; [exfalso; apply H; intros t []|]. cbn [rmapM]. rewrite has_real_spec. destruct ((0 <=? m_petal t)%Z && (m_petal t <=? 9)%Z)%bool eqn:E; [|reflexivity]. cbn [rbind].
  rewrite IH; [reflexivity|]. intros K. apply H. intros u [<-|I]; [|now apply K]. apply andb_prop in E as [E1 E2]. apply Z.leb_le in E1, E2. lia.
Qed.
Lemma filter_flags A h : map fst (filter (fun '(t, r) => Z.eqb (m_pinhole t) h && m_gfa t && r)%bool (combine A (map (fun t => measured (m_petal t)) A))) = avg_rows A h.
Proof. unfold avg_rows. induction A as [|t A IH]; [reflexivity|]. cbn [map combine filter]. destruct (_ && _)%bool; cbn [map fst]; now rewrite IH. Qed.
Lemma sum_map (l : list mrow) (coord : R * R * R -> R) : Rsum (map (fun t => coord (m_ptl t)) l) = fold_right (fun t s => coord (m_ptl t) + s) 0 l.
Proof. induction l as [|t l IH]; [reflexivity|]. cbn. now rewrite <- IH. Qed.
Lemma avg_spec A h coord : (forall t, In t A -> (0 <= m_petal t <= 9)%Z) ->
  get_ptl_avg A h coord = if Nat.eqb (length (avg_rows A h)) 8 then Ok (average A h coord) else Err AssertionError.
Proof.
  intros H. unfold get_ptl_avg. rewrite (real_flags A H). cbn [rbind]. rewrite filter_flags. destruct (Nat.eqb_spec (length (avg_rows A h)) 8) as [E|E]; [|reflexivity].
  unfold mean, average. rewrite <- sum_map. destruct (avg_rows A h) as [|t l] eqn:X; [discriminate|]. rewrite map_length. rewrite E. cbn [map]. f_equal. f_equal. cbn. lra.
Qed.
Lemma avg_fail A h coord : ~ (forall t, In t A -> (0 <= m_petal t <= 9)%Z) -> get_ptl_avg A h coord = Err AssertionError.
Proof. intros H. unfold get_ptl_avg. now rewrite (real_flags_fail A H). Qed.
Lemma real_spec M p h : In p [0; 2; 5; 8]%Z -> In h pinhole_ids -> get_real_metrology M p h = match petal_rows M p h with [t] => Ok (m_fp t) | _ => Err AssertionError end.
Proof.
  intros Hp Hh. unfold get_real_metrology. assert (has_real_metrology p = Ok true) as -> by (cbn in Hp; decompose [or] Hp; subst; try reflexivity; contradiction). cbn [rbind andb].
  assert (one_of pinhole_ids h = true) as -> by (apply existsb_exists; exists h; split; [exact Hh|apply Z.eqb_refl]). reflexivity.
Qed.
Lemma coeffs p : In p planes -> exists a b, In (p, a) coeff_x_fp /\ In (p, b) coeff_y_fp /\ get_plane_coeff p true = Ok a /\ get_plane_coeff p false = Ok b /\
  (forall z1 z2 z3, let '(_, _, nz) := normal_of (plane a (corner 1), plane b (corner 1), z1) (plane a (corner 2), plane b (corner 2), z2) (plane a (corner 3), plane b (corner 3), z3) in nz <> 0) /\
  snd (fst a) + snd b <> 0.
Proof.
  intros H. apply in_planes in H. repeat (destruct H as [->|H]); [..|subst p];
    (eexists; eexists; split; [unfold coeff_x_fp; cbn [In]; intuition reflexivity|]; split; [unfold coeff_y_fp; cbn [In]; intuition reflexivity|]; split; [reflexivity|]; split; [reflexivity|]; split; [intros z1 z2 z3|]; unfold normal_of, plane; cbn -[Rplus Rmult IZR Rminus Rdiv]; lra).
Qed.
Lemma planar_spec p a b : In p planes -> get_plane_coeff p true = Ok a -> get_plane_coeff p false = Ok b ->
  rmapM (get_pinhole_xy_fp p) pinhole_ids = Ok (map (fun h => (plane a (corner h), plane b (corner h))) pinhole_ids).
Proof.
  intros H E F. assert (G : forall h, In h pinhole_ids -> get_pinhole_xy_fp p h = Ok (plane a (corner h), plane b (corner h))).
  { intros h I. unfold get_pinhole_xy_fp. rewrite E, F. destruct a as [[a0 a1] a2], b as [[b0 b1] b2]. apply in_pinholes in I. unfold plane, corner.
    destruct I as [->|[->|[->| ->]]]; cbn -[Rplus Rmult IZR Rminus Rdiv]; f_equal; f_equal; ring. }
  unfold pinhole_ids in *. cbn [rmapM map]. rewrite !G by (cbn; tauto). reflexivity.
Qed.
(** *** The turns and the petals *)
Lemma turns_result q1 q2 q3 q4 z1 z2 z3 z4 g1 g2 g3 g4 n : let planar := [q1; q2; q3; q4] in let z := [z1; z2; z3; z4] in
  (open_corner g1 g2 g3 -> turns (S (S n)) planar z [g1; g2; g3; g4] = shifted planar z) /\ (~ open_corner g1 g2 g3 -> turns (S (S n)) planar z [g1; g2; g3; g4] = Err NonFinite).
Proof.
  intros planar z. rewrite turns_two. unfold turn. cbn [firstn]. unfold z at 1 4. cbn [with_z].
  destruct g1 as [[x1 y1]|]; cbn [open_corner]; [|split; [intros []|reflexivity]].
  destruct g2 as [[x2 y2]|]; cbn [open_corner rmap rbind]; [|split; [intros []|reflexivity]].
  destruct g3 as [[x3 y3]|]; cbn [open_corner rmap rbind fst snd]; [|split; [intros []|reflexivity]].
  pose proof (offs_spec (x1, y1, z1) (x2, y2, z2) (x3, y3, z3) []) as H. unfold normal_of in H. rewrite H. clear H.
  split; intros N.
  - assert (Reqb ((x2 - x1) * (y3 - y2) - (y2 - y1) * (x3 - x2)) 0 = false) as -> by now apply Reqb_false. reflexivity.
  - destruct (Reqb _ 0) eqn:E; [reflexivity|]. apply Reqb_false in E. contradiction.
Qed.
Lemma open_dec g1 g2 g3 : open_corner g1 g2 g3 \/ ~ open_corner g1 g2 g3.
Proof. unfold open_corner. destruct g1, g2, g3; try (right; intros []; fail). destruct (Req_dec ((fst p0 - fst p) * (snd p1 - snd p0) - (snd p0 - snd p) * (fst p1 - fst p0)) 0); [right|left]; tauto. Qed.
Lemma rmapM_error {A B} (f : A -> res B) e l : (forall x, In x l -> f x = Err e \/ exists b, f x = Ok b) -> (exists x, In x l /\ f x = Err e) -> rmapM f l = Err e.
Proof.
  induction l as [|x l IH]; intros H (y & I & E); [destruct I|]. cbn [rmapM]. destruct (H x (or_introl eq_refl)) as [-> |(b & Eb)]; [reflexivity|]. rewrite Eb. cbn [rbind].
  destruct I as [<-|I]; [congruence|]. rewrite IH; [reflexivity| |now exists y]. intros u Iu. apply H. now right.
Qed.
Lemma rmapM_all {A B} (f : A -> res B) l : (forall x, In x l -> exists b, f x = Ok b) -> exists bs, rmapM f l = Ok bs.
Proof.
  induction l as [|x l IH]; intros H; [now exists []|]. cbn [rmapM]. destruct (H x (or_introl eq_refl)) as (b & ->). destruct IH as (bs & ->); [intros u I; apply H; now right|]. now exists (b :: bs).
Qed.
Section Petal.
Variables (d : list (Z * alignment)) (A M : list mrow).
Definition guess_of (p h : Z) : res (option point * R) :=
  if measured p then rmap (fun v => (Some (cx v, cy v), cz v)) (get_real_metrology M p h) else get_fp_avg_guess d A p h.
Lemma measured_in p : In p planes -> measured p = true -> In p [0; 2; 5; 8]%Z.
Proof. intros H. apply in_planes in H. repeat (destruct H as [->|H]); [..|subst p]; cbn; intuition discriminate. Qed.
Lemma plane_real p : In p planes -> has_real_metrology p = Ok (measured p).
Proof. intros H. apply in_planes in H. repeat (destruct H as [->|H]); [..|subst p]; reflexivity. Qed.
Lemma guess_spec p h g : In p planes -> In h pinhole_ids -> guess_of p h = Ok g -> first_place d A M p h (fst g) (snd g).
Proof.
  intros Hp Hh E. unfold guess_of in E. unfold first_place. destruct (measured p) eqn:Mp.
  - rewrite (real_spec M p h (measured_in p Hp Mp) Hh) in E. destruct (petal_rows M p h) as [|t [|]]; try discriminate. cbn [rmap] in E. injection E as <-. exists t. destruct (m_fp t) as [[x y] z] eqn:F. exists x, y. auto.
  - unfold get_fp_avg_guess in E. assert (one_of pinhole_ids h = true) as X by (apply existsb_exists; exists h; split; [exact Hh|apply Z.eqb_refl]). rewrite X in E.
    assert (V : forall t, In t A -> (0 <= m_petal t <= 9)%Z).
    { destruct (Forall_Exists_dec (fun t => (0 <= m_petal t <= 9)%Z)) with (l := A) as [F|F]; [intros t; destruct (Z_le_dec 0 (m_petal t)); [destruct (Z_le_dec (m_petal t) 9); [left; lia|right; lia]|right; lia]|now apply Forall_forall|].
      rewrite avg_fail in E; [discriminate|]. intros K. apply Exists_exists in F as (t & I & N). apply N, (K t I). }
    rewrite !avg_spec in E by exact V. destruct (Nat.eqb _ 8); [|discriminate]. cbn [rbind] in E. destruct (ptl2fp d p (average A h cx) (average A h cy) None) as [v|] eqn:Y; [|discriminate]. cbn [rbind] in E. injection E as <-.
    split; [reflexivity|]. exists v. split; [exact Y|]. destruct v as [[[x y] z]|]; reflexivity.
Qed.
Lemma derive_spec p fp : In p planes -> derive_ccd_fp_coords d A M p = Ok fp ->
  exists a b g1 g2 g3 g4 z1 z2 z3 z4, In (p, a) coeff_x_fp /\ In (p, b) coeff_y_fp /\
    guess_of p 1 = Ok (g1, z1) /\ guess_of p 2 = Ok (g2, z2) /\ guess_of p 3 = Ok (g3, z3) /\ guess_of p 4 = Ok (g4, z4) /\
    let '(nx, ny, nz) := normal_of (plane a (corner 1), plane b (corner 1), z1) (plane a (corner 2), plane b (corner 2), z2) (plane a (corner 3), plane b (corner 3), z3) in
    nz <> 0 /\
    (open_corner g1 g2 g3 -> fp = map (fun h => Some (plane a (corner h) - 2.23 * (nx / nz), plane b (corner h) - 2.23 * (ny / nz))) pinhole_ids) /\
    (~ open_corner g1 g2 g3 -> fp = [None; None; None; None]).
Proof.
  intros Hp E. unfold derive_ccd_fp_coords in E. rewrite (plane_real p Hp) in E. cbn [rbind] in E. fold (guess_of p) in E.
  change (rmapM (fun h => if measured p then rmap (fun v => (Some (cx v, cy v), cz v)) (get_real_metrology M p h) else get_fp_avg_guess d A p h) pinhole_ids) with (rmapM (guess_of p) pinhole_ids) in E.
  destruct (rmapM (guess_of p) pinhole_ids) as [guess|] eqn:G; [|discriminate]. cbn [rbind] in E.
  destruct (coeffs p Hp) as (a & b & Ia & Ib & Ea & Eb & Nz & _). rewrite (planar_spec p a b Hp Ea Eb) in E. cbn [rbind] in E.
  apply rmapM_Ok_Forall2 in G. unfold pinhole_ids in G. inversion G as [|? [g1 z1] ? ? Q1 G1]; subst. inversion G1 as [|? [g2 z2] ? ? Q2 G2]; subst. inversion G2 as [|? [g3 z3] ? ? Q3 G3]; subst. inversion G3 as [|? [g4 z4] ? ? Q4 G4]; subst. inversion G4; subst.
  exists a, b, g1, g2, g3, g4, z1, z2, z3, z4. specialize (Nz z1 z2 z3).
  unfold pinhole_ids in E. cbn [map fst snd] in E.
  pose proof (turns_result (plane a (corner 1), plane b (corner 1)) (plane a (corner 2), plane b (corner 2)) (plane a (corner 3), plane b (corner 3)) (plane a (corner 4), plane b (corner 4)) z1 z2 z3 z4 g1 g2 g3 g4 8) as [T1 T2].
  unfold shifted in T1. cbn [fst snd] in T1. destruct (normal_of _ _ _) as [[nx ny] nz]. assert (Reqb nz 0 = false) as Z by now apply Reqb_false. rewrite Z in T1. do 6 (split; [assumption|]). split; [exact Nz|]. split; intros O.
  - rewrite (T1 O) in E. injection E as <-. reflexivity.
  - rewrite (T2 O) in E. injection E as <-. reflexivity.
Qed.
Definition height (p h : Z) : res R := if measured p then rmap cz (get_real_metrology M p h) else get_ptl_avg A h cz.
Lemma guess_height p h g z : guess_of p h = Ok (g, z) -> height p h = Ok z.
Proof.
  unfold guess_of, height. destruct (measured p).
  - destruct (get_real_metrology M p h) as [v|]; [|discriminate]. cbn [rmap]. intros E. injection E as _ <-. reflexivity.
  - unfold get_fp_avg_guess. destruct (one_of _ _); [|discriminate]. destruct (get_ptl_avg A h cx); [|discriminate]. destruct (get_ptl_avg A h cy); [|discriminate]. destruct (get_ptl_avg A h cz); [|discriminate].
    cbn [rbind]. destruct (ptl2fp _ _ _ _ _); [|discriminate]. cbn [rbind]. intros E. injection E as _ <-. reflexivity.
Qed.
(** A row of the output, given the corner in both systems *)
Definition is_row (p h : Z) (z : R) (f q : option point) (r : prow) : Prop :=
  get_petal_id p = Ok (p_id r) /\ p_loc r = p /\ p_pinhole r = h /\ p_ptl r = (if measured p then (None, None, None) else (option_map fst q, option_map snd q, Some z)) /\
  p_x r = option_map fst f /\ p_y r = option_map snd f /\ p_z r = z /\ get_gfa_device p = Ok (p_device r).
Lemma row_spec p h z f1 f2 f3 f4 q1 q2 q3 q4 : In p planes -> In h pinhole_ids -> height p h = Ok z ->
  exists r, patch_row d A M p [f1; f2; f3; f4] [q1; q2; q3; q4] h = Ok r /\
    is_row p h z (nth (Z.to_nat (h - 1)) [f1; f2; f3; f4] None) (nth (Z.to_nat (h - 1)) [q1; q2; q3; q4] None) r.
Proof.
  intros Hp Hh E. unfold patch_row. rewrite (plane_real p Hp). cbn [rbind]. fold (height p h). rewrite E. cbn [rbind].
  assert (P : exists i, get_petal_id p = Ok i) by (apply in_planes in Hp; repeat (destruct Hp as [->|Hp]); [..|subst p]; eexists; reflexivity).
  assert (D : exists i, get_gfa_device p = Ok i) by (apply in_planes in Hp; repeat (destruct Hp as [->|Hp]); [..|subst p]; eexists; reflexivity).
  destruct P as (i & Pi), D as (j & Dj). rewrite Pi, Dj. cbn [rbind].
  apply in_pinholes in Hh. destruct Hh as [->|[->|[->| ->]]]; (eexists; split; [reflexivity|]; unfold is_row; cbn; rewrite Pi, Dj; repeat split; reflexivity).
Qed.
Lemma petal_spec p rows : In p planes -> patch_petal d A M p = Ok rows ->
  exists a b g1 g2 g3 g4 z1 z2 z3 z4 f1 f2 f3 f4 q1 q2 q3 q4 r1 r2 r3 r4, rows = [r1; r2; r3; r4] /\ In (p, a) coeff_x_fp /\ In (p, b) coeff_y_fp /\
    first_place d A M p 1 g1 z1 /\ first_place d A M p 2 g2 z2 /\ first_place d A M p 3 g3 z3 /\ first_place d A M p 4 g4 z4 /\
    is_row p 1 z1 f1 q1 r1 /\ is_row p 2 z2 f2 q2 r2 /\ is_row p 3 z3 f3 q3 r3 /\ is_row p 4 z4 f4 q4 r4 /\
    (ptl_of d p f1 = Ok q1 /\ ptl_of d p f2 = Ok q2 /\ ptl_of d p f3 = Ok q3 /\ ptl_of d p f4 = Ok q4) /\
    let '(nx, ny, nz) := normal_of (plane a (corner 1), plane b (corner 1), z1) (plane a (corner 2), plane b (corner 2), z2) (plane a (corner 3), plane b (corner 3), z3) in
    nz <> 0 /\
    (open_corner g1 g2 g3 -> [f1; f2; f3; f4] = map (fun h => Some (plane a (corner h) - 2.23 * (nx / nz), plane b (corner h) - 2.23 * (ny / nz))) pinhole_ids) /\
    (~ open_corner g1 g2 g3 -> [f1; f2; f3; f4] = [None; None; None; None]).
Proof.
  intros Hp E. unfold patch_petal in E. destruct (derive_ccd_fp_coords d A M p) as [fp|] eqn:F; [|discriminate]. cbn [rbind] in E.
  destruct (derive_spec p fp Hp F) as (a & b & g1 & g2 & g3 & g4 & z1 & z2 & z3 & z4 & Ia & Ib & Q1 & Q2 & Q3 & Q4 & N).
  assert (L : exists f1 f2 f3 f4, fp = [f1; f2; f3; f4]).
  { destruct (normal_of _ _ _) as [[nx ny] nz]. destruct N as (_ & N1 & N2). destruct (open_dec g1 g2 g3) as [O|O]; [rewrite (N1 O)|rewrite (N2 O)]; do 4 eexists; reflexivity. }
  destruct L as (f1 & f2 & f3 & f4 & ->). destruct (rmapM (ptl_of d p) [f1; f2; f3; f4]) as [ptl|] eqn:T; [|discriminate]. cbn [rbind] in E.
  apply rmapM_Ok_Forall2 in T. inversion T as [|? q1 ? ? P1 T1]; subst. inversion T1 as [|? q2 ? ? P2 T2]; subst. inversion T2 as [|? q3 ? ? P3 T3]; subst. inversion T3 as [|? q4 ? ? P4 T4]; subst. inversion T4; subst.
  assert (I : forall h, In h [1; 2; 3; 4]%Z -> In h pinhole_ids) by (intros h H; exact H).
  destruct (row_spec p 1 z1 f1 f2 f3 f4 q1 q2 q3 q4 Hp (I 1%Z ltac:(cbn; tauto)) (guess_height _ _ _ _ Q1)) as (r1 & R1 & W1).
  destruct (row_spec p 2 z2 f1 f2 f3 f4 q1 q2 q3 q4 Hp (I 2%Z ltac:(cbn; tauto)) (guess_height _ _ _ _ Q2)) as (r2 & R2 & W2).
  destruct (row_spec p 3 z3 f1 f2 f3 f4 q1 q2 q3 q4 Hp (I 3%Z ltac:(cbn; tauto)) (guess_height _ _ _ _ Q3)) as (r3 & R3 & W3).
  destruct (row_spec p 4 z4 f1 f2 f3 f4 q1 q2 q3 q4 Hp (I 4%Z ltac:(cbn; tauto)) (guess_height _ _ _ _ Q4)) as (r4 & R4 & W4).
  unfold pinhole_ids in E. cbn [rmapM] in E. rewrite R1, R2, R3, R4 in E. cbn [rbind] in E. injection E as <-.
  exists a, b, g1, g2, g3, g4, z1, z2, z3, z4, f1, f2, f3, f4, q1, q2, q3, q4, r1, r2, r3, r4. split; [reflexivity|]. split; [exact Ia|]. split; [exact Ib|].
  apply guess_spec in Q1, Q2, Q3, Q4; try exact Hp; try (apply I; cbn; tauto). repeat (split; [first [assumption|repeat split; assumption]|]). exact N.
Qed.
(** What fails *)
Lemma ptl_of_spec p f : (exists al, dict_get Z.eqb d p = Some al) -> exists q, ptl_of d p f = Ok q.
Proof. intros (al & E). unfold ptl_of, fp2ptl, dict_getE. rewrite E. destruct f as [[x y]|]; cbn [rbind rmap]; eexists; reflexivity. Qed.
Lemma ptl_of_fail p f : dict_get Z.eqb d p = None -> ptl_of d p f = Err KeyError.
Proof. intros E. unfold ptl_of, fp2ptl, dict_getE. rewrite E. destruct f as [[x y]|]; reflexivity. Qed.
Lemma guesses_derive p : In p planes -> (forall h, In h pinhole_ids -> exists g, guess_of p h = Ok g) -> exists f1 f2 f3 f4, derive_ccd_fp_coords d A M p = Ok [f1; f2; f3; f4].
Proof.
  intros Hp H. destruct (rmapM_all (guess_of p) pinhole_ids H) as (guess & G). pose proof G as G'. apply rmapM_Ok_Forall2 in G'. apply Forall2_length in G'.
  unfold derive_ccd_fp_coords. rewrite (plane_real p Hp). cbn [rbind].
  change (rmapM (fun h => if measured p then rmap (fun v => (Some (cx v, cy v), cz v)) (get_real_metrology M p h) else get_fp_avg_guess d A p h) pinhole_ids) with (rmapM (guess_of p) pinhole_ids).
  rewrite G. cbn [rbind]. destruct (coeffs p Hp) as (a & b & Ia & Ib & Ea & Eb & Nz & _). rewrite (planar_spec p a b Hp Ea Eb). cbn [rbind].
  destruct guess as [|[g1 z1] [|[g2 z2] [|[g3 z3] [|[g4 z4] [|]]]]]; try discriminate. specialize (Nz z1 z2 z3). unfold pinhole_ids. cbn [map fst snd].
  pose proof (turns_result (plane a (corner 1), plane b (corner 1)) (plane a (corner 2), plane b (corner 2)) (plane a (corner 3), plane b (corner 3)) (plane a (corner 4), plane b (corner 4)) z1 z2 z3 z4 g1 g2 g3 g4 8) as [T1 T2].
  unfold shifted in T1. cbn [fst snd] in T1. destruct (normal_of _ _ _) as [[nx ny] nz]. assert (Reqb nz 0 = false) as Z by now apply Reqb_false. rewrite Z in T1.
  destruct (open_dec g1 g2 g3) as [O|O]; [rewrite (T1 O)|rewrite (T2 O)]; do 4 eexists; reflexivity.
Qed.
Lemma guesses_petal p : In p planes -> (forall h, In h pinhole_ids -> exists g, guess_of p h = Ok g) -> (exists al, dict_get Z.eqb d p = Some al) -> exists rows, patch_petal d A M p = Ok rows.
Proof.
  intros Hp H D. destruct (guesses_derive p Hp H) as (f1 & f2 & f3 & f4 & E). unfold patch_petal. rewrite E. cbn [rbind].
  destruct (rmapM_all (ptl_of d p) [f1; f2; f3; f4]) as (ptl & T); [intros f _; now apply ptl_of_spec|]. rewrite T. cbn [rbind].
  apply rmapM_Ok_Forall2, Forall2_length in T. destruct ptl as [|q1 [|q2 [|q3 [|q4 [|]]]]]; try discriminate.
  apply rmapM_all. intros h Hh. destruct (H h Hh) as ([g z] & G). destruct (row_spec p h z f1 f2 f3 f4 q1 q2 q3 q4 Hp Hh (guess_height _ _ _ _ G)) as (r & R & _). now exists r.
Qed.
Lemma guesses_fail p e : In p planes -> (forall h, In h pinhole_ids -> guess_of p h = Err e \/ exists g, guess_of p h = Ok g) -> (exists h, In h pinhole_ids /\ guess_of p h = Err e) -> patch_petal d A M p = Err e.
Proof.
  intros Hp H X. unfold patch_petal, derive_ccd_fp_coords. rewrite (plane_real p Hp). cbn [rbind].
  change (rmapM (fun h => if measured p then rmap (fun v => (Some (cx v, cy v), cz v)) (get_real_metrology M p h) else get_fp_avg_guess d A p h) pinhole_ids) with (rmapM (guess_of p) pinhole_ids).
  now rewrite (rmapM_error _ e _ H X).
Qed.
Lemma align_fail p : In p planes -> (forall h, In h pinhole_ids -> exists g, guess_of p h = Ok g) -> dict_get Z.eqb d p = None -> patch_petal d A M p = Err KeyError.
Proof.
  intros Hp H D. destruct (guesses_derive p Hp H) as (f1 & f2 & f3 & f4 & E). unfold patch_petal. rewrite E. cbn [rbind rmapM]. now rewrite (ptl_of_fail p f1 D).
Qed.
Lemma guess_measured p h : In p [0; 2; 5; 8]%Z -> In h pinhole_ids -> (length (petal_rows M p h) = 1%nat -> exists g, guess_of p h = Ok g) /\ (length (petal_rows M p h) <> 1%nat -> guess_of p h = Err AssertionError).
Proof.
  intros Hp Hh. unfold guess_of. assert (measured p = true) as -> by (cbn in Hp; decompose [or] Hp; subst; try reflexivity; contradiction). rewrite (real_spec M p h Hp Hh).
  destruct (petal_rows M p h) as [|t [|]]; split; intros L; try reflexivity; try discriminate; try (now exfalso; apply L); eexists; reflexivity.
Qed.
Lemma petal_dec : (forall t, In t A -> (0 <= m_petal t <= 9)%Z) \/ ~ (forall t, In t A -> (0 <= m_petal t <= 9)%Z).
Proof.
  destruct (Forall_Exists_dec (fun t => (0 <= m_petal t <= 9)%Z)) with (l := A) as [F|F]; [intros t; destruct (Z_le_dec 0 (m_petal t)); [destruct (Z_le_dec (m_petal t) 9); [left; lia|right; lia]|right; lia]|left; now apply Forall_forall|right].
  intros K. apply Exists_exists in F as (t & I & N). apply N, (K t I).
Qed.
Lemma guess_average p h : In p [3; 7]%Z -> In h pinhole_ids ->
  let ok := (forall t, In t A -> (0 <= m_petal t <= 9)%Z) /\ length (avg_rows A h) = 8%nat in
  (ok -> (exists al, dict_get Z.eqb d p = Some al) -> exists g, guess_of p h = Ok g) /\ (ok -> dict_get Z.eqb d p = None -> guess_of p h = Err KeyError) /\ (~ ok -> guess_of p h = Err AssertionError).
Proof.
  intros Hp Hh ok. unfold guess_of, get_fp_avg_guess. assert (measured p = false) as -> by (cbn in Hp; decompose [or] Hp; subst; try reflexivity; contradiction).
  assert (one_of pinhole_ids h = true) as -> by (apply existsb_exists; exists h; split; [exact Hh|apply Z.eqb_refl]).
  split; [|split].
  - intros [V L] (al & D). rewrite !avg_spec by exact V. rewrite L. cbn [Nat.eqb rbind]. unfold ptl2fp, dict_getE. rewrite D. cbn [rbind]. eexists. reflexivity.
  - intros [V L] D. rewrite !avg_spec by exact V. rewrite L. cbn [Nat.eqb rbind]. unfold ptl2fp, dict_getE. now rewrite D.
  - intros N. destruct petal_dec as [V|V]; [|now rewrite avg_fail]. rewrite avg_spec by exact V. destruct (Nat.eqb_spec (length (avg_rows A h)) 8) as [L|L]; [exfalso; apply N; now split|reflexivity].
Qed.
End Petal.
