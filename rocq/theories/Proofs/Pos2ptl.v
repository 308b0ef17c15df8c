From Verif.Model Require Import Pos2ptl.
From Verif.Spec Require Import Trig Match Xy2tp Pos2ptl.
From Verif.Proofs Require Import Numpy RealNum Trig Xy2tp.
From Coq Require Import Lra.
Local Open Scope R_scope.
Local Arguments gives : simpl never.

Lemma gives_cases {A} (u : arg A) n f : gives u n f <->
  (exists a, to_vec u = [a] /\ forall i, (i < n)%nat -> f i = a) \/ (exists l, u = Vec l /\ l = map f (seq 0 n)).
Proof.
  unfold gives. destruct u as [a|l]; cbn [to_vec].
  - split; [intros H; left; eauto|]. intros [(b & E & H)|(l & E & _)]; [|discriminate]. injection E as ->. auto.
  - split; [intros [H|H]; [right; eauto|now left]|]. intros [H|(l' & E & H)]; [now right|injection E as <-; now left].
Qed.

Lemma map_seq_const {A} (f : nat -> A) a n : (forall i, (i < n)%nat -> f i = a) -> forall k, (forall i, (k <= i < k + n)%nat -> f i = a) -> map f (seq k n) = repeat a n.
Proof.
  intros _. induction n as [|n IH]; intros k H; [reflexivity|]. cbn. rewrite H by lia. f_equal. apply IH. intros i Hi. apply H. lia.
Qed.

Lemma combine_map2 {A B} (f : nat -> A) (g : nat -> B) l : combine (map f l) (map g l) = map (fun i => (f i, g i)) l.
Proof. induction l; cbn; congruence. Qed.

Lemma broadcast_gives {A B C} (h : A -> B -> C) u v n f g : gives u n f -> gives v n g ->
  exists w, broadcast h (to_vec u) (to_vec v) = Ok w /\ gives (Vec w) n (fun i => h (f i) (g i)) /\
    (length (to_vec u) = n \/ length (to_vec v) = n -> w = map (fun i => h (f i) (g i)) (seq 0 n)).
Proof.
  intros Hu Hv. apply gives_cases in Hu as [(a & Eu & Ha)|(l & -> & ->)]; apply gives_cases in Hv as [(b & Ev & Hb)|(l' & -> & ->)]; rewrite ?Eu, ?Ev; unfold broadcast; cbn [to_vec].
  - cbn. exists [h a b]. split; [reflexivity|]. split; [apply gives_cases; left; exists (h a b); split; [reflexivity|]; intros i Hi; now rewrite Ha, Hb|].
    intros [<-|<-]; cbn; rewrite Ha, Hb by lia; reflexivity.
  - cbn [length]. rewrite map_length, seq_length.
    assert (Q : map (h a) (map g (seq 0 n)) = map (fun i => h (f i) (g i)) (seq 0 n)).
    { rewrite map_map. apply map_ext_in. intros i Hi. apply in_seq in Hi. now rewrite Ha by lia. }
    destruct (Nat.eqb_spec 1 n) as [<-|N].
    + cbn. rewrite Ha by lia. eexists; split; [reflexivity|]. split; [|reflexivity]. apply gives_cases. left. eexists. split; [reflexivity|]. intros i Hi. replace i with 0%nat by lia. now rewrite Ha by lia.
    + eexists. split; [reflexivity|]. rewrite Q. split; [apply gives_cases; right; eauto|reflexivity].
  - cbn [length]. rewrite map_length, seq_length.
    assert (Q : map (fun x => h x b) (map f (seq 0 n)) = map (fun i => h (f i) (g i)) (seq 0 n)).
    { rewrite map_map. apply map_ext_in. intros i Hi. apply in_seq in Hi. now rewrite Hb by lia. }
    destruct (Nat.eqb_spec n 1) as [->|N].
    + cbn. rewrite Hb by lia. eexists; split; [reflexivity|]. split; [|reflexivity]. apply gives_cases. left. eexists. split; [reflexivity|]. intros i Hi. replace i with 0%nat by lia. now rewrite Hb by lia.
    + destruct (map f (seq 0 n)) as [|x [|x' l]] eqn:E.
      * destruct n; [|discriminate]. cbn. eexists. split; [reflexivity|]. split; [apply gives_cases; right; exists []; auto|reflexivity].
      * destruct n as [|[|n]]; [discriminate|congruence|discriminate].
      * eexists. split; [reflexivity|]. rewrite Q. split; [apply gives_cases; right; eauto|reflexivity].
  - rewrite !map_length, !seq_length, Nat.eqb_refl. eexists. split; [reflexivity|]. rewrite combine_map2, map_map. split; [apply gives_cases; right; eauto|reflexivity].
Qed.
Lemma gives_map {A B} (h : A -> B) u n f : gives u n f -> gives (Vec (map h (to_vec u))) n (fun i => h (f i)).
Proof.
  intros Hu. apply gives_cases in Hu as [(a & -> & Ha)|(l & -> & ->)]; apply gives_cases.
  - left. exists (h a). split; [reflexivity|]. intros i Hi. now rewrite Ha.
  - right. eexists. split; [reflexivity|]. cbn. apply map_map.
Qed.
Lemma gives_ext {A} (u : arg A) n f g : (forall i, (i < n)%nat -> f i = g i) -> gives u n f -> gives u n g.
Proof.
  intros E Hu. apply gives_cases. apply gives_cases in Hu as [(a & Eu & Ha)|(l & -> & ->)]; [left; exists a; split; [exact Eu|]; intros i Hi; rewrite <- E by exact Hi; auto|].
  right. eexists. split; [reflexivity|]. apply map_ext_in. intros i Hi. apply in_seq in Hi. apply E. lia.
Qed.
Lemma gives_full {A} (u : arg A) n f : gives u n f -> length (to_vec u) = n -> to_vec u = map f (seq 0 n).
Proof.
  intros Hu L. apply gives_cases in Hu as [(a & E & Ha)|(l & -> & ->)]; [|reflexivity]. rewrite E in *. cbn in L. subst n. cbn. now rewrite Ha by lia.
Qed.

(** *** Offsets *)
Lemma minus_plus_roundtrip (u o : arg R) n f g : gives u n f -> gives o n g ->
  exists v w, add_offset u o = Ok v /\ add_offset (Vec v) (Vec (map Ropp (to_vec o))) = Ok w /\
    gives (Vec v) n (fun i => f i + g i) /\ gives (Vec w) n f /\ (length (to_vec u) = n -> w = to_vec u).
Proof.
  intros Hu Ho. unfold add_offset. destruct (broadcast_gives Rplus u o n f g Hu Ho) as (v & Ev & Gv & Fv).
  destruct (broadcast_gives Rplus (Vec v) (Vec (map Ropp (to_vec o))) n _ _ Gv (gives_map Ropp o n g Ho)) as (w & Ew & Gw & Fw).
  assert (Gw' : gives (Vec w) n f) by (eapply gives_ext; [|exact Gw]; intros i _; cbn beta; lra).
  exists v, w. split; [exact Ev|]. split; [exact Ew|]. split; [exact Gv|]. split; [exact Gw'|]. intros L. rewrite (gives_full u n f Hu L).
  apply (gives_full (Vec w) n f Gw'). cbn [to_vec]. rewrite Fw, map_length, seq_length; [reflexivity|]. left. cbn [to_vec]. rewrite Fv by auto. now rewrite map_length, seq_length.
Qed.
Lemma plus_minus_roundtrip (u o : arg R) n f g : gives u n f -> gives o n g ->
  exists v w, add_offset u (Vec (map Ropp (to_vec o))) = Ok v /\ add_offset (Vec v) o = Ok w /\
    gives (Vec v) n (fun i => f i - g i) /\ gives (Vec w) n f /\ (length (to_vec u) = n -> w = to_vec u).
Proof.
  intros Hu Ho. unfold add_offset. destruct (broadcast_gives Rplus u (Vec (map Ropp (to_vec o))) n f _ Hu (gives_map Ropp o n g Ho)) as (v & Ev & Gv & Fv).
  destruct (broadcast_gives Rplus (Vec v) o n _ g Gv Ho) as (w & Ew & Gw & Fw).
  assert (Gw' : gives (Vec w) n f) by (eapply gives_ext; [|exact Gw]; intros i _; cbn beta; lra).
  exists v, w. split; [exact Ev|]. split; [exact Ew|]. split; [exact Gv|]. split; [exact Gw'|]. intros L. rewrite (gives_full u n f Hu L).
  apply (gives_full (Vec w) n f Gw'). cbn [to_vec]. rewrite Fw, map_length, seq_length; [reflexivity|]. left. cbn [to_vec]. rewrite Fv by auto. now rewrite map_length, seq_length.
Qed.
Lemma add_offset_mismatch u o : length (to_vec u) <> length (to_vec o) -> length (to_vec u) <> 1%nat -> length (to_vec o) <> 1%nat -> add_offset u o = Err ValueError.
Proof.
  unfold add_offset, broadcast. intros H H1 H2. apply Nat.eqb_neq in H. rewrite H.
  destruct (to_vec u) as [|a [|b l]]; [|now destruct H1|]; destruct (to_vec o) as [|a' [|b' l']]; try (now destruct H2); reflexivity.
Qed.

(** *** loc2ext *)
Lemma extend_gives {A} (u : arg A) n f : gives u n f -> extend_list (to_vec u) n = Ok (map f (seq 0 n)).
Proof.
  intros Hu. unfold extend_list. apply gives_cases in Hu as [(a & E & Ha)|(l & -> & ->)].
  - rewrite E. cbn [length]. rewrite (map_seq_const f a n) by (intros; apply Ha; lia). destruct (Nat.eqb_spec 1 n) as [<-|N]; reflexivity.
  - cbn. rewrite map_length, seq_length, Nat.eqb_refl. reflexivity.
Qed.
Lemma geti_map_seq {A} (f : nat -> A) n i : (i < n)%nat -> geti (map f (seq 0 n)) i = Ok (f i).
Proof.
  intros Hi. apply geti_Ok. rewrite nth_error_map. rewrite (nth_error_nth' _ 0%nat) by (rewrite seq_length; exact Hi). rewrite seq_nth by exact Hi. reflexivity.
Qed.
Lemma rmapM_ext {A B} (f g : A -> res B) l : (forall a, In a l -> f a = g a) -> rmapM f l = rmapM g l.
Proof.
  induction l as [|a l IH]; intros H; [reflexivity|]. cbn. rewrite H by now left. destruct (g a); cbn; [|reflexivity]. rewrite IH; [reflexivity|]. intros b Hb. apply H. now right.
Qed.
Lemma loc2ext_gives n x y r1 r2 t_off p_off guess tol fx fy f1 f2 ft fp fg ftol :
  gives r1 n f1 -> gives r2 n f2 -> gives t_off n ft -> gives p_off n fp -> gives guess n fg -> gives tol n ftol ->
  to_vec x = map fx (seq 0 n) -> to_vec y = map fy (seq 0 n) ->
  loc2ext x y r1 r2 t_off p_off guess tol =
  rmapM (fun i => loc2ext_point (fx i) (fy i) (f1 i) (f2 i) (ft i) (fp i) (fg i) (ftol i)) (seq 0 n).
Proof.
  intros H1 H2 H3 H4 H5 H6 Hx Hy. unfold loc2ext. rewrite Hx, Hy, map_length, seq_length.
  rewrite (extend_gives _ _ _ H1), (extend_gives _ _ _ H2), (extend_gives _ _ _ H3), (extend_gives _ _ _ H4), (extend_gives _ _ _ H5), (extend_gives _ _ _ H6). cbn [rbind].
  apply rmapM_ext. intros i Hi. apply in_seq in Hi. now rewrite !geti_map_seq by lia.
Qed.
Lemma rmapM_seq_Ok {B} (f : nat -> res B) n out : rmapM f (seq 0 n) = Ok out <-> length out = n /\ forall i b, nth_error out i = Some b -> f i = Ok b.
Proof.
  rewrite rmapM_Ok_Forall2. split.
  - intros F. pose proof (Forall2_length _ _ _ F) as L. rewrite seq_length in L. split; [auto|]. intros i b Hb.
    assert (Hi : (i < n)%nat) by (rewrite L; apply nth_error_Some; congruence).
    refine (Forall2_nth _ _ _ F i i b _ Hb). rewrite (nth_error_nth' _ 0%nat) by (rewrite seq_length; exact Hi). now rewrite seq_nth.
  - intros [<- H]. assert (Q : forall k, (forall i b, nth_error out i = Some b -> f (k + i)%nat = Ok b) -> Forall2 (fun a b => f a = Ok b) (seq k (length out)) out).
    { clear H. induction out as [|b out IH]; intros k H; [constructor|]. cbn. constructor; [specialize (H 0%nat b eq_refl); now rewrite Nat.add_0_r in H|].
      apply IH. intros i c Hc. specialize (H (S i) c Hc). now rewrite Nat.add_succ_r in H. }
    apply Q. exact H.
Qed.

(** *** Exactness of unflagged points *)
Lemma xy2tp_unflagged x y r1 r2 ranges guess tol tp : tiny <= r1 -> tiny <= r2 -> xy2tp (x, y) (r1, r2) ranges guess tol = Ok (tp, false) ->
  distance (tp2xy tp (r1, r2)) (x, y) <= tiny /\
  (Rabs (r1 - r2) + tiny < norm2 (x, y) < r1 + r2 - tiny -> tp2xy tp (r1, r2) = (x, y)).
Proof.
  intros H1 H2 E. pose proof tiny_pos as Tp. assert (P1 : 0 < r1) by lra. assert (P2 : 0 < r2) by lra.
  set (H := fst (clamp_radius (hyp x y) r1 r2)). pose proof (clamp_range (hyp x y) r1 r2 H1 H2) as CR. fold H in CR. pose proof (Rabs_pos (r1 - r2)) as Ra.
  assert (K : snd (clamp_radius (hyp x y) r1 r2) = false /\ tp2xy tp (r1, r2) = (H * cos (atan2 y x), H * sin (atan2 y x))).
  { destruct guess as [g|].
    - destruct (Req_dec (H * cos (atan2 y x)) 0) as [X0|X0].
      + exfalso. unfold xy2tp in E. fold (hyp x y) in E. fold H in X0. unfold H in X0. destruct (clamp_radius (hyp x y) r1 r2) as [H' u]. cbn [fst] in X0. rewrite two_r in E by assumption.
        destruct (primary_angles H' (atan2 y x) r1 r2) as [T P]. rewrite (proj2 (Reqb_true _ _) X0) in E. discriminate.
      + rewrite (xy2tp_some x y r1 r2 ranges g tol P1 P2 X0) in E. fold H in E. cbv zeta in E. injection E as E1 E2. apply orb_false_iff in E2 as [E2 E3]. split; [exact E2|]. subst tp.
        apply options_reach with ranges; try assumption; try lra. apply select_in. now left.
    - rewrite xy2tp_none in E by assumption. fold H in E. injection E as E1 E2. apply orb_false_iff in E2 as [E2 E3]. split; [exact E2|]. subst tp. apply config_reaches; try assumption. lra. }
  destruct K as [K1 K2]. rewrite K2. destruct (atan2_polar y x) as [Q1 Q2]. split.
  - assert (D : distance (H * cos (atan2 y x), H * sin (atan2 y x)) (hyp x y * cos (atan2 y x), hyp x y * sin (atan2 y x)) <= tiny).
    { rewrite distance_radial. assert (N : ~ (r1 + r2 < hyp x y \/ hyp x y < Rabs (r1 - r2))) by (rewrite <- clamp_flag; congruence).
      unfold H, clamp_radius. cbn [fst]. rewrite tiny_eq.
      destruct (Rleb (r1 + r2 - tiny) (hyp x y)) eqn:L1; [apply Rleb_true in L1; rewrite Rabs_left1 by lra; lra|]. apply Rleb_false in L1.
      destruct (Rleb (hyp x y) (Rabs (r1 - r2) + tiny)) eqn:L2; [apply Rleb_true in L2; rewrite Rabs_right by lra; lra|]. rewrite Rminus_diag_eq, Rabs_R0 by reflexivity. lra. }
    rewrite <- Q1, <- Q2 in D. exact D.
  - intros B. change (norm2 (x, y)) with (hyp x y) in B. unfold H. rewrite clamp_inside by exact B. cbn [fst]. now rewrite <- Q1, <- Q2.
Qed.

Definition ranges_of (ft fp : R) : point * point := ((-180 + epsilon + ft, 180 + ft), (-20 + fp, 200 + fp)).
Lemma loc2ext_point_eq x y r1 r2 t p g tol : loc2ext_point x y r1 r2 t p g tol = xy2tp (x, y) (r1, r2) (ranges_of t p) g tol.
Proof. reflexivity. Qed.
Lemma epsilon_small : 0 < epsilon < 1.
Proof. unfold epsilon. split; [apply Rinv_0_lt_compat; lra|]. rewrite <- Rinv_1. apply Rinv_lt_contravar; lra. Qed.
Lemma gives_all {A} n (f : nat -> A) : gives (Vec (map f (seq 0 n))) n f.
Proof. apply gives_cases. right. eauto. Qed.
Lemma as_map {A} (d : A) l : l = map (fun i => nth i l d) (seq 0 (length l)).
Proof. induction l as [|a l IH]; [reflexivity|]. cbn [length seq map nth]. f_equal. rewrite <- seq_shift, map_map. exact IH. Qed.

Lemma ext2loc_gives n (ft fp f1 f2 : nat -> R) t p r1 r2 : to_vec t = map ft (seq 0 n) -> to_vec p = map fp (seq 0 n) -> gives r1 n f1 -> gives r2 n f2 ->
  ext2loc t p r1 r2 = Ok (map (fun i => fst (tp2xy (ft i, fp i) (f1 i, f2 i))) (seq 0 n), map (fun i => snd (tp2xy (ft i, fp i) (f1 i, f2 i))) (seq 0 n)).
Proof.
  intros Et Ep H1 H2. unfold ext2loc. rewrite Et, Ep.
  assert (L : forall (B : Type) (f : nat -> B), length (to_vec (Vec (map f (seq 0 n)))) = n) by (intros; cbn; now rewrite map_length, seq_length).
  assert (S : forall (f g : nat -> R) (h : R -> R -> R), broadcast h (map f (seq 0 n)) (map g (seq 0 n)) = Ok (map (fun i => h (f i) (g i)) (seq 0 n))).
  { intros f g h. destruct (broadcast_gives h (Vec (map f (seq 0 n))) (Vec (map g (seq 0 n))) n f g (gives_all n f) (gives_all n g)) as (w & E & _ & F). cbn [to_vec] in E. rewrite E. f_equal. apply F. left. apply L. }
  assert (M : forall r f g, gives r n f -> broadcast Rmult (to_vec r) (map g (seq 0 n)) = Ok (map (fun i => f i * g i) (seq 0 n))).
  { intros r f g Hr. destruct (broadcast_gives Rmult r (Vec (map g (seq 0 n))) n f g Hr (gives_all n g)) as (w & E & _ & F). cbn [to_vec] in E. rewrite E. f_equal. apply F. right. apply L. }
  rewrite !map_map, S. cbn [rbind]. rewrite !map_map, !(M r1 f1), !(M r2 f2) by assumption. cbn [rbind]. rewrite !S. cbn [rbind]. reflexivity.
Qed.

Theorem loc2int_int2loc n x y r1 r2 t_off p_off guess tol fx fy f1 f2 ft fp ftol t p u :
  gives r1 n f1 -> gives r2 n f2 -> gives t_off n ft -> gives p_off n fp -> gives tol n ftol ->
  (forall g, guess = Some g -> exists fg, gives g n fg) ->
  to_vec x = map fx (seq 0 n) -> to_vec y = map fy (seq 0 n) ->
  (forall i, (i < n)%nat -> tiny <= f1 i /\ tiny <= f2 i) ->
  loc2int x y r1 r2 t_off p_off guess tol = Ok (t, p, u) ->
  length t = n /\ length p = n /\ length u = n /\
  (forall i a b, nth_error t i = Some a -> nth_error p i = Some b -> -180 < a <= 180 /\ -20 <= b <= 200) /\
  exists x' y', int2loc (Vec t) (Vec p) r1 r2 t_off p_off = Ok (x', y') /\ length x' = n /\ length y' = n /\
    forall i a b, nth_error u i = Some false -> nth_error x' i = Some a -> nth_error y' i = Some b ->
      distance (a, b) (fx i, fy i) <= tiny /\
      (Rabs (f1 i - f2 i) + tiny < norm2 (fx i, fy i) < f1 i + f2 i - tiny -> (a, b) = (fx i, fy i)).
Proof.
  intros H1 H2 H3 H4 H6 Hg Hx Hy Hr. unfold loc2int.
  assert (G : exists ge fge, (match guess with None => Ok (Scalar None) | Some g => rbind (int2ext g t_off) (fun v => Ok (Vec (map Some v))) end) = Ok ge /\ gives ge n fge).
  { destruct guess as [g|]; [|exists (Scalar None), (fun _ => None); split; [reflexivity|]; apply gives_cases; left; exists None; split; reflexivity].
    destruct (Hg g eq_refl) as [fg Gg]. unfold int2ext, add_offset. destruct (broadcast_gives Rplus g t_off n fg ft Gg H3) as (v & E & Gv & _). rewrite E. cbn [rbind].
    eexists _, _. split; [reflexivity|]. exact (gives_map Some (Vec v) n _ Gv). }
  destruct G as (ge & fge & EG & Gg). rewrite EG. cbn [rbind].
  rewrite (loc2ext_gives n x y r1 r2 t_off p_off ge tol fx fy f1 f2 ft fp fge ftol) by assumption.
  destruct (rmapM _ _) as [out|] eqn:EO; cbn [rbind]; [|discriminate]. apply rmapM_seq_Ok in EO as [LO EO].
  pose (d := ((0, 0), false) : point * bool).
  assert (Eout : out = map (fun i => nth i out d) (seq 0 n)) by (rewrite <- LO; apply as_map).
  assert (EI : forall i, (i < n)%nat -> loc2ext_point (fx i) (fy i) (f1 i) (f2 i) (ft i) (fp i) (fge i) (ftol i) = Ok (nth i out d)).
  { intros i Hi. apply EO. apply nth_error_nth'. lia. }
  set (ot := fun i => fst (fst (nth i out d))). set (op := fun i => snd (fst (nth i out d))).
  assert (E1 : map (fun a => fst (fst a)) out = map ot (seq 0 n)) by (rewrite Eout, map_map; reflexivity).
  assert (E2 : map (fun a => snd (fst a)) out = map op (seq 0 n)) by (rewrite Eout, map_map; reflexivity).
  assert (Ln : forall (B : Type) (f : nat -> B), length (to_vec (Vec (map f (seq 0 n)))) = n) by (intros; cbn; now rewrite map_length, seq_length).
  rewrite E1, E2. unfold ext2int.
  destruct (plus_minus_roundtrip (Vec (map ot (seq 0 n))) t_off n ot ft (gives_all n ot) H3) as (v & w & Ev & Ew & Gv & Gw & Fw). specialize (Fw (Ln _ _)).
  destruct (plus_minus_roundtrip (Vec (map op (seq 0 n))) p_off n op fp (gives_all n op) H4) as (v' & w' & Ev' & Ew' & Gv' & Gw' & Fw'). specialize (Fw' (Ln _ _)).
  rewrite Ev. cbn [rbind]. rewrite Ev'. cbn [rbind]. intros Q. injection Q as <- <- <-.
  assert (FV : v = map (fun i => ot i - ft i) (seq 0 n)).
  { destruct (broadcast_gives Rplus (Vec (map ot (seq 0 n))) (Vec (map Ropp (to_vec t_off))) n ot _ (gives_all n ot) (gives_map Ropp t_off n ft H3)) as (v2 & E & _ & F). unfold add_offset in Ev. rewrite Ev in E. injection E as <-. apply F. left. apply Ln. }
  assert (FV' : v' = map (fun i => op i - fp i) (seq 0 n)).
  { destruct (broadcast_gives Rplus (Vec (map op (seq 0 n))) (Vec (map Ropp (to_vec p_off))) n op _ (gives_all n op) (gives_map Ropp p_off n fp H4)) as (v2 & E & _ & F). unfold add_offset in Ev'. rewrite Ev' in E. injection E as <-. apply F. left. apply Ln. }
  split; [rewrite FV, map_length, seq_length; reflexivity|]. split; [rewrite FV', map_length, seq_length; reflexivity|]. split; [rewrite map_length; exact LO|].
  split.
  - intros i a b Ha Hb. rewrite FV in Ha. rewrite FV' in Hb. rewrite nth_error_map in Ha, Hb. destruct (nth_error (seq 0 n) i) as [j|] eqn:Ej; [|discriminate]. cbn in Ha, Hb. injection Ha as <-. injection Hb as <-.
    assert (Hj : (j < n)%nat) by (apply nth_error_In in Ej; apply in_seq in Ej; lia).
    pose proof (EI j Hj) as Q. rewrite loc2ext_point_eq in Q. destruct (nth j out d) as [tp f] eqn:En. apply xy2tp_in_ranges in Q as [Q _]. unfold ot, op. rewrite En. cbn [fst snd].
    unfold in_ranges, in_interval, ranges_of in Q. cbn [fst snd] in Q. pose proof epsilon_small. rewrite !Rmin_left, !Rmax_right in Q by lra. lra.
  - unfold int2loc, int2ext. rewrite Ew. cbn [rbind]. rewrite Ew'. cbn [rbind]. rewrite Fw, Fw'. cbn [to_vec].
    rewrite (ext2loc_gives n ot op f1 f2) by (reflexivity || assumption). do 2 eexists. split; [reflexivity|]. rewrite !map_length, !seq_length. split; [reflexivity|]. split; [reflexivity|].
    intros i a b Hu Ha Hb. rewrite nth_error_map in Ha, Hb. assert (Hi : (i < n)%nat) by (rewrite <- LO, <- (map_length snd); apply nth_error_Some; congruence).
    rewrite (nth_error_nth' (seq 0 n) 0%nat) in Ha, Hb by (rewrite seq_length; exact Hi). rewrite seq_nth in Ha, Hb by exact Hi. cbn [Nat.add option_map] in Ha, Hb. injection Ha as <-. injection Hb as <-.
    rewrite nth_error_map in Hu. rewrite (nth_error_nth' out d) in Hu by lia. cbn in Hu. pose proof (EI i Hi) as Q. rewrite loc2ext_point_eq in Q. unfold ot, op. destruct (nth i out d) as [tp f]. cbn in Hu. injection Hu as ->.
    destruct (Hr i Hi) as [R1 R2]. destruct (xy2tp_unflagged _ _ _ _ _ _ _ _ R1 R2 Q) as [D1 D2]. destruct tp as [tp1 tp2]. split; [exact D1|exact D2].
Qed.

(** When does loc2ext return: always without a guess; with one when no x is 0. *)
Lemma xy2tp_returns x y r1 r2 ranges guess tol : tiny <= r1 -> tiny <= r2 -> (guess = None \/ x <> 0) -> exists o, xy2tp (x, y) (r1, r2) ranges guess tol = Ok o.
Proof.
  intros H1 H2 G. pose proof tiny_pos. destruct guess as [g|].
  - destruct G as [G|G]; [discriminate|]. rewrite xy2tp_some; [eauto|lra|lra|]. pose proof (clamp_range (hyp x y) r1 r2 H1 H2). pose proof (Rabs_pos (r1 - r2)). apply Rmult_integral_contrapositive. split; [lra|]. now apply cos_atan2_nz.
  - rewrite xy2tp_none by lra. eauto.
Qed.

(** *** delta_angle *)
Lemma Rsign_cases x : (0 < x /\ Rsign x = 1) \/ (x < 0 /\ Rsign x = -1) \/ (x = 0 /\ Rsign x = 0).
Proof.
  unfold Rsign. destruct (Rltb 0 x) eqn:E1; [apply Rltb_true in E1; auto|]. apply Rltb_false in E1. destruct (Rltb x 0) eqn:E2; [apply Rltb_true in E2; auto|]. apply Rltb_false in E2. right. right. split; [lra|reflexivity].
Qed.
Lemma pymod_neg_range x m : m < 0 -> m < pymod x m <= 0.
Proof.
  intros Hm. unfold pymod. pose proof (Rfloor_spec (x / m)) as [F1 F2]. set (k := IZR (Rfloor (x / m))) in *.
  assert (E : x = m * (x / m)) by (field; lra). split; [|]; rewrite E at 1; nra.
Qed.
Lemma pymod_same x d : d = 1 \/ d = -1 -> same_angle (pymod x (d * 360)) x.
Proof.
  intros [-> | ->]; unfold pymod; [exists (- Rfloor (x / (1 * 360)))%Z|exists (Rfloor (x / (-1 * 360)))%Z]; rewrite ?opp_IZR; ring.
Qed.
Lemma turns_mod x : pymod x 360 = 0 <-> same_angle x 0.
Proof.
  split.
  - intros H. unfold pymod in H. exists (Rfloor (x / 360)). lra.
  - intros [k ->]. rewrite Rplus_0_l. rewrite <- (Rplus_0_l (360 * IZR k)), pymod_add by lra. apply pymod_id. lra.
Qed.

Theorem delta_angle1_spec nd dir :
  let D := delta_angle1 nd (Rsign dir) in
  same_angle D nd /\
  (0 < dir -> 0 <= D) /\ (dir < 0 -> D <= 0) /\
  (dir = 0 \/ 0 < dir /\ 0 <= nd \/ dir < 0 /\ nd <= 0 -> D = nd) /\
  (same_angle nd 0 -> Rabs D = Rabs nd) /\
  (~ same_angle nd 0 -> 0 < dir /\ nd < 0 \/ dir < 0 /\ 0 < nd -> 0 < Rabs D < 360).
Proof.
  cbv zeta. unfold delta_angle1.
  assert (Z : forall a b, Reqb a b = true <-> a = b) by apply Reqb_true.
  destruct (Reqb (pymod nd 360) 0) eqn:EC.
  - apply Reqb_true, turns_mod in EC. destruct EC as [k Hk]. rewrite Rplus_0_l in Hk.
    assert (SA : forall s, s = 1 \/ s = -1 \/ (s = 0 /\ nd = 0) -> same_angle (Rabs nd * s) nd).
    { intros s Hs. unfold Rabs. destruct (Rcase_abs nd); destruct Hs as [-> |[-> |[-> Hn]]].
      - exists (-2 * k)%Z. rewrite mult_IZR. lra.
      - exists 0%Z. lra.
      - exists 0%Z. lra.
      - exists 0%Z. lra.
      - exists (-2 * k)%Z. rewrite mult_IZR. lra.
      - exists 0%Z. lra. }
    assert (A0 : same_angle nd 0) by (exists k; lra). pose proof (Rabs_pos nd) as Ap.
    assert (AA : forall s, s = 1 \/ s = -1 -> Rabs (Rabs nd * s) = Rabs nd) by (intros s [-> | ->]; rewrite Rabs_mult, Rabs_Rabsolu, ?Rabs_Ropp; [rewrite Rabs_R1; lra|replace (-1) with (- (1)) by lra; rewrite Rabs_Ropp, Rabs_R1; lra]).
    destruct (Rsign_cases dir) as [[Hd ->]|[[Hd ->]|[Hd ->]]].
    + rewrite (proj2 (Reqb_false 1 0)) by lra. split; [apply SA; auto|]. repeat split; intros; try lra; try (now apply AA; auto); try contradiction. rewrite Rabs_right by lra. lra.
    + rewrite (proj2 (Reqb_false (-1) 0)) by lra. split; [apply SA; auto|]. repeat split; intros; try lra; try (now apply AA; auto); try contradiction. rewrite Rabs_left1 by lra. lra.
    + rewrite (proj2 (Reqb_true 0 0)) by lra. destruct (Rsign_cases nd) as [[Hn ->]|[[Hn ->]|[Hn ->]]].
      * split; [apply SA; auto|]. repeat split; intros; try lra; try (now apply AA; auto); try contradiction. rewrite Rabs_right by lra. lra.
      * split; [apply SA; auto|]. repeat split; intros; try lra; try (now apply AA; auto); try contradiction. rewrite Rabs_left1 by lra. lra.
      * split; [apply SA; auto|]. rewrite Hn, Rabs_R0. repeat split; intros; try lra. replace (0 * 0) with 0 by lra. apply Rabs_R0.
  - assert (NA : ~ same_angle nd 0) by (rewrite <- turns_mod; now apply Reqb_false).
    assert (N0 : nd <> 0) by (intros ->; apply NA; apply same_angle_refl).
    assert (PB : forall s, s = 1 \/ s = -1 -> pymod nd (s * 360) <> 0).
    { intros s Hs E. apply NA. pose proof (pymod_same nd s Hs) as Q. rewrite E in Q. now apply same_angle_sym. }
    pose proof (pymod_range nd (1 * 360) ltac:(lra)) as B1. pose proof (pymod_neg_range nd (-1 * 360) ltac:(lra)) as B2.
    pose proof (PB 1 ltac:(auto)) as P1. pose proof (PB (-1) ltac:(auto)) as P2. pose proof (pymod_same nd 1 ltac:(auto)) as S1. pose proof (pymod_same nd (-1) ltac:(auto)) as S2.
    destruct (Rsign_cases dir) as [[Hd ->]|[[Hd ->]|[Hd ->]]].
    + rewrite (proj2 (Reqb_false 1 0)) by lra. destruct (Rsign_cases nd) as [[Hn ->]|[[Hn ->]|[Hn _]]]; [| |contradiction].
      * rewrite (proj2 (Reqb_true 1 1)) by lra. split; [apply same_angle_refl|]. repeat split; intros; try lra; try contradiction.
      * rewrite (proj2 (Reqb_false 1 (-1))) by lra. split; [exact S1|]. repeat split; intros; try lra; try contradiction; rewrite Rabs_right by lra; lra.
    + rewrite (proj2 (Reqb_false (-1) 0)) by lra. destruct (Rsign_cases nd) as [[Hn ->]|[[Hn ->]|[Hn _]]]; [| |contradiction].
      * rewrite (proj2 (Reqb_false (-1) 1)) by lra. split; [exact S2|]. repeat split; intros; try lra; try contradiction; rewrite Rabs_left1 by lra; lra.
      * rewrite (proj2 (Reqb_true (-1) (-1))) by lra. split; [apply same_angle_refl|]. repeat split; intros; try lra; try contradiction.
    + rewrite (proj2 (Reqb_true 0 0)) by lra. rewrite (proj2 (Reqb_true (Rsign nd) (Rsign nd))) by reflexivity. split; [apply same_angle_refl|]. repeat split; intros; try lra; try contradiction.
Qed.

Theorem delta_angle_gives n u_start u_final direction fs ff fd : to_vec u_start = map fs (seq 0 n) -> gives u_final n ff -> gives direction n fd ->
  delta_angle u_start u_final direction = Ok (map (fun i => delta_angle1 (ff i - fs i) (Rsign (fd i))) (seq 0 n)).
Proof.
  intros Es Hf Hd. unfold delta_angle. rewrite Es, map_map.
  assert (Ln : forall (B : Type) (f : nat -> B), length (to_vec (Vec (map f (seq 0 n)))) = n) by (intros; cbn; now rewrite map_length, seq_length).
  destruct (broadcast_gives Rmult (Vec (map (fun _ => 1) (seq 0 n))) direction n (fun _ => 1) fd (gives_all n _) Hd) as (w & E & _ & F). cbn [to_vec] in E. rewrite E. cbn [rbind]. rewrite F by (left; apply Ln).
  destruct (broadcast_gives Rminus u_final (Vec (map fs (seq 0 n))) n ff fs Hf (gives_all n _)) as (w' & E' & _ & F'). cbn [to_vec] in E'. rewrite E'. cbn [rbind]. rewrite F' by (right; apply Ln).
  rewrite !map_length, seq_length, Nat.eqb_refl. f_equal. rewrite map_map, combine_map2, map_map. apply map_ext. intros i. cbn [fst snd]. now rewrite Rmult_1_l.
Qed.

Lemma extend_wrong {A} (L : list A) a l n : L = a :: l -> length L <> n -> extend_list L n = Ok (repeat a n).
Proof. intros -> H. unfold extend_list. apply Nat.eqb_neq in H. now rewrite H. Qed.
Theorem loc2ext_wrong_length x y r1 r2 t_off p_off guess tol a l : to_vec r1 = a :: l -> length (to_vec r1) <> length (to_vec x) ->
  loc2ext x y r1 r2 t_off p_off guess tol = loc2ext x y (Scalar a) r2 t_off p_off guess tol.
Proof.
  intros E H. unfold loc2ext. rewrite (extend_wrong _ a l _ E H). cbn [to_vec]. unfold extend_list at 6. cbn [length].
  destruct (Nat.eqb_spec 1 (length (to_vec x))) as [<-|N]; reflexivity.
Qed.
Theorem delta_angle_scalar_start s l d : (2 <= length l)%nat -> delta_angle (Scalar s) (Vec l) (Scalar d) = Err IndexError.
Proof.
  intros H. destruct l as [|a [|b l]]; [cbn in H; lia|cbn in H; lia|]. reflexivity.
Qed.
Lemma rmapM_total {A B} (f : A -> res B) l : (forall a, In a l -> exists b, f a = Ok b) -> exists bs, rmapM f l = Ok bs.
Proof.
  induction l as [|a l IH]; intros H; [exists []; reflexivity|]. destruct (H a (or_introl eq_refl)) as [b E]. cbn. rewrite E. cbn.
  destruct IH as [bs ->]; [intros c Hc; apply H; now right|]. cbn. eauto.
Qed.
