(** C18 to C20: conversions between the coordinates of a positioner. *)
From Verif.Model Require Import Pos2ptl.
From Verif.Spec Require Import Trig Match Xy2tp Pos2ptl.
From Verif.Proofs Require Import RealNum Trig.
From Verif.Proofs Require Pos2ptl.
From Coq Require Import Lra.
Local Open Scope R_scope.

(** [u] and the offset are both given for [n] points, as scalars or vectors. *)
Theorem C18_ext_int_inverse :
  forall (u o : arg R) n f g, gives u n f -> gives o n g ->
  (exists v w, int2ext u o = Ok v /\ ext2int (Vec v) o = Ok w /\ gives (Vec v) n (fun i => f i + g i) /\ gives (Vec w) n f /\
     (length (to_vec u) = n -> w = to_vec u)) /\
  (exists v w, ext2int u o = Ok v /\ int2ext (Vec v) o = Ok w /\ gives (Vec v) n (fun i => f i - g i) /\ gives (Vec w) n f /\
     (length (to_vec u) = n -> w = to_vec u)).
Proof. intros u o n f g Hu Ho. split; [exact (Pos2ptl.minus_plus_roundtrip u o n f g Hu Ho)|exact (Pos2ptl.plus_minus_roundtrip u o n f g Hu Ho)]. Qed.
Print Assumptions C18_ext_int_inverse.
Theorem C18_flat_loc_inverse :
  forall (u o : arg R) n f g, gives u n f -> gives o n g ->
  (exists v w, loc2flat u o = Ok v /\ flat2loc (Vec v) o = Ok w /\ gives (Vec v) n (fun i => f i + g i) /\ gives (Vec w) n f /\
     (length (to_vec u) = n -> w = to_vec u)) /\
  (exists v w, flat2loc u o = Ok v /\ loc2flat (Vec v) o = Ok w /\ gives (Vec v) n (fun i => f i - g i) /\ gives (Vec w) n f /\
     (length (to_vec u) = n -> w = to_vec u)).
Proof. intros u o n f g Hu Ho. split; [exact (Pos2ptl.minus_plus_roundtrip u o n f g Hu Ho)|exact (Pos2ptl.plus_minus_roundtrip u o n f g Hu Ho)]. Qed.
Print Assumptions C18_flat_loc_inverse.
Theorem C18_length_mismatch_fails :
  forall u o, length (to_vec u) <> length (to_vec o) -> length (to_vec u) <> 1%nat -> length (to_vec o) <> 1%nat ->
  int2ext u o = Err ValueError /\ loc2flat u o = Err ValueError.
Proof. intros u o H1 H2 H3. split; exact (Pos2ptl.add_offset_mismatch u o H1 H2 H3). Qed.
Print Assumptions C18_length_mismatch_fails.

(** loc2int then int2loc: angles in the travel ranges; points not flagged are found back (exactly
    if farther than 2.2e-15 from the edges of the reachable ring, within 2.2e-15 otherwise). *)
Theorem C18_loc2int_int2loc :
  forall n x y r1 r2 t_off p_off guess tol fx fy f1 f2 ft fp ftol t p u,
  gives r1 n f1 -> gives r2 n f2 -> gives t_off n ft -> gives p_off n fp -> gives tol n ftol ->
  (forall g, guess = Some g -> exists fg, gives g n fg) ->
  to_vec x = map fx (seq 0 n) -> to_vec y = map fy (seq 0 n) ->
  (forall i, (i < n)%nat -> tiny <= f1 i /\ tiny <= f2 i) ->
  loc2int x y r1 r2 t_off p_off guess tol = Ok (t, p, u) ->
  length t = n /\ length p = n /\ length u = n /\
  (forall i a b, nth_error t i = Some a -> nth_error p i = Some b -> -180 < a <= 180 /\ -20 <= b <= 200) /\
  exists x' y', int2loc (Vec t) (Vec p) r1 r2 t_off p_off = Ok (x', y') /\ length x' = n /\ length y' = n /\
    forall i a b, nth_error u i = Some false -> nth_error x' i = Some a -> nth_error y' i = Some b ->
      distance (a, b) (fx i, fy i) <= tiny /\
      (Rabs (f1 i - f2 i) + tiny < norm2 (fx i, fy i) < f1 i + f2 i - tiny -> (a, b) = (fx i, fy i)).
Proof. exact Pos2ptl.loc2int_int2loc. Qed.
Print Assumptions C18_loc2int_int2loc.

Example C18_example : gives (Vec [1; 2; 3]) 3 (fun i => INR i + 1) /\ gives (Scalar 5) 3 (fun _ => 5) /\ gives (Vec [3]) 4 (fun _ => 3).
Proof. cbn. split; [left; repeat (f_equal; try lra)|]. split; [reflexivity|]. right. exists 3. auto. Qed.

(** loc2ext treats each point with its own arms, offsets, guess and tolerance: the inverse
    kinematics of C15 to C17 in the travel ranges shifted by the offsets. *)
Theorem C19_parameters_per_point :
  forall n x y r1 r2 t_off p_off guess tol fx fy f1 f2 ft fp fg ftol,
  gives r1 n f1 -> gives r2 n f2 -> gives t_off n ft -> gives p_off n fp -> gives guess n fg -> gives tol n ftol ->
  to_vec x = map fx (seq 0 n) -> to_vec y = map fy (seq 0 n) ->
  forall out, loc2ext x y r1 r2 t_off p_off guess tol = Ok out <->
  length out = n /\ forall i tpu, nth_error out i = Some tpu ->
    xy2tp (fx i, fy i) (f1 i, f2 i) ((-180 + / 2 ^ 52 + ft i, 180 + ft i), (-20 + fp i, 200 + fp i)) (fg i) (ftol i) = Ok tpu.
Proof.
  intros n x y r1 r2 t_off p_off guess tol fx fy f1 f2 ft fp fg ftol H1 H2 H3 H4 H5 H6 Hx Hy out.
  rewrite (Pos2ptl.loc2ext_gives n x y r1 r2 t_off p_off guess tol fx fy f1 f2 ft fp fg ftol) by assumption. rewrite Pos2ptl.rmapM_seq_Ok.
  assert (E : 2 ^ 52 = 4503599627370496) by (rewrite pow_IZR; f_equal). rewrite E. reflexivity.
Qed.
Print Assumptions C19_parameters_per_point.
(** It returns whenever the arms are positive and, for points with a guess, x is not 0. *)
Theorem C19_returns :
  forall n x y r1 r2 t_off p_off guess tol fx fy f1 f2 ft fp fg ftol,
  gives r1 n f1 -> gives r2 n f2 -> gives t_off n ft -> gives p_off n fp -> gives guess n fg -> gives tol n ftol ->
  to_vec x = map fx (seq 0 n) -> to_vec y = map fy (seq 0 n) ->
  (forall i, (i < n)%nat -> tiny <= f1 i /\ tiny <= f2 i /\ (fg i = None \/ fx i <> 0)) ->
  exists out, loc2ext x y r1 r2 t_off p_off guess tol = Ok out.
Proof.
  intros n x y r1 r2 t_off p_off guess tol fx fy f1 f2 ft fp fg ftol H1 H2 H3 H4 H5 H6 Hx Hy H.
  rewrite (Pos2ptl.loc2ext_gives n x y r1 r2 t_off p_off guess tol fx fy f1 f2 ft fp fg ftol) by assumption.
  apply Pos2ptl.rmapM_total. intros i Hi. apply in_seq in Hi. destruct (H i ltac:(lia)) as (A & B & C). now apply Pos2ptl.xy2tp_returns.
Qed.
Print Assumptions C19_returns.
(** A parameter vector of another length is not refused: its first entry is used for all points. *)
Theorem C19_wrong_length_not_refused :
  forall x y r1 r2 t_off p_off guess tol a l, to_vec r1 = a :: l -> length (to_vec r1) <> length (to_vec x) ->
  loc2ext x y r1 r2 t_off p_off guess tol = loc2ext x y (Scalar a) r2 t_off p_off guess tol.
Proof. exact Pos2ptl.loc2ext_wrong_length. Qed.
Print Assumptions C19_wrong_length_not_refused.
Example C19_example : gives (Scalar (@None R)) 2 (fun _ => None) /\ gives (Vec [Some 10; None]) 2 (fun i => match i with O => Some 10 | _ => None end).
Proof. cbn. split; [reflexivity|]. now left. Qed.

(** One component of delta_angle (start s, final f, direction d). *)
Definition good_delta (s f d D : R) : Prop :=
  let nd := f - s in
  same_angle D nd /\
  (0 < d -> 0 <= D) /\ (d < 0 -> D <= 0) /\
  (d = 0 \/ 0 < d /\ 0 <= nd \/ d < 0 /\ nd <= 0 -> D = nd) /\
  (same_angle nd 0 -> Rabs D = Rabs nd) /\
  (~ same_angle nd 0 -> 0 < d /\ nd < 0 \/ d < 0 /\ 0 < nd -> 0 < Rabs D < 360).
Theorem C20_delta_angle :
  forall n u_start u_final direction fs ff fd,
  to_vec u_start = map fs (seq 0 n) -> gives u_final n ff -> gives direction n fd ->
  exists D, delta_angle u_start u_final direction = Ok D /\ length D = n /\
    forall i a, nth_error D i = Some a -> good_delta (fs i) (ff i) (fd i) a.
Proof.
  intros n us uf dir fs ff fd Es Hf Hd. eexists. split; [exact (Pos2ptl.delta_angle_gives n us uf dir fs ff fd Es Hf Hd)|].
  split; [now rewrite map_length, seq_length|]. intros i a Ha. rewrite nth_error_map in Ha. destruct (nth_error (seq 0 n) i) as [j|] eqn:Ej; [|discriminate].
  assert (j = i). { assert (Hi : (i < length (seq 0 n))%nat) by (apply nth_error_Some; congruence). rewrite seq_length in Hi. rewrite (nth_error_nth' _ 0%nat), seq_nth in Ej by (rewrite ?seq_length; exact Hi). injection Ej. lia. }
  subst j. injection Ha as <-. exact (Pos2ptl.delta_angle1_spec _ _).
Qed.
Print Assumptions C20_delta_angle.
(** These conditions determine the value, except that a move by whole turns against the
    direction keeps its number of turns. *)
Theorem C20_unique : forall s f d D D', good_delta s f d D -> good_delta s f d D' -> D = D'.
Proof.
  intros s f d D D' (S & P & N & A & W & O) (S' & P' & N' & A' & W' & O'). set (nd := f - s) in *.
  destruct (Rtotal_order d 0) as [Hd|[Hd|Hd]]; [| rewrite A, A' by auto; reflexivity |].
  - destruct (Rle_dec nd 0) as [Hn|Hn]; [rewrite A, A' by auto; reflexivity|]. specialize (N Hd). specialize (N' Hd).
    destruct (Req_dec (put360 nd) 0) as [Z|Z].
    + assert (T : same_angle nd 0) by (rewrite <- Z; apply same_angle_sym, put360_same). specialize (W T). specialize (W' T). rewrite Rabs_left1 in W, W' by assumption. lra.
    + assert (T : ~ same_angle nd 0) by (intros T; apply Z; rewrite (put360_congr _ _ T); apply put360_id; lra).
      specialize (O T ltac:(right; lra)). specialize (O' T ltac:(right; lra)). rewrite Rabs_left1 in O, O' by assumption.
      destruct (same_angle_trans _ _ _ S (same_angle_sym _ _ S')) as [k Hk]. assert (IZR k < 1) by lra. assert (-1 < IZR k) by lra. apply lt_IZR in H, H0. replace k with 0%Z in Hk by lia. lra.
  - destruct (Rle_dec 0 nd) as [Hn|Hn]; [rewrite A, A' by auto; reflexivity|]. specialize (P Hd). specialize (P' Hd).
    destruct (Req_dec (put360 nd) 0) as [Z|Z].
    + assert (T : same_angle nd 0) by (rewrite <- Z; apply same_angle_sym, put360_same). specialize (W T). specialize (W' T). rewrite Rabs_right in W, W' by lra. lra.
    + assert (T : ~ same_angle nd 0) by (intros T; apply Z; rewrite (put360_congr _ _ T); apply put360_id; lra).
      specialize (O T ltac:(left; lra)). specialize (O' T ltac:(left; lra)). rewrite Rabs_right in O, O' by lra.
      destruct (same_angle_trans _ _ _ S (same_angle_sym _ _ S')) as [k Hk]. assert (IZR k < 1) by lra. assert (-1 < IZR k) by lra. apply lt_IZR in H, H0. replace k with 0%Z in Hk by lia. lra.
Qed.
Print Assumptions C20_unique.
(** "All inputs can be either a scalar or a vector" is false: a common start with several final
    angles raises IndexError. *)
Theorem C20_scalar_start_refuted : forall s l d, (2 <= length l)%nat -> delta_angle (Scalar s) (Vec l) (Scalar d) = Err IndexError.
Proof. exact Pos2ptl.delta_angle_scalar_start. Qed.
Print Assumptions C20_scalar_start_refuted.
(** From 179 to -179 upwards is +2; 0 to 720 downwards is -720 (the documentation says 720). *)
Example C20_example : good_delta 179 (-179) 1 2 /\ good_delta 0 720 (-1) (-720).
Proof.
  unfold good_delta. split; cbv zeta.
  - split; [exists 1%Z; lra|]. repeat split; try lra; intros; [|rewrite Rabs_right by lra; lra..]. destruct H as [k Hk].
    assert (IZR k < -180/360) by lra. assert (-1 < IZR k) by lra. assert (k < 0)%Z by (apply lt_IZR; lra). apply lt_IZR in H0. lia.
  - split; [exists (-4)%Z; lra|]. repeat split; try lra; intros; try (rewrite Rabs_left1, Rabs_right by lra; lra); exfalso; apply H; exists 2%Z; lra.
Qed.
