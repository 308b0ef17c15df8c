From Verif.Model Require Import FindFiducials NearScan.
From Verif.Spec Require Import Numpy Match FindFiducials.
From Verif.Spec Require ZhaoBurge.
From Verif.Proofs Require Import Prelude Numpy RealNum.
From Verif.Proofs Require FindFiducials FindTables FindRecover FindGroups FindFirst NearScan KDTree Fvc2fp MatchExample.
From Coq Require Import Lra Lia.
From Coq Require String.
Local Open Scope R_scope.
Local Open Scope list_scope.

(** *** C90. What the labels of a returned table mean *)

(** The rows of the metrology table with device type FIF or GIF. *)
Definition fiducial_devices (metrology : list device) : list device :=
  filter (fun v => (String.eqb (v_type v) "FIF" || String.eqb (v_type v) "GIF")%bool) metrology.
(** The predicted pixels [pix] of the devices at location [L]. *)
Definition positions_of (devices : list device) (pix : list (R * R)) (L : Z) : list (R * R) :=
  map snd (filter (fun '(v, _) => Z.eqb (v_location v) L) (combine devices pix)).
Definition not_a_fiducial : marks := {| k_location := -1; k_petal_loc := -1; k_device_loc := -1; k_pinhole := 0 |}.

(** A call [c] after any earlier [calls] in the same process. The predicted pixels are those of one of these calls. The separation [sep]
    is the argument in pixels. After an affine correction [A] of the predictions, a spot is labelled with location [L] only if it is closer
    than [sep] to a spot [close], itself among four such spots, the nearest of these to the predicted central pinhole of [L] and less than 10
    pixels away from it. Pinhole numbers are those of devices at [L], and no two spots share one. *)
Theorem C90_labels : forall argsort query2 query3 query4 calls c marks,
  is_argsort argsort -> nearest_query query2 -> near_query query4 ->
  (forall c' v, In c' (calls ++ [c]) -> In v (a_metrology c') -> (0 <= v_location v)%Z) ->
  fst (call_with argsort query2 query3 query4 (after argsort query2 query3 query4 calls) c) = Ok marks ->
  exists c0 pix fp0 fp1 sep A, In c0 (calls ++ [c]) /\ fp2fvc (a_tx c0) (map v_fp (fiducial_devices (a_metrology c0))) = Ok pix /\
    fvc2fp (a_tx c) [(2000, 0)] = Ok [fp0] /\ fvc2fp (a_tx c) [(2001, 0)] = Ok [fp1] /\ sep * distance fp0 fp1 = a_mm c /\
    affine_map A /\ length marks = length (a_xy c) /\
    (forall k m, nth_error marks k = Some m -> m = not_a_fiducial \/
       exists L centre close spot, (0 <= L)%Z /\ k_location m = L /\ k_petal_loc m = (L / 1000)%Z /\ k_device_loc m = (L mod 1000)%Z /\
         central (positions_of (fiducial_devices (a_metrology c0)) pix L) centre /\
         nearest_crowded (a_xy c) sep (A centre) close /\ distance (A centre) close < 10 /\
         nth_error (a_xy c) k = Some spot /\ distance close spot < sep /\
         (k_pinhole m = 0%Z \/ exists v, In v (fiducial_devices (a_metrology c0)) /\ v_location v = L /\ v_pinhole v = k_pinhole m)) /\
    (forall k k' m m', nth_error marks k = Some m -> nth_error marks k' = Some m' -> k_location m = k_location m' -> k_pinhole m = k_pinhole m' -> (0 < k_pinhole m)%Z -> k = k').
Proof. exact FindTables.labels_spec. Qed.
Print Assumptions C90_labels.

(** With no four spots close together the function raises. *)
Theorem C90_no_groups : forall argsort query2 query3 query4, near_query query4 ->
  forall metrology t mm xy pix fp0 fp1 sep,
  fp2fvc t (map v_fp (fiducial_devices metrology)) = Ok pix ->
  fvc2fp t [(2000, 0)] = Ok [fp0] -> fvc2fp t [(2001, 0)] = Ok [fp1] -> distance fp0 fp1 <> 0 -> sep = mm / distance fp0 fp1 ->
  (forall spot, In spot xy -> ~ crowded xy sep spot) ->
  fst (findfiducials argsort query2 query3 query4 None metrology t mm xy) = Err LinAlgError.
Proof. intros. eapply FindFirst.no_groups; eauto. Qed.
Print Assumptions C90_no_groups.

(** *** C91. When all pinholes are seen, shifted and scaled, they are all found *)

(** The image of a predicted pixel. *)
Definition image (s u v : R) (p : R * R) : R * R := (s * fst p + u, s * snd p + v).

(** The spots [xy] show every predicted pixel [pix] of the [devices], moved by [image s u v], and other spots. *)
Record clear_image (devices : list device) (pix xy : list (R * R)) (sep s u v : R) : Prop := {
  scale_positive : 0 < s;
  spots_differ : NoDup xy;
  pixels_differ : NoDup pix;
  numbers_differ : NoDup (map (fun d => (v_location d, v_pinhole d)) devices);
  numbers_positive : forall d, In d devices -> (0 <= v_location d /\ 0 < v_pinhole d)%Z;
  (** all are seen *)
  seen : forall p, In p pix -> In (image s u v p) xy;
  (** the pinholes of a location are four spots close together, and no other spot is close to them *)
  four : forall d, In d devices -> length (positions_of devices pix (v_location d)) = 4%nat;
  together : forall L p q, In p (positions_of devices pix L) -> In q (positions_of devices pix L) -> distance (image s u v p) (image s u v q) < sep;
  isolated : forall L p spot, In p (positions_of devices pix L) -> In spot xy -> distance (image s u v p) spot < sep ->
    exists q, In q (positions_of devices pix L) /\ spot = image s u v q;
  others_sparse : forall spot, In spot xy -> crowded xy sep spot -> exists p, In p pix /\ spot = image s u v p;
  (** the pinholes of a location can be told from each other *)
  generic : forall d, In d devices -> NoDup (map fst (positions_of devices pix (v_location d))) /\ distinct_shapes (positions_of devices pix (v_location d));
  (** the central pinholes are near their images, nearer than to other images, and not on a line *)
  centre_near : forall d c, In d devices -> central (positions_of devices pix (v_location d)) c -> distance (image s u v c) c < 10;
  centre_own : forall d c p, In d devices -> central (positions_of devices pix (v_location d)) c -> In p pix -> p <> c -> distance (image s u v c) c < distance (image s u v p) c;
  centre_own' : forall d c d' c', In d devices -> central (positions_of devices pix (v_location d)) c -> In d' devices -> central (positions_of devices pix (v_location d')) c' -> c' <> c ->
    distance (image s u v c) c < distance (image s u v c) c';
  centres_spread : forall a b e, (forall d c, In d devices -> central (positions_of devices pix (v_location d)) c -> a + b * fst c + e * snd c = 0) -> a = 0 /\ b = 0 /\ e = 0
}.
Definition marked (d : device) : marks :=
  {| k_location := v_location d; k_petal_loc := v_location d / 1000; k_device_loc := v_location d mod 1000; k_pinhole := v_pinhole d |}.

Theorem C91_recovers : forall argsort query2 query3 query4, is_argsort argsort -> nearest_query query2 -> nearest_query3 query3 -> near_query query4 ->
  forall metrology t mm xy pix fp0 fp1 sep s u v,
  fp2fvc t (map v_fp (fiducial_devices metrology)) = Ok pix ->
  fvc2fp t [(2000, 0)] = Ok [fp0] -> fvc2fp t [(2001, 0)] = Ok [fp1] -> distance fp0 fp1 <> 0 -> sep = mm / distance fp0 fp1 ->
  clear_image (fiducial_devices metrology) pix xy sep s u v ->
  exists marks, fst (findfiducials argsort query2 query3 query4 None metrology t mm xy) = Ok marks /\ length marks = length xy /\
    (forall i d p, nth_error (fiducial_devices metrology) i = Some d -> nth_error pix i = Some p ->
       forall k, nth_error xy k = Some (image s u v p) -> nth_error marks k = Some (marked d)) /\
    (forall k spot, nth_error xy k = Some spot -> (forall p, In p pix -> spot <> image s u v p) -> nth_error marks k = Some not_a_fiducial).
Proof.
  intros argsort query2 query3 query4 A1 A2 A3 A4 metrology t mm xy pix fp0 fp1 sep s u v E F0 F1 Nz Es []. eapply FindFirst.find_first; eauto.
Qed.
Print Assumptions C91_recovers.

(** Three fiducials of four pinholes, at locations [n], [n] + 1 and [n] + 2; pixels and millimetres agree. *)
Definition ex_group (x y : R) : list (R * R) := [(x, y); (x + 3, y + 4); (x + 8, y + 6); (x + 15, y + 8)].
Definition ex_devices (L : Z) (g : list (R * R)) : list device :=
  map (fun '(k, p) => {| v_type := "FIF"; v_location := L; v_pinhole := k; v_fp := p |}) (combine [1; 2; 3; 4]%Z g).
Definition ex_fiber : device := {| v_type := "POS"; v_location := 7; v_pinhole := 0; v_fp := (500, 500) |}.
Definition ex_metrology (n : Z) : list device :=
  ex_devices n (ex_group 0 0) ++ ex_fiber :: ex_devices (n + 1) (ex_group 1000 0) ++ ex_devices (n + 2) (ex_group 0 1000).
Definition ex_tx : tx := {| xfvc_scale := 420; yfvc_scale := 420; xfvc_offset := 0; yfvc_offset := 0; tx_scale := 1; tx_rotation := 0;
  tx_offset_x := 0; tx_offset_y := 0; tx_polids := []; tx_coeffs := [] |}.
(** The camera sees them shifted by one pixel, and a fibre. *)
Definition ex_xy : list (R * R) := ex_group 1 1000 ++ (500, 500) :: ex_group 1 0 ++ ex_group 1001 0.
Definition ex_pix : list (R * R) := ex_group 0 0 ++ ex_group 1000 0 ++ ex_group 0 1000.

Lemma ex_predicted n : fp2fvc ex_tx (map v_fp (fiducial_devices (ex_metrology n))) = Ok ex_pix.
Proof.
  change (map v_fp (fiducial_devices (ex_metrology n))) with ex_pix.
  destruct (Fvc2fp.fp2fvc_back ex_tx) with (fp := ex_pix) as (j & E & _); [apply Forall_nil|cbn; intro; lra|discriminate|]. rewrite E. f_equal. clear E.
  transitivity (map (fun p : R * R => p) ex_pix); [|apply map_id]. apply map_ext. intros [a b]. replace (Fvc2fp.it ex_tx (reduce_xyfp (a, b)) j) with (0, 0).
  - unfold Fvc2fp.back, Fvc2fp.unsim, expand_xyfvc, reduce_xyfp, minus2, Fvc2fp.off. cbn -[cos sin]. rewrite Ropp_0, cos_0, sin_0. f_equal; lra.
  - destruct j; reflexivity.
Qed.
Lemma ex_pixel x : fvc2fp ex_tx [(x, 0)] = Ok [(x, 0)].
Proof.
  rewrite Fvc2fp.fvc2fp_forward by (apply Forall_nil || (cbn; intro; lra)). cbn [map]. do 2 f_equal. unfold Fvc2fp.forward, Fvc2fp.before, Fvc2fp.redpix, Fvc2fp.off, expand_xyfp.
  change (Fvc2fp.D ex_tx _) with (0, 0). cbn -[cos sin]. unfold Spec.ZhaoBurge.similarity. cbn -[cos sin]. rewrite cos_0, sin_0. f_equal; lra.
Qed.
Lemma ex_positions n L : positions_of (fiducial_devices (ex_metrology n)) ex_pix L =
  if Z.eqb n L then ex_group 0 0 else if Z.eqb (n + 1) L then ex_group 1000 0 else if Z.eqb (n + 2) L then ex_group 0 1000 else [].
Proof.
  unfold positions_of, fiducial_devices, ex_metrology, ex_pix. cbn -[Z.eqb Z.add]. destruct (Z.eqb_spec n L), (Z.eqb_spec (n + 1) L), (Z.eqb_spec (n + 2) L); try lia; reflexivity.
Qed.
Lemma close a b c d m : 0 <= m -> distance (a, b) (c, d) < m <-> (a - c) ^ 2 + (b - d) ^ 2 < m ^ 2.
Proof.
  intros Hm. unfold distance. cbn [fst snd]. split; intros H.
  - rewrite <- (sqrt_pow2 m Hm) in H. now apply sqrt_lt_0_alt in H.
  - rewrite <- (sqrt_pow2 m Hm). apply sqrt_lt_1_alt. split; [|exact H]. apply Rplus_le_le_0_compat; apply pow2_ge_0.
Qed.
Lemma closer a b c d a' b' c' d' : distance (a, b) (c, d) < distance (a', b') (c', d') <-> (a - c) ^ 2 + (b - d) ^ 2 < (a' - c') ^ 2 + (b' - d') ^ 2.
Proof.
  unfold distance. cbn [fst snd]. split; intros H; [now apply sqrt_lt_0_alt in H|]. apply sqrt_lt_1_alt. split; [|exact H]. apply Rplus_le_le_0_compat; apply pow2_ge_0.
Qed.
Lemma ex_devices_In n d : In d (fiducial_devices (ex_metrology n)) -> (v_location d = n \/ v_location d = n + 1 \/ v_location d = n + 2)%Z /\ (0 < v_pinhole d)%Z.
Proof. cbn -[Z.add]. intros H. repeat destruct H as [<-|H]; try contradiction; cbn; lia. Qed.
Lemma central_group x y : central (ex_group x y) (x + 8, y + 6).
Proof.
  exists 2%nat. split; [reflexivity|].
  assert (M : mean_point (ex_group x y) = (x + 6.5, y + 4.5)) by (unfold mean_point, ex_group; rewrite INR_IZR_INZ; cbn; f_equal; lra). rewrite M.
  intros j q Hq. assert (E : j = 2%nat /\ q = (x + 8, y + 6) \/ distance (x + 8, y + 6) (x + 6.5, y + 4.5) < distance q (x + 6.5, y + 4.5)).
  { do 4 (destruct j as [|j]; [injection Hq as <-; (left; split; reflexivity) || (right; apply closer; nra)|]). cbn in Hq. destruct j; discriminate. }
  split; [destruct E as [[_ ->]|E]; lra|]. intros Eq. destruct E as [[-> _]|E]; [lia|lra].
Qed.
Lemma group_central x y c : central (ex_group x y) c -> c = (x + 8, y + 6).
Proof. intros H. exact (FindFirst.central_unique _ _ _ H (central_group x y)). Qed.
Lemma group_shapes x y : NoDup (map fst (ex_group x y)) /\ distinct_shapes (ex_group x y).
Proof.
  split; [cbn; repeat constructor; cbn; intuition lra|].
  assert (B : distinct_shapes [(0, 0); (3, 4); (8, 6); (15, 8)]) by exact MatchExample.base_shapes.
  assert (T : forall p, In p (ex_group x y) -> exists q, In q [(0, 0); (3, 4); (8, 6); (15, 8)] /\ p = FindGroups.dilate 1 x y q).
  { intros p H. unfold FindGroups.dilate. cbn in H. destruct H as [<-|[<-|[<-|[<-|[]]]]]; [exists (0, 0)|exists (3, 4)|exists (8, 6)|exists (15, 8)]; (split; [cbn; tauto|cbn; f_equal; lra]). }
  intros a b c a' b' c' Ha Hb Hc Ha' Hb' Hc' O O' E.
  apply T in Ha as (pa & Ha & ->), Hb as (pb & Hb & ->), Hc as (pc & Hc & ->), Ha' as (pa' & Ha' & ->), Hb' as (pb' & Hb' & ->), Hc' as (pc' & Hc' & ->).
  assert (O1 : fst pa < fst pb < fst pc) by (cbn [fst FindGroups.dilate] in O; lra). assert (O1' : fst pa' < fst pb' < fst pc') by (cbn [fst FindGroups.dilate] in O'; lra).
  rewrite !FindGroups.shape_dilate in E by (try assumption; lra). destruct (B pa pb pc pa' pb' pc') as (-> & -> & ->); auto.
Qed.
Lemma group_In x y p : In p (ex_group x y) -> exists a b, p = (x + a, y + b) /\ 0 <= a <= 15 /\ 0 <= b <= 8.
Proof. cbn. intros [<-|[<-|[<-|[<-|[]]]]]; [exists 0, 0|exists 3, 4|exists 8, 6|exists 15, 8]; (split; [f_equal; lra|lra]). Qed.
Lemma group_shift x x' y spot : x' = x + 1 -> In spot (ex_group x' y) <-> exists p, In p (ex_group x y) /\ spot = image 1 1 0 p.
Proof.
  intros ->. split.
  - unfold image. cbn. intros [<-|[<-|[<-|[<-|[]]]]]; [exists (x, y)|exists (x + 3, y + 4)|exists (x + 8, y + 6)|exists (x + 15, y + 8)]; (split; [tauto|cbn; f_equal; lra]).
  - intros (p & H & ->). unfold image. cbn in *. destruct H as [<-|[<-|[<-|[<-|[]]]]]; cbn [fst snd]; [left|right; left|do 2 right; left|do 3 right; left]; f_equal; lra.
Qed.
Definition origin (x y : R) : Prop := x = 0 /\ y = 0 \/ x = 1000 /\ y = 0 \/ x = 0 /\ y = 1000.
Lemma ex_pix_cases p : In p ex_pix <-> exists x y, In p (ex_group x y) /\ origin x y.
Proof.
  unfold ex_pix, origin. rewrite !in_app_iff. split.
  - intros [H|[H|H]]; [exists 0, 0|exists 1000, 0|exists 0, 1000]; (split; [exact H|tauto]).
  - intros (x & y & H & [[-> ->]|[[-> ->]|[-> ->]]]); tauto.
Qed.
Lemma ex_xy_cases spot : In spot ex_xy <-> spot = (500, 500) \/ exists x y p, origin x y /\ In p (ex_group x y) /\ spot = image 1 1 0 p.
Proof.
  unfold ex_xy, origin. rewrite !in_app_iff. cbn [In]. rewrite in_app_iff, (group_shift 0 1 1000), (group_shift 0 1 0), (group_shift 1000 1001 0) by lra. split.
  - intros [(p & H & ->)|[<-|[(p & H & ->)|(p & H & ->)]]]; [right; exists 0, 1000, p|now left|right; exists 0, 0, p|right; exists 1000, 0, p]; tauto.
  - intros [->|(x & y & p & [[-> ->]|[[-> ->]|[-> ->]]] & H & ->)]; eauto 6.
Qed.
Lemma ex_group_at n L p : In p (positions_of (fiducial_devices (ex_metrology n)) ex_pix L) -> exists x y, origin x y /\ positions_of (fiducial_devices (ex_metrology n)) ex_pix L = ex_group x y.
Proof.
  rewrite ex_positions. unfold origin. destruct (Z.eqb n L); [intros _; exists 0, 0; tauto|]. destruct (Z.eqb (n + 1) L); [intros _; exists 1000, 0; tauto|]. destruct (Z.eqb (n + 2) L); [intros _; exists 0, 1000; tauto|intros []].
Qed.
Lemma ex_centre n d c : In d (fiducial_devices (ex_metrology n)) -> central (positions_of (fiducial_devices (ex_metrology n)) ex_pix (v_location d)) c -> c = (8, 6) \/ c = (1008, 6) \/ c = (8, 1006).
Proof.
  intros Hd Hc. apply ex_devices_In in Hd as [H _]. rewrite ex_positions in Hc. destruct (Z.eqb_spec n (v_location d)); [apply group_central in Hc; left; rewrite Hc; f_equal; lra|].
  destruct (Z.eqb_spec (n + 1) (v_location d)); [apply group_central in Hc; right; left; rewrite Hc; f_equal; lra|]. destruct (Z.eqb_spec (n + 2) (v_location d)); [|lia]. apply group_central in Hc. right; right; rewrite Hc; f_equal; lra.
Qed.

Lemma ex_clear n : (0 <= n)%Z -> clear_image (fiducial_devices (ex_metrology n)) ex_pix ex_xy 30 1 1 0.
Proof.
  intros Hn. split.
  - lra.
  - unfold ex_xy. cbn. repeat (constructor; [cbn; intros H; repeat destruct H as [H|H]; try contradiction; injection H; lra|]). constructor.
  - unfold ex_pix. cbn. repeat (constructor; [cbn; intros H; repeat destruct H as [H|H]; try contradiction; injection H; lra|]). constructor.
  - cbn -[Z.add]. repeat (constructor; [cbn -[Z.add]; intros H; repeat destruct H as [H|H]; try contradiction; injection H; lia|]). constructor.
  - intros d Hd. apply ex_devices_In in Hd. lia.
  - intros p Hp. apply ex_pix_cases in Hp as (x & y & Hp & O). apply ex_xy_cases. right. exists x, y, p. auto.
  - intros d Hd. apply ex_devices_In in Hd as [H _]. rewrite ex_positions. destruct (Z.eqb_spec n (v_location d)); [reflexivity|]. destruct (Z.eqb_spec (n + 1) (v_location d)); [reflexivity|]. destruct (Z.eqb_spec (n + 2) (v_location d)); [reflexivity|lia].
  - intros L p q Hp Hq. destruct (ex_group_at n L p Hp) as (x & y & O & E). rewrite E in Hp, Hq. apply group_In in Hp as (a & b & -> & Ha & Hb), Hq as (a' & b' & -> & Ha' & Hb'). unfold image. cbn [fst snd]. apply close; [lra|]. nra.
  - intros L p spot Hp Hs Hd. destruct (ex_group_at n L p Hp) as (x & y & O & E). rewrite E in *. apply group_In in Hp as (a & b & -> & Ha & Hb). apply ex_xy_cases in Hs as [->|(x' & y' & q & O' & Hq & ->)].
    + exfalso. unfold image in Hd. cbn [fst snd] in Hd. apply close in Hd; [|lra]. destruct O as [[-> ->]|[[-> ->]|[-> ->]]]; nra.
    + exists q. split; [|reflexivity]. assert (x' = x /\ y' = y) as [-> ->]; [|exact Hq]. apply group_In in Hq as (a' & b' & -> & Ha' & Hb'). unfold image in Hd. cbn [fst snd] in Hd. apply close in Hd; [|lra].
      destruct O as [[-> ->]|[[-> ->]|[-> ->]]], O' as [[-> ->]|[[-> ->]|[-> ->]]]; try (split; reflexivity); exfalso; nra.
  - intros spot Hs Hc. apply ex_xy_cases in Hs as [->|(x & y & p & O & Hp & ->)]; [|exists p; split; [apply ex_pix_cases; eauto|reflexivity]]. exfalso.
    destruct Hc as (ks & N & L4 & H). assert (K : forall k, In k ks -> k = 4%nat).
    { intros k Hk. destruct (H k Hk) as (q & Hq & Hd). assert (Hin := nth_error_In _ _ Hq). apply ex_xy_cases in Hin as [->|(x & y & p & O & Hp & ->)].
      - do 4 (destruct k as [|k]; [injection Hq; lra|]). destruct k as [|k]; [reflexivity|]. exfalso. do 8 (destruct k as [|k]; [injection Hq; lra|]). destruct k; discriminate.
      - exfalso. apply group_In in Hp as (a & b & -> & Ha & Hb). unfold image in Hd. cbn [fst snd] in Hd. apply close in Hd; [|lra]. destruct O as [[-> ->]|[[-> ->]|[-> ->]]]; nra. }
    destruct ks as [|k1 [|k2 ks]]; try discriminate. apply NoDup_cons_iff in N as [N _]. apply N. left. rewrite (K k1), (K k2) by (cbn; tauto). reflexivity.
  - intros d Hd. apply ex_devices_In in Hd as [H _]. rewrite ex_positions. destruct (Z.eqb_spec n (v_location d)); [apply group_shapes|]. destruct (Z.eqb_spec (n + 1) (v_location d)); [apply group_shapes|]. destruct (Z.eqb_spec (n + 2) (v_location d)); [apply group_shapes|lia].
  - intros d c Hd Hc. apply (ex_centre n d c Hd) in Hc as [-> | [-> | ->]]; unfold image; cbn [fst snd]; apply close; lra.
  - intros d c p Hd Hc Hp Np. apply ex_pix_cases in Hp as (x & y & Hp & O). apply (ex_centre n d c Hd) in Hc. cbn in Hp. unfold image. cbn [fst snd].
    destruct Hc as [-> | [-> | ->]], O as [[-> ->]|[[-> ->]|[-> ->]]], Hp as [<-|[<-|[<-|[<-|[]]]]]; cbn [fst snd]; apply closer; try lra; exfalso; apply Np; f_equal; lra.
  - intros d c d' c' Hd Hc Hd' Hc' Nc. apply (ex_centre n d c Hd) in Hc. apply (ex_centre n d' c' Hd') in Hc'. unfold image. cbn [fst snd]. destruct Hc as [-> | [-> | ->]], Hc' as [-> | [-> | ->]]; try contradiction; cbn [fst snd]; apply closer; lra.
  - intros a b e H.
    assert (C : forall d x y, In d (fiducial_devices (ex_metrology n)) -> positions_of (fiducial_devices (ex_metrology n)) ex_pix (v_location d) = ex_group x y -> a + b * (x + 8) + e * (y + 6) = 0).
    { intros d x y Hd E. apply (H d (x + 8, y + 6) Hd). rewrite E. apply central_group. }
    assert (D : forall L g, In {| v_type := "FIF"; v_location := L; v_pinhole := 1; v_fp := g |} (fiducial_devices (ex_metrology n)) -> True) by auto.
    pose proof (C {| v_type := "FIF"; v_location := n; v_pinhole := 1; v_fp := (0, 0) |} 0 0) as C1. pose proof (C {| v_type := "FIF"; v_location := n + 1; v_pinhole := 1; v_fp := (1000, 0) |} 1000 0) as C2.
    pose proof (C {| v_type := "FIF"; v_location := n + 2; v_pinhole := 1; v_fp := (0, 1000) |} 0 1000) as C3. cbn [v_location] in *.
    rewrite ex_positions in C1, C2, C3. rewrite Z.eqb_refl in C1, C2, C3. rewrite (proj2 (Z.eqb_neq n (n + 1))) in C2 by lia. rewrite (proj2 (Z.eqb_neq n (n + 2))), (proj2 (Z.eqb_neq (n + 1) (n + 2))) in C3 by lia.
    specialize (C1 ltac:(cbn; tauto) eq_refl). specialize (C2 ltac:(cbn; tauto) eq_refl). specialize (C3 ltac:(cbn; tauto) eq_refl). lra.
Qed.
Lemma ex_found n : (0 <= n)%Z ->
  exists marks, fst (findfiducials isort_argsort (scan_query distance) (scan_query distance3) (near_scan distance) None (ex_metrology n) ex_tx 30 ex_xy) = Ok marks /\ length marks = length ex_xy /\
    (forall i d p, nth_error (fiducial_devices (ex_metrology n)) i = Some d -> nth_error ex_pix i = Some p ->
       forall k, nth_error ex_xy k = Some (image 1 1 0 p) -> nth_error marks k = Some (marked d)) /\
    (forall k spot, nth_error ex_xy k = Some spot -> (forall p, In p ex_pix -> spot <> image 1 1 0 p) -> nth_error marks k = Some not_a_fiducial).
Proof.
  intros Hn. assert (D : distance (2000, 0) (2001, 0) = 1) by (unfold distance; cbn [fst snd]; replace ((2000 - 2001) ^ 2 + (0 - 0) ^ 2) with 1 by lra; apply sqrt_1).
  apply (C91_recovers isort_argsort (scan_query distance) (scan_query distance3) (near_scan distance) isort_is_argsort KDTree.scan_query2 KDTree.scan_query3 NearScan.near_scan_ok
    (ex_metrology n) ex_tx 30 ex_xy ex_pix (2000, 0) (2001, 0) 30 1 1 0).
  - apply ex_predicted.
  - apply ex_pixel.
  - apply ex_pixel.
  - rewrite D. lra.
  - rewrite D. lra.
  - now apply ex_clear.
Qed.
(** The first spot is the first pinhole of the third fiducial; the fifth is the fibre. *)
Example C91_example : exists marks, fst (findfiducials isort_argsort (scan_query distance) (scan_query distance3) (near_scan distance) None (ex_metrology 1541) ex_tx 30 ex_xy) = Ok marks /\
  length marks = 13%nat /\ nth_error marks 0 = Some {| k_location := 1543; k_petal_loc := 1; k_device_loc := 543; k_pinhole := 1 |} /\ nth_error marks 4 = Some not_a_fiducial.
Proof.
  destruct (ex_found 1541 ltac:(lia)) as (marks & E & L & A & B). exists marks. split; [exact E|]. split; [rewrite L; reflexivity|]. split.
  - rewrite (A 8%nat _ _ eq_refl eq_refl 0%nat); [reflexivity|]. unfold image. cbn. do 2 f_equal; lra.
  - apply (B 4%nat (500, 500) eq_refl). intros p Hp E'. apply ex_pix_cases in Hp as (x & y & Hp & O). apply group_In in Hp as (a & b & -> & Ha & Hb). unfold image in E'. cbn [fst snd] in E'. injection E' as E1 E2. destruct O as [[-> ->]|[[-> ->]|[-> ->]]]; lra.
Qed.
(** The example meets the hypotheses of C90 too. *)
Example C90_example : exists marks, fst (call_with isort_argsort (scan_query distance) (scan_query distance3) (near_scan distance) (after isort_argsort (scan_query distance) (scan_query distance3) (near_scan distance) [])
    {| a_metrology := ex_metrology 1541; a_tx := ex_tx; a_mm := 30; a_xy := ex_xy |}) = Ok marks /\ exists m, In m marks /\ k_location m = 1543%Z /\ k_pinhole m = 1%Z.
Proof.
  destruct C91_example as (marks & E & _ & H & _). exists marks. split; [exact E|]. eexists. split; [exact (nth_error_In _ _ H)|]. split; reflexivity.
Qed.

(** Three lone spots. *)
Example C90_no_groups_example : forall spot, In spot [(0, 0); (100, 0); (0, 100)] -> ~ crowded [(0, 0); (100, 0); (0, 100)] 30 spot.
Proof.
  intros spot _ (ks & N & L & H). assert (I : incl ks [0; 1; 2]%nat).
  { intros k Hk. destruct (H k Hk) as (q & Hq & _). assert (k < 3)%nat by (change 3%nat with (length [(0, 0); (100, 0); (0, 100)]); apply nth_error_Some; congruence). destruct k as [|[|[|k]]]; cbn; lia || tauto. }
  apply (NoDup_incl_length N) in I. rewrite L in I. cbn in I. lia.
Qed.

(** *** C92. Later calls use the metrology of an earlier one *)

(** Once a call has returned a table, the metrology given to later calls in the process has no effect. *)
Theorem C92_metrology_kept : forall argsort query2 query3 query4 calls c0 calls' marks,
  let after := after argsort query2 query3 query4 in let call_with := call_with argsort query2 query3 query4 in
  fst (call_with (after calls) c0) = Ok marks ->
  forall metrology metrology' t mm xy,
    fst (call_with (after (calls ++ c0 :: calls')) {| a_metrology := metrology; a_tx := t; a_mm := mm; a_xy := xy |}) =
    fst (call_with (after (calls ++ c0 :: calls')) {| a_metrology := metrology'; a_tx := t; a_mm := mm; a_xy := xy |}).
Proof. intros argsort query2 query3 query4 calls c0 calls' marks after call_with H metrology metrology' t mm xy. eapply FindFirst.metrology_kept; eauto. Qed.
Print Assumptions C92_metrology_kept.
Example C92_example : exists marks, fst (call_with isort_argsort (scan_query distance) (scan_query distance3) (near_scan distance) (after isort_argsort (scan_query distance) (scan_query distance3) (near_scan distance) [])
    {| a_metrology := ex_metrology 1541; a_tx := ex_tx; a_mm := 30; a_xy := ex_xy |}) = Ok marks.
Proof. destruct C90_example as (marks & E & _). eauto. Qed.

(** The result of a call is not that of the same call in a new process: after a call with one metrology the locations of the other are not found. *)
Theorem C92_fresh_refuted : exists argsort query2 query3 query4 c0 c,
  is_argsort argsort /\ nearest_query query2 /\ nearest_query3 query3 /\ near_query query4 /\
  let after := after argsort query2 query3 query4 in let call_with := call_with argsort query2 query3 query4 in
  exists marks marks', fst (call_with (after []) c) = Ok marks /\ fst (call_with (after [c0]) c) = Ok marks' /\
    option_map k_location (nth_error marks 0) = Some 2003%Z /\ option_map k_location (nth_error marks' 0) = Some 1003%Z /\
    forall v, In v (a_metrology c) -> v_location v <> 1003%Z.
Proof.
  exists isort_argsort, (scan_query distance), (scan_query distance3), (near_scan distance),
    {| a_metrology := ex_metrology 1001; a_tx := ex_tx; a_mm := 30; a_xy := ex_xy |}, {| a_metrology := ex_metrology 2001; a_tx := ex_tx; a_mm := 30; a_xy := ex_xy |}.
  split; [exact isort_is_argsort|]. split; [exact KDTree.scan_query2|]. split; [exact KDTree.scan_query3|]. split; [exact NearScan.near_scan_ok|]. intros after call_with.
  destruct (ex_found 2001 ltac:(lia)) as (marks & E & _ & A & _). destruct (ex_found 1001 ltac:(lia)) as (marks' & E' & _ & A' & _).
  exists marks, marks'. split; [exact E|]. split.
  - etransitivity; [exact (C92_metrology_kept isort_argsort (scan_query distance) (scan_query distance3) (near_scan distance) [] {| a_metrology := ex_metrology 1001; a_tx := ex_tx; a_mm := 30; a_xy := ex_xy |} [] marks' E' (ex_metrology 2001) (ex_metrology 1001) ex_tx 30 ex_xy)|]. etransitivity; [|exact E']. apply (FindFirst.repeated isort_argsort (scan_query distance) (scan_query distance3) (near_scan distance) {| a_metrology := ex_metrology 1001; a_tx := ex_tx; a_mm := 30; a_xy := ex_xy |}). intros e He. change (fst (findfiducials isort_argsort (scan_query distance) (scan_query distance3) (near_scan distance) None (ex_metrology 1001) ex_tx 30 ex_xy) = Err e) in He. congruence.
  - rewrite (A 8%nat _ _ eq_refl eq_refl 0%nat) by (unfold image; cbn; do 2 f_equal; lra). rewrite (A' 8%nat _ _ eq_refl eq_refl 0%nat) by (unfold image; cbn; do 2 f_equal; lra).
    split; [reflexivity|]. split; [reflexivity|]. cbn. intros v Hv. repeat destruct Hv as [<-|Hv]; try contradiction; cbn; lia.
Qed.
Print Assumptions C92_fresh_refuted.
