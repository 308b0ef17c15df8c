From Verif.Model Require Import Spotmatch.
From Verif.Proofs Require Import Prelude RealNum Numpy Stats.
From Coq Require Import Lra Lia String List.
Import ListNotations.
Local Open Scope R_scope.
Local Open Scope string_scope.
Local Open Scope list_scope.

Lemma number_length loc : forall cs k ids, List.length (number_pinholes loc k cs ids) = List.length ids.
Proof. induction cs as [|c cs IH]; intros k [|i ids]; cbn; try reflexivity. destruct (_ && _); cbn; now rewrite IH. Qed.
(** Rows before row i of a location and type *)
Definition earlier (loc : Z) (cs : list center) (i : nat) : Z := Z.of_nat (List.length (filter (fun c => (c_location c =? loc)%Z && (c_type c =? "pinhole")) (firstn i cs))).
Lemma number_nth loc : forall cs k ids i c, nth_error cs i = Some c -> List.length ids = List.length cs ->
  nth i (number_pinholes loc k cs ids) 0%Z = if (c_location c =? loc)%Z && (c_type c =? "pinhole") then (k + earlier loc cs i)%Z else nth i ids 0%Z.
Proof.
  induction cs as [|c0 cs IH]; intros k ids i c E L; [destruct i; discriminate|]. destruct ids as [|id ids]; [discriminate|]. cbn in L. destruct i as [|i].
  - cbn in E. injection E as ->. cbn [number_pinholes]. destruct (_ && _); cbn; [unfold earlier; cbn; lia|reflexivity].
  - cbn in E. cbn [number_pinholes]. unfold earlier. cbn [firstn filter]. destruct ((c_location c0 =? loc)%Z && (c_type c0 =? "pinhole")) eqn:B0.
    + cbn [nth]. rewrite (IH _ _ i c E) by lia. destruct ((c_location c =? loc)%Z && (c_type c =? "pinhole")); [|reflexivity]. unfold earlier. cbn [List.length]. lia.
    + cbn [nth]. rewrite (IH _ _ i c E) by lia. reflexivity.
Qed.
Lemma fold_number cs : forall locs ids i c, nth_error cs i = Some c -> List.length ids = List.length cs -> NoDup locs ->
  nth i (fold_left (fun ids loc => number_pinholes loc 10 cs ids) locs ids) 0%Z = if existsb (Z.eqb (c_location c)) locs && (c_type c =? "pinhole") then (10 + earlier (c_location c) cs i)%Z else nth i ids 0%Z.
Proof.
  induction locs as [|loc locs IH]; intros ids i c E L ND; [reflexivity|]. inversion ND as [|? ? NI ND']; subst. cbn [fold_left existsb]. rewrite (IH _ i c E) by (rewrite ?number_length; assumption). rewrite (number_nth loc cs 10 ids i c E L).
  destruct (c_type c =? "pinhole"); rewrite ?andb_true_r, ?andb_false_r; [|reflexivity]. destruct (Z.eqb_spec (c_location c) loc) as [Eq|Ne]; cbn [orb andb]; [|reflexivity].
  destruct (existsb (Z.eqb (c_location c)) locs); [reflexivity|now rewrite Eq].
Qed.

(** C48. Every row of the output of match_positions with seven words gives one row of the table, with its location, position,
    flag and error. *)
Theorem C48_rows : forall pi pf metrology lines cs out, read_centers pi pf lines = Ok cs -> spotmatch_output metrology cs = Ok out ->
  map (fun r => fst (fst r)) out = cs /\ List.length cs = List.length (filter (fun v => (List.length v =? 7)%nat) lines) /\
  Forall2 (fun c v => pi (nth 0 v "") = Ok (c_location c) /\ pf (nth 1 v "") = Ok (c_xpix c) /\ pf (nth 2 v "") = Ok (c_ypix c) /\ pf (nth 4 v "") = Ok (c_flag c) /\ pf (nth 5 v "") = Ok (c_err c) /\ nth 6 v "" = c_type c) cs (filter (fun v => (List.length v =? 7)%nat) lines).
Proof.
  intros pi pf metrology lines cs out R H. unfold spotmatch_output in H. destruct (rmapM _ cs) as [infos|] eqn:E; [|discriminate]. cbn in H. injection H as <-.
  assert (Li : List.length infos = List.length cs). { clear R. revert infos E. induction cs as [|c cs IH]; intros infos E; cbn in E; [injection E as <-; reflexivity|]. destruct (lookup_info _ _); [|discriminate]. cbn in E. destruct (rmapM _ cs) as [r|]; [|discriminate]. cbn in E. injection E as <-. cbn. now rewrite (IH r eq_refl). }
  assert (Lp : List.length (pinhole_ids cs) = List.length cs). { unfold pinhole_ids. assert (G : forall locs ids, List.length (fold_left (fun ids loc => number_pinholes loc 10 cs ids) locs ids) = List.length ids) by (induction locs as [|l locs IHl]; intros ids; cbn; [reflexivity|]; now rewrite IHl, number_length). cbv zeta. now rewrite G, map_length. }
  split; [|].
  - clear - Li Lp. revert infos Li Lp. generalize (pinhole_ids cs). intros ids infos. revert infos ids. induction cs as [|c cs IH]; intros [|i infos] [|p ids] Li Lp; cbn in *; try discriminate; [reflexivity|]. f_equal. apply IH; lia.
  - unfold read_centers in R. clear - R. revert cs R. assert (F7 : Forall (fun v => List.length v = 7%nat) (filter (fun v => (List.length v =? 7)%nat) lines)) by (apply Forall_forall; intros v Hv; apply filter_In in Hv; now apply Nat.eqb_eq). revert F7. generalize (filter (fun v : list string => (List.length v =? 7)%nat) lines). induction l as [|v l IH]; intros F7 cs R; cbn in R; [injection R as <-; split; [reflexivity|constructor]|].
    inversion F7 as [|? ? L7 F7']; subst. destruct (read_center pi pf v) as [c|] eqn:Ec; [|discriminate]. cbn in R. destruct (rmapM _ l) as [r|]; [|discriminate]. cbn in R. injection R as <-. destruct (IH F7' r eq_refl) as [Lr Fr]. split; [cbn; now rewrite Lr|]. constructor; [|exact Fr].
    destruct v as [|v0 [|v1 [|v2 [|v3 [|v4 [|v5 [|v6 [|]]]]]]]]; try discriminate L7. cbn in Ec |- *. destruct (pi v0); [|discriminate]. cbn in Ec. destruct (pf v1); [|discriminate]. cbn in Ec. destruct (pf v2); [|discriminate]. cbn in Ec. destruct (pf v3); [|discriminate]. cbn in Ec. destruct (pf v4); [|discriminate]. cbn in Ec. destruct (pf v5); [|discriminate]. cbn in Ec. injection Ec as <-. cbn. auto 10.
Qed.
Print Assumptions C48_rows.
(** The pinhole number is 99 for fiducials, 10 plus the number of earlier pinholes of the same location for pinholes of a
    location with a fiducial row, and 0 otherwise. *)
Theorem C48_numbers : forall cs i c, nth_error cs i = Some c ->
  nth i (pinhole_ids cs) 0%Z =
    if c_type c =? "fiducial" then 99%Z
    else if (c_type c =? "pinhole") && existsb (fun f => (c_type f =? "fiducial") && (c_location f =? c_location c)%Z) cs then (10 + earlier (c_location c) cs i)%Z else 0%Z.
Proof.
  intros cs i c E. unfold pinhole_ids. cbv zeta. rewrite (fold_number cs _ _ i c E) by (rewrite ?map_length; auto using unique_NoDup).
  assert (Ex : existsb (Z.eqb (c_location c)) (unique (map c_location (filter (fun c => c_type c =? "fiducial") cs))) = existsb (fun f => (c_type f =? "fiducial") && (c_location f =? c_location c)%Z) cs).
  { apply Bool.eq_iff_eq_true. rewrite !existsb_exists. split.
    - intros (z & Hz & Ez). apply unique_In, in_map_iff in Hz. destruct Hz as (f & <- & Hf). apply filter_In in Hf. destruct Hf as [Hf Tf]. exists f. split; [exact Hf|]. rewrite Tf. cbn. apply Z.eqb_eq in Ez. apply Z.eqb_eq. now symmetry.
    - intros (f & Hf & Bf). apply andb_true_iff in Bf. destruct Bf as [Tf Lf]. exists (c_location f). split; [apply unique_In, in_map, filter_In; auto|]. apply Z.eqb_eq in Lf. apply Z.eqb_eq. now symmetry. }
  rewrite Ex. rewrite nth_indep with (d' := (fun c => if c_type c =? "fiducial" then 99%Z else 0%Z) c) by (rewrite map_length; apply nth_error_Some; congruence). rewrite (map_nth (fun c => if c_type c =? "fiducial" then 99%Z else 0%Z)), (nth_error_nth _ _ _ E).
  destruct (c_type c =? "fiducial") eqn:T.
  - apply String.eqb_eq in T. rewrite T. rewrite andb_false_r. reflexivity.
  - rewrite andb_comm. reflexivity.
Qed.
Print Assumptions C48_numbers.
(** So different pinholes of one location with a fiducial have different numbers. *)
Theorem C48_distinct : forall cs i j a b, i <> j -> nth_error cs i = Some a -> nth_error cs j = Some b -> c_type a = "pinhole" -> c_type b = "pinhole" -> c_location a = c_location b ->
  (exists f, In f cs /\ c_type f = "fiducial" /\ c_location f = c_location a) -> nth i (pinhole_ids cs) 0%Z <> nth j (pinhole_ids cs) 0%Z.
Proof.
  assert (M : forall cs loc i j c, (i < j)%nat -> nth_error cs i = Some c -> c_type c = "pinhole" -> c_location c = loc -> (earlier loc cs i < earlier loc cs j)%Z).
  { intros cs loc i j c H E T Lc. unfold earlier. enough (List.length (filter (fun c => (c_location c =? loc)%Z && (c_type c =? "pinhole")%string) (firstn i cs)) < List.length (filter (fun c => (c_location c =? loc)%Z && (c_type c =? "pinhole")%string) (firstn j cs)))%nat by lia.
    revert i j H E. induction cs as [|c0 cs IH]; intros [|i] [|j] H E; cbn in E; try discriminate; try lia.
    - injection E as ->. cbn [firstn filter]. rewrite Lc, T, Z.eqb_refl. cbn. lia.
    - cbn [firstn filter]. specialize (IH i j ltac:(lia) E). destruct (_ && _); cbn [List.length]; lia. }
  intros cs i j a b N Ea Eb Ta Tb Lab (f & Hf & Tf & Lf). rewrite (C48_numbers cs i a Ea), (C48_numbers cs j b Eb), Ta, Tb. cbn [String.eqb Ascii.eqb Bool.eqb andb].
  assert (X : existsb (fun g => (c_type g =? "fiducial") && (c_location g =? c_location a)%Z) cs = true) by (apply existsb_exists; exists f; split; [exact Hf|]; rewrite Tf, Lf, Z.eqb_refl; reflexivity). rewrite <- Lab, X.
  destruct (lt_eq_lt_dec i j) as [[H|H]|H]; [|congruence|]; [pose proof (M cs (c_location a) i j a H Ea Ta eq_refl); lia|pose proof (M cs (c_location a) j i b H Eb Tb (eq_sym Lab)); lia].
Qed.
Print Assumptions C48_distinct.
(** The other columns come from the last metrology row of the location, with texts cut to seven characters; a negative
    location has none, and an unknown one fails. *)
Theorem C48_info : forall metrology cs out, spotmatch_output metrology cs = Ok out -> forall c info id, In (c, info, id) out ->
  ((c_location c < 0)%Z -> info = unknown_info) /\
  ((0 <= c_location c)%Z -> exists l d r, metrology = l ++ d :: r /\ d_location d = c_location c /\ Forall (fun e => d_location e <> c_location c) r /\
     info = {| i_type := cut7 (d_type d); i_loc := d_loc d; i_id := cut7 (d_id d); i_petal_loc := d_petal_loc d; i_petal_id := d_petal_id d; i_bus := cut7 (d_bus d) |}).
Proof.
  intros metrology cs out H c info id I. unfold spotmatch_output in H. destruct (rmapM _ cs) as [infos|] eqn:E; [|discriminate]. cbn in H. injection H as <-.
  apply in_combine_l in I. assert (L : lookup_info metrology (c_location c) = Ok info). { revert infos E I. clear. induction cs as [|c0 cs IH]; intros infos E I; cbn in E; [injection E as <-; destruct I|]. destruct (lookup_info metrology (c_location c0)) as [i0|] eqn:E0; [|discriminate]. cbn in E. destruct (rmapM _ cs) as [r|]; [|discriminate]. cbn in E. injection E as <-. destruct I as [I|I]; [injection I as <- <-; exact E0|now apply (IH r)]. }
  unfold lookup_info in L. destruct (Z.ltb_spec (c_location c) 0) as [Hn|Hn].
  - injection L as <-. split; [reflexivity|lia].
  - destruct (find _ _) as [d|] eqn:F; [|discriminate]. injection L as <-. split; [lia|]. intros _.
    assert (G : forall m d, find (fun d => (d_location d =? c_location c)%Z) m = Some d -> exists a b, m = a ++ d :: b /\ d_location d = c_location c /\ Forall (fun e => d_location e <> c_location c) a).
    { clear. induction m as [|e m IH]; intros d F; [discriminate|]. cbn in F. destruct (Z.eqb_spec (d_location e) (c_location c)) as [Eq|Ne]; [injection F as <-; exists [], m; auto|]. destruct (IH d F) as (a & b & -> & Ed & Fa). exists (e :: a), b. split; [reflexivity|]. split; [exact Ed|now constructor]. }
    destruct (G _ _ F) as (a & b & Er & Ed & Fa). exists (rev b), d, (rev a). split; [|split; [exact Ed|split; [now apply Forall_rev|reflexivity]]]. rewrite <- (rev_involutive metrology), Er, rev_app_distr. cbn. now rewrite <- app_assoc.
Qed.
Print Assumptions C48_info.
Theorem C48_unknown : forall metrology cs c, In c cs -> (0 <= c_location c)%Z -> Forall (fun d => d_location d <> c_location c) metrology -> spotmatch_output metrology cs = Err KeyError.
Proof.
  intros metrology cs c I P F. unfold spotmatch_output. assert (K : lookup_info metrology (c_location c) = Err KeyError). { unfold lookup_info. destruct (Z.ltb_spec (c_location c) 0); [lia|]. destruct (find _ _) as [d|] eqn:E; [|reflexivity]. apply find_some in E. destruct E as [Hd Ed]. apply in_rev in Hd. rewrite Forall_forall in F. apply Z.eqb_eq in Ed. destruct (F d Hd Ed). }
  assert (M : rmapM (fun c => lookup_info metrology (c_location c)) cs = Err KeyError); [|now rewrite M]. induction cs as [|c0 cs IH]; [destruct I|]. cbn. destruct I as [->|I]; [now rewrite K|]. destruct (lookup_info metrology (c_location c0)) as [i0|e] eqn:E0; cbn; [now rewrite IH|].
  unfold lookup_info in E0. destruct (_ <? 0)%Z; [discriminate|]. destruct (find _ _); [discriminate|]. congruence.
Qed.
Print Assumptions C48_unknown.
(** Without its fiducial row a pinhole has the number of a positioner; the 90th pinhole has the number of a fiducial; a long
    device id is cut. *)
Definition row (loc : Z) (t : string) : center := {| c_location := loc; c_xpix := 0; c_ypix := 0; c_flag := 0; c_err := 0; c_type := t |}.
Theorem C48_numbers_refuted : pinhole_ids [row 5 "pinhole"; row 5 "pinhole"] = [0; 0]%Z /\
  nth 90 (pinhole_ids (row 5 "fiducial" :: repeat (row 5 "pinhole") 90)) 0%Z = 99%Z /\ nth 0 (pinhole_ids (row 5 "fiducial" :: repeat (row 5 "pinhole") 90)) 0%Z = 99%Z /\
  cut7 "M0123456" = cut7 "M0123457".
Proof. split; [reflexivity|]. split; [vm_compute; reflexivity|]. split; vm_compute; reflexivity. Qed.
Print Assumptions C48_numbers_refuted.
Example C48_example : pinhole_ids [row 5 "pinhole"; row 7 "positioner"; row 5 "fiducial"; row 5 "pinhole"; row 6 "pinhole"] = [10; 0; 99; 11; 0]%Z.
Proof. reflexivity. Qed.

(** C78. The pixel scale of a map which is affine near the reference point is the square root of its area scale: for a
    rotation with dilatation, the dilatation. *)
Theorem C78_scale : forall f a b c d e g, (forall x y, f (x, y) = (a * x + b * y + e, c * x + d * y + g)) -> compute_pixel_scale f = sqrt (Rabs (a * d - b * c)).
Proof. intros f a b c d e g H. unfold compute_pixel_scale. rewrite !H. cbn [fst snd]. f_equal. f_equal. field. lra. Qed.
Print Assumptions C78_scale.
Theorem C78_similarity : forall f s t e g, 0 <= s -> (forall x y, f (x, y) = (s * (cos t * x - sin t * y) + e, s * (sin t * x + cos t * y) + g)) -> compute_pixel_scale f = s.
Proof.
  intros f s t e g S H. rewrite (C78_scale f (s * cos t) (- s * sin t) (s * sin t) (s * cos t) e g) by (intros; rewrite H; f_equal; ring). pose proof (sin2_cos2 t) as P. unfold Rsqr in P.
  replace (s * cos t * (s * cos t) - - s * sin t * (s * sin t)) with (s * s) by (rewrite <- (Rmult_1_r (s * s)), <- P; ring). rewrite Rabs_pos_eq by nra. now apply sqrt_square.
Qed.
Print Assumptions C78_similarity.
Lemma rmapM_values {A B} (f : A -> res B) g l : (forall a, In a l -> f a = Ok (g a)) -> rmapM f l = Ok (map g l).
Proof. induction l as [|a l IH]; intros H; [reflexivity|]. cbn [rmapM map]. rewrite H by now left. cbn [rbind]. rewrite IH by (intros; apply H; now right). reflexivity. Qed.
(** The inputs of match_positions, for any metrology. *)
Definition fiducial_row (d : metro_dev) : Prop := d_type d = "FIF" \/ d_type d = "GIF".
(** mean of all rows of a location *)
Definition centroid (metrology : list metro_dev) (z : Z) : R * R :=
  let rows := filter (fun d => (d_location d =? z)%Z) metrology in
  (fold_right Rplus 0 (map d_x rows) / INR (List.length rows), fold_right Rplus 0 (map d_y rows) / INR (List.length rows)).
Definition positioners (metrology : list metro_dev) : list (Z * (R * R)) := map (fun d => (d_location d, (d_x d, d_y d))) (filter (fun d => d_type d =? "POS") metrology).
(** The targets are those expected, or else all positioners, in order, followed by the mean position of each location with a fiducial,
    in the order of the locations, all through the given transform; the device centers are the positioners and the same mean positions,
    through the default transform. *)
Theorem C78_targets : forall metrology default given expected, let f := match given with Some g => g | None => default end in
  exists r locs, Sorted.StronglySorted Z.lt locs /\ (forall z, In z locs <-> exists d, In d metrology /\ fiducial_row d /\ d_location d = z) /\
  let lines (g : plane_map) l := map (fun e => (fst e, g (snd e), 4%Z)) l ++ map (fun z => (z, g (centroid metrology z), 8%Z)) locs in
  spotmatch_inputs metrology default given expected = Ok (lines f (match expected with Some e => e | None => positioners metrology end), r, lines default (positioners metrology)).
Proof.
  intros metrology default given expected f. exists (reference_lines metrology default), (unique (map d_location (filter is_fiducial metrology))). split; [apply unique_sorted|].
  assert (FR : forall d, is_fiducial d = true <-> fiducial_row d). { intros d. unfold is_fiducial, fiducial_row. now rewrite Bool.orb_true_iff, !String.eqb_eq. }
  assert (IN : forall z, In z (unique (map d_location (filter is_fiducial metrology))) <-> exists d, In d metrology /\ fiducial_row d /\ d_location d = z).
  { intros z. rewrite unique_In, in_map_iff. split; intros (d & H); exists d; rewrite filter_In, ?FR in *; rewrite <- ?FR in *; tauto. }
  split; [exact IN|]. intros lines.
  assert (C : fiducial_centers metrology = Ok (map (fun z => (z, centroid metrology z)) (unique (map d_location (filter is_fiducial metrology))))).
  { unfold fiducial_centers. apply rmapM_values. intros z Hz. apply IN in Hz as (d & Hd & _ & Ed).
    assert (NE : filter (fun d => (d_location d =? z)%Z) metrology <> []) by (intros E; assert (X : In d (filter (fun d => (d_location d =? z)%Z) metrology)) by (apply filter_In; split; [exact Hd|now apply Z.eqb_eq]); rewrite E in X; destruct X).
    cbv zeta. rewrite !mean_Ok by (intros E; apply map_eq_nil in E; contradiction). cbn [rbind]. rewrite !map_length. reflexivity. }
  unfold spotmatch_inputs, device_centers_lines, targets_lines. rewrite C. cbn [rbind]. unfold lines, positioners. rewrite !map_map. reflexivity.
Qed.
Print Assumptions C78_targets.
(** The references are the pinholes 1 to 4 of the fiducials, each with its number, and nothing else. *)
Theorem C78_references : forall metrology default given expected t r c, spotmatch_inputs metrology default given expected = Ok (t, r, c) ->
  (forall e, In e r <-> exists d n, In d metrology /\ fiducial_row d /\ In (d_pinhole d, n) [(1, 515); (2, 1027); (3, 259); (4, 771)]%Z /\ e = (d_location d, default (d_x d, d_y d), n)) /\
  List.length r = List.length (filter (fun d => ((d_type d =? "FIF") || (d_type d =? "GIF")) && ((1 <=? d_pinhole d) && (d_pinhole d <=? 4))%Z) metrology).
Proof.
  intros metrology default given expected t r c H. assert (E : r = reference_lines metrology default).
  { unfold spotmatch_inputs in H. destruct (targets_lines _ _ _) as [t0|]; [|discriminate]. cbn [rbind] in H. destruct (device_centers_lines _ _) as [c0|]; [|discriminate]. cbn [rbind] in H. congruence. }
  rewrite E. clear H E. assert (NUM : forall k n, reference_number k = Some n <-> In (k, n) [(1, 515); (2, 1027); (3, 259); (4, 771)]%Z).
  { intros k n. unfold reference_number. cbn [In]. destruct (Z.eqb_spec k 1) as [->|]; [split; [intros [= <-]; auto|intros [[= <-]|[[=]|[[=]|[[=]|[]]]]]; reflexivity]|]. destruct (Z.eqb_spec k 2) as [->|]; [split; [intros [= <-]; auto|intros [[=]|[[= <-]|[[=]|[[=]|[]]]]]; reflexivity]|].
    destruct (Z.eqb_spec k 3) as [->|]; [split; [intros [= <-]; auto|intros [[=]|[[=]|[[= <-]|[[=]|[]]]]]; reflexivity]|]. destruct (Z.eqb_spec k 4) as [->|]; [split; [intros [= <-]; auto|intros [[=]|[[=]|[[=]|[[= <-]|[]]]]]; reflexivity]|].
    split; [discriminate|]. intros [[=]|[[=]|[[=]|[[=]|[]]]]]; congruence. }
  split.
  - intros e. unfold reference_lines. rewrite in_flat_map. split.
    + intros (d & Hd & He). apply filter_In in Hd as [Hd Fd]. destruct (reference_number (d_pinhole d)) as [n|] eqn:En; [|destruct He]. destruct He as [<-|[]]. exists d, n. split; [exact Hd|]. split; [|split; [now apply NUM|reflexivity]]. unfold is_fiducial in Fd. now rewrite Bool.orb_true_iff, !String.eqb_eq in Fd.
    + intros (d & n & Hd & Fd & Hn & ->). exists d. split; [apply filter_In; split; [exact Hd|]; unfold is_fiducial; now rewrite Bool.orb_true_iff, !String.eqb_eq|]. apply NUM in Hn. rewrite Hn. now left.
  - unfold reference_lines. set (F := fun d : metro_dev => match reference_number (d_pinhole d) with Some n => _ | None => [] end). induction metrology as [|d l IH]; [reflexivity|]. cbn [filter]. unfold is_fiducial at 1. destruct ((d_type d =? "FIF") || (d_type d =? "GIF")); cbn [andb]; [|exact IH]. change (flat_map F (d :: filter is_fiducial l)) with (F d ++ flat_map F (filter is_fiducial l)). rewrite app_length. etransitivity; [apply f_equal2; [reflexivity|exact IH]|]. unfold F, reference_number.
    destruct (Z.eqb_spec (d_pinhole d) 1) as [-> |]; [reflexivity|]. destruct (Z.eqb_spec (d_pinhole d) 2) as [-> |]; [reflexivity|]. destruct (Z.eqb_spec (d_pinhole d) 3) as [-> |]; [reflexivity|]. destruct (Z.eqb_spec (d_pinhole d) 4) as [-> |]; [reflexivity|].
    assert (((1 <=? d_pinhole d) && (d_pinhole d <=? 4))%Z = false) as ->; [|reflexivity]. apply Bool.andb_false_iff. destruct (Z.leb_spec 1 (d_pinhole d)); [right; apply Z.leb_gt; lia|now left].
Qed.
Print Assumptions C78_references.
(** But the references and device centers go through the default transform whatever transform is given. *)
Theorem C78_transform_refuted : exists metrology default given t t' r c, spotmatch_inputs metrology default (Some given) None = Ok (t, r, c) /\ spotmatch_inputs metrology default None None = Ok (t', r, c) /\
  t <> t' /\ r = [(1%Z, default (3, 0), 515%Z)] /\ default (3, 0) <> given (3, 0).
Proof.
  exists [{| d_location := 1; d_type := "FIF"; d_loc := 1; d_id := "P1"; d_petal_loc := 0; d_petal_id := 0; d_bus := ""; d_pinhole := 1; d_x := 3; d_y := 0 |}], (fun p => p), (fun p => (fst p + 1, snd p)).
  assert (C : fiducial_centers [{| d_location := 1; d_type := "FIF"; d_loc := 1; d_id := "P1"; d_petal_loc := 0; d_petal_id := 0; d_bus := ""; d_pinhole := 1; d_x := 3; d_y := 0 |}] = Ok [(1%Z, (3, 0))]).
  { unfold fiducial_centers. cbn. unfold Rsum. cbn. repeat f_equal; field. }
  unfold spotmatch_inputs, device_centers_lines, targets_lines. rewrite C. cbn. do 4 eexists. split; [reflexivity|]. split; [reflexivity|]. split; [intros E; injection E; intros; lra|]. split; [reflexivity|]. intros E. injection E. intros. lra.
Qed.
Print Assumptions C78_transform_refuted.
Example C78_example : compute_pixel_scale (fun p => (0.073 * fst p, - 0.073 * snd p)) = 0.073.
Proof. rewrite (C78_scale _ 0.073 0 0 (-0.073) 0 0) by (intros; cbn [fst snd]; f_equal; lra). replace (0.073 * -0.073 - 0 * 0) with (- (0.073 * 0.073)) by lra. rewrite Rabs_Ropp, Rabs_pos_eq by lra. apply sqrt_square. lra. Qed.
Example C78_inputs_example :
  let pos := {| d_location := 7; d_type := "POS"; d_loc := 7; d_id := "M1"; d_petal_loc := 0; d_petal_id := 0; d_bus := "can10"; d_pinhole := 0; d_x := 10; d_y := 0 |} in
  let fid k x := {| d_location := 3; d_type := "FIF"; d_loc := 3; d_id := "P1"; d_petal_loc := 0; d_petal_id := 0; d_bus := "can10"; d_pinhole := k; d_x := x; d_y := 0 |} in
  spotmatch_inputs [fid 1%Z 2; pos; fid 2%Z 4] (fun p => p) None None =
    Ok ([(7%Z, (10, 0), 4%Z); (3%Z, (3, 0), 8%Z)], [(3%Z, (2, 0), 515%Z); (3%Z, (4, 0), 1027%Z)], [(7%Z, (10, 0), 4%Z); (3%Z, (3, 0), 8%Z)]).
Proof.
  intros pos fid. assert (C : fiducial_centers [fid 1%Z 2; pos; fid 2%Z 4] = Ok [(3%Z, (3, 0))]).
  { unfold fiducial_centers. cbn. unfold Rsum. cbn. repeat f_equal; field. }
  unfold spotmatch_inputs, device_centers_lines, targets_lines. rewrite C. reflexivity.
Qed.
