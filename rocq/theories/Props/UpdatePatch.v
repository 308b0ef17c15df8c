(** bin/update_focal_plane_metrology_patch: new positions in the metrology patch (C114). *)
From Verif.Model Require Import UpdatePatch.
From Verif.Spec Require Import UpdatePatch.
From Verif.Proofs Require Import Prelude RealNum Stats Circles UpdatePatch.
From Coq Require Import Lra Lia.
Local Open Scope R_scope.
Local Open Scope list_scope.

(** The row after the update: the medians of the sightings, if there are any. *)
Definition updated_row (files : list spot_table) (r r' : patch_row) : Prop :=
  p_petal r' = p_petal r /\ p_device r' = p_device r /\ p_pinhole r' = p_pinhole r /\ p_rest r' = p_rest r /\
  let l := sightings files (p_petal r) (p_device r) (p_pinhole r) in
  (l = [] -> p_xy r' = p_xy r) /\ (l <> [] -> median (map fst l) = Ok (fst (p_xy r')) /\ median (map snd l) = Ok (snd (p_xy r'))).
Theorem C114_update patch files : Forall (fun r => three_one (p_device r) (p_pinhole r)) patch -> Forall digits files ->
  exists out, update_patch patch files = Ok out /\ Forall2 (updated_row files) patch out.
Proof.
  intros P D. set (locs := map ploc patch). set (d := all_positions locs files).
  set (new := fun k => match found_at d k with [] => None | l => match median (map fst l), median (map snd l) with Ok x, Ok y => Some (x, y) | _, _ => None end end).
  set (step := fun r => match new (ploc r) with Some xy => set_xy r xy | None => r end).
  assert (U : forall p k, update_loc d p k = Ok (map (fun r => if (ploc r =? k)%Z then step r else r) p)).
  { intros p k. unfold update_loc. assert (S0 : forall r, ploc r = k -> step r = match new k with Some xy => set_xy r xy | None => r end) by (intros r <-; reflexivity). unfold new in S0. destruct (found_at d k) as [|a l].
    - f_equal. rewrite <- map_id at 1. apply map_ext. intros r. destruct (Z.eqb_spec (ploc r) k) as [E|]; [now rewrite S0|reflexivity].
    - destruct (Circles.median_some (map fst (a :: l)) ltac:(discriminate)) as [x Ex]. destruct (Circles.median_some (map snd (a :: l)) ltac:(discriminate)) as [y Ey]. rewrite Ex, Ey in *. cbn [rbind]. f_equal. apply map_ext. intros r. destruct (Z.eqb_spec (ploc r) k) as [E|]; [now rewrite S0|reflexivity]. }
  assert (PS : forall r, ploc (step r) = ploc r) by (intros r; unfold step; destruct (new (ploc r)); reflexivity).
  assert (SS : forall r, step (step r) = step r) by (intros r; unfold step at 1; rewrite PS; unfold step; destruct (new (ploc r)); reflexivity).
  assert (G : forall ks p, fold_left (fun p k => rbind p (fun p => update_loc d p k)) ks (Ok p) = Ok (map (fun r => if in_dec Z.eq_dec (ploc r) ks then step r else r) p)).
  { induction ks as [|k ks IH]; intros p; cbn [fold_left]; [f_equal; rewrite <- map_id at 1; now apply map_ext|]. cbn [rbind]. rewrite U, IH, map_map. f_equal. apply map_ext. intros r. destruct (Z.eqb_spec (ploc r) k) as [E|N].
    - rewrite PS. destruct (in_dec Z.eq_dec (ploc r) ks), (in_dec Z.eq_dec (ploc r) (k :: ks)) as [|N]; try reflexivity; [apply SS|exfalso; apply N; now right|exfalso; apply N; now left].
    - destruct (in_dec Z.eq_dec (ploc r) ks) as [I|I], (in_dec Z.eq_dec (ploc r) (k :: ks)) as [J|J]; try reflexivity; [exfalso; apply J; now right|]. exfalso. destruct J as [J|J]; [congruence|contradiction]. }
  exists (map step patch). split.
  - unfold update_patch. fold locs. fold d. rewrite G. f_equal. apply map_ext_in. intros r I. destruct (in_dec Z.eq_dec (ploc r) locs) as [|N]; [reflexivity|]. exfalso. apply N. now apply in_map.
  - assert (H : forall r, In r patch -> updated_row files r (step r)).
    { intros r I. rewrite Forall_forall in P. specialize (P r I). assert (C : (0 < count_occ Z.eq_dec locs (ploc r))%nat) by (apply count_occ_In; now apply in_map). pose proof (found_sightings locs files (p_petal r) (p_device r) (p_pinhole r) P D) as F. fold d in F. change (p_petal r * 10000 + p_device r * 10 + p_pinhole r)%Z with (ploc r) in F.
      set (n := count_occ Z.eq_dec locs (ploc r)) in *. set (l := sightings files _ _ _) in *. assert (MT : forall f : R * R -> R, map f (times n l) = times n (map f l)) by (intros f; unfold times; clear; induction l as [|a l IH]; [reflexivity|]; cbn; rewrite map_app, IH; f_equal; clear; generalize n as m; intros m; induction m as [|m IHm]; [reflexivity|]; cbn; now rewrite IHm).
      assert (NE : l = [] <-> times n l = []) by (split; [intros ->; reflexivity|]; intros E; destruct l as [|a l']; [reflexivity|]; apply (f_equal (@length _)) in E; rewrite times_length in E; cbn in E; lia).
      unfold updated_row. fold l. assert (S0 : step r = match new (ploc r) with Some xy => set_xy r xy | None => r end) by reflexivity. unfold new in S0. rewrite F in S0.
      destruct (times n l) as [|a q] eqn:T.
      - rewrite S0. repeat (split; [reflexivity|]). intros N. destruct N. now apply NE.
      - assert (N : l <> []) by (intros E; apply NE in E; discriminate). destruct (Circles.median_some (map fst l)) as [x Ex]; [now destruct l|]. destruct (Circles.median_some (map snd l)) as [y Ey]; [now destruct l|]. cbv zeta in S0. rewrite !MT, !median_times, Ex, Ey in S0 by exact C. rewrite S0. repeat (split; [reflexivity|]). cbv zeta. split; [contradiction|]. intros _. auto. }
    clearbody step. clear - H. induction patch as [|r patch IH]; constructor; [apply H; now left|]. apply IH. intros x I. apply H. now right.
Qed.
Print Assumptions C114_update.
(** Updating again with the same files changes nothing. *)
Theorem C114_again patch files out : Forall (fun r => three_one (p_device r) (p_pinhole r)) patch -> Forall digits files -> update_patch patch files = Ok out -> update_patch out files = Ok out.
Proof.
  intros P D E. destruct (C114_update patch files P D) as (o & E' & F). rewrite E in E'. injection E' as <-.
  assert (P' : Forall (fun r => three_one (p_device r) (p_pinhole r)) out) by (clear - P F; induction F as [|r r' p o (A & B & C & _) F IH]; constructor; inversion P; subst; [now rewrite B, C|now apply IH]).
  destruct (C114_update out files P' D) as (o & -> & F'). f_equal. clear - F F'. revert o F'. induction F as [|r r' p out H F IH]; intros o F'; inversion F' as [|? r'' ? o' H' F'' E1 E2]; subst; [reflexivity|]. f_equal; [|now apply IH].
  unfold updated_row in *. cbv zeta in *. destruct H as (A & B & C & E & H0 & H1). destruct H' as (A' & B' & C' & E' & H0' & H1'). rewrite A, B, C in *. destruct r' as [a b c [x y] z], r'' as [a' b' c' [x' y'] z']. cbn in *. subst. f_equal.
  destruct (sightings files (p_petal r) (p_device r) (p_pinhole r)) as [|s l]; [now apply H0'|]. destruct (H1 ltac:(discriminate)) as [X Y]. destruct (H1' ltac:(discriminate)) as [X' Y']. congruence.
Qed.
Print Assumptions C114_again.
(** A patch with different devices is not changed by its own positions, in either format of the table. *)
Theorem C114_own patch : Forall (fun r => three_one (p_device r) (p_pinhole r)) patch -> NoDup (map (fun r => (p_petal r, p_device r, p_pinhole r)) patch) ->
  update_patch patch [WithPetal (map (fun r => (p_petal r, p_device r, p_pinhole r, p_xy r)) patch)] = Ok patch /\
  update_patch patch [WithLocation (map (fun r => ((1000 * p_petal r + p_device r)%Z, p_pinhole r, p_xy r)) patch)] = Ok patch.
Proof.
  intros P N.
  assert (K : forall t, digits t -> (forall r, In r patch -> spots_of t (p_petal r) (p_device r) (p_pinhole r) = [p_xy r]) -> update_patch patch [t] = Ok patch).
  { intros t Dt H. destruct (C114_update patch [t] P ltac:(now repeat constructor)) as (out & -> & F). f_equal. clear - F H. induction F as [|r r' p o U F IH]; [reflexivity|]. f_equal; [|apply IH; intros x I; apply H; now right]. specialize (H r (or_introl eq_refl)). unfold updated_row, sightings in U. cbn [flat_map] in U. rewrite H in U. destruct U as (A & B & C & E & _ & M). destruct (M ltac:(discriminate)) as [X Y].
    destruct r as [a b c [x y] z], r' as [a' b' c' [x' y'] z']. cbn in *. injection X as X. injection Y as Y. subst. reflexivity. }
  assert (S1 : forall f : patch_row -> bool, forall r, In r patch -> (forall s, In s patch -> f s = true <-> (p_petal s, p_device s, p_pinhole s) = (p_petal r, p_device r, p_pinhole r)) -> filter f patch = [r]).
  { intros f r I. clear K P. induction patch as [|a l IH]; [destruct I|]. cbn [map] in N. inversion N as [|? ? Na Nl]; subst. intros H. cbn [filter]. destruct I as [->|I].
    - assert (f r = true) as -> by (apply H; [now left|reflexivity]). f_equal. assert (Z0 : forall s, In s l -> f s = false); [|clear - Z0; induction l as [|b l IH]; [reflexivity|]; cbn [filter]; rewrite (Z0 b (or_introl eq_refl)); apply IH; intros s I; apply Z0; now right].
      intros s I. apply Bool.not_true_iff_false. intros E. apply (H s (or_intror I)) in E. apply Na. apply in_map_iff. exists s. auto.
    - assert (f a = false) as ->. { apply Bool.not_true_iff_false. intros E. apply (H a (or_introl eq_refl)) in E. apply Na. apply in_map_iff. exists r. auto. } apply IH; [exact Nl|exact I|]. intros s J. apply H. now right. }
  assert (FM : forall (B : Type) (g : patch_row -> B) (f : B -> bool) l, filter f (map g l) = map g (filter (fun r => f (g r)) l)) by (intros B g f l; induction l as [|a l IH]; [reflexivity|]; cbn; destruct (f (g a)); cbn; now rewrite IH).
  rewrite Forall_forall in P. split; apply K.
  - cbn. apply Forall_forall. intros x I. apply in_map_iff in I as (r & <- & I). now apply P.
  - intros r I. cbn [spots_of]. rewrite FM. erewrite S1; [reflexivity|exact I|]. intros s J. cbn. rewrite !Bool.andb_true_iff, !Z.eqb_eq. split; [intros ((-> & ->) & ->); reflexivity|]. intros [= -> -> ->]. auto.
  - cbn. apply Forall_forall. intros x I. apply in_map_iff in I as (r & <- & I). destruct (P r I) as [_ H]. exact H.
  - intros r I. cbn [spots_of]. rewrite FM. erewrite S1; [reflexivity|exact I|]. intros s J. cbv beta iota. rewrite !Bool.andb_true_iff, !Z.eqb_eq. destruct (P r I) as [Hr _], (P s J) as [Hs _]. split; [intros (E & ->); assert (p_petal s = p_petal r) as -> by lia; assert (p_device s = p_device r) as -> by lia; reflexivity|]. intros [= -> -> ->]. auto.
Qed.
Print Assumptions C114_own.
Definition pinhole_row (x y : R) : patch_row := {| p_petal := 4; p_device := 321; p_pinhole := 5; p_xy := (x, y); p_rest := "FIF" |}.
Definition three_tables : list spot_table := [WithLocation [(4321%Z, 5%Z, (0, 1))]; WithPetal [(4%Z, 321%Z, 5%Z, (1, 0))]; WithLocation [(4321%Z, 5%Z, (3, 3)); (4321%Z, 4%Z, (7, 7))]].
Example C114_example : update_patch [pinhole_row 9 9] three_tables = Ok [pinhole_row 1 1].
Proof.
  destruct (C114_update [pinhole_row 9 9] three_tables) as (out & -> & F); [repeat constructor; cbn; lia|repeat constructor; cbn; lia|]. f_equal. inversion F as [|? r' ? o U F' E1 E2]; subst. inversion F'; subst. f_equal. destruct U as (A & B & C & E & _ & M).
  change (sightings three_tables (p_petal (pinhole_row 9 9)) (p_device (pinhole_row 9 9)) (p_pinhole (pinhole_row 9 9))) with [(0, 1); (1, 0); (3, 3)] in M. destruct (M ltac:(discriminate)) as [X Y]. cbn [map fst snd] in X, Y.
  assert (M1 : median [0; 1; 3] = Ok 1). { unfold median, sort_R. cbn [fold_right insert_R]. assert (Rleb 1 3 = true) as -> by (apply Rleb_true; lra). cbn [insert_R]. assert (Rleb 0 1 = true) as -> by (apply Rleb_true; lra). reflexivity. }
  assert (M2 : median [1; 0; 3] = Ok 1). { unfold median, sort_R. cbn [fold_right insert_R]. assert (Rleb 0 3 = true) as -> by (apply Rleb_true; lra). cbn [insert_R]. assert (Rleb 1 0 = false) as -> by (apply Rleb_false; lra). assert (Rleb 1 3 = true) as -> by (apply Rleb_true; lra). reflexivity. }
  rewrite M1 in X. rewrite M2 in Y. injection X as X. injection Y as Y. destruct r' as [a b c [x y] z]. cbn in *. subst. reflexivity.
Qed.
(** The new position need not be one of the measured ones. *)
Theorem C114_measured_refuted : exists patch files r', update_patch patch files = Ok [r'] /\ sightings files 4 321 5 <> [] /\ ~ In (p_xy r') (sightings files 4 321 5).
Proof.
  exists [pinhole_row 9 9], three_tables, (pinhole_row 1 1). split; [exact C114_example|]. change (sightings three_tables 4 321 5) with [(0, 1); (1, 0); (3, 3)]. split; [discriminate|]. cbn [In pinhole_row p_xy]. intros [H|[H|[H|[]]]]; injection H; intros; lra.
Qed.
Print Assumptions C114_measured_refuted.
