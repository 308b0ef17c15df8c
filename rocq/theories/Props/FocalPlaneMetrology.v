(** C129: the table of the focal plane metrology. *)
From Coq Require Import Lra Lia.
From Verif.Model Require Import FocalPlaneMetrology.
From Verif.Spec Require Import FocalPlaneMetrology.
From Verif.Proofs Require Import Prelude RealNum Numpy FocalPlaneMetrology.
From Verif.Props Require Import Ptl2fp.
Local Open Scope R_scope.
Local Open Scope list_scope.

(** The output is the metrology of the petals 0 to 9 off the axis in the focal plane, patched, with the rows of the patch of guide cameras at the end and x and y of some corners replaced, each
    row with the numbers of its device *)
Theorem C129_output parse_int d nr t patch gfa_patch cheats devices out : write_metrology parse_int d nr t patch gfa_patch cheats devices = Ok out ->
  exists used spots kept rows moved,
    sublist (fun u => (u_petal u < 10)%Z /\ off_axis u) t used /\ Forall2 (from_petal parse_int d) used spots /\
    sublist (fun s => ~ replaced gfa_patch s) (apply_patch nr patch spots) kept /\ Forall2 (added d) gfa_patch rows /\
    (forall c, In c cheats -> exists a s b, kept ++ rows = a ++ s :: b /\ corner_of c s /\ Forall (fun s => ~ corner_of c s) a /\ Forall (fun s => ~ corner_of c s) b) /\
    Forall2 (fun s m => cheated s cheats m) (kept ++ rows) moved /\ Forall2 (with_ids devices) moved out.
Proof.
  unfold write_metrology. destruct (petal_spots parse_int d t) as [spots|] eqn:E1; [|discriminate]. cbn [rbind]. destruct (apply_gfa_patch d gfa_patch _) as [sp|] eqn:E2; [|discriminate]. cbn [rbind]. destruct (apply_cheats cheats sp) as [moved|] eqn:E3; [|discriminate]. cbn [rbind]. intros E4.
  destruct (base_spec _ _ _ _ E1) as (used & U1 & U2). destruct (gfa_spec _ _ _ _ E2) as (kept & rows & -> & K1 & K2). exists used, spots, kept, rows, moved. repeat (split; [assumption|]). split; [|split; [|now apply add_ids_spec]].
  - intros c I. apply one_hit. exact (cheats_one _ _ _ E3 c I).
  - rewrite (cheats_ok cheats _ (cheats_one _ _ _ E3)) in E3. injection E3 as <-. clear. induction (kept ++ rows) as [|s l IH]; [constructor|]. cbn [map]. constructor; [apply cheated_spec|exact IH].
Qed.
Print Assumptions C129_output.
(** The rows of a location and pinhole: those of the table if the patch has none; else all are the last of the patch, or, without replacement, stay; if there was none one is added, the last of
    the patch or, without replacement, the first *)
Theorem C129_patch nr patch spots loc pin :
  filter (at_place loc pin) (apply_patch nr patch spots) =
  match filter (at_place loc pin) spots, filter (at_place loc pin) patch with
  | [], [] => []
  | [], p :: r => [if nr then p else last (p :: r) p]
  | ks, [] => ks
  | ks, p :: r => if nr then ks else map (fun _ => last (p :: r) p) ks
  end.
Proof. rewrite patch_key, fold_step. destruct (filter (at_place loc pin) spots), (filter (at_place loc pin) patch); reflexivity. Qed.
Print Assumptions C129_patch.
(** Rows without a location are never replaced, those of the patch are always added; all rows keep their place, new ones are at the end *)
Theorem C129_patch_order nr patch spots :
  filter unplaced (apply_patch nr patch spots) = filter unplaced spots ++ filter unplaced patch /\
  exists kept tail, apply_patch nr patch spots = kept ++ tail /\ length kept = length spots /\
    forall i s, nth_error spots i = Some s -> exists k, nth_error kept i = Some k /\ s_location k = s_location s /\ (s_location s <> None -> s_pinhole k = s_pinhole s) /\ (s_location s = None \/ nr = true -> k = s) /\ (k = s \/ In k patch).
Proof.
  split; [apply patch_unplaced|]. destruct (patch_prefix nr patch spots) as (tail & E). eexists _, tail. split; [exact E|]. split; [apply map_length|]. intros i s H. eexists. split; [rewrite nth_error_map, H; reflexivity|].
  destruct nr; [repeat split; auto|]. assert (X : forall l : list spot, last l s = s \/ In (last l s) l).
  { induction l as [|a l IH]; [now left|]. destruct l as [|b l]; [right; now left|]. destruct IH as [IH|IH]; [left; exact IH|right; right; exact IH]. }
  destruct (X (filter (fun p => same_place p s) patch)) as [Q|Q].
  - rewrite Q. repeat split; auto.
  - set (k := last _ s) in *. clearbody k. apply filter_In in Q as [I Q]. unfold same_place in Q. destruct (s_location s) as [ls|] eqn:Ls; [|discriminate]. destruct (s_location k) as [lk|]; [|discriminate]. apply andb_prop in Q as [Q1 Q2]. apply Z.eqb_eq in Q1, Q2. split; [congruence|]. split; [congruence|]. split; [intros [?|?]; discriminate|now right].
Qed.
Print Assumptions C129_patch_order.
(** The last patch: written iff each row has exactly one corner; no corner is an IndexError, several a ValueError *)
Theorem C129_cheats cheats spots :
  ((forall c, In c cheats -> exists a s b, spots = a ++ s :: b /\ corner_of c s /\ Forall (fun s => ~ corner_of c s) a /\ Forall (fun s => ~ corner_of c s) b) <-> exists out, apply_cheats cheats spots = Ok out) /\
  (forall e, apply_cheats cheats spots = Err e -> e = IndexError /\ (exists c, In c cheats /\ Forall (fun s => ~ corner_of c s) spots) \/
    e = ValueError /\ exists c a s b s' b', In c cheats /\ spots = a ++ s :: b ++ s' :: b' /\ corner_of c s /\ corner_of c s').
Proof.
  split; [split|].
  - intros H. eexists. apply cheats_ok. intros c I. apply one_hit. exact (H c I).
  - intros (out & E) c I. apply one_hit. exact (cheats_one _ _ _ E c I).
  - intros e. assert (G : forall r sp, (forall c, length (filter (same_corner c) sp) = length (filter (same_corner c) spots)) -> (forall c, In c r -> In c cheats) -> apply_cheats r sp = Err e ->
      exists c, In c cheats /\ (e = IndexError /\ length (filter (same_corner c) spots) = 0%nat \/ e = ValueError /\ (1 < length (filter (same_corner c) spots))%nat)).
    { induction r as [|c r IH]; intros sp L I E; [discriminate|]. cbn [apply_cheats] in E. rewrite cheat_one_spec in E. pose proof (L c) as Lc. destruct (filter (same_corner c) sp) as [|a [|b l]]; cbn [rbind length] in *.
      - exists c. split; [apply I; now left|]. left. split; [now injection E|auto].
      - apply (IH _) in E; [exact E| |intros c' J; apply I; now right]. intros c'. rewrite hits_move. apply L.
      - exists c. split; [apply I; now left|]. right. split; [now injection E|lia]. }
    intros E. destruct (G cheats spots (fun _ => eq_refl) (fun _ I => I) E) as (c & I & [[-> L]|[-> L]]).
    + left. split; [reflexivity|]. exists c. split; [exact I|]. apply no_hit. destruct (filter _ spots); [reflexivity|discriminate].
    + right. split; [reflexivity|]. exists c.
      assert (T : forall n l, (n < length (filter (same_corner c) l))%nat -> exists a s b, l = a ++ s :: b /\ corner_of c s /\ (n <= length (filter (same_corner c) b))%nat).
      { intros n. induction l as [|s l IHl]; cbn [filter length]; [lia|]. destruct (same_corner c s) eqn:F; cbn [length]; intros H.
        - exists [], s, l. split; [reflexivity|]. split; [now apply same_corner_spec|lia].
        - destruct (IHl H) as (a & u & b & -> & K & N). exists (s :: a), u, b. now split. }
      destruct (T 1%nat _ L) as (a & s & b & Es & K & N). destruct (T 0%nat b ltac:(lia)) as (a' & s' & b' & Eb & K' & _). exists a, s, a', s', b'. rewrite Es, Eb. split; [exact I|]. split; [reflexivity|]. split; assumption.
Qed.
Print Assumptions C129_cheats.
(** It is written if the texts are read, the petals are aligned, each corner of the last patch is once in the patch of cameras, which replaces the cameras of its petal, and the devices are known *)
Theorem C129_written parse_int d nr t patch gfa_patch cheats devices :
  (forall u, In u t -> (u_petal u < 10)%Z -> (exists n, pinhole_text parse_int (u_pinhole u) n) /\ (off_axis u -> dict_get Z.eqb d (u_petal u) <> None)) ->
  (forall g, In (g, true) gfa_patch -> dict_get Z.eqb d (s_petal g) <> None) ->
  (forall c, In c cheats -> s_type c = "GFA"%string /\ (exists g, In (g, true) gfa_patch /\ s_petal g = s_petal c) /\
    exists a g b, map fst gfa_patch = a ++ g :: b /\ corner_of c g /\ Forall (fun s => ~ corner_of c s) a /\ Forall (fun s => ~ corner_of c s) b) ->
  (forall u, In u t -> (u_petal u < 10)%Z -> off_axis u -> (exists k, In k devices /\ d_petal k = u_petal u) /\
    (u_type u = "POS"%string \/ u_type u = "FIF"%string \/ u_type u = "GIF"%string -> exists k, In k devices /\ d_petal k = u_petal u /\ u_device u = Some (d_loc k))) ->
  (forall s, In s patch \/ In s (map fst gfa_patch) -> (exists k, In k devices /\ d_petal k = s_petal s) /\
    (s_type s = "POS"%string \/ s_type s = "FIF"%string \/ s_type s = "GIF"%string -> exists k, In k devices /\ s_location s = Some (d_petal k * 1000 + d_loc k)%Z)) ->
  exists out, write_metrology parse_int d nr t patch gfa_patch cheats devices = Ok out.
Proof.
  intros HT HG HC HU HS.
  assert (T0 : forall X Y (f : X -> res Y) l, (forall x, In x l -> exists y, f x = Ok y) -> exists out, rmapM f l = Ok out).
  { clear. intros X Y f. induction l as [|x l IH]; intros H; [now exists []|]. cbn [rmapM]. destruct (H x (or_introl eq_refl)) as (y & ->). destruct IH as (out & ->); [intros z I; apply H; now right|]. cbn [rbind rmap]. eexists. reflexivity. }
  assert (B : exists spots, petal_spots parse_int d t = Ok spots).
  { unfold petal_spots. set (t1 := filter _ t).
    destruct (T0 _ _ (fun u => rmap (fun n => (u, n)) (pinhole_number parse_int (u_pinhole u))) t1) as (t2 & E).
    { intros u I. apply filter_In in I as [I L]. apply Z.ltb_lt in L. destruct (HT u I L) as [(n & P) _]. unfold pinhole_number. destruct P as [(c & r & -> & ->)|(N & M & [P|[P ->]])].
      - cbn. eexists. reflexivity.
      - destruct (u_pinhole u) as [|c r] eqn:W; [contradiction|]. destruct (Ascii.eqb_spec c "M") as [->|]; [exfalso; now apply (M r)|]. rewrite P. eexists. reflexivity.
      - destruct (u_pinhole u) as [|c r] eqn:W; [contradiction|]. destruct (Ascii.eqb_spec c "M") as [->|]; [exfalso; now apply (M r)|]. rewrite P. eexists. reflexivity. }
    rewrite E. cbn [rbind]. set (t3 := filter _ t2).
    destruct (C24_each_row_own_petal d (map (fun '((u, _) : umt * Z) => u_petal u) t3) (map (fun '((u, _) : umt * Z) => u_ptl u) t3)) as (fp & F & _); [now rewrite !map_length| |rewrite F; cbn [rbind]; eexists; reflexivity].
    intros loc I. apply in_map_iff in I as ([u n] & <- & I). apply filter_In in I as [I O]. apply radius_spec in O.
    assert (Iu : In u t1).
    { apply rmapM_Ok_Forall2 in E. clear - E I. induction E as [|v p l m Q F IH]; [destruct I|]. destruct I as [->|I]; [left; destruct (pinhole_number _ _); [cbn [rmap] in Q; congruence|discriminate]|right; auto]. }
    apply filter_In in Iu as [Iu L]. apply Z.ltb_lt in L. destruct (HT u Iu L) as [_ D]. specialize (D O). destruct (dict_get Z.eqb d (u_petal u)) as [a|]; [now exists a|contradiction]. }
  destruct B as (spots & EB). unfold write_metrology. rewrite EB. cbn [rbind].
  assert (G : exists sp, apply_gfa_patch d gfa_patch (apply_patch nr patch spots) = Ok sp).
  { unfold apply_gfa_patch. destruct (T0 _ _ (tweak d) gfa_patch) as (rows & ->); [|cbn [rmap]; eexists; reflexivity]. intros [g b] I. unfold tweak. destruct b; [|eexists; reflexivity]. destruct (s_fp g) as [[x y] z]. unfold fp2ptl, dict_getE.
    pose proof (HG g I) as D. destruct (dict_get Z.eqb d (s_petal g)) as [al|]; [|contradiction]. cbn [rbind nominal_z option_map]. destruct (mdot _ _) as [[xp yp] zp]. eexists. reflexivity. }
  destruct G as (sp & EG). rewrite EG. cbn [rbind]. destruct (base_spec _ _ _ _ EB) as (used & U1 & U2). destruct (gfa_spec _ _ _ _ EG) as (kept & rows & -> & K1 & K2).
  assert (SB : forall X (P : X -> Prop) l a, sublist P l a -> forall x, In x a -> In x l /\ P x).
  { clear. intros X P l a H. induction H as [|x l a Hx H IH|x l a Hx H IH]; intros y I; [destruct I| |]; [destruct I as [<-|I]; [split; [now left|exact Hx]|]|]; destruct (IH y I); split; try (now right); assumption. }
  assert (AD : forall g s, added d g s -> s_type s = s_type (fst g) /\ s_petal s = s_petal (fst g) /\ s_pinhole s = s_pinhole (fst g) /\ s_location s = s_location (fst g)).
  { intros g s A. unfold added in A. destruct (snd g); [destruct A as (xp & yp & zp & _ & ->)|subst s]; repeat split. }
  assert (C : exists m, apply_cheats cheats (kept ++ rows) = Ok m).
  { apply C129_cheats. intros c Ic. destruct (HC c Ic) as (Tc & (g0 & I0 & P0) & a & g & b & Eg & Kg & Fa & Fb). apply one_hit. rewrite filter_app.
    assert (filter (same_corner c) kept = []) as ->.
    { apply no_hit. apply Forall_forall. intros s Is Ks. destruct (SB _ _ _ _ K1 s Is) as [_ N]. apply N. destruct Ks as (K3 & _ & K4). split; [congruence|]. exists g0. split; [exact I0|congruence]. }
    cbn [app]. assert (L : length (filter (same_corner c) rows) = length (filter (same_corner c) (map fst gfa_patch))).
    { clear - K2 AD. induction K2 as [|g s l m Q F IH]; [reflexivity|]. cbn [map filter]. destruct (AD _ _ Q) as (A1 & A2 & A3 & _). assert (same_corner c s = same_corner c (fst g)) as -> by (unfold same_corner; now rewrite A1, A2, A3). destruct (same_corner c (fst g)); cbn [length]; now rewrite IH. }
    rewrite L. apply one_hit. now exists a, g, b. }
  destruct C as (m & EC). rewrite EC. cbn [rbind].
  set (good := fun s : spot => (exists k, In k devices /\ d_petal k = s_petal s) /\ (numbered s = true -> exists k, In k devices /\ s_location s = Some (d_petal k * 1000 + d_loc k)%Z)).
  assert (NB : forall s, numbered s = true -> s_type s = "POS"%string \/ s_type s = "FIF"%string \/ s_type s = "GIF"%string).
  { intros s H. unfold numbered in H. rewrite !Bool.orb_true_iff, !String.eqb_eq in H. tauto. }
  assert (GS : forall s, In s spots -> good s).
  { intros s Is. assert (X : exists u, In u used /\ from_petal parse_int d u s).
    { clear - U2 Is. induction U2 as [|u v l n Q F IH]; [destruct Is|]. destruct Is as [->|Is]; [exists u; split; [now left|exact Q]|]. destruct (IH Is) as (w & Iw & Q'). exists w. split; [now right|exact Q']. }
    destruct X as (u & Iu & F). destruct (SB _ _ _ _ U1 u Iu) as [It _]. destruct F as (L & O & F1 & F2 & F3 & _ & _ & F6 & _). destruct (HU u It L O) as [H1 H2]. split; [now rewrite F1|]. intros N. apply NB in N. rewrite F3 in N. destruct (H2 N) as (k & Ik & Dk & Lk). exists k. split; [exact Ik|]. rewrite F6, Lk, Dk. reflexivity. }
  assert (GP : forall s, In s patch \/ In s (map fst gfa_patch) -> good s) by (intros s I; destruct (HS s I) as [H1 H2]; split; [exact H1|]; intros N; exact (H2 (NB s N))).
  assert (GA : forall s, In s (apply_patch nr patch spots) -> good s).
  { intros s I. assert (X : forall p sp, In s (apply_patch nr p sp) -> In s p \/ In s sp).
    { clear. unfold apply_patch. induction p as [|q p IH]; intros sp I; [now right|]. cbn [fold_left] in I. destruct (IH _ I) as [J|J]; [left; now right|]. unfold patch_one in J. destruct (existsb _ sp).
      - destruct nr; [now right|]. apply in_map_iff in J as (v & E & J). destruct (same_place q v); [left; left; congruence|right; congruence].
      - apply in_app_or in J as [J|[->|[]]]; [now right|left; now left]. }
    destruct (X _ _ I) as [J|J]; [apply GP; now left|now apply GS]. }
  assert (GK : forall s, In s (kept ++ rows) -> good s).
  { intros s I. apply in_app_or in I as [I|I]; [apply GA; now apply (SB _ _ _ _ K1)|].
    assert (X : exists g, In g gfa_patch /\ added d g s).
    { clear - K2 I. induction K2 as [|g v l n Q F IH]; [destruct I|]. destruct I as [->|I]; [exists g; split; [now left|exact Q]|]. destruct (IH I) as (w & Iw & Q'). exists w. split; [now right|exact Q']. }
    destruct X as (g & Ig & A). destruct (AD _ _ A) as (A1 & A2 & A3 & A4). destruct (GP (fst g)) as [H1 H2]; [right; now apply in_map|]. unfold good, numbered. rewrite A1, A2, A4. split; [exact H1|exact H2]. }
  assert (GM : forall s, In s m -> good s).
  { rewrite (cheats_ok cheats _ (cheats_one _ _ _ EC)) in EC. injection EC as <-. intros s I. apply in_map_iff in I as (v & <- & I). destruct (move_same v cheats) as (x & y & ->). exact (GK v I). }
  assert (FD : forall X (f : X -> bool) l x, In x l -> f x = true -> exists y, find f l = Some y).
  { clear. intros X f l x I H. destruct (find f l) as [y|] eqn:E; [now exists y|]. apply (find_none f l E) in I. congruence. }
  unfold add_ids. destruct (T0 _ _ (ids_of devices) m) as (ids & ->).
  { intros s I. destruct (GM s I) as [_ H]. unfold ids_of. destruct (numbered s); [|eexists; reflexivity]. destruct (H eq_refl) as (k & Ik & ->). unfold device_at.
    destruct (FD _ (fun k' => (d_petal k' * 1000 + d_loc k' =? d_petal k * 1000 + d_loc k)%Z) (rev devices) k) as (y & ->); [now apply in_rev in Ik|apply Z.eqb_refl|]. eexists. reflexivity. }
  cbn [rbind]. destruct (T0 _ _ (petal_id_of devices) m) as (pids & ->); [|cbn [rbind]; eexists; reflexivity].
  intros s I. destruct (GM s I) as [(k & Ik & Pk) _]. unfold petal_id_of. destruct (FD _ (fun k => (d_petal k =? s_petal s)%Z) devices k Ik) as (y & ->); [now apply Z.eqb_eq|]. eexists. reflexivity.
Qed.
Print Assumptions C129_written.
(** A row of the petal metrology that no patch concerns is in the output, in the focal plane as its petal is *)
Theorem C129_untouched parse_int d nr t patch gfa_patch cheats devices out u k : write_metrology parse_int d nr t patch gfa_patch cheats devices = Ok out ->
  In u t -> (u_petal u < 10)%Z -> off_axis u -> u_device u = Some k -> (0 <= k)%Z ->
  (forall p, In p patch -> s_location p <> Some (u_petal u * 1000 + k)%Z) -> (u_type u = "GFA"%string -> forall g b, In (g, b) gfa_patch -> s_petal g <> u_petal u) ->
  (forall c, In c cheats -> s_type c <> u_type u \/ s_petal c <> u_petal u) ->
  exists o, In o out /\ s_petal (o_spot o) = u_petal u /\ s_device (o_spot o) = Some k /\ s_type (o_spot o) = u_type u /\ pinhole_text parse_int (u_pinhole u) (s_pinhole (o_spot o)) /\
    s_location (o_spot o) = Some (u_petal u * 1000 + k)%Z /\ s_ptl (o_spot o) = u_ptl u /\ let '(x, y, z) := u_ptl u in ptl2fp d (u_petal u) x y (Some z) = Ok (Some (s_fp (o_spot o))).
Proof.
  intros E I P O D K0 NP NG NC. destruct (C129_output _ _ _ _ _ _ _ _ _ E) as (used & spots & kept & rows & moved & U1 & U2 & K1 & _ & _ & C2 & W).
  assert (Iu : In u used).
  { clear - U1 I P O. induction U1 as [|x l a H S IH|x l a H S IH]; [destruct I| |]; destruct I as [<-|I]; [now left|right; auto|exfalso; now apply H|auto]. }
  assert (L : forall X Y (Q : X -> Y -> Prop) l m, Forall2 Q l m -> forall x, In x l -> exists y, In y m /\ Q x y).
  { clear. intros X Y Q l m F. induction F as [|a b l m H F IH]; intros x J; [destruct J|]. destruct J as [<-|J]; [exists b; split; [now left|exact H]|]. destruct (IH x J) as (y & Iy & Hy). exists y. split; [now right|exact Hy]. }
  destruct (L _ _ _ _ _ U2 u Iu) as (s & Is & F). destruct F as (_ & _ & F1 & F2 & F3 & F4 & F5 & F6 & F7). rewrite D in F6.
  assert (Ip : In s (apply_patch nr patch spots)).
  { assert (J : In s (filter (at_place (u_petal u * 1000 + k) (s_pinhole s)) (apply_patch nr patch spots))); [|now apply filter_In in J]. rewrite C129_patch.
    assert (filter (at_place (u_petal u * 1000 + k) (s_pinhole s)) patch = []) as ->.
    { clear - NP. induction patch as [|p r IH]; [reflexivity|]. cbn [filter]. unfold at_place at 1. destruct (s_location p) as [lp|] eqn:Lp.
      - destruct (Z.eqb_spec lp (u_petal u * 1000 + k)) as [->|N]; [exfalso; now apply (NP p (or_introl eq_refl))|]. cbn [andb]. apply IH. intros q J. apply NP. now right.
      - apply IH. intros q J. apply NP. now right. }
    assert (J : In s (filter (at_place (u_petal u * 1000 + k) (s_pinhole s)) spots)) by (apply filter_In; split; [exact Is|]; unfold at_place; now rewrite F6, !Z.eqb_refl). destruct (filter _ spots); [destruct J|exact J]. }
  assert (Ik : In s kept).
  { assert (R0 : ~ replaced gfa_patch s) by (intros (T & g & J & Pg); apply (NG (eq_trans (eq_sym F3) T) g true J); congruence).
    clear - K1 Ip R0. induction K1 as [|x l a H S IH|x l a H S IH]; [destruct Ip| |]; destruct Ip as [<-|I]; [now left|right; auto|exfalso; now apply H|auto]. }
  destruct (L _ _ _ _ _ C2 s ltac:(apply in_or_app; now left)) as (m & Im & Cm).
  assert (m = s) as ->.
  { destruct Cm as [cheats _|a c b H _]; [reflexivity|]. exfalso. destruct H as (H1 & _ & H3). destruct (NC c ltac:(apply in_or_app; right; now left)); congruence. }
  destruct (L _ _ _ _ _ W s Im) as (o & Io & _ & _ & _ & W1 & W2 & W3 & W4 & W5 & W6). rewrite F2, D in W6. destruct W6 as [W6 _]. destruct (W6 K0) as [W7 W8]. exists o. split; [exact Io|].
  rewrite W1, W2, W3, W4, W5, W7, W8. repeat (split; [assumption || reflexivity|]). exact F7.
Qed.
Print Assumptions C129_untouched.
(** The petal coordinates of a camera from stars go back to its focal plane coordinates on a petal turned about the axis only, up to the height of the petal *)
Theorem C129_camera d g s al : added d (g, true) s -> dict_get Z.eqb d (s_petal g) = Some al -> alpha al = 0 -> beta al = 0 ->
  s_fp s = s_fp g /\ let '(x, y, z) := s_ptl s in ptl2fp d (s_petal s) x y (Some z) = Ok (Some (fst (fst (s_fp s)), snd (fst (s_fp s)), snd (s_fp s) + Tz al)).
Proof.
  unfold added. cbn [fst snd]. intros (xp & yp & zp & E & ->) D A0 B0. split; [reflexivity|]. cbn [with_ptl s_ptl s_petal s_fp]. destruct (s_fp g) as [[X Y] Z0]. cbn [fst snd] in *.
  unfold fp2ptl, dict_getE in E. rewrite D in E. cbn [rbind nominal_z option_map] in E. injection E as <- <- _. unfold ptl2fp, dict_getE. rewrite D. cbn [rbind nominal_z option_map]. f_equal. f_equal.
  unfold rotation, translation, Rxyz, mmul, Rz, Ry, Rx, mdot, transpose, dot3, add3, Ptl2fp.sub3. rewrite A0, B0, cos_0, sin_0. cbn [fst snd].
  set (c := cos (gamma al)). set (s0 := sin (gamma al)). assert (Q : s0 * s0 + c * c = 1) by (unfold s0, c; pose proof (sin2_cos2 (gamma al)) as Q; unfold Rsqr in Q; exact Q).
  f_equal; [f_equal|].
  - transitivity ((s0 * s0 + c * c) * (X - Tx al) + Tx al); [ring|rewrite Q; ring].
  - transitivity ((s0 * s0 + c * c) * (Y - Ty al) + Ty al); [ring|rewrite Q; ring].
  - ring.
Qed.
Print Assumptions C129_camera.

(** A table with one petal that is not turned, a positioner and a camera *)
Definition level : dict Z alignment := [(0%Z, {| alpha := 0; beta := 0; gamma := 0; Tx := 0; Ty := 0; Tz := 0 |})].
Definition digit (s : string) : res Z := if String.eqb s "1" then Ok 1%Z else if String.eqb s "2" then Ok 2%Z else Err ValueError.
Definition positioner : umt := {| u_petal := 0; u_device := Some 7%Z; u_type := "POS"; u_pinhole := "ctr"; u_ptl := (3, 0, 1) |}.
Definition center : umt := {| u_petal := 0; u_device := Some 8%Z; u_type := "POS"; u_pinhole := "ctr"; u_ptl := (1 / 2, 0, 1) |}.
Definition camera : umt := {| u_petal := 0; u_device := None; u_type := "GFA"; u_pinhole := "M2"; u_ptl := (0, 4, 1) |}.
Definition camera_row (n : Z) (x y : R) : spot := {| s_petal := 0; s_device := None; s_type := "GFA"; s_pinhole := n; s_ptl := (0, 0, 0); s_fp := (x, y, 1); s_location := None |}.
Definition devices0 : list device := [{| d_petal := 0; d_loc := 7; d_ids := ("M1"%string, 3%Z, 4%Z); d_petal_id := 4 |}].
Lemma level_ptl2fp x y z : ptl2fp level 0 x y (Some z) = Ok (Some (x, y, z)).
Proof.
  unfold ptl2fp, level. cbn [dict_getE dict_get Z.eqb rbind nominal_z option_map]. f_equal. f_equal. unfold rotation, translation, Rxyz, mmul, Rz, Ry, Rx, mdot, transpose, dot3, add3. cbn [alpha beta gamma Tx Ty Tz fst snd]. rewrite cos_0, sin_0. f_equal; [f_equal|]; ring.
Qed.
Lemma level_fp2ptl x y z : fp2ptl level 0 x y (Some z) = Ok (Some (x, y, z)).
Proof.
  unfold fp2ptl, level. cbn [dict_getE dict_get Z.eqb rbind nominal_z option_map]. f_equal. f_equal. unfold rotation, translation, Rxyz, mmul, Rz, Ry, Rx, mdot, transpose, dot3, Ptl2fp.sub3. cbn [alpha beta gamma Tx Ty Tz fst snd]. rewrite cos_0, sin_0. f_equal; [f_equal|]; ring.
Qed.
Lemma base_level : petal_spots digit level [positioner; center; camera] = Ok
  [{| s_petal := 0; s_device := Some 7%Z; s_type := "POS"; s_pinhole := 0; s_ptl := (3, 0, 1); s_fp := (3, 0, 1); s_location := Some 7%Z |};
   {| s_petal := 0; s_device := None; s_type := "GFA"; s_pinhole := 2; s_ptl := (0, 4, 1); s_fp := (0, 4, 1); s_location := None |}].
Proof.
  assert (B1 : Rltb 1 (radius (3, 0, 1)) = true) by (apply radius_spec; lra). assert (B2 : Rltb 1 (radius (0, 4, 1)) = true) by (apply radius_spec; lra).
  assert (B3 : Rltb 1 (radius (1 / 2, 0, 1)) = false) by (destruct (Rltb 1 (radius (1 / 2, 0, 1))) eqn:E; [apply radius_spec in E; lra|reflexivity]).
  destruct (petal_spots digit level [positioner; center; camera]) as [l|e] eqn:E.
  - destruct (base_spec _ _ _ _ E) as (used & U & F).
    assert (used = [positioner; camera]) as ->.
    { inversion U as [|x l0 a P1 U1|x l0 a P1 U1]; subst; [|exfalso; apply P1; split; [reflexivity|unfold off_axis; cbn; lra]].
      inversion U1 as [|x l0 b P2 U2|x l0 b P2 U2]; subst; [exfalso; destruct P2 as [_ P2]; unfold off_axis in P2; cbn in P2; lra|].
      inversion U2 as [|x l0 c P3 U3|x l0 c P3 U3]; subst; [|exfalso; apply P3; split; [reflexivity|unfold off_axis; cbn; lra]]. inversion U3. reflexivity. }
    inversion F as [|? s1 ? l1 H1 F1]; subst. inversion F1 as [|? s2 ? l2 H2 F2]; subst. inversion F2; subst. f_equal.
    destruct H1 as (_ & _ & A1 & A2 & A3 & A4 & A5 & A6 & A7). destruct H2 as (_ & _ & C1 & C2 & C3 & C4 & C5 & C6 & C7). cbn in A1, A2, A3, A4, A6, C1, C2, C3, C4, C6. cbn [positioner camera u_ptl u_petal] in A7, C7. rewrite level_ptl2fp in A7, C7.
    assert (N1 : s_pinhole s1 = 0%Z) by (destruct A5 as [(c & r & A5 & _)|(_ & _ & [A5|[_ A5]])]; [discriminate|discriminate|exact A5]).
    assert (N2 : s_pinhole s2 = 2%Z) by (destruct C5 as [(c & r & C5 & C5')|(_ & C5 & _)]; [injection C5 as <- <-; now injection C5'|exfalso; now apply (C5 "2"%string)]).
    destruct s1, s2. cbn in *. congruence.
  - exfalso. unfold petal_spots in E. cbn [filter positioner center camera u_petal Z.ltb Z.compare rmapM rbind rmap] in E.
    change (pinhole_number digit (u_pinhole positioner)) with (Ok 0%Z) in E. cbn [pinhole_number positioner center camera u_pinhole u_ptl Ascii.eqb Bool.eqb digit String.eqb rmap rbind rmapM filter] in E.
    rewrite ?B1, ?B2, ?B3 in E. cbn [map u_petal u_ptl] in E.
    destruct (C24_each_row_own_petal level [0; 0]%Z [(3, 0, 1); (0, 4, 1)] eq_refl) as (out & F & _); [intros loc I; eexists; destruct I as [<-|[<-|[]]]; reflexivity|]. unfold positioner, camera in E. cbn [u_petal u_ptl] in E. rewrite F in E. discriminate E.
Qed.
(** The corner from the petal is replaced by the one from stars, which is then moved *)
Example C129_example : exists out, write_metrology digit level false [positioner; center; camera] [] [(camera_row 2 5 6, true)] [camera_row 2 7 8] devices0 = Ok out /\
  out = [{| o_spot := {| s_petal := 0; s_device := Some 7%Z; s_type := "POS"; s_pinhole := 0; s_ptl := (3, 0, 1); s_fp := (3, 0, 1); s_location := Some 7%Z |}; o_ids := ("M1"%string, 3%Z, 4%Z); o_petal_id := 4 |};
         {| o_spot := {| s_petal := 0; s_device := Some (-1)%Z; s_type := "GFA"; s_pinhole := 2; s_ptl := (5, 6, 1); s_fp := (7, 8, 1); s_location := Some (-1)%Z |}; o_ids := ("unknown    "%string, (-1)%Z, (-1)%Z); o_petal_id := 4 |}].
Proof.
  eexists. split; [|reflexivity]. unfold write_metrology. rewrite base_level. cbn [rbind apply_patch fold_left]. unfold apply_gfa_patch. cbn [rmapM]. unfold tweak. change (s_fp (camera_row 2 5 6)) with (5, 6, 1). change (s_petal (camera_row 2 5 6)) with 0%Z. cbn iota zeta beta. rewrite level_fp2ptl. reflexivity.
Qed.
(** The tables of the example meet the conditions of C129_written *)
Example C129_written_example : exists out, write_metrology digit level true [positioner; center; camera] [] [(camera_row 2 5 6, true)] [camera_row 2 7 8] devices0 = Ok out.
Proof.
  assert (K : In {| d_petal := 0; d_loc := 7; d_ids := ("M1"%string, 3%Z, 4%Z); d_petal_id := 4 |} devices0) by now left.
  apply C129_written.
  - intros u [<-|[<-|[<-|[]]]] _; (split; [|intros _; discriminate]).
    + exists 0%Z. right. split; [discriminate|]. split; [discriminate|]. right. now split.
    + exists 0%Z. right. split; [discriminate|]. split; [discriminate|]. right. now split.
    + exists 2%Z. left. now exists "2"%char, EmptyString.
  - intros g [E|[]]. injection E as <-. discriminate.
  - intros c [<-|[]]. split; [reflexivity|]. split; [exists (camera_row 2 5 6); split; [now left|reflexivity]|]. exists [], (camera_row 2 5 6), []. repeat split; constructor.
  - intros u [<-|[<-|[<-|[]]]] _ O.
    + split; [eexists; split; [exact K|reflexivity]|]. intros _. eexists. split; [exact K|]. now split.
    + exfalso. unfold off_axis in O. cbn in O. lra.
    + split; [eexists; split; [exact K|reflexivity]|]. intros [H|[H|H]]; discriminate H.
  - intros s [[]|[<-|[]]]. split; [eexists; split; [exact K|reflexivity]|]. intros [H|[H|H]]; discriminate H.
Qed.
(** Claim: with no other patch, the petal coordinates of each row go to its focal plane coordinates. Refuted: the last patch changes only the latter *)
Theorem C129_consistent_refuted : ~ (forall parse_int d t cheats devices out o, write_metrology parse_int d false t [] [] cheats devices = Ok out -> In o out ->
  let '(x, y, z) := s_ptl (o_spot o) in ptl2fp d (s_petal (o_spot o)) x y (Some z) = Ok (Some (s_fp (o_spot o)))).
Proof.
  intros H. assert (E : exists out, write_metrology digit level false [positioner; center; camera] [] [] [camera_row 2 7 8] devices0 = Ok out /\
  exists o, In o out /\ s_ptl (o_spot o) = (0, 4, 1) /\ s_fp (o_spot o) = (7, 8, 1) /\ s_petal (o_spot o) = 0%Z).
  { eexists. split; [unfold write_metrology; rewrite base_level; reflexivity|]. eexists. split; [right; left; reflexivity|]. repeat split. }
  destruct E as (out & E & o & I & E1 & E2 & E3). specialize (H _ _ _ _ _ _ o E I). rewrite E1, E2, E3, level_ptl2fp in H. injection H as H _. lra.
Qed.
Print Assumptions C129_consistent_refuted.
(** Claim: a corner of a camera is in the table once if it is once in the petal metrology and once in the patch. Refuted: rows with petal coordinates are added to those of the petal *)
Theorem C129_corner_once_refuted : ~ (forall parse_int d t g devices out o o', write_metrology parse_int d false t [] [g] [] devices = Ok out ->
  (forall i j u v, nth_error t i = Some u -> nth_error t j = Some v -> u_type u = "GFA"%string -> u_type v = "GFA"%string -> i = j) ->
  In o out -> In o' out -> corner_of (o_spot o) (o_spot o') -> s_type (o_spot o) = "GFA"%string -> o = o').
Proof.
  intros H. assert (E : exists out, write_metrology digit level false [positioner; center; camera] [] [(camera_row 2 7 8, false)] [] devices0 = Ok out /\
  exists o o', In o out /\ In o' out /\ corner_of (o_spot o) (o_spot o') /\ s_type (o_spot o) = "GFA"%string /\ s_fp (o_spot o) = (0, 4, 1) /\ s_fp (o_spot o') = (7, 8, 1)).
  { eexists. split; [unfold write_metrology; rewrite base_level; reflexivity|]. eexists _, _. split; [right; left; reflexivity|]. split; [right; right; left; reflexivity|]. repeat split. }
  destruct E as (out & E & o & o' & I & I' & C & T & F & F'). assert (X : o = o').
  { apply (H _ _ _ _ _ _ o o' E); try assumption. intros i j u v. destruct i as [|[|[|i]]], j as [|[|[|j]]]; cbn; intros A B TA TB; try reflexivity; try (injection A as <-; discriminate TA); try (injection B as <-; discriminate TB); try (destruct i; discriminate A); destruct j; discriminate B. }
  subst o'. rewrite F in F'. injection F' as F' _. lra.
Qed.
Print Assumptions C129_corner_once_refuted.
(** Claim: different texts of pinholes after M give different numbers. Refuted: only the first digit is read *)
Theorem C129_pinhole_text_refuted : ~ (forall parse_int a b n, pinhole_number parse_int (String "M" a) = Ok n -> pinhole_number parse_int (String "M" b) = Ok n -> a = b).
Proof. intros H. discriminate (H digit "1"%string "12"%string 1%Z eq_refl eq_refl). Qed.
Print Assumptions C129_pinhole_text_refuted.
