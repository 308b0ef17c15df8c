(** C28, C29, C42: saving to and reading from JSON. *)
From Verif.Model Require Import Json.
From Verif.Proofs Require Json.
Local Open Scope string_scope.

(** tojson records every parameter, under a name which fromjson refuses. *)
Theorem C28_simplecorr_saved_then_refused :
  forall c, (forall f, In f ["dx"; "dy"; "sxx"; "syy"; "sxy"; "rot_deg"; "nmatch"; "rms"] -> aget c f <> None) ->
  exists d, simplecorr_tojson c = Ok d /\
    (forall f, In f ["dx"; "dy"; "sxx"; "syy"; "sxy"; "rot_deg"; "nmatch"; "rms"] -> aget d f = aget c f) /\
    simplecorr_fromjson d = Err AssertionError.
Proof.
  intros c H. destruct (Json.to_json_Ok "Simple Correction" simplecorr_fields eq_refl eq_refl c H) as (d & E & N & V & F).
  exists d. split; [exact E|]. split; [exact F|]. apply (Json.from_json_wrong "Simple Correction" simplecorr_fields simplecorr_new d); [exact N|discriminate].
Qed.
Print Assumptions C28_simplecorr_saved_then_refused.
Theorem C28_tancorr_saved_then_refused :
  forall c, (forall f, In f ["dha"; "ddec"; "sxx"; "syy"; "sxy"; "rot_deg"; "nstars"; "rms_arcsec"] -> aget c f <> None) ->
  exists d, tancorr_tojson c = Ok d /\
    (forall f, In f ["dha"; "ddec"; "sxx"; "syy"; "sxy"; "rot_deg"; "nstars"; "rms_arcsec"] -> aget d f = aget c f) /\
    tancorr_fromjson d = Err AssertionError.
Proof.
  intros c H. destruct (Json.to_json_Ok "Tangent Plane Correction" tancorr_fields eq_refl eq_refl c H) as (d & E & N & V & F).
  exists d. split; [exact E|]. split; [exact F|]. apply (Json.from_json_wrong "Tangent Plane Correction" tancorr_fields tancorr_new d); [exact N|discriminate].
Qed.
Print Assumptions C28_tancorr_saved_then_refused.

(** Documents carrying the name fromjson expects are read back completely. *)
Theorem C28_fromjson_restores :
  forall d, aget d "name" = Some (JStr "Tangent Plane Adjustment") -> aget d "version" = Some (JStr "1") ->
  ((forall f, In f ["dx"; "dy"; "sxx"; "syy"; "sxy"; "rot_deg"; "nmatch"; "rms"] -> aget d f <> None) ->
   exists c, simplecorr_fromjson d = Ok c /\
     forall f, In f ["dx"; "dy"; "sxx"; "syy"; "sxy"; "rot_deg"; "nmatch"; "rms"] -> aget c f = aget d f) /\
  ((forall f, In f ["dha"; "ddec"; "sxx"; "syy"; "sxy"; "rot_deg"; "nstars"; "rms_arcsec"] -> aget d f <> None) ->
   exists c, tancorr_fromjson d = Ok c /\
     forall f, In f ["dha"; "ddec"; "sxx"; "syy"; "sxy"; "rot_deg"; "nstars"; "rms_arcsec"] -> aget c f = aget d f).
Proof.
  intros d N V. split; intros H.
  - destruct (Json.from_json_Ok simplecorr_fields simplecorr_new d _ N V H) as (c & E & F & _). exists c. split; [exact E|exact F].
  - destruct (Json.from_json_Ok tancorr_fields tancorr_new d _ N V H) as (c & E & F & _). exists c. split; [exact E|exact F].
Qed.
Print Assumptions C28_fromjson_restores.

(** "fromjson(tojson(c)) gives back c" is false. *)
Theorem C28_roundtrip_refuted :
  ~ (forall c, (forall f, In f simplecorr_fields -> aget c f <> None) -> exists c', rbind (simplecorr_tojson c) simplecorr_fromjson = Ok c') /\
  ~ (forall c, (forall f, In f tancorr_fields -> aget c f <> None) -> exists c', rbind (tancorr_tojson c) tancorr_fromjson = Ok c').
Proof.
  split; intros H.
  - destruct (H simplecorr_new) as [c E]; [intros f Hf; cbn in Hf; repeat (destruct Hf as [<-|Hf]; [discriminate|]); destruct Hf|]. discriminate.
  - destruct (H tancorr_new) as [c E]; [intros f Hf; cbn in Hf; repeat (destruct Hf as [<-|Hf]; [discriminate|]); destruct Hf|]. discriminate.
Qed.
Print Assumptions C28_roundtrip_refuted.
Example C28_example : forall f, In f simplecorr_fields -> aget simplecorr_new f <> None.
Proof. intros f Hf. cbn in Hf. repeat (destruct Hf as [<-|Hf]; [discriminate|]). destruct Hf. Qed.

(** FVC2FP: after the round trip all transform attributes are the same, and the optional ones
    are the same as far as [getattr(t, f, None)] tells. *)
Theorem C29_roundtrip :
  forall t ids cs,
  (forall f, In f ["xfvc_scale"; "yfvc_scale"; "xfvc_offset"; "yfvc_offset"; "scale"; "rotation"; "offset_x"; "offset_y"] -> aget t f <> None) ->
  aget t "zbpolids" = Some (JArr (map JInt ids)) -> aget t "zbcoeffs" = Some (JArr (map JNum cs)) ->
  exists d t', fvc2fp_tojson t = Ok d /\ fvc2fp_fromjson d = Ok t' /\
    (forall f, In f ["xfvc_scale"; "yfvc_scale"; "xfvc_offset"; "yfvc_offset"; "scale"; "rotation"; "offset_x"; "offset_y"; "zbpolids"; "zbcoeffs"] ->
       aget t' f = aget t f) /\
    (forall f, In f ["meandistance"; "mediandistance"; "rmsdistance"; "nmatch"] -> getattr_none t' f = getattr_none t f).
Proof. exact Json.fvc2fp_roundtrip. Qed.
Print Assumptions C29_roundtrip.
Theorem C29_version1 :
  forall d coeffs coeffs',
  aget d "method" = Some (JStr "Zhao-Burge") -> aget d "version" = Some (JStr "1") ->
  (forall f, In f ["scale"; "rotation"; "offset_x"; "offset_y"] -> aget d f <> None) ->
  aget d "zbcoeffs" = Some coeffs -> float_array coeffs = Ok coeffs' ->
  exists t, fvc2fp_fromjson d = Ok t /\
    (forall f, In f ["scale"; "rotation"; "offset_x"; "offset_y"] -> aget t f = aget d f) /\
    aget t "zbpolids" = Some (JArr (map JInt [2; 5; 6; 9; 20; 28; 29; 30])) /\ aget t "zbcoeffs" = Some coeffs' /\
    (forall f v, In (f, v) [("xfvc_scale", JNum (-3000)); ("yfvc_scale", JNum 3000); ("xfvc_offset", JNum 3000); ("yfvc_offset", JNum 3000)] ->
       aget t f = match aget d f with Some w => Some w | None => Some v end).
Proof. exact Json.fvc2fp_version1. Qed.
Print Assumptions C29_version1.
(** A transform which was never fitted has no scale: tojson fails. *)
Theorem C29_unfitted_fails : fvc2fp_tojson fvc2fp_new = Err AttributeError.
Proof. reflexivity. Qed.
Print Assumptions C29_unfitted_fails.
Example C29_example :
  let t := (fvc2fp_new ++ [("scale", JNum 1); ("rotation", JNum 0); ("offset_x", JNum 2); ("offset_y", JNum 3); ("nmatch", JInt 7); ("rmsdistance", JNull)])%list in
  (forall f, In f ["xfvc_scale"; "yfvc_scale"; "xfvc_offset"; "yfvc_offset"; "scale"; "rotation"; "offset_x"; "offset_y"] -> aget t f <> None) /\
  aget t "zbpolids" = Some (JArr (map JInt [0; 1; 2; 3; 4; 5; 6; 9; 20; 27; 28; 29; 30])) /\ aget t "zbcoeffs" = Some (JArr (map JNum (repeat 0%R 13))).
Proof. cbv zeta. split; [|split; reflexivity]. intros f Hf. cbn in Hf. repeat (destruct Hf as [<-|Hf]; [discriminate|]). destruct Hf. Qed.

(** FieldModel: the fifteen recorded attributes are restored, the three switches become True. *)
Theorem C42_roundtrip :
  forall m, (forall f, In f fieldmodel_fields -> aget m f <> None) ->
  exists d m', fieldmodel_tojson m = Ok d /\ fieldmodel_fromjson d = Ok m' /\
    (forall f, In f ["ra"; "dec"; "mjd"; "lst"; "hexrot_deg"; "adc1"; "adc2"; "sxx"; "syy"; "sxy"; "fieldrot_zp_deg"; "fieldrot_deg";
                     "expid"; "nstars"; "rms_arcsec"] -> aget m' f = aget m f) /\
    (forall f, In f ["precession"; "aberration"; "polar_misalignment"] -> aget m' f = Some (JBool true)).
Proof.
  intros m H. destruct (Json.to_json_Ok "Field model" fieldmodel_fields eq_refl eq_refl m H) as (d & E & N & V & F).
  destruct (Json.from_json_Ok fieldmodel_fields fieldmodel_new d "Field model" N V) as (m' & E' & F' & G'); [intros f Hf; rewrite F by exact Hf; now apply H|].
  exists d, m'. split; [exact E|]. split; [exact E'|]. split; [intros f Hf; rewrite F', F by exact Hf; reflexivity|].
  intros f Hf. rewrite G'.
  - cbn in Hf. repeat (destruct Hf as [<-|Hf]; [reflexivity|]). destruct Hf.
  - intros Q. cbn in Hf, Q. repeat (destruct Hf as [<-|Hf]; [repeat (destruct Q as [Q|Q]; [discriminate|]); destruct Q|]). destruct Hf.
Qed.
Print Assumptions C42_roundtrip.
(** "Every field model is restored" is false for models with a switch turned off. *)
Theorem C42_switches_refuted :
  ~ (forall m, (forall f, In f fieldmodel_fields -> aget m f <> None) ->
     exists d m', fieldmodel_tojson m = Ok d /\ fieldmodel_fromjson d = Ok m' /\ aget m' "aberration" = aget m "aberration").
Proof.
  intros H. destruct (H (aset fieldmodel_new "aberration" (JBool false))) as (d & m' & E & E' & F).
  - intros f Hf. cbn in Hf. repeat (destruct Hf as [<-|Hf]; [discriminate|]). destruct Hf.
  - injection E as <-. injection E' as <-. discriminate.
Qed.
Print Assumptions C42_switches_refuted.
Example C42_example : forall f, In f fieldmodel_fields -> aget fieldmodel_new f <> None.
Proof. intros f Hf. cbn in Hf. repeat (destruct Hf as [<-|Hf]; [discriminate|]). destruct Hf. Qed.

(** Documents of another kind or version are refused. *)
Theorem C29_refused : forall d,
  (forall v, aget d "method" = Some v -> v <> JStr "Zhao-Burge" -> fvc2fp_fromjson d = Err AssertionError) /\
  (forall v, aget d "method" = Some (JStr "Zhao-Burge") -> aget d "version" = Some v -> v <> JStr "1" -> v <> JStr "2" -> fvc2fp_fromjson d = Err RuntimeError) /\
  (forall t, fvc2fp_fromjson d = Ok t -> aget d "method" = Some (JStr "Zhao-Burge") /\ (aget d "version" = Some (JStr "1") \/ aget d "version" = Some (JStr "2"))).
Proof.
  intros d. assert (V : forall v, aget d "method" = Some (JStr "Zhao-Burge") -> aget d "version" = Some v -> v <> JStr "1" -> v <> JStr "2" -> fvc2fp_fromjson d = Err RuntimeError).
  { intros v M E N1 N2. unfold fvc2fp_fromjson, assert_is. rewrite M, E. cbn [rbind]. rewrite String.eqb_refl. cbn [rbind].
    destruct v; try reflexivity. destruct (String.string_dec s "1") as [->|n1]; [congruence|]. destruct (String.string_dec s "2") as [->|n2]; [congruence|].
    destruct s as [|[[] [] [] [] [] [] [] []] [|]]; try reflexivity; congruence. }
  assert (M : forall v, aget d "method" = Some v -> v <> JStr "Zhao-Burge" -> fvc2fp_fromjson d = Err AssertionError).
  { intros v E N. unfold fvc2fp_fromjson, assert_is. rewrite E. destruct v; try reflexivity. destruct (String.eqb_spec s "Zhao-Burge") as [->|]; [congruence|reflexivity]. }
  split; [exact M|]. split; [exact V|]. intros t Ht.
  destruct (aget d "method") as [m|] eqn:Em; [|unfold fvc2fp_fromjson, assert_is in Ht; rewrite Em in Ht; discriminate].
  assert (Em' : m = JStr "Zhao-Burge"). { destruct m; try (rewrite (M _ eq_refl) in Ht by congruence; discriminate). destruct (String.string_dec s "Zhao-Burge") as [->|n]; [reflexivity|]. rewrite (M _ eq_refl) in Ht by congruence; discriminate. }
  subst m. split; [reflexivity|]. destruct (aget d "version") as [v|] eqn:Ev.
  - destruct v; try (rewrite (V _ eq_refl eq_refl) in Ht by congruence; discriminate).
    destruct (String.string_dec s "1") as [->|n1]; [auto|]. destruct (String.string_dec s "2") as [->|n2]; [auto|]. rewrite (V _ eq_refl eq_refl) in Ht by congruence; discriminate.
  - unfold fvc2fp_fromjson, assert_is in Ht. rewrite Em, Ev in Ht. discriminate.
Qed.
Print Assumptions C29_refused.

Lemma assert_is_spec d k s : (assert_is d k s = Ok tt <-> aget d k = Some (JStr s)) /\ (forall v, aget d k = Some v -> v <> JStr s -> assert_is d k s = Err AssertionError).
Proof.
  unfold assert_is. destruct (aget d k) as [v|].
  - split.
    + destruct v; try (split; intros; congruence). destruct (String.eqb_spec s0 s) as [->|]; split; intros; congruence.
    + intros w [= <-] N. destruct v; try reflexivity. destruct (String.eqb_spec s0 s) as [->|]; [congruence|reflexivity].
  - split; [split; intros; discriminate|intros; discriminate].
Qed.
Definition loader := (attrs -> res attrs)%type.
Definition accepts_only (load : loader) (name : string) : Prop := forall d,
  (forall v, aget d "name" = Some v -> v <> JStr name -> load d = Err AssertionError) /\
  (forall v, aget d "name" = Some (JStr name) -> aget d "version" = Some v -> v <> JStr "1" -> load d = Err AssertionError) /\
  (forall t, load d = Ok t -> aget d "name" = Some (JStr name) /\ aget d "version" = Some (JStr "1")).
Lemma accepts_of new fields name : accepts_only (fun params => rbind (assert_is params "name" name) (fun _ => rbind (assert_is params "version" "1") (fun _ => read_fields params new fields))) name.
Proof.
  intros d. destruct (assert_is_spec d "name" name) as (A & B). destruct (assert_is_spec d "version" "1") as (A' & B'). split; [|split].
  - intros v E N. rewrite (B v E N). reflexivity.
  - intros v E E' N. rewrite (proj2 A E). cbn [rbind]. rewrite (B' v E' N). reflexivity.
  - intros t Ht. destruct (assert_is d "name" name) as [[]|]; [|discriminate]. cbn [rbind] in Ht. destruct (assert_is d "version" "1") as [[]|]; [|discriminate]. split; [now apply A|now apply A'].
Qed.
Theorem C28_refused : accepts_only simplecorr_fromjson "Tangent Plane Adjustment" /\ accepts_only tancorr_fromjson "Tangent Plane Adjustment".
Proof. split; apply accepts_of. Qed.
Print Assumptions C28_refused.
Theorem C42_refused : accepts_only fieldmodel_fromjson "Field model".
Proof. apply accepts_of. Qed.
Print Assumptions C42_refused.
Example C29_refused_example : fvc2fp_fromjson [("method", JStr "Zhao-Burge"); ("version", JStr "3")] = Err RuntimeError /\ fvc2fp_fromjson [("method", JStr "SVD"); ("version", JStr "2")] = Err AssertionError.
Proof. now split. Qed.
