(** JSON round trips. *)
From Verif.Model Require Import Json.
From Verif.Proofs Require Import Prelude.
Local Open Scope string_scope.

Lemma get_set d f v g : aget (aset d f v) g = if String.eqb g f then Some v else aget d g.
Proof.
  unfold aget, aset. destruct (String.eqb g f) eqn:E.
  - apply String.eqb_eq in E as ->. now rewrite (dict_get_set_same String.eqb String.eqb_eq).
  - apply String.eqb_neq in E. apply (dict_get_set_other String.eqb String.eqb_eq); congruence.
Qed.
Lemma write_fields_Ok o fields : (forall f, In f fields -> aget o f <> None) ->
  exists d, write_fields o fields = Ok d /\ forall f, aget d f = if existsb (String.eqb f) fields then aget o f else None.
Proof.
  unfold write_fields. induction fields as [|f r IH]; intros H; cbn [rmapM].
  - exists []. split; reflexivity.
  - destruct (aget o f) as [v|] eqn:E; [|exfalso; apply (H f); [now left|assumption]].
    destruct IH as (d & -> & Hd); [intros g Hg; apply H; now right|]. cbn [rbind]. eexists. split; [reflexivity|].
    intros g. unfold aget in *. cbn [dict_get existsb]. destruct (String.eqb g f) eqn:G; [apply String.eqb_eq in G as ->; now rewrite E|]. cbn [orb]. apply Hd.
Qed.
Lemma write_fields_Err o fields f : In f fields -> aget o f = None -> write_fields o fields = Err AttributeError.
Proof.
  unfold write_fields. induction fields as [|g r IH]; intros H E; [destruct H|]. destruct H as [<-|H]; cbn [rmapM].
  - now rewrite E.
  - destruct (aget o g); [|reflexivity]. cbn [rbind]. now rewrite IH.
Qed.
Lemma read_fields_spec p fields : forall o, (forall f, In f fields -> aget p f <> None) ->
  exists o', read_fields p o fields = Ok o' /\ forall f, aget o' f = if existsb (String.eqb f) fields then aget p f else aget o f.
Proof.
  induction fields as [|f r IH]; intros o H; cbn [read_fields existsb].
  - exists o. split; reflexivity.
  - destruct (aget p f) as [v|] eqn:E; [|exfalso; apply (H f); [now left|assumption]].
    destruct (IH (aset o f v)) as (o' & -> & Ho); [intros g Hg; apply H; now right|]. exists o'. split; [reflexivity|].
    intros g. rewrite Ho, get_set. destruct (String.eqb g f) eqn:G; cbn [orb]; [|reflexivity].
    apply String.eqb_eq in G as ->. destruct (existsb _ r); congruence.
Qed.
Lemma add_fields_spec p fields : forall o f, aget (add_fields p o fields) f =
  if existsb (String.eqb f) fields then (match aget p f with Some v => Some v | None => aget o f end) else aget o f.
Proof.
  induction fields as [|g r IH]; intros o f; cbn [add_fields existsb]; [reflexivity|]. rewrite IH.
  destruct (aget p g) as [v|] eqn:E; rewrite ?get_set; destruct (String.eqb f g) eqn:G; cbn [orb]; try reflexivity.
  - apply String.eqb_eq in G as ->. rewrite E. now destruct (existsb _ r).
  - apply String.eqb_eq in G as ->. rewrite E. now destruct (existsb _ r).
Qed.

(** What is shared by the three classes with the same scheme. *)
Section Scheme.
Variables (name : string) (fields : list string) (new : attrs).
Hypothesis Hname : existsb (String.eqb "name") fields = false.
Hypothesis Hversion : existsb (String.eqb "version") fields = false.
Definition to_json (o : attrs) : res attrs := rmap (fun d => ("name", JStr name) :: ("version", JStr "1") :: d) (write_fields o fields).
Definition from_json (expected : string) (params : attrs) : res attrs :=
  rbind (assert_is params "name" expected) (fun _ => rbind (assert_is params "version" "1") (fun _ => read_fields params new fields)).

Lemma to_json_Ok o : (forall f, In f fields -> aget o f <> None) -> exists d, to_json o = Ok d /\
  aget d "name" = Some (JStr name) /\ aget d "version" = Some (JStr "1") /\ forall f, In f fields -> aget d f = aget o f.
Proof.
  intros H. destruct (write_fields_Ok o fields H) as (d & E & Hd). unfold to_json. rewrite E. eexists. split; [reflexivity|].
  split; [reflexivity|]. split; [reflexivity|]. intros f Hf. unfold aget. cbn [dict_get].
  assert (Q : existsb (String.eqb f) fields = true) by (apply existsb_exists; exists f; split; [exact Hf|apply String.eqb_refl]).
  destruct (String.eqb f "name") eqn:E1; [apply String.eqb_eq in E1; subst; congruence|].
  destruct (String.eqb f "version") eqn:E2; [apply String.eqb_eq in E2; subst; congruence|].
  fold (aget d f). rewrite Hd, Q. reflexivity.
Qed.
Lemma from_json_wrong d expected : aget d "name" = Some (JStr name) -> name <> expected -> from_json expected d = Err AssertionError.
Proof. intros E N. unfold from_json, assert_is. rewrite E. apply String.eqb_neq in N. now rewrite N. Qed.
Lemma from_json_Ok d expected : aget d "name" = Some (JStr expected) -> aget d "version" = Some (JStr "1") -> (forall f, In f fields -> aget d f <> None) ->
  exists o, from_json expected d = Ok o /\ (forall f, In f fields -> aget o f = aget d f) /\ (forall f, ~ In f fields -> aget o f = aget new f).
Proof.
  intros E1 E2 H. unfold from_json, assert_is. rewrite E1, E2, !String.eqb_refl. cbn [rbind].
  destruct (read_fields_spec d fields new H) as (o & -> & Ho). exists o. split; [reflexivity|]. split.
  - intros f Hf. rewrite Ho. assert (Q : existsb (String.eqb f) fields = true) by (apply existsb_exists; exists f; split; [exact Hf|apply String.eqb_refl]). now rewrite Q.
  - intros f Hf. rewrite Ho. destruct (existsb (String.eqb f) fields) eqn:Q; [|reflexivity]. exfalso. apply Hf.
    apply existsb_exists in Q as (g & Hg & Eg). apply String.eqb_eq in Eg. now subst.
Qed.
End Scheme.

(** *** FVC2FP *)
Definition fvc_plain := ["xfvc_scale"; "yfvc_scale"; "xfvc_offset"; "yfvc_offset"; "scale"; "rotation"; "offset_x"; "offset_y"].
Lemma int_list_ints ids : int_list (JArr (map JInt ids)) = Ok (JArr (map JInt ids)).
Proof. unfold int_list. assert (H : rmapM (fun x => match x with JInt z => Ok (JInt z) | _ => Err TypeError end) (map JInt ids) = Ok (map JInt ids)). { induction ids as [|z ids IH]; [reflexivity|]. cbn. now rewrite IH. } now rewrite H. Qed.
Lemma float_array_nums cs : float_array (JArr (map JNum cs)) = Ok (JArr (map JNum cs)).
Proof. unfold float_array. assert (H : rmapM to_float (map JNum cs) = Ok (map JNum cs)). { induction cs as [|z ids IH]; [reflexivity|]. cbn. now rewrite IH. } now rewrite H. Qed.
Lemma opt_cases t f : (getattr_none t f = JNull /\ optional_entry t f = []) \/ optional_entry t f = [(f, getattr_none t f)].
Proof. unfold optional_entry. destruct (getattr_none t f); auto. Qed.

Lemma fvc2fp_roundtrip t ids cs :
  (forall f, In f fvc_plain -> aget t f <> None) -> aget t "zbpolids" = Some (JArr (map JInt ids)) -> aget t "zbcoeffs" = Some (JArr (map JNum cs)) ->
  exists d t', fvc2fp_tojson t = Ok d /\ fvc2fp_fromjson d = Ok t' /\
    (forall f, In f (fvc_plain ++ ["zbpolids"; "zbcoeffs"])%list -> aget t' f = aget t f) /\
    (forall f, In f fvc2fp_optional -> getattr_none t' f = getattr_none t f).
Proof.
  intros H E1 E2. unfold fvc2fp_tojson, write_fields. rewrite E1, E2, int_list_ints. cbn [rbind rmapM].
  assert (X : forall f, In f fvc_plain -> exists v, aget t f = Some v). { intros f Hf. specialize (H f Hf). destruct (aget t f); [eauto|congruence]. }
  unfold fvc_plain in X.
  destruct (X "xfvc_scale") as [v1 V1]; [cbn; tauto|]. destruct (X "yfvc_scale") as [v2 V2]; [cbn; tauto|]. destruct (X "xfvc_offset") as [v3 V3]; [cbn; tauto|].
  destruct (X "yfvc_offset") as [v4 V4]; [cbn; tauto|]. destruct (X "scale") as [v5 V5]; [cbn; tauto|]. destruct (X "rotation") as [v6 V6]; [cbn; tauto|].
  destruct (X "offset_x") as [v7 V7]; [cbn; tauto|]. destruct (X "offset_y") as [v8 V8]; [cbn; tauto|].
  rewrite V1, V2, V3, V4, V5, V6, V7, V8. cbn [rbind].
  set (coeffs := JArr (map JNum cs)) in *. assert (F : float_array coeffs = Ok coeffs) by apply float_array_nums. set (pol := JArr (map JInt ids)) in *.
  clearbody coeffs pol. clear H X.
  unfold fvc2fp_optional. cbn [map List.concat].
  destruct (opt_cases t "meandistance") as [[N1 O1]|O1]; rewrite O1;
  destruct (opt_cases t "mediandistance") as [[N2 O2]|O2]; rewrite O2;
  destruct (opt_cases t "rmsdistance") as [[N3 O3]|O3]; rewrite O3;
  destruct (opt_cases t "nmatch") as [[N4 O4]|O4]; rewrite O4;
  (eexists; eexists; split; [reflexivity|]; split;
   [unfold fvc2fp_fromjson; cbn -[float_array]; rewrite F; cbn; reflexivity|];
   split; [intros f Hf; cbn in Hf; repeat (destruct Hf as [<-|Hf]; [rewrite ?V1, ?V2, ?V3, ?V4, ?V5, ?V6, ?V7, ?V8, ?E1, ?E2; reflexivity|]); destruct Hf
          |intros f Hf; cbn in Hf; repeat (destruct Hf as [<-|Hf]; [reflexivity || (rewrite ?N1, ?N2, ?N3, ?N4; reflexivity)|]); destruct Hf]).
Qed.

(** Files of version 1. *)
Lemma fvc2fp_version1 d coeffs coeffs' :
  aget d "method" = Some (JStr "Zhao-Burge") -> aget d "version" = Some (JStr "1") ->
  (forall f, In f ["scale"; "rotation"; "offset_x"; "offset_y"] -> aget d f <> None) ->
  aget d "zbcoeffs" = Some coeffs -> float_array coeffs = Ok coeffs' ->
  exists t, fvc2fp_fromjson d = Ok t /\
    (forall f, In f ["scale"; "rotation"; "offset_x"; "offset_y"] -> aget t f = aget d f) /\
    aget t "zbpolids" = Some (JArr (map JInt [2; 5; 6; 9; 20; 28; 29; 30])) /\ aget t "zbcoeffs" = Some coeffs' /\
    (forall f v, In (f, v) [("xfvc_scale", JNum (-3000)); ("yfvc_scale", JNum 3000); ("xfvc_offset", JNum 3000); ("yfvc_offset", JNum 3000)] ->
       aget t f = match aget d f with Some w => Some w | None => Some v end).
Proof.
  intros E1 E2 H E3 F. unfold fvc2fp_fromjson, assert_is. rewrite E1, E2, E3, F, String.eqb_refl. cbn [rbind].
  destruct (read_fields_spec d ["scale"; "rotation"; "offset_x"; "offset_y"] fvc2fp_new H) as (o & -> & Ho). cbn [rbind rmap].
  eexists. split; [reflexivity|]. split; [|split; [|split]].
  - intros f Hf. rewrite add_fields_spec, !get_set, Ho. cbn in Hf. repeat (destruct Hf as [<-|Hf]; [reflexivity|]). destruct Hf.
  - rewrite add_fields_spec, !get_set. reflexivity.
  - rewrite add_fields_spec, !get_set. reflexivity.
  - intros f v Hf. rewrite add_fields_spec, !get_set, Ho. cbn in Hf. repeat (destruct Hf as [Hf|Hf]; [injection Hf as <- <-; reflexivity|]). destruct Hf.
Qed.
