(** C128: predicting the field rotation from options or a header. *)
From Coq Require Import Lra Lia.
From Verif.Model Require Import PredictFieldrot.
From Verif.Spec Require Import PredictFieldrot.
From Verif.Proofs Require Import Prelude RealNum Trig.
From Verif.Props Require Import FieldModel.
Local Open Scope R_scope.
Local Open Scope list_scope.

Lemma split_count c s : length (split_char c s) = S (count_char c s).
Proof.
  induction s as [|a s IH]; [reflexivity|]. cbn [split_char count_char]. destruct (Ascii.eqb a c); cbn [length Nat.add]; [now rewrite IH|]. destruct (split_char c s) as [|w l]; [discriminate|exact IH].
Qed.
Lemma split_none c w : count_char c w = 0%nat -> split_char c w = [w].
Proof.
  induction w as [|a w IH]; intros H; [reflexivity|]. cbn [split_char count_char] in *. destruct (Ascii.eqb a c); [discriminate|]. cbn [Nat.add] in H. now rewrite (IH H).
Qed.
Lemma split_cons c w s : count_char c w = 0%nat -> split_char c (w ++ String c s)%string = w :: split_char c s.
Proof.
  induction w as [|a w IH]; intros H; cbn [append split_char count_char] in *; [now rewrite Ascii.eqb_refl|]. destruct (Ascii.eqb a c); [discriminate|]. cbn [Nat.add] in H. now rewrite (IH H).
Qed.
Lemma split_joined c : forall l w, Forall (fun v => count_char c v = 0%nat) (w :: l) -> split_char c (joined c w l) = w :: l.
Proof.
  induction l as [|v l IH]; intros w F; inversion F as [|? ? Hw Hl]; subst; cbn [joined]; [now apply split_none|]. rewrite split_cons by exact Hw. now rewrite IH.
Qed.
(** The angle of the hexapod: the sixth entry of the text or the tuple, in arcsec; anything else than six entries is refused, and so are other values and a header without FOCUS *)
Theorem C128_hexapod_angle parse_float h :
  (h_focus h = None -> read_hexrot_deg parse_float h = Err KeyError) /\
  (h_focus h = Some FOther -> read_hexrot_deg parse_float h = Err ValueError) /\
  (forall w l, Forall (fun v => count_char "," v = 0%nat) (w :: l) -> h_focus h = Some (FText (joined "," w l)) ->
    match l with
    | [_; _; _; _; v] => forall x, (parse_float v = Ok x -> read_hexrot_deg parse_float h = Ok (x / 3600)) /\ (forall e, parse_float v = Err e -> read_hexrot_deg parse_float h = Err e)
    | _ => read_hexrot_deg parse_float h = Err ValueError
    end) /\
  (forall s, h_focus h = Some (FText s) -> count_char "," s <> 5%nat -> read_hexrot_deg parse_float h = Err ValueError) /\
  (forall l, h_focus h = Some (FTuple l) -> match l with [_; _; _; _; _; x] => read_hexrot_deg parse_float h = Ok (x / 3600) | _ => read_hexrot_deg parse_float h = Err ValueError end).
Proof.
  unfold read_hexrot_deg. split; [now intros ->|]. split; [now intros ->|]. split; [|split].
  - intros w l F ->. cbn [key rbind]. rewrite (split_joined "," l w F).
    destruct l as [|v1 [|v2 [|v3 [|v4 [|v5 [|]]]]]]; try reflexivity. cbn [length Nat.eqb geti nth_error rbind]. intros x. split; [intros ->; reflexivity|intros e ->; reflexivity].
  - intros s -> N. cbn [key rbind]. rewrite split_count. destruct (Nat.eqb_spec (S (count_char "," s)) 6) as [E|E]; [exfalso; apply N; lia|reflexivity].
  - intros l ->. cbn [key rbind]. destruct l as [|? [|? [|? [|? [|? [|? [|]]]]]]]; reflexivity.
Qed.
Print Assumptions C128_hexapod_angle.
(** Hours, minutes and seconds as degrees; a date after the seconds is not read *)
Theorem C128_sidereal_time parse_float hh mm ss l h m s : Forall (fun v => count_char ":" v = 0%nat) (hh :: mm :: ss :: l) ->
  parse_float hh = Ok h -> parse_float mm = Ok m -> parse_float ss = Ok s ->
  sidereal_time parse_float (joined ":" hh (mm :: ss :: l)) = Ok (15 * h + m / 4 + s / 240) /\
  (0 <= h <= 23 -> 0 <= m <= 59 -> 0 <= s < 60 -> 0 <= 15 * h + m / 4 + s / 240 < 360).
Proof.
  intros F H M S. split; [|intros; lra]. unfold sidereal_time. rewrite (split_joined ":" _ _ F). cbn [geti nth_error rbind]. rewrite H. cbn [rbind]. rewrite M. cbn [rbind]. rewrite S. cbn [rbind]. f_equal. lra.
Qed.
Print Assumptions C128_sidereal_time.
(** Without a header: the prediction for the pointing, with the first of LST, RA + HA and the time of the date that can be had *)
Theorem C128_options parse_float fieldrot a : a_header a = None ->
  (forall ra dec mjd, a_ra a = Some ra -> a_dec a = Some dec -> a_mjd a = Some mjd ->
    predict_fieldrot parse_float fieldrot a = rbind (fieldrot ra dec mjd (told_lst a ra mjd) (a_hexrot_arcsec a / 3600)) (fun f => Ok (f, dfieldrotdt_empirical_model ra dec (told_lst a ra mjd)))) /\
  (a_ra a = None \/ a_dec a = None \/ a_mjd a = None -> (lst_fails a -> predict_fieldrot parse_float fieldrot a = Err TypeError) /\ (~ lst_fails a -> predict_fieldrot parse_float fieldrot a = Err (SysExit 12))).
Proof.
  intros H. unfold predict_fieldrot, inputs, told_lst, lst_fails. rewrite H.
  assert (X : (if Reqb (a_hexrot_arcsec a) 0 then 0 else a_hexrot_arcsec a / 3600) = a_hexrot_arcsec a / 3600) by (destruct (Reqb (a_hexrot_arcsec a) 0) eqn:E; [apply Reqb_true in E; rewrite E; lra|reflexivity]). rewrite X. split.
  - intros ra dec mjd -> -> ->. destruct (a_lst a) as [lst|]; [reflexivity|]. destruct (a_ha a) as [ha|]; reflexivity.
  - intros N. split.
    + intros [-> E]. destruct (a_ha a); rewrite E; reflexivity.
    + intros F. assert (L : exists lst, match a_lst a, a_ha a with Some lst, _ => Ok lst | None, Some ha => rmap (fun ra => ra + ha) (number (a_ra a)) | None, None => rmap mjd2lst (number (a_mjd a)) end = Ok lst).
      { destruct (a_lst a) as [lst|]; [now exists lst|]. destruct (a_ha a) as [ha|]; [destruct (a_ra a)|destruct (a_mjd a)]; try (eexists; reflexivity); exfalso; apply F; split; reflexivity. }
      destruct L as (lst & ->). cbn [rbind]. destruct (a_ra a), (a_dec a), (a_mjd a); try reflexivity. destruct N as [N|[N|N]]; discriminate.
Qed.
Print Assumptions C128_options.
(** An hour angle is the same as the sidereal time it belongs to *)
Theorem C128_hour_angle parse_float fieldrot ra dec mjd ha x :
  predict_fieldrot parse_float fieldrot {| a_ra := Some ra; a_dec := dec; a_lst := None; a_ha := Some ha; a_mjd := mjd; a_hexrot_arcsec := x; a_header := None |} =
  predict_fieldrot parse_float fieldrot {| a_ra := Some ra; a_dec := dec; a_lst := Some (ra + ha); a_ha := None; a_mjd := mjd; a_hexrot_arcsec := x; a_header := None |}.
Proof. reflexivity. Qed.
Print Assumptions C128_hour_angle.
(** With a header: the other options do not matter; the sidereal time is that of TCSST or of the date, and the hexapod angle is read if and only if the header has HEXPOS *)
Theorem C128_header parse_float fieldrot a f h : a_header a = Some f -> pointing f h ->
  (h_targtdec h = None \/ h_mjdobs h = None -> predict_fieldrot parse_float fieldrot a = Err KeyError) /\
  (forall ra dec mjd lst x, h_targtra h = Some ra -> h_targtdec h = Some dec -> h_mjdobs h = Some mjd ->
    match h_tcsst h with Some s => sidereal_time parse_float s = Ok lst | None => lst = mjd2lst mjd end ->
    (if h_hexpos h then read_hexrot_deg parse_float h = Ok x else x = 0) ->
    predict_fieldrot parse_float fieldrot a = rbind (fieldrot ra dec mjd lst x) (fun f => Ok (f, dfieldrotdt_empirical_model ra dec lst))).
Proof.
  intros E P. assert (C : choose_header f = Ok h).
  { unfold choose_header. destruct P as [[-> N]|(h0 & -> & N0 & -> & N)]; cbn [rbind]; [destruct (h_targtra h); [reflexivity|contradiction]|]. rewrite N0. destruct (h_targtra h); [reflexivity|contradiction]. }
  assert (T : exists ra, h_targtra h = Some ra) by (destruct P as [[_ N]|(h0 & _ & _ & _ & N)]; (destruct (h_targtra h) as [ra|]; [now exists ra|contradiction])). destruct T as (ra0 & T).
  unfold predict_fieldrot, inputs. rewrite E, C. cbn [rbind]. rewrite T. cbn [key rbind]. split.
  - intros [->| ->]; [reflexivity|]. destruct (h_targtdec h); reflexivity.
  - intros ra dec mjd lst x Era -> -> L X. injection Era as <-. cbn [key rbind].
    assert (match h_tcsst h with Some s => sidereal_time parse_float s | None => Ok (mjd2lst mjd) end = Ok lst) as -> by (destruct (h_tcsst h); [exact L|now rewrite L]). cbn [rbind].
    assert ((if h_hexpos h then read_hexrot_deg parse_float h else Ok 0) = Ok x) as -> by (destruct (h_hexpos h); [exact X|now rewrite X]). reflexivity.
Qed.
Print Assumptions C128_header.
(** A file without TARGTRA in both headers, and one that cannot be read *)
Theorem C128_no_pointing parse_float fieldrot a f : a_header a = Some f ->
  (forall e, fst f = Err e -> predict_fieldrot parse_float fieldrot a = Err e) /\
  (forall h0, fst f = Ok h0 -> h_targtra h0 = None -> (forall e, snd f = Err e -> predict_fieldrot parse_float fieldrot a = Err e) /\
    forall h1, snd f = Ok h1 -> h_targtra h1 = None -> predict_fieldrot parse_float fieldrot a = Err (SysExit 12)).
Proof.
  intros E. unfold predict_fieldrot, inputs, choose_header. rewrite E. split; [now intros e ->|]. intros h0 -> N. cbn [rbind]. rewrite N. split; [now intros e ->|]. intros h1 -> N1. cbn [rbind]. now rewrite N1.
Qed.
Print Assumptions C128_no_pointing.
(** The rate printed is that of the pointing, within 1.5 arcsec per minute; for a declination beyond a pole it fails after the first line *)
Theorem C128_rate parse_float fieldrot a f r : predict_fieldrot parse_float fieldrot a = Ok (f, r) ->
  exists ra dec lst, r = dfieldrotdt_empirical_model ra dec lst /\ (90 < Rabs dec -> r = Err ValueError) /\ (Rabs dec <= 90 -> exists v, r = Ok v /\ -1.5 <= v <= 1.5).
Proof.
  unfold predict_fieldrot. destruct (inputs parse_float a) as [[[[[ra dec] mjd] lst] x]|]; [|discriminate]. cbn [rbind]. destruct ra as [ra|], dec as [dec|], mjd as [mjd|]; try discriminate.
  destruct (fieldrot ra dec mjd lst x); [|discriminate]. cbn [rbind]. intros E. injection E as _ <-. exists ra, dec, lst. split; [reflexivity|]. apply C41_range.
Qed.
Print Assumptions C128_rate.
(** A header with an angle of the hexapod but without HEXPOS *)
Definition example_header (hexpos : bool) : header :=
  {| h_targtra := Some 150; h_targtdec := Some 30; h_mjdobs := Some 59000; h_tcsst := Some "10:00:00"%string; h_hexpos := hexpos; h_focus := Some (FTuple [0; 0; 0; 0; 0; 360]) |}.
Definition example_args (hexpos : bool) : arguments :=
  {| a_ra := None; a_dec := None; a_lst := None; a_ha := None; a_mjd := None; a_hexrot_arcsec := 0; a_header := Some (Ok (example_header hexpos), Err FileNotFound) |}.
Definition example_float (s : string) : res R := if String.eqb s "10" then Ok 10 else if String.eqb s "00" then Ok 0 else Err ValueError.
(** The claim that the angle of the hexapod in the header is used is false *)
Theorem C128_angle_used_refuted : exists parse_float fieldrot a h x f, a_header a = Some (Ok h, Err FileNotFound) /\ h_targtra h <> None /\ read_hexrot_deg parse_float h = Ok x /\ x <> 0 /\
  (forall ra dec mjd lst x, fieldrot ra dec mjd lst x = Ok x) /\ predict_fieldrot parse_float fieldrot a = Ok f /\ fst f <> x.
Proof.
  exists example_float, (fun _ _ _ _ x => Ok x), (example_args false), (example_header false). exists (360 / 3600). eexists. split; [reflexivity|]. split; [discriminate|]. split; [reflexivity|]. split; [lra|]. split; [reflexivity|]. split; [reflexivity|]. cbn [fst]. lra.
Qed.
Print Assumptions C128_angle_used_refuted.
(** The claim that missing options end with the message and status 12 is false *)
Theorem C128_missing_refuted : exists parse_float fieldrot a, a_header a = None /\ a_mjd a = None /\ predict_fieldrot parse_float fieldrot a <> Err (SysExit 12) /\ (forall f, predict_fieldrot parse_float fieldrot a <> Ok f).
Proof.
  exists example_float, (fun _ _ _ _ x => Ok x), {| a_ra := Some 0; a_dec := Some 0; a_lst := None; a_ha := None; a_mjd := None; a_hexrot_arcsec := 0; a_header := None |}. cbn. repeat split; discriminate.
Qed.
Print Assumptions C128_missing_refuted.
Example C128_example : pointing (Ok (example_header true), Err FileNotFound) (example_header true) /\ sidereal_time example_float "10:00:00" = Ok 150 /\ joined ":" "10" ["00"; "00"]%string = "10:00:00"%string /\
  read_hexrot_deg example_float (example_header true) = Ok (360 / 3600) /\ predict_fieldrot example_float (fun _ _ _ _ x => Ok x) (example_args true) = Ok (360 / 3600, Ok (-0.447)) /\
  lst_fails {| a_ra := None; a_dec := Some 0; a_lst := None; a_ha := Some 0; a_mjd := Some 0; a_hexrot_arcsec := 0; a_header := None |}.
Proof.
  assert (S : sidereal_time example_float "10:00:00" = Ok 150) by (unfold sidereal_time; cbn -[Rplus Rmult IZR Rdiv]; f_equal; lra).
  split; [left; split; [reflexivity|discriminate]|]. split; [exact S|]. split; [reflexivity|]. split; [reflexivity|]. split; [|split; reflexivity].
  destruct (C128_header example_float (fun _ _ _ _ x => Ok x) (example_args true) _ (example_header true) eq_refl) as [_ H]; [left; split; [reflexivity|discriminate]|].
  rewrite (H 150 30 59000 150 (360 / 3600) eq_refl eq_refl eq_refl S eq_refl). cbn [rbind]. f_equal. f_equal.
  unfold dfieldrotdt_empirical_model. assert (Rltb 90 (Rabs 30) = false) as -> by (apply Rltb_false; rewrite Rabs_right; lra). assert (pymod (150 - 150) 360 = 0) as ->.
  { rewrite pymod_id; lra. }
  assert (Rltb 180 0 = false) as -> by (apply Rltb_false; lra). cbv zeta.
  replace (-0.447 + 0.065 * (0 / 60) - 0.067 * ((30 - 30) / 30) + 0.382 * (0 / 60) ^ 2 + 0.021 * (0 / 60) * ((30 - 30) / 30) - 0.121 * ((30 - 30) / 30) ^ 2 - 0.031 * (0 / 60) ^ 3 + 0.196 * (0 / 60) ^ 2 * ((30 - 30) / 30) + 0.096 * (0 / 60) * ((30 - 30) / 30) ^ 2 - 0.043 * ((30 - 30) / 30) ^ 3) with (-0.447) by lra.
  assert (Rltb (-0.447) (-1.5) = false) as -> by (apply Rltb_false; lra). assert (Rltb 1.5 (-0.447) = false) as -> by (apply Rltb_false; lra). reflexivity.
Qed.
