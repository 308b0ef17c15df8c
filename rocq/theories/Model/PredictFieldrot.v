(** Model of /repo/bin/desi_predict_fieldrot and of read_hexrot_deg of /repo/py/desimeter/io.py. Numbers of arguments and headers are real; [float] of a text is an argument,
    as is the field rotation of fieldmodel.py (fieldrot of Model/GuideStars.v once its transformations are given). Log messages are left out; the format of the two lines too. *)
From Verif.Model Require Export FieldModel Trig.
Local Open Scope R_scope.
Local Open Scope list_scope.

(** A value of the keyword FOCUS *)
Inductive focus := FText (s : string) | FTuple (l : list R) | FOther.
(** The keywords of a header that are used; [h_hexpos] tells whether HEXPOS is there *)
Record header := { h_targtra : option R; h_targtdec : option R; h_mjdobs : option R; h_tcsst : option string; h_hexpos : bool; h_focus : option focus }.
(** The arguments; [a_header] is the header file with the headers of HDU 0 and 1, reading a HDU may fail *)
Record arguments := { a_ra : option R; a_dec : option R; a_lst : option R; a_ha : option R; a_mjd : option R; a_hexrot_arcsec : R; a_header : option (res header * res header) }.
Definition key {A} (v : option A) : res A := match v with Some v => Ok v | None => Err KeyError end.
(** None in a sum *)
Definition number (v : option R) : res R := match v with Some v => Ok v | None => Err TypeError end.

Section Predict.
Variable parse_float : string -> res R.
Variable fieldrot : R -> R -> R -> R -> R -> res R.
(** io.py:7-33 *)
Definition read_hexrot_deg (h : header) : res R :=
  rbind (key (h_focus h)) (fun f =>
  match f with
  | FText s => let l := split_char "," s in
      if Nat.eqb (length l) 6 then rbind (geti l 5) (fun v => rmap (fun x => x / 3600) (parse_float v)) else Err ValueError
  | FTuple l => if Nat.eqb (length l) 6 then rmap (fun x => x / 3600) (geti l 5) else Err ValueError
  | FOther => Err ValueError
  end).
(** desi_predict_fieldrot:54-55 *)
Definition sidereal_time (s : string) : res R :=
  let vals := split_char ":" s in
  rbind (geti vals 0) (fun v0 => rbind (parse_float v0) (fun hour =>
  rbind (geti vals 1) (fun v1 => rbind (parse_float v1) (fun minute =>
  rbind (geti vals 2) (fun v2 => rbind (parse_float v2) (fun second =>
  Ok ((hour + minute / 60 + second / 3600) / 24 * 360))))))).
(** desi_predict_fieldrot:42-48 *)
Definition choose_header (f : res header * res header) : res header :=
  rbind (fst f) (fun h0 => match h_targtra h0 with Some _ => Ok h0 | None =>
  rbind (snd f) (fun h1 => match h_targtra h1 with Some _ => Ok h1 | None => Err (SysExit 12) end) end).
(** desi_predict_fieldrot:41-76: ra, dec, mjd, lst and the angle of the hexapod *)
Definition inputs (a : arguments) : res (option R * option R * option R * R * R) :=
  match a_header a with
  | Some f =>
      rbind (choose_header f) (fun h =>
      rbind (key (h_targtra h)) (fun ra => rbind (key (h_targtdec h)) (fun dec => rbind (key (h_mjdobs h)) (fun mjd =>
      rbind (match h_tcsst h with Some s => sidereal_time s | None => Ok (mjd2lst mjd) end) (fun lst =>
      rbind (if h_hexpos h then read_hexrot_deg h else Ok 0) (fun hexrot => Ok (Some ra, Some dec, Some mjd, lst, hexrot)))))))
  | None =>
      rbind (match a_lst a, a_ha a with
             | Some lst, _ => Ok lst
             | None, Some ha => rmap (fun ra => ra + ha) (number (a_ra a))
             | None, None => rmap mjd2lst (number (a_mjd a))
             end) (fun lst =>
      Ok (a_ra a, a_dec a, a_mjd a, lst, if Reqb (a_hexrot_arcsec a) 0 then 0 else a_hexrot_arcsec a / 3600))
  end.
(** desi_predict_fieldrot:78-83: the number of the first line, and that of the second one, which can fail when the first is printed *)
Definition predict_fieldrot (a : arguments) : res (R * res R) :=
  rbind (inputs a) (fun '(ra, dec, mjd, lst, hexrot) =>
  match ra, dec, mjd with
  | Some ra, Some dec, Some mjd => rbind (fieldrot ra dec mjd lst hexrot) (fun f => Ok (f, dfieldrotdt_empirical_model ra dec lst))
  | _, _, _ => Err (SysExit 12)
  end).
End Predict.
