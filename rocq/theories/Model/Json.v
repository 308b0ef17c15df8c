(** Model of the tojson/fromjson pairs of SimpleCorr, TanCorr, FieldModel and FVC2FP. An object is
    the dictionary of its attributes. [json.loads(json.dumps(d))] is modelled as d for a dictionary
    with distinct string keys holding numbers, strings, booleans, None and lists of these. *)
From Verif.Model Require Export RealNum.
Local Open Scope string_scope.

Inductive json := JNull | JBool (b : bool) | JNum (r : R) | JInt (z : Z) | JStr (s : string) | JArr (l : list json).
Notation attrs := (dict string json) (only parsing).
Definition aget (d : attrs) (f : string) : option json := dict_get String.eqb d f.
Definition aset (d : attrs) (f : string) (v : json) : attrs := dict_set String.eqb d f v.

(** [params[f] = self.f] for each field *)
Definition write_fields (obj : attrs) (fields : list string) : res attrs :=
  rmapM (fun f => match aget obj f with Some v => Ok (f, v) | None => Err AttributeError end) fields.
(** [tx.f = params[f]] for each field *)
Fixpoint read_fields (params obj : attrs) (fields : list string) : res attrs :=
  match fields with
  | [] => Ok obj
  | f :: r => match aget params f with Some v => read_fields params (aset obj f v) r | None => Err KeyError end
  end.
(** [assert params[k] == s] *)
Definition assert_is (params : attrs) (k s : string) : res unit :=
  match aget params k with
  | None => Err KeyError
  | Some (JStr s') => if String.eqb s' s then Ok tt else Err AssertionError
  | Some _ => Err AssertionError
  end.

Definition zero := JNum 0. Definition one := JNum 1.

(** simplecorr.py:11-19 *)
Definition simplecorr_fields := ["dx"; "dy"; "sxx"; "syy"; "sxy"; "rot_deg"; "nmatch"; "rms"].
Definition simplecorr_new : attrs :=
  [("dx", zero); ("dy", zero); ("sxx", one); ("syy", one); ("sxy", zero); ("rot_deg", zero); ("nmatch", JInt 0); ("rms", zero)].
(** simplecorr.py:21-33 *)
Definition simplecorr_tojson (c : attrs) : res attrs :=
  rmap (fun d => ("name", JStr "Simple Correction") :: ("version", JStr "1") :: d) (write_fields c simplecorr_fields).
(** simplecorr.py:35-49 *)
Definition simplecorr_fromjson (params : attrs) : res attrs :=
  rbind (assert_is params "name" "Tangent Plane Adjustment") (fun _ =>
  rbind (assert_is params "version" "1") (fun _ => read_fields params simplecorr_new simplecorr_fields)).

(** fieldmodel.py:313-321 *)
Definition tancorr_fields := ["dha"; "ddec"; "sxx"; "syy"; "sxy"; "rot_deg"; "nstars"; "rms_arcsec"].
Definition tancorr_new : attrs :=
  [("dha", zero); ("ddec", zero); ("sxx", one); ("syy", one); ("sxy", zero); ("rot_deg", zero); ("nstars", JInt 0); ("rms_arcsec", zero)].
(** fieldmodel.py:323-335 *)
Definition tancorr_tojson (c : attrs) : res attrs :=
  rmap (fun d => ("name", JStr "Tangent Plane Correction") :: ("version", JStr "1") :: d) (write_fields c tancorr_fields).
(** fieldmodel.py:337-351 *)
Definition tancorr_fromjson (params : attrs) : res attrs :=
  rbind (assert_is params "name" "Tangent Plane Adjustment") (fun _ =>
  rbind (assert_is params "version" "1") (fun _ => read_fields params tancorr_new tancorr_fields)).

(** fieldmodel.py:46-61, 70-85: the fields written and read. *)
Definition fieldmodel_fields :=
  ["ra"; "dec"; "mjd"; "lst"; "hexrot_deg"; "adc1"; "adc2"; "sxx"; "syy"; "sxy"; "fieldrot_zp_deg"; "fieldrot_deg";
   "expid"; "nstars"; "rms_arcsec"].
(** fieldmodel.py:19-40 *)
Definition fieldmodel_new : attrs :=
  [("ra", JNull); ("dec", JNull); ("mjd", JNull); ("lst", JNull); ("hexrot_deg", JNull); ("adc1", JNull); ("adc2", JNull);
   ("precession", JBool true); ("aberration", JBool true); ("polar_misalignment", JBool true);
   ("sxx", one); ("syy", one); ("sxy", zero); ("fieldrot_zp_deg", zero); ("fieldrot_deg", zero);
   ("expid", JInt 0); ("nstars", JInt 0); ("rms_arcsec", zero)].
(** fieldmodel.py:42-62 *)
Definition fieldmodel_tojson (m : attrs) : res attrs :=
  rmap (fun d => ("name", JStr "Field model") :: ("version", JStr "1") :: d) (write_fields m fieldmodel_fields).
(** fieldmodel.py:64-86 *)
Definition fieldmodel_fromjson (params : attrs) : res attrs :=
  rbind (assert_is params "name" "Field model") (fun _ =>
  rbind (assert_is params "version" "1") (fun _ => read_fields params fieldmodel_new fieldmodel_fields)).

(** [getattr(self, f, None)] *)
Definition getattr_none (d : attrs) (f : string) : json := match aget d f with Some v => v | None => JNull end.
(** [np.asarray(l).astype(float)] *)
Definition to_float (v : json) : res json :=
  match v with JNum r => Ok (JNum r) | JInt z => Ok (JNum (IZR z)) | JBool b => Ok (JNum (if b then 1 else 0)%R) | _ => Err ValueError end.
Definition float_array (v : json) : res json :=
  match v with JArr l => rmap JArr (rmapM to_float l) | _ => Err ValueError end.
(** [[int(polid) for polid in ids]] *)
Definition int_list (v : json) : res json :=
  match v with
  | JArr l => rmap JArr (rmapM (fun x => match x with JInt z => Ok (JInt z) | _ => Err TypeError end) l)
  | _ => Err TypeError
  end.
(** fvc2fp.py:16-25 *)
Definition polids_v2 := JArr (map JInt [0; 1; 2; 3; 4; 5; 6; 9; 20; 27; 28; 29; 30]).
Definition polids_v1 := JArr (map JInt [2; 5; 6; 9; 20; 28; 29; 30]).
Definition fvc2fp_new : attrs :=
  [("xfvc_scale", JNum (-3000)); ("yfvc_scale", JNum 3000); ("xfvc_offset", JNum 3000); ("yfvc_offset", JNum 3000);
   ("zbpolids", polids_v2); ("zbcoeffs", JArr (repeat zero 13))].
Definition fvc2fp_optional := ["meandistance"; "mediandistance"; "rmsdistance"; "nmatch"].
(** fvc2fp.py:94-96 *)
Definition optional_entry (t : attrs) (f : string) : attrs := match getattr_none t f with JNull => [] | v => [(f, v)] end.
(** fvc2fp.py:77-97 *)
Definition fvc2fp_tojson (t : attrs) : res attrs :=
  rbind (write_fields t ["xfvc_scale"; "yfvc_scale"; "xfvc_offset"; "yfvc_offset"; "scale"; "rotation"; "offset_x"; "offset_y"]) (fun d =>
  rbind (match aget t "zbpolids" with Some v => int_list v | None => Err AttributeError end) (fun ids =>
  rbind (match aget t "zbcoeffs" with Some v => Ok v | None => Err AttributeError end) (fun cs =>
  Ok (("method", JStr "Zhao-Burge") :: ("version", JStr "2") :: d ++ [("zbpolids", ids); ("zbcoeffs", cs)]
      ++ List.concat (map (optional_entry t) fvc2fp_optional))))).
(** fvc2fp.py:127-129 *)
Fixpoint add_fields (params obj : attrs) (fields : list string) : attrs :=
  match fields with
  | [] => obj
  | f :: r => add_fields params (match aget params f with Some v => aset obj f v | None => obj end) r
  end.
(** fvc2fp.py:102-131 *)
Definition fvc2fp_fromjson (params : attrs) : res attrs :=
  rbind (assert_is params "method" "Zhao-Burge") (fun _ =>
  rbind (match aget params "version" with
         | None => Err KeyError
         | Some (JStr "1") =>
             rbind (read_fields params fvc2fp_new ["scale"; "rotation"; "offset_x"; "offset_y"]) (fun tx =>
             let tx := aset tx "zbpolids" polids_v1 in
             match aget params "zbcoeffs" with
             | None => Err KeyError
             | Some v => rmap (aset tx "zbcoeffs") (float_array v)
             end)
         | Some (JStr "2") =>
             rbind (read_fields params fvc2fp_new ["scale"; "rotation"; "offset_x"; "offset_y"]) (fun tx =>
             rbind (read_fields params tx ["zbpolids"]) (fun tx =>
             match aget params "zbcoeffs" with
             | None => Err KeyError
             | Some v => rmap (aset tx "zbcoeffs") (float_array v)
             end))
         | Some _ => Err RuntimeError
         end) (fun tx =>
  Ok (add_fields params tx (["xfvc_scale"; "yfvc_scale"; "xfvc_offset"; "yfvc_offset"] ++ fvc2fp_optional)%list))).
