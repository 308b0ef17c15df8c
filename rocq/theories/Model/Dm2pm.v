(** Model of /repo/py/desimeter/transform/dm2pm.py. Real arithmetic; the file functions (lines 24-44), which
    only look for ".json" in the name and then use tojson and fromjson, are left out. *)
From Verif.Model Require Export ZhaoBurge Json.
Local Open Scope R_scope.

(** dm2pm.py:15-21 *)
Record dm2pm_tx := { d_polids : list Z; d_dm2pm : list R; d_pm2dm : list R }.
Definition dm2pm_new : dm2pm_tx :=
  {| d_polids := [0; 1; 2; 3; 4; 5; 6; 9; 20; 27; 28; 29; 30]%Z; d_dm2pm := repeat 0 13; d_pm2dm := repeat 0 13 |}.

(** dm2pm.py:47-59 *)
Definition reduce_xy (p : point) : point := (fst p / 420, snd p / 420).
Definition expand_xy (p : point) : point := (fst p * 420, snd p * 420).

(** dm2pm.py:61-68, before [json.dumps] *)
Definition dm2pm_tojson (t : dm2pm_tx) : dict string json :=
  [("method", JStr "Zhao-Burge"); ("version", JStr "1"); ("zbpolids", JArr (map JInt (d_polids t)));
   ("dm2pm_zbcoeffs", JArr (map JNum (d_dm2pm t))); ("pm2dm_zbcoeffs", JArr (map JNum (d_pm2dm t)))]%string.

(** [np.asarray(l)] of a list of integers; simplified: anything else is refused. *)
Definition int_array (v : json) : res (list Z) :=
  match v with JArr l => rmapM (fun x => match x with JInt z => Ok z | _ => Err TypeError end) l | _ => Err TypeError end.
(** [np.asarray(l).astype(float)] as a list *)
Definition real_array (v : json) : res (list R) :=
  match v with
  | JArr l => rmapM (fun x => match x with JNum r => Ok r | JInt z => Ok (IZR z) | JBool b => Ok (if b then 1 else 0) | _ => Err ValueError end) l
  | _ => Err ValueError
  end.
Definition item (params : dict string json) (k : string) : res json := match aget params k with Some v => Ok v | None => Err KeyError end.
(** dm2pm.py:73-84, after [json.loads] *)
Definition dm2pm_fromjson (params : dict string json) : res dm2pm_tx :=
  rbind (assert_is params "method" "Zhao-Burge") (fun _ =>
  rbind (item params "version") (fun v =>
  match v with
  | JStr "1"%string =>
      rbind (rbind (item params "zbpolids") int_array) (fun ids =>
      rbind (rbind (item params "dm2pm_zbcoeffs") real_array) (fun c1 =>
      rbind (rbind (item params "pm2dm_zbcoeffs") real_array) (fun c2 => Ok {| d_polids := ids; d_dm2pm := c1; d_pm2dm := c2 |})))
  | _ => Err RuntimeError
  end)).

(** dm2pm.py:86-92: the object after the call, and its outcome; [data] are pairs of desimeter and platemaker coordinates. *)
Definition dm2pm_fit (t : dm2pm_tx) (data : list (point * point)) : dm2pm_tx * res unit :=
  let rdm := map (fun d => reduce_xy (fst d)) data in
  let rpm := map (fun d => reduce_xy (snd d)) data in
  match fitZhaoBurge rdm rpm (Some (d_polids t)) with
  | Err e => (t, Err e)
  | Ok (_, c1) =>
      let t1 := {| d_polids := d_polids t; d_dm2pm := c1; d_pm2dm := d_pm2dm t |} in
      match fitZhaoBurge rpm rdm (Some (d_polids t)) with
      | Err e => (t1, Err e)
      | Ok (_, c2) => ({| d_polids := d_polids t; d_dm2pm := c1; d_pm2dm := c2 |}, Ok tt)
      end
  end.

(** dm2pm.py:94-110, at one point *)
Definition apply_zb (polids : list Z) (coeffs : list R) (p : point) : res point :=
  let r := reduce_xy p in
  rbind (getZhaoBurgeXY polids coeffs (fst r) (snd r)) (fun d => Ok (expand_xy (fst r + fst d, snd r + snd d))).
Definition dm2pm (t : dm2pm_tx) (p : point) : res point := apply_zb (d_polids t) (d_dm2pm t) p.
Definition pm2dm (t : dm2pm_tx) (p : point) : res point := apply_zb (d_polids t) (d_pm2dm t) p.
