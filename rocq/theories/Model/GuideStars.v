(** Model of the guide star part of /repo/py/desimeter/fieldmodel.py: read_guide_stars_catalog from the table on, fit_tancorr, compute_fieldrot,
    fp2radec, radec2fp, fieldrot and dfieldrotdt_physical_model. Real arithmetic; [Err NonFinite] stands for attributes that are nan or inf. The two
    transformations between tangent plane and focal plane, the Julian year and the sidereal time of a date are arguments. Log messages are left out. *)
From Verif.Model Require Export FieldModel Gfa2fp.
Local Open Scope R_scope.

(** A row of the catalogue. [None] stands for a proper motion that is not finite. *)
Record star := { s_x : R; s_y : R; s_petal : Z; s_ra : R; s_dec : R; s_ra_gaia : R; s_dec_gaia : R; s_pmra : option R; s_pmdec : option R; s_epoch : R; s_mjd : R }.
(** The table: whether it has the columns mjd_obs, xcentroid, ra_gaia, the three of proper motion, and the rows. *)
Record catalogue := { c_mjd_obs : bool; c_xcentroid : bool; c_ra_gaia : bool; c_pm : bool; c_stars : list star }.

(** fieldmodel.py:112-127: the Gaia position at the given year; at a pole, where the cosine is zero in exact arithmetic, the right
    ascension is taken as not finite (in floating point the cosine is 6e-17 there and the right ascension far off). *)
Definition moved_position (year : R) (s : star) : option (R * R) :=
  let pmra := match s_pmra s with Some v => v | None => 0 end in
  let pmdec := match s_pmdec s with Some v => v | None => 0 end in
  let c := cosdeg (s_dec_gaia s) in
  if Reqb c 0 then None
  else Some (s_ra_gaia s + (year - s_epoch s) * pmra / 3600e3 / c, s_dec_gaia s + (year - s_epoch s) * pmdec / 3600e3).
(** fieldmodel.py:138-142; comparisons with nan are false *)
Definition good_match (max_sep : R) (s : star) (g : option (R * R)) : bool :=
  match g with
  | None => false
  | Some (ra, dec) =>
      let dra := (s_ra s - ra) * cosdeg dec * 3600 in
      let ddec := (s_dec s - dec) * 3600 in
      Rltb (sqrt (dra ^ 2 + ddec ^ 2)) max_sep
  end.
Definition selected (max_sep : R) (position : star -> option (R * R)) (l : list star) : list (star * (R * R)) :=
  flat_map (fun s => if good_match max_sep s (position s) then match position s with Some g => [(s, g)] | None => [] end else []) l.

(** fieldmodel.py:19-40 *)
Record field_model := { m_ra : R; m_dec : R; m_mjd : option R; m_lst : option R; m_hexrot : option R; m_adc1 : R; m_adc2 : R;
  m_corr : field_params; m_fieldrot : R; m_nstars : nat; m_rms : R }.
Definition with_mjd (m : field_model) (mjd : option R) : field_model :=
  {| m_ra := m_ra m; m_dec := m_dec m; m_mjd := mjd; m_lst := m_lst m; m_hexrot := m_hexrot m; m_adc1 := m_adc1 m; m_adc2 := m_adc2 m;
     m_corr := m_corr m; m_fieldrot := m_fieldrot m; m_nstars := m_nstars m; m_rms := m_rms m |}.

Section GuideStars.
Variable jyear : R -> R.
Variable mjd2lst : R -> R.
Variable argsort : forall K, (K -> K -> bool) -> list K -> list nat.
Variable metrology : list gfa_row.
Variable fp2tan : R -> R -> list point -> res (list point).
Variable tan2fp : R -> R -> list point -> res (list point).
(** self.precession, self.aberration, self.polar_misalignment (fieldmodel.py:30-32) *)
Variable o : options.

(** fieldmodel.py:88-147: the model (its date may change) and the stars with their positions. The date of a table without rows, nan,
    is left as it was: there is an error in any case. *)
Definition read_guide_stars_catalog (m : field_model) (cat : catalogue) (max_sep : R) : field_model * res (list (star * (R * R))) :=
  let m := if c_mjd_obs cat then match mean (map s_mjd (c_stars cat)) with Ok v => with_mjd m (Some v) | Err _ => m end else m in
  if (negb (c_xcentroid cat) || negb (c_ra_gaia cat))%bool then (m, Err RuntimeError)
  else
    match (if c_pm cat then match m_mjd m with None => Err RuntimeError | Some mjd => Ok (moved_position (jyear mjd)) end
           else Ok (fun s => Some (s_ra_gaia s, s_dec_gaia s))) with
    | Err e => (m, Err e)
    | Ok position =>
        match selected max_sep position (c_stars cat) with
        | [] => (m, Err RuntimeError)
        | l => (m, Ok l)
        end
    end.

(** fieldmodel.py:281-297, for one star: (0, 0) without metrology *)
Definition star_fp (s : star) : res point :=
  match gfa2fp argsort metrology (s_petal s) (s_x s, s_y s) with Err KeyError => Ok (0, 0) | r => r end.

(** fieldmodel.py:206-217: one pass, from the measured points and the stars; the pointing and the correction *)
Definition fit_pass (mjd lst hexrot : R) (meas sky : list (R * R)) (tel : R * R) : res ((R * R) * tancorr) :=
  rbind (rmapM (fun g => radec2tan o (fst g) (snd g) (fst tel) (snd tel) mjd lst hexrot) sky) (fun gaia =>
  rbind (tan_fit (map fst meas) (map snd meas) (map fst gaia) (map snd gaia)) (fun c =>
  let dec := snd tel - t_ddec c in
  if Reqb (cosdeg dec) 0 then Err NonFinite else Ok ((fst tel + t_dha c / cosdeg dec, dec), c))).

(** fieldmodel.py:299-303, for a list of points; one that is not finite spoils the answer here, in the code only its own entry *)
Definition fp2radec (m : field_model) (mjd lst hexrot : R) (l : list point) : res (list (R * R)) :=
  rbind (fp2tan (m_adc1 m) (m_adc2 m) l) (fun l =>
  rmapM (fun q => rbind (tancorr_inst2sky (m_corr m) q) (fun q => tan2radec o (fst q) (snd q) (m_ra m) (m_dec m) mjd lst hexrot)) l).
(** fieldmodel.py:305-309 *)
Definition radec2fp (m : field_model) (mjd lst hexrot : R) (l : list (R * R)) : res (list point) :=
  rbind (rmapM (fun g => rbind (radec2tan o (fst g) (snd g) (m_ra m) (m_dec m) mjd lst hexrot) (fun q => tancorr_sky2inst (m_corr m) q)) l) (fun l =>
  tan2fp (m_adc1 m) (m_adc2 m) l).

(** fieldmodel.py:239-242 *)
Definition arms : list point := let d := PI / 180 in [(d, 0); (0, d); (- d, 0); (0, - d)].
(** fieldmodel.py:237-252 *)
Definition compute_fieldrot (m : field_model) (mjd lst hexrot : R) : res R :=
  rbind (tan2fp (m_adc1 m) (m_adc2 m) ((0, 0) :: arms)) (fun fp =>
  rbind (fp2radec m mjd lst hexrot fp) (fun sky =>
  match sky with
  | [] => Err IndexError
  | c :: rest =>
      let offsets := map (fun g => hadec2xy (lst - fst g) (snd g) (lst - fst c) (snd c)) rest in
      rbind (rmapM (fun '(a, b) =>
        let n := sqrt ((fst a ^ 2 + snd a ^ 2) * (fst b ^ 2 + snd b ^ 2)) in
        if Reqb n 0 then Err NonFinite else Ok ((snd a * fst b - fst a * snd b) / n)) (combine arms offsets)) (fun terms =>
      rbind (mean terms) (fun v => Ok (rad2deg v)))
  end)).

(** fieldmodel.py:149-234. The columns of the catalogue are those of the stars read; a date of the catalogue is used if none is known. *)
Definition fit_tancorr (m : field_model) (has_mjd_obs : bool) (stars : list (star * (R * R))) (mjd hexrot lst : option R) : res field_model :=
  rbind (match mjd, m_mjd m with
         | Some v, _ => Ok v
         | None, Some v => Ok v
         | None, None => if has_mjd_obs then mean (map (fun s => s_mjd (fst s)) stars) else Err RuntimeError
         end) (fun mjd =>
  rbind (match hexrot, m_hexrot m with Some v, _ => Ok v | None, Some v => Ok v | None, None => Err RuntimeError end) (fun hexrot =>
  let lst := match lst, m_lst m with Some v, _ => v | None, Some v => v | None, None => mjd2lst mjd end in
  rbind (rmapM (fun s => rmap (fun p => (p, snd s)) (star_fp (fst s))) stars) (fun placed =>
  let used := filter (fun d => negb (Reqb (fst (fst d)) 0)) placed in
  rbind (fp2tan (m_adc1 m) (m_adc2 m) (map fst used)) (fun meas =>
  let pass := fit_pass mjd lst hexrot meas (map snd used) in
  rbind (pass (m_ra m, m_dec m)) (fun r => rbind (pass (fst r)) (fun r => rbind (pass (fst r)) (fun '(tel, c) =>
  let m := {| m_ra := fst tel; m_dec := snd tel; m_mjd := Some mjd; m_lst := Some lst; m_hexrot := Some hexrot; m_adc1 := m_adc1 m; m_adc2 := m_adc2 m;
              m_corr := {| f_sxx := t_sxx c; f_syy := t_syy c; f_sxy := t_sxy c; f_fieldrot_zp_deg := t_rot_deg c |};
              m_fieldrot := m_fieldrot m; m_nstars := t_nstars c; m_rms := t_rms_arcsec c |} in
  rbind (compute_fieldrot m mjd lst hexrot) (fun f =>
  Ok {| m_ra := m_ra m; m_dec := m_dec m; m_mjd := m_mjd m; m_lst := m_lst m; m_hexrot := m_hexrot m; m_adc1 := m_adc1 m; m_adc2 := m_adc2 m;
        m_corr := m_corr m; m_fieldrot := f; m_nstars := m_nstars m; m_rms := m_rms m |})))))))).

(** fieldmodel.py:451-476 *)
Definition plain_model (ra dec mjd lst hexrot : R) : field_model :=
  {| m_ra := ra; m_dec := dec; m_mjd := Some mjd; m_lst := Some lst; m_hexrot := Some hexrot; m_adc1 := 0; m_adc2 := 0;
     m_corr := {| f_sxx := 1; f_syy := 1; f_sxy := 0; f_fieldrot_zp_deg := 0 |}; m_fieldrot := 0; m_nstars := 0; m_rms := 0 |}.
Definition fieldrot (ra dec mjd lst hexrot : R) : res R := compute_fieldrot (plain_model ra dec mjd lst hexrot) mjd lst hexrot.
(** fieldmodel.py:478-493 *)
Definition dfieldrotdt_physical_model (ra dec mjd lst : R) : res R :=
  let one_minute_in_degrees := 1 / 60 / 24 * 360 in
  rbind (fieldrot ra dec mjd (lst + one_minute_in_degrees) 0) (fun a => rbind (fieldrot ra dec mjd lst 0) (fun b => Ok (3600 * (a - b)))).
End GuideStars.
