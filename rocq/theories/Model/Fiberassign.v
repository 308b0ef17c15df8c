(** Model of the coordinate functions of /repo/py/desimeter/fiberassign.py (the ADC angles are in RayTraceFit.v). Real arithmetic;
    [None] stands for nan, which numpy keeps to the entry where it arises. The two log messages, which measure the field rotation once more,
    are left out; the ray trace table, the transformation to platemaker and the options of radec2tan are arguments. *)
From Verif.Model Require Export Radec2tan RayTraceFit Dm2pm Stats Xy2qs.
Local Open Scope R_scope.

(** numpy functions of arrays, entry by entry: nan gives nan. *)
Fixpoint refill {A B} (l : list (option A)) (r : list B) : list (option B) :=
  match l with
  | [] => []
  | None :: l' => None :: refill l' r
  | Some _ :: l' => match r with [] => [] | b :: r' => Some b :: refill l' r' end
  end.
Definition somes {A} (l : list (option A)) : list A := flat_map (fun o => match o with Some a => [a] | None => [] end) l.
Definition on_array {A B} (f : list A -> res (list B)) (l : list (option A)) : res (list (option B)) := rmap (refill l) (f (somes l)).
Definition nan_or {A} (r : res A) : res (option A) := match r with Ok a => Ok (Some a) | Err NonFinite => Ok None | Err e => Err e end.

(** fiberassign.py:31-35 at the entries that are not nan; the mean of no entries is nan, and so is 0/0 in an entry. [pairs] are the arguments (ha, dec) and (xfp, yfp). *)
Definition measure_fieldrot_deg (pairs : list (option point * option point)) (tel_ha tel_dec : R) : option R :=
  let ok := flat_map (fun d => match d with (Some s, Some p) => if Rltb (10 ^ 2) (fst p ^ 2 + snd p ^ 2) then [(s, p)] else [] | _ => [] end) pairs in
  let terms := map (fun '(s, p) =>
    let '(x2, y2) := hadec2xy (fst s) (snd s) tel_ha tel_dec in
    let n := sqrt ((fst p ^ 2 + snd p ^ 2) * (x2 ^ 2 + y2 ^ 2)) in
    if Reqb n 0 then None else Some ((snd p * x2 - fst p * y2) / n)) ok in
  if forallb (fun o => match o with Some _ => true | None => false end) terms then
    match mean (somes terms) with Ok m => Some (R2D * m) | Err _ => None end
  else None.

Section Fiberassign.
Variable argsort : forall K, (K -> K -> bool) -> list K -> list nat.
Variable interp1d : list R -> list R -> R -> res R.
Variables (table : rtf) (platemaker : dm2pm_tx) (o : options).

(** fiberassign.py:105-109, 196-200 *)
Definition adc_angles (adc1 adc2 : option R) (tile_ha tile_dec : R) : res (R * R) :=
  match adc1, adc2 with
  | Some a, Some b => Ok (a, b)
  | None, None => Ok (pm_get_adc_angles tile_ha tile_dec)
  | _, _ => Err ValueError
  end.
(** fiberassign.py:119-120, 125-128, 210-211, 216-219, at one position of the sky *)
Definition sky2fp (tel_ra tel_dec mjd lst adc1 adc2 : R) (s : point) : res point :=
  rbind (radec2tan o (fst s) (snd s) tel_ra tel_dec mjd lst 0) (fun p =>
  rbind (tan2fp argsort interp1d table [p] adc1 adc2) (fun l => match l with q :: _ => Ok q | [] => Err IndexError end)).
(** fiberassign.py:117-143, 208-234, [n] passes; the inverse of a matrix of two rows is written out. *)
Fixpoint tune (n : nat) (tile_ra tile_dec mjd lst adc1 adc2 : R) (tel : R * R) : res (R * R) :=
  match n with
  | O => Ok tel
  | S n' =>
      let f s := sky2fp (fst tel) (snd tel) mjd lst adc1 adc2 s in
      let eps := 1 / 3600 in
      rbind (f (tile_ra, tile_dec)) (fun f0 =>
      rbind (f (tile_ra + eps, tile_dec)) (fun f1 =>
      rbind (f (tile_ra, tile_dec + eps)) (fun f2 =>
      let dxdra := (fst f1 - fst f0) / eps in
      let dydra := (snd f1 - snd f0) / eps in
      let dxddec := (fst f2 - fst f0) / eps in
      let dyddec := (snd f2 - snd f0) / eps in
      let det := dxdra * dyddec - dxddec * dydra in
      if Reqb det 0 then Err LinAlgError
      else tune n' tile_ra tile_dec mjd lst adc1 adc2
             (fst tel + (dyddec * fst f0 - dxddec * snd f0) / det, snd tel + (dxdra * snd f0 - dydra * fst f0) / det))))
  end.
(** fiberassign.py:163-166; with the opposite angle, 250-252 *)
Definition rotated (deg : R) (p : point) : point := (cosdeg deg * fst p - sindeg deg * snd p, sindeg deg * fst p + cosdeg deg * snd p).

(** fiberassign.py:83-172; a pointing that is nan makes every entry nan. *)
Definition fiberassign_radec2xy_cs5 (ra dec : list R) (tile_ra tile_dec mjd tile_ha tile_fieldrot : R) (adc1 adc2 : option R) (to_platemaker : bool) : res (list (option point)) :=
  if negb (Nat.eqb (length ra) (length dec)) then Err AssertionError
  else
    let lst := tile_ha + tile_ra in
    rbind (adc_angles adc1 adc2 tile_ha tile_dec) (fun '(adc1, adc2) =>
    rbind (nan_or (tune 2 tile_ra tile_dec mjd lst adc1 adc2 (tile_ra, tile_dec))) (fun tel =>
    match tel with
    | None => Ok (map (fun _ => None) ra)
    | Some (tel_ra, tel_dec) =>
        let sky := combine ra dec in
        rbind (rmapM (fun s => nan_or (radec2tan o (fst s) (snd s) tel_ra tel_dec mjd lst 0)) sky) (fun tan =>
        rbind (on_array (fun pts => tan2fp argsort interp1d table pts adc1 adc2) tan) (fun fp =>
        rbind (if to_platemaker then on_array (rmapM (dm2pm platemaker)) fp else Ok fp) (fun fp =>
        match measure_fieldrot_deg (combine (map (fun s => Some (- fst s, snd s)) sky) fp) (- tile_ra) tile_dec with
        | None => Ok (map (fun _ => None) fp)
        | Some m => Ok (map (option_map (rotated (tile_fieldrot - m))) fp)
        end)))
    end)).

(** fiberassign.py:174-261 *)
Definition fiberassign_cs5_xy2radec (xfp yfp : list R) (tile_ra tile_dec mjd tile_ha tile_fieldrot : R) (adc1 adc2 : option R) (from_platemaker : bool) : res (list (option point)) :=
  if negb (Nat.eqb (length xfp) (length yfp)) then Err AssertionError
  else
    let lst := tile_ha + tile_ra in
    rbind (adc_angles adc1 adc2 tile_ha tile_dec) (fun '(adc1, adc2) =>
    rbind (nan_or (tune 2 tile_ra tile_dec mjd lst adc1 adc2 (tile_ra, tile_dec))) (fun tel =>
    match tel with
    | None => Ok (map (fun _ => None) xfp)
    | Some (tel_ra, tel_dec) =>
        rbind (let fp := combine xfp yfp in if from_platemaker then rmapM (pm2dm platemaker) fp else Ok fp) (fun fp =>
        let fp2radec pts :=
          rbind (fp2tan argsort interp1d table pts adc1 adc2) (fun tan =>
          rmapM (fun p => nan_or (tan2radec o (fst p) (snd p) tel_ra tel_dec mjd lst 0)) tan) in
        rbind (fp2radec fp) (fun tmp =>
        match measure_fieldrot_deg (combine (map (option_map (fun s => (- fst s, snd s))) tmp) (map Some fp)) (- tile_ra) tile_dec with
        | None => Ok (map (fun _ => None) fp)
        | Some m => fp2radec (map (rotated (- (tile_fieldrot - m))) fp)
        end))
    end)).

(** fiberassign.py:264-287 *)
Definition fiberassign_radec2xy_flat (ra dec : list R) (tile_ra tile_dec mjd tile_ha tile_fieldrot : R) (adc1 adc2 : option R) (to_platemaker : bool) : res (list (option point)) :=
  rmap (map (option_map (fun p => ptl2flat (fst p) (snd p)))) (fiberassign_radec2xy_cs5 ra dec tile_ra tile_dec mjd tile_ha tile_fieldrot adc1 adc2 to_platemaker).
(** fiberassign.py:291-310; arctan2 and hypot of arrays of different lengths raise ValueError *)
Definition fiberassign_flat_xy2radec (xflat yflat : list R) (tile_ra tile_dec mjd tile_ha tile_fieldrot : R) (adc1 adc2 : option R) (from_platemaker : bool) : res (list (option point)) :=
  if negb (Nat.eqb (length xflat) (length yflat)) then Err ValueError
  else
    let fp := map (fun p => flat2ptl (fst p) (snd p)) (combine xflat yflat) in
    fiberassign_cs5_xy2radec (map fst fp) (map snd fp) tile_ra tile_dec mjd tile_ha tile_fieldrot adc1 adc2 from_platemaker.
End Fiberassign.
