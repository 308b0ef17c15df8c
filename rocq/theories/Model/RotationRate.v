(** Model of the fit of /repo/bin/desi_fit_field_rotation_rate: a polynomial for the rate of the field rotation, fitted to the guide data. Table values are finite;
    plots and the probability of the chi square are left out (lines 68-111, 121-160), as are the columns that are filled in (lines 25-31). *)
From Verif.Model Require Export LinAlg Trig ZhaoBurge Stats.
Local Open Scope R_scope.
Local Open Scope list_scope.

Record guide := { g_mjd : R; g_rate : R; g_rms : R; g_iterations : Z; g_std : R; g_ha : R; g_dec : R }.
(** line 34 *)
Definition usable (mjd_split : R) (g : guide) : bool :=
  (Rltb (g_mjd g) mjd_split && negb (Reqb (g_rate g) 0) && Rltb (g_rms g) 200 && (30 <? g_iterations g)%Z && Rltb (g_std g) 0.2)%bool.
(** lines 40-43: the values of the ten terms *)
Definition terms (g : guide) : list R :=
  let x := sindeg (g_ha g) in let y := (g_dec g - 30) / 30 in
  [1; x; y; x * y; x ^ 2; y ^ 2; x ^ 3; x ^ 2 * y; y ^ 2 * x; y ^ 3].
Definition term_rows (l : list guide) : list (list R) := map (fun k => map (fun g => nth k (terms g) 0) l) (seq 0 10).
(** lines 50-51 *)
Definition thousandths (p : R) : R := IZR (trunc (p * 1000)) / 1000.
(** lines 34-51: the coefficients printed *)
Definition fit_rate (mjd_split : R) (t : list guide) : res (list R) :=
  let l := filter (usable mjd_split) t in
  let h := term_rows l in
  rmap (map thousandths) (linalg_solve (gram h) (matvec h (map g_rate l))).
(** line 64 *)
Definition model_rate (p : list R) (g : guide) : R := dot (terms g) p.
(** lines 113-120: rms, largest deviation, chi square, numbers of data and of coefficients; errors of 0 are refused *)
Definition report (mjd_split : R) (t : list guide) (p : list R) : res (R * R * R * nat * nat) :=
  let l := filter (usable mjd_split) t in
  let d := map (fun g => g_rate g - model_rate p g) l in
  rbind (mean d) (fun m =>
  if existsb (fun g => Reqb (g_std g) 0) l then Err NonFinite else
  Ok (sqrt (Rsum (map (fun x => (x - m) ^ 2) d) / INR (length d)), fold_right Rmax 0 (map Rabs d),
      Rsum (map (fun g => ((g_rate g - model_rate p g) / g_std g) ^ 2) l), length l, 10%nat)).
