(** Model of /repo/py/desimeter/transform/tan2fp/echo22.py. Real arithmetic. The module variables in which the fitted
    coefficients are kept are left out: the fit has no arguments, so that it gives the same coefficients each time. *)
From Verif.Model Require Export LinAlg Trig Echo22Table.
Local Open Scope R_scope.

(** [np.polyfit(x, y, deg)]: the Vandermonde matrix has the columns x^deg, ..., x^0; the least squares solution is modelled as the
    solution of the normal equations (numpy scales the columns and uses a singular value decomposition, cutting
    singular values below its rcond: left out). *)
Definition powers (deg : nat) : list nat := rev (seq 0 (S deg)).
Definition vander (deg : nat) (xs : list R) : list (list R) := map (fun k => map (fun x => x ^ k) xs) (powers deg).
Definition polyfit (xs ys : list R) (deg : nat) : res (list R) := linalg_solve (gram (vander deg xs)) (matvec (vander deg xs) ys).
(** [np.polyval(p, x)] *)
Definition polyval (p : list R) (x : R) : R := fold_left (fun y c => y * x + c) p 0.

(** echo22.py:12 *)
Definition rscale : R := 415.
(** echo22.py:93-95 [np.loadtxt(echo22file, dtype=dtype, usecols=[0,1])] *)
Definition echo22 : list (R * R) := map (fun r => (IZR (fst r), IZR (snd r) / 1000000000)) echo22_platescale.
(** echo22.py:72-103 [_fit_r2theta], with deg=5 as called. *)
Definition fit_r2theta (deg : nat) : res (list R * list R) :=
  let rows := filter (fun r => Rleb (fst r) rscale) echo22 in
  rbind (polyfit (map (fun r => fst r / rscale) rows) (map snd rows) deg) (fun r2t_coeff =>
  rbind (polyfit (map snd rows) (map fst rows) deg) (fun t2r_coeff => Ok (r2t_coeff, t2r_coeff))).
(** echo22.py:50-59 *)
Definition radius2theta (radius : R) : res R := rbind (fit_r2theta 5) (fun c => Ok (polyval (fst c) (radius / rscale))).
(** echo22.py:61-70 *)
Definition theta2radius (theta : R) : res R := rbind (fit_r2theta 5) (fun c => Ok (polyval (snd c) theta)).
(** echo22.py:14-30; [arcsind] of more than 1 is nan. *)
Definition tan2fp (xtan ytan : R) : res point :=
  let phi := atan2 ytan xtan in
  let rtan := sqrt (xtan * xtan + ytan * ytan) in
  if Rltb 1 rtan then Err NonFinite
  else rbind (theta2radius (arcsind rtan)) (fun r => Ok (r * cos phi, r * sin phi)).
(** echo22.py:32-47 *)
Definition fp2tan (xfp yfp : R) : res point :=
  let phi := atan2 yfp xfp in
  let r := sqrt (xfp * xfp + yfp * yfp) in
  rbind (radius2theta r) (fun theta => let rtan := sindeg theta in Ok (rtan * cos phi, rtan * sin phi)).
