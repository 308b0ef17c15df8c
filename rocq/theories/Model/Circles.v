(** Model of /repo/py/desimeter/circles.py. Simplified: the arrays x and y are one list of points; what is printed is
    left out. *)
From Verif.Model Require Export Stats Xy2qs.
Local Open Scope R_scope.

Definition dist_to (c p : R * R) : R := hypot (fst p - fst c) (snd p - snd c).
Definition pt (P : list (R * R)) (i : nat) : R * R := nth i P (0, 0).

(** circles.py:84: [(i+nn//2-1)%nn]; for one point Python's (-1)%1 is 0 as here. *)
Definition i2 (nn i : nat) : nat := (i + nn / 2 - 1) mod nn.
(** circles.py:87-90 *)
Definition mid (P : list (R * R)) (i : nat) : R * R :=
  let a := pt P i in let b := pt P (i2 (length P) i) in ((fst a + fst b) / 2, (snd a + snd b) / 2).
Definition nrm (P : list (R * R)) (i : nat) : R * R :=
  let a := pt P i in let b := pt P (i2 (length P) i) in (snd b - snd a, - (fst b - fst a)).
(** circles.py:97-105: the intersection of two perpendicular bisectors *)
Definition center_at (P : list (R * R)) (i : nat) : R * R :=
  let j := i2 (length P) i in
  let '(mx1, my1) := mid P i in let '(nx1, ny1) := nrm P i in let '(mx2, my2) := mid P j in let '(nx2, ny2) := nrm P j in
  let num := ny2 * mx2 - nx2 * my2 - ny2 * mx1 + nx2 * my1 in
  let denom := ny2 * nx1 - nx2 * ny1 in
  let s1 := if Reqb denom 0 then 0 else num / denom in
  (mx1 + nx1 * s1, my1 + ny1 * s1).
(** circles.py:67-117 *)
Definition fast_fit_circle (use_median : bool) (P : list (R * R)) : res ((R * R) * R) :=
  let av := if use_median then median else mean in
  let cs := map (center_at P) (seq 0 (length P)) in
  rbind (av (map fst cs)) (fun xc => rbind (av (map snd cs)) (fun yc =>
  rbind (av (map (dist_to (xc, yc)) P)) (fun r => Ok ((xc, yc), r)))).

Section Fit.
(** [optimize.leastsq(f, start, Dfun=...)[0]]; the derivatives given to it are not modelled. *)
Variable leastsq : (R * R -> list R) -> R * R -> R * R.

Definition bad_radius (r : R) : bool := (Rltb r 1 || Rltb 5 r)%bool.
(** circles.py:33-36 *)
Definition f_2b (P : list (R * R)) (c : R * R) : list R :=
  let Ri := map (dist_to c) P in map (fun d => d - Rsum Ri / INR (length Ri)) Ri.
(** circles.py:9-65. With no point the radius is nan, which passes the first test, and leastsq raises TypeError as it
    has fewer residuals than parameters; one point has radius 0. *)
Definition fit_circle (P : list (R * R)) : res ((R * R) * R) :=
  match fast_fit_circle false P with
  | Err NonFinite => Err TypeError
  | Err e => Err e
  | Ok (c, r) =>
      if bad_radius r then Err ValueError
      else
        let c2 := leastsq (f_2b P) c in
        rbind (mean (map (dist_to c2) P)) (fun r2 =>
        if bad_radius r2 then Err ValueError else Ok (c2, r2))
  end.

(** [x[ok]] *)
Definition masked {A} (l : list A) (ok : list bool) : list A := map fst (filter snd (combine l ok)).
(** [np.argmax] of a non-empty array: the first largest *)
Fixpoint argmax_from (best : nat) (m : R) (k : nat) (l : list R) : nat :=
  match l with [] => best | x :: r => if Rltb m x then argmax_from k x (S k) r else argmax_from best m (S k) r end.
Definition argmax (l : list R) : res nat := match l with [] => Err ValueError | x :: r => Ok (argmax_from 0 x 1 r) end.

(** circles.py:123-135; [cur] is what the previous turn has found. The last component of the result tells the early
    return of line 135. *)
Fixpoint reject (k : nat) (nsig minerr : R) (P : list (R * R)) (cur : (R * R) * R) (ok : list bool) : res (((R * R) * R) * list bool * bool) :=
  match k with
  | O => Ok (cur, ok, false)
  | S k' =>
      rbind (fast_fit_circle true (masked P ok)) (fun cr =>
      let '(c, r) := cr in
      let res_ := map (fun p => Rabs (dist_to c p - r)) P in
      rbind (median res_) (fun med =>
      let rms := 1.483 * med in
      rbind (argmax res_) (fun worst =>
      rbind (geti res_ worst) (fun w =>
      if (Rltb w (nsig * rms) || Rltb w minerr)%bool then Ok (cr, ok, false)
      else
        rbind (seti ok worst false) (fun ok' =>
        if (length (filter (fun b => b) ok') <? 3)%nat then Ok (((0, 0), 0), ok', true)
        else reject k' nsig minerr P cr ok')))))
  end.
(** circles.py:120-140. With no point the first turn works on nan until argmax raises ValueError. *)
Definition robust_fit_circle (nsig minerr : R) (P : list (R * R)) : res (((R * R) * R) * list bool) :=
  match P with
  | [] => Err ValueError
  | _ =>
      rbind (reject 12 nsig minerr P ((0, 0), 0) (repeat true (length P))) (fun s =>
      let '(cr, ok, over) := s in
      if over then Ok (cr, ok)
      else match fit_circle (masked P ok) with
           | Ok cr2 => Ok (cr2, ok)
           | Err ValueError => Ok (cr, ok)
           | Err e => Err e
           end)
  end.
End Fit.
