(** Model of /repo/py/desimeter/detectspots.py. Images are lists of rows of the same length. Simplified: the
    convolution, the random sample of pixels and the pedestal, threshold and noise computed from it are arguments. *)
From Verif.Model Require Export Stats.
From Coquelicot Require Import Coquelicot.
Local Open Scope R_scope.

(** [a[lo:hi]] *)
Definition slice {A} (l : list A) (lo hi : Z) : list A :=
  let n := Z.of_nat (length l) in
  let norm i := (if i <? 0 then Z.max 0 (i + n) else Z.min i n)%Z in
  firstn (Z.to_nat (norm hi - norm lo)) (skipn (Z.to_nat (norm lo)) l).

(** [scipy.special.erf] *)
Definition erf (x : R) : R := 2 / sqrt PI * RInt (fun t => exp (- t ^ 2)) 0 x.
(** detectspots.py:53-63 *)
Definition psf (i0 i1 xc yc sigma : R) : R :=
  let a := 1 / (sqrt 2 * sigma) in
  0.25 * (erf (a * (i1 + 0.5 - xc)) - erf (a * (i1 - 0.5 - xc))) * (erf (a * (i0 + 0.5 - yc)) - erf (a * (i0 - 0.5 - yc))).
Definition dpsfdxc (i0 i1 xc yc sigma : R) : R :=
  let a := 1 / (sqrt 2 * sigma) in
  - a * 0.25 * 2 / sqrt PI * (exp (- (a * (i1 + 0.5 - xc)) ^ 2) - exp (- (a * (i1 - 0.5 - xc)) ^ 2)) * (erf (a * (i0 + 0.5 - yc)) - erf (a * (i0 - 0.5 - yc))).
Definition dpsfdyc (i0 i1 xc yc sigma : R) : R :=
  let a := 1 / (sqrt 2 * sigma) in
  - a * 0.25 * 2 / sqrt PI * (erf (a * (i1 + 0.5 - xc)) - erf (a * (i1 - 0.5 - xc))) * (exp (- (a * (i0 + 0.5 - yc)) ^ 2) - exp (- (a * (i0 - 0.5 - yc)) ^ 2)).

Definition shape1 (stamp : list (list R)) : nat := match stamp with [] => O | row :: _ => length row end.
(** The indices of the pixels, in the order of [reshape]. *)
Definition pixels (n0 n1 : nat) : list (R * R) := List.concat (map (fun i => map (fun j => (INR i, INR j)) (seq 0 n1)) (seq 0 n0)).

(** detectspots.py:84-101, the last [k] turns: flux, position and the matrix A of the last turn. *)
Fixpoint gauss_newton (k : nat) (sigma : R) (n0 n1 : nat) (data : list R) (flux xc yc : R) (A : list (list R)) : res (R * R * R * list (list R)) :=
  match k with
  | O => Ok (flux, xc, yc, A)
  | S k' =>
      let px := pixels n0 n1 in
      let mod_ := map (fun '(i0, i1) => psf i0 i1 xc yc sigma) px in
      let H := [mod_; map (fun '(i0, i1) => flux * dpsfdxc i0 i1 xc yc sigma) px; map (fun '(i0, i1) => flux * dpsfdyc i0 i1 xc yc sigma) px] in
      let B := matvec H (sub_arrays data (map (Rmult flux) mod_)) in
      let A' := gram H in
      rbind (linalg_solve A' B) (fun delta =>
      let d0 := nth 0 delta 0 in let d1 := nth 1 delta 0 in let d2 := nth 2 delta 0 in
      let val := Rmax (Rabs d1) (Rabs d2) in
      let f := if Rltb 0.2 val then 0.2 / val else 1 in
      let flux' := flux + d0 * f in let xc' := xc + d1 * f in let yc' := yc + d2 * f in
      if (Rltb (Rabs (d1 * f)) 0.001 && Rltb (Rabs (d2 * f)) 0.001)%bool then Ok (flux', xc', yc', A')
      else gauss_newton k' sigma n0 n1 data flux' xc' yc' A')
  end.
(** detectspots.py:65-110, 114-120: x, y, their errors and the flux *)
Definition fitcentroid (stamp : list (list R)) (noise : R) : res (R * R * R * R * R) :=
  let n0 := length stamp in let n1 := shape1 stamp in
  let data := List.concat stamp in
  rbind (gauss_newton 5 1 n0 n1 data (Rsum data) (INR (n1 / 2)) (INR (n0 / 2)) []) (fun s =>
  let '(flux, xc, yc, A) := s in
  rbind (linalg_solve A [0; 1; 0]) (fun a1 => rbind (linalg_solve A [0; 0; 1]) (fun a2 =>
  Ok (xc - INR (n1 / 2), yc - INR (n0 / 2), noise * sqrt (nth 1 a1 0), noise * sqrt (nth 2 a2 0), flux)))).

(** The pixel i0, i1 of an image *)
Definition pix (img : list (list R)) (i0 i1 : nat) : R := nth i1 (nth i0 img []) 0.
(** detectspots.py:172-177 *)
Definition is_peak (n0 n1 : nat) (conv : list (list R)) (threshold : R) (i0 i1 : nat) : bool :=
  ((1 <=? i0) && (i0 + 2 <=? n0) && (1 <=? i1) && (i1 + 2 <=? n1))%nat &&
  (Rltb (pix conv (i0 - 1) i1) (pix conv i0 i1) && Rltb (pix conv (i0 + 1) i1) (pix conv i0 i1) &&
   Rltb (pix conv i0 (i1 - 1)) (pix conv i0 i1) && Rltb (pix conv i0 (i1 + 1)) (pix conv i0 i1) && Rltb threshold (pix conv i0 i1)).
(** detectspots.py:179, 214-216 *)
Definition peaks (n0 n1 : nat) (conv : list (list R)) (threshold : R) : list (nat * nat) :=
  map (fun index => (index / n1, index mod n1)%nat) (filter (fun index => is_peak n0 n1 conv threshold (index / n1) (index mod n1)) (seq 0 (n0 * n1))).

Record fvc_spot := { f_x : R; f_y : R; f_xerr : R; f_yerr : R; f_counts : R }.
(** detectspots.py:218, hw = 3 *)
Definition stamp_at (img : list (list R)) (i0 i1 : nat) : list (list R) :=
  map (fun row => slice row (Z.of_nat i1 - 3) (Z.of_nat i1 + 3 + 1)) (slice img (Z.of_nat i0 - 3) (Z.of_nat i0 + 3 + 1)).
(** detectspots.py:214-223 *)
Definition measure (img : list (list R)) (noise : R) (i : nat * nat) : res fvc_spot :=
  let '(i0, i1) := i in
  rbind (fitcentroid (stamp_at img i0 i1) noise) (fun s =>
  let '(x, y, ex, ey, c) := s in
  Ok {| f_x := x + INR i1 + 0; f_y := y + INR i0 + 0; f_xerr := ex; f_yerr := ey; f_counts := c |}).

Section Duplicates.
(** [KDTree(xy).query(xy[i], k=2)], the second of the two neighbours: distance (None for inf) and index. *)
Variable query_second : list (R * R) -> nat -> option R * nat.
Fixpoint delete_at {A} (l : list A) (i : nat) : list A :=
  match l, i with [] , _ => [] | _ :: r, O => r | x :: r, S j => x :: delete_at r j end.
Definition f_xy (s : fvc_spot) : R * R := (f_x s, f_y s).
Definition closer (d : option R) (sigma : R) : bool := match d with Some x => Rltb x sigma | None => false end.
(** detectspots.py:237-256 *)
Fixpoint dedupe (k : nat) (sigma : R) (l : list fvc_spot) : res (list fvc_spot) :=
  match k with
  | O => Ok l
  | S k' =>
      match find (fun i => closer (fst (query_second (map f_xy l) i)) sigma) (seq 0 (length l)) with
      | None => Ok l
      | Some bad =>
          let index := snd (query_second (map f_xy l) bad) in
          rbind (geti l bad) (fun b => rbind (geti l index) (fun q =>
          dedupe k' sigma (delete_at l (if Rltb (f_counts b) (f_counts q) then bad else index))))
      end
  end.
(** detectspots.py:179-259, from the images without pedestal. *)
Definition detectspots (n0 n1 : nat) (img conv : list (list R)) (threshold noise min_counts_per_spot psf_sigma : R) : res (list fvc_spot) :=
  let pk := peaks n0 n1 conv threshold in
  if (length pk =? 0)%nat then Err RuntimeError
  else if (10000 <? Z.of_nat (length pk))%Z then Err RuntimeError
  else
    rbind (rmapM (measure img noise) pk) (fun spots =>
    let good := if Rltb 0 min_counts_per_spot then filter (fun s => Rleb min_counts_per_spot (f_counts s)) spots else spots in
    dedupe 100 psf_sigma good).
End Duplicates.
