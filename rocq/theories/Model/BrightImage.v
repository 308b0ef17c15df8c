(** Model of /repo/py/desimeter/brightimage.py (detect_phi_arm 8-112, detect_phi_arms 124-170; no plots).
    Canny edges and image rotation (scikit-image) are parameters. *)
From Verif.Model Require Export Prelude Numpy RealNum Stats DetectSpots.
From Coq Require Import Reals.
Local Open Scope R_scope.

Notation img := (list (list R)) (only parsing).
Definition shape_ok (n : nat) (a : img) : bool := (Nat.eqb (length a) n && forallb (fun r => Nat.eqb (length r) n) a)%bool.
Definition pixel_map2 (f : R -> R -> R) (a b : img) : img := map (fun rs => map (fun uv => f (fst uv) (snd uv)) (combine (fst rs) (snd rs))) (combine a b).
Definition pixel_map (f : R -> R) (a : img) : img := map (map f) a.
Definition pixel_sum (a : img) : R := Rsum (map Rsum a).
(** lines 35-36 *)
Definition disk (pad : nat) : img := map (fun i => map (fun j => if ((Z.of_nat i - Z.of_nat pad) ^ 2 + (Z.of_nat j - Z.of_nat pad) ^ 2 <? Z.of_nat pad ^ 2)%Z then 1 else 0) (seq 0 (2 * pad + 1))) (seq 0 (2 * pad + 1)).
(** template: pixels, or nan everywhere *)
Inductive template := Finite (a : img) | Nans (n : nat).
Definition t_size (t : template) : nat := match t with Finite a => length a | Nans n => n end.
Definition norm2 (a : img) : R := sqrt (pixel_sum (pixel_map (fun u => u ^ 2) a)).
(** lines 38-39: changes the array of the caller *)
Definition normalise (t : template) : res template :=
  match t with
  | Nans n => if Nat.eqb n (2 * (n / 2) + 1) then Ok (Nans n) else Err ValueError
  | Finite a => let pad := (length a / 2)%nat in
                if shape_ok (2 * pad + 1) a then
                  let m := pixel_map2 Rmult a (disk pad) in
                  Ok (if Reqb (norm2 m) 0 then Nans (length a) else Finite (pixel_map (fun u => u / norm2 m) m))
                else Err ValueError
  end.

(** [np.argmax]: the first nan if there is one, otherwise the first largest *)
Fixpoint nan_index (l : list (option R)) : option nat := match l with [] => None | None :: _ => Some O | _ :: l => option_map S (nan_index l) end.
Fixpoint max_index (l : list (option R)) (i : nat) (best : nat * R) : nat :=
  match l with
  | [] => fst best
  | Some u :: l => max_index l (S i) (if Rltb (snd best) u then (i, u) else best)
  | None :: l => max_index l (S i) best
  end.
Definition argmax (l : list (option R)) : res nat :=
  match l with
  | [] => Err ValueError
  | o :: r => match nan_index l with Some i => Ok i | None => Ok (max_index r 1 (O, match o with Some u => u | None => 0 end)) end
  end.
(** [np.mean], [np.std]: None for nan *)
Fixpoint all_some (l : list (option R)) : option (list R) := match l with [] => Some [] | Some u :: l => option_map (cons u) (all_some l) | None :: _ => None end.
Definition mean_of (l : list R) : R := Rsum l / INR (length l).
Definition std_of (l : list R) : R := sqrt (Rsum (map (fun u => (u - mean_of l) ^ 2) l) / INR (length l)).
(** [np.arange(start, stop, step)] *)
Definition arange (start stop step : R) : res (list R) :=
  if Reqb step 0 then Err ZeroDivision else Ok (map (fun k => start + INR k * step) (seq 0 (Z.to_nat (- Int_part (- ((stop - start) / step)))))).

Record detection := { d_angle : R; d_ccf : option R; d_mean : option R; d_rms : option R; d_image : R; d_norm : R }.

Section Detect.
Variable canny : img -> R -> img.
Variable rotate : img -> R -> img.
Variable round : R -> Z.

(** edges of one scale: masked edges and their norm (lines 54-58) *)
Definition edges (pad : nat) (stamp : img) (sigma : R) : res (img * R) :=
  let e := canny stamp sigma in
  if shape_ok (2 * pad + 1) e then let m := pixel_map2 Rmult e (disk pad) in Ok (m, norm2 m) else Err ValueError.
(** one entry of (templates * edges[None, :, :]).sum(axis=1).sum(axis=1) *)
Definition ccf (t : template) (en : img * R) (ang : R) : option R :=
  match t with
  | Nans _ => None
  | Finite a => if Reqb (snd en) 0 then None else Some (pixel_sum (pixel_map2 Rmult (rotate a (- ang)) (pixel_map (fun u => u / snd en) (fst en))))
  end.
Definition coarse_angles : list R := map (fun k => INR k * 5) (seq 0 72).
(** lines 54-87, one scale: best angle, its coefficient, the coefficients, the norm of the edges *)
Definition scale (t : template) (pad : nat) (stamp : img) (ang_step sigma : R) : res (R * option R * list (option R) * R) :=
  rbind (edges pad stamp sigma) (fun en =>
  rbind (argmax (map (ccf t en) coarse_angles)) (fun pos =>
  rbind (geti coarse_angles pos) (fun angle =>
  rbind (arange (angle - 2 * 5) (angle + 2 * 5 + ang_step) ang_step) (fun angles =>
  let c := map (ccf t en) angles in
  rbind (argmax c) (fun pos =>
  rbind (geti angles pos) (fun a =>
  rbind (geti c pos) (fun best => Ok (a, best, c, snd en)))))))).
(** lines 54-112 *)
Definition search (t : template) (pad : nat) (stamp : img) (mean_image ang_step : R) : res detection :=
  rbind (rmapM (scale t pad stamp ang_step) [1 / 10; 2 / 10; 5 / 10; 1; 15 / 10]) (fun ss =>
  rbind (argmax (map (fun s => snd (fst (fst s))) ss)) (fun bb =>
  rbind (geti ss bb) (fun s => let '(a, best, c, _) := s in
  Ok {| d_angle := (a - 90) * (PI / 180); d_ccf := best; d_mean := option_map mean_of (all_some c); d_rms := option_map std_of (all_some c);
        d_image := mean_image; d_norm := last (map snd ss) 0 |}))).
(** lines 26-33: stamp (of any shape near the border of the image). A constant or empty stamp gives nan: not followed *)
Definition cut (image : img) (pad : nat) (x y : R) : res (img * R) :=
  let cx := round x in let cy := round y in
  let p := Z.of_nat pad in
  let stamp := map (fun row => slice row (cx - p) (cx + p + 1)) (slice image (cy - p) (cy + p + 1)) in
  let l := List.concat stamp in
  match l with
  | [] => Err NonFinite
  | _ => rbind (median l) (fun med => if Reqb (std_of l) 0 then Err NonFinite else Ok (pixel_map (fun u => (u - med) / std_of (map (fun u => u - med) l)) stamp, mean_of l))
  end.
(** lines 8-112: detection and template as left in the array of the caller *)
Definition detect_phi_arm (image : img) (ang_step : R) (t : template) (xy : R * R) : res (detection * template) :=
  let square := match t with Nans _ => true | Finite a => match a with [] => false | r :: _ => Nat.eqb (length a) (length r) end end in
  if negb square then Err AssertionError
  else let pad := (t_size t / 2)%nat in
  rbind (cut image pad (fst xy) (snd xy)) (fun sm =>
  rbind (normalise t) (fun t' =>
  rmap (fun d => (d, t')) (search t' pad (fst sm) (snd sm) ang_step))).

(** lines 168-170: one process, the array is shared by the calls *)
Fixpoint serial (image : img) (ang_step : R) (t : template) (spots : list (R * R)) : res (list detection) :=
  match spots with
  | [] => Ok []
  | s :: spots => rbind (detect_phi_arm image ang_step t s) (fun dt => rmap (cons (fst dt)) (serial image ang_step (snd dt) spots))
  end.
(** lines 148-166: the spots are sent to the workers in chunks, each with a copy of the array which its calls share; results in order *)
Definition parallel (image : img) (ang_step : R) (t : template) (chunks : list (list (R * R))) : res (list detection) := rmap (@List.concat _) (rmapM (serial image ang_step t) chunks).
End Detect.
