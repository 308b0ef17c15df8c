(** Model of /repo/py/desimeter/transform/fvc2fp.py (class FVC2FP; its JSON input and output are in Json.v).
    Arrays of coordinates are lists of points. *)
From Verif.Model Require Export ZhaoBurge Stats.
Local Open Scope R_scope.

(** fvc2fp.py:16-25 and the attributes set by [fit] or [fromjson]. *)
Record tx := { xfvc_scale : R; yfvc_scale : R; xfvc_offset : R; yfvc_offset : R;
  tx_scale : R; tx_rotation : R; tx_offset_x : R; tx_offset_y : R; tx_polids : list Z; tx_coeffs : list R }.

(** fvc2fp.py:51-75. Dividing by a zero scale gives inf or nan. *)
Definition reduce_xyfp (p : point) : point := (fst p / 420.0, snd p / 420.0).
Definition expand_xyfp (p : point) : point := (fst p * 420.0, snd p * 420.0).
Definition reduce_xyfvc (t : tx) (p : point) : res point :=
  if (Reqb (xfvc_scale t) 0 || Reqb (yfvc_scale t) 0)%bool then Err NonFinite
  else Ok ((fst p - xfvc_offset t) / xfvc_scale t, (snd p - yfvc_offset t) / yfvc_scale t).
Definition expand_xyfvc (t : tx) (p : point) : point :=
  (fst p * xfvc_scale t + xfvc_offset t, snd p * yfvc_scale t + yfvc_offset t).

(** fvc2fp.py:229-237 *)
Definition fvc2fp (t : tx) (pix : list point) : res (list point) :=
  rmapM (fun p =>
    rbind (reduce_xyfvc t p) (fun r =>
    rbind (transform (fst r) (snd r) (tx_scale t) (tx_rotation t) (tx_offset_x t) (tx_offset_y t) (Some (tx_polids t)) (Some (tx_coeffs t))) (fun rfp =>
    Ok (expand_xyfp rfp)))) pix.

Definition minus2 (p q : point) : point := (fst p - fst q, snd p - snd q).
(** fvc2fp.py:250-255, for the [n] remaining passes; [d] holds (dx, dy). *)
Fixpoint undo_zb (t : tx) (n : nat) (rfp d : list point) : res (list point) :=
  match n with
  | O => Ok d
  | S n' =>
      rbind (rmapM (fun '(r, e) => let u := minus2 r e in getZhaoBurgeXY (tx_polids t) (tx_coeffs t) (fst u) (snd u)) (combine rfp d)) (fun d2 =>
      rbind (maxabs (map (fun '(a, b) => fst a - fst b) (combine d2 d))) (fun mx =>
      rbind (maxabs (map (fun '(a, b) => snd a - snd b) (combine d2 d))) (fun my =>
      if Rltb (Rmax mx my) 1e-12 then Ok d2 else undo_zb t n' rfp d2)))
  end.
(** fvc2fp.py:239-271 *)
Definition fp2fvc (t : tx) (fp : list point) : res (list point) :=
  let rfp := map reduce_xyfp fp in
  rbind (undo_zb t 20 rfp (map (fun _ => (0, 0)) rfp)) (fun d =>
  if Reqb (tx_scale t) 0 then Err NonFinite
  else Ok (map (fun '(r, e) =>
    let u := minus2 r e in
    let u := (fst u / tx_scale t, snd u / tx_scale t) in
    let xx := fst u * cos (- tx_rotation t) - snd u * sin (- tx_rotation t) in
    let yy := fst u * sin (- tx_rotation t) + snd u * cos (- tx_rotation t) in
    expand_xyfvc t (xx - tx_offset_x t, yy - tx_offset_y t)) (combine rfp d))).

(** Rows of the spots and metrology tables. *)
Record spot := { s_location : Z; s_pinhole : Z; s_pix : point }.
Record metro := { m_location : Z; m_pinhole : Z; m_fp : point; m_z : R }.
Definition spot_key (s : spot) := (s_location s, s_pinhole s).
Definition metro_key (m : metro) := (m_location m, m_pinhole m).
Definition pinloc (k : Z * Z) : Z := (fst k * 10 + snd k)%Z.
Definition key_ltb (a b : Z * Z) : bool := ((fst a <? fst b) || ((fst a =? fst b) && (snd a <? snd b)))%bool%Z.

(** [np.all(a == b)], with numpy's broadcasting of arrays of length 1. Other lengths raise (in older versions of
    numpy the comparison is False, so that the assertion fails). *)
Definition all_eq (a b : list Z) : res bool :=
  if Nat.eqb (length a) (length b) then Ok (forallb (fun '(x, y) => Z.eqb x y) (combine a b))
  else match a, b with
  | [x], _ => Ok (forallb (Z.eqb x) b)
  | _, [y] => Ok (forallb (Z.eqb y) a)
  | _, _ => Err ValueError
  end.
Definition assert_all_eq (a b : list Z) : res unit := rbind (all_eq a b) (fun c => if c then Ok tt else Err AssertionError).

Section Fit.
Variable argsort : forall K, (K -> K -> bool) -> list K -> list nat.
(** [Table.sort(keys=('LOCATION','PINHOLE_ID'))] *)
Definition sort_rows {A} (key : A -> Z * Z) (rows : list A) : res (list A) := take rows (argsort _ key_ltb (map key rows)).
(** fvc2fp.py:144-158 *)
Definition fit_pairs (spots : list spot) (metrology : list metro) : res (list spot * list metro) :=
  let fidspots := filter (fun s => (0 <=? s_location s) && (0 <? s_pinhole s))%bool%Z spots in
  let fidspots_pinloc := map (fun s => pinloc (spot_key s)) fidspots in
  let metrology := filter (fun m => existsb (Z.eqb (pinloc (metro_key m))) fidspots_pinloc) metrology in
  rbind (sort_rows spot_key fidspots) (fun fidspots =>
  rbind (sort_rows metro_key metrology) (fun metrology =>
  rbind (assert_all_eq (map s_location fidspots) (map m_location metrology)) (fun _ =>
  rbind (assert_all_eq (map s_pinhole fidspots) (map m_pinhole metrology)) (fun _ =>
  Ok (fidspots, metrology))))).

(** [a[mask] = vs] for as many values as true entries. *)
Fixpoint put_masked {A} (mask : list bool) (vs : list A) : list (option A) :=
  match mask with
  | [] => []
  | true :: r => match vs with v :: vs' => Some v :: put_masked r vs' | [] => None :: put_masked r [] end
  | false :: r => None :: put_masked r vs
  end.
(** fvc2fp.py:204-227: for each spot the metrology row written to its columns, [None] for the default 0. *)
Definition metro_columns (spots : list spot) (metrology : list metro) : res (list (option metro)) :=
  let isfid := fun s => ((0 <? s_location s) && (0 <? s_pinhole s))%bool%Z in
  let fid := filter isfid spots in
  let fidspots_pinloc := map (fun s => pinloc (spot_key s)) fid in
  let metro_pinloc := map (fun m => pinloc (metro_key m)) metrology in
  let ii := argsort _ Nat.ltb (argsort _ Z.ltb fidspots_pinloc) in
  let jj := argsort _ Z.ltb metro_pinloc in
  rbind (take jj ii) (fun kk =>
  rbind (take metrology kk) (fun rows =>
  rbind (assert_all_eq (map s_location fid) (map m_location rows)) (fun _ =>
  rbind (assert_all_eq (map s_pinhole fid) (map m_pinhole rows)) (fun _ =>
  Ok (put_masked (map isfid spots) rows))))).

Record goodness := { meandistance : R; mediandistance : R; rmsdistance : R; nmatch : nat }.
Variable minimize : (R * R * R * R -> res R) -> R * R * R * R -> res (R * R * R * R).
(** fvc2fp.py:187-195 *)
Definition goodness_of_fit (t : tx) (n : nat) (fidspots : list spot) (metrology : list metro) : res goodness :=
  rbind (fvc2fp t (map s_pix fidspots)) (fun meas =>
  let dr := map (fun '(m, q) => sqrt ((fst (m_fp m) - fst q) ^ 2 + (snd (m_fp m) - snd q) ^ 2)) (combine metrology meas) in
  rbind (mean dr) (fun a => rbind (median dr) (fun b => rbind (mean (map (fun d => d ^ 2) dr)) (fun c =>
  Ok {| meandistance := 1000 * a; mediandistance := 1000 * b; rmsdistance := 1000 * sqrt c; nmatch := n |})))).
(** numpy's broadcasting of a one element array against one of length [n]. *)
Definition stretch {A} (n : nat) (l : list A) : list A := match l with [x] => repeat x n | _ => l end.
(** fvc2fp.py:133-227. Returns the new transform, the goodness of fit, and with update_spots the positions
    and metrology rows of the spots. When the assertions pass with unequal numbers of fiducial spots and metrology
    rows, one of which is 1, the arithmetic broadcasts; then fitZhaoBurge raises ValueError (after the minimization;
    here before) if the spot is the one element. *)
Definition fit (t : tx) (spots : list spot) (metrology : list metro) (update_spots zbfit fixed_scale fixed_rotation : bool) :
    res (tx * goodness * option (list (point * option metro))) :=
  rbind (fit_pairs spots metrology) (fun '(fidspots, metrology) =>
  let n := if Nat.eqb (length fidspots) 1 then length metrology else length fidspots in
  let fidspots' := stretch n fidspots in let metrology' := stretch n metrology in
  if (zbfit && negb (Nat.eqb (length fidspots) n))%bool then Err ValueError else
  rbind (rmapM (fun s => reduce_xyfvc t (s_pix s)) fidspots') (fun rpix =>
  let rfp := map (fun m => reduce_xyfp (m_fp m)) metrology' in
  rbind (fit_scale_rotation_offset minimize (Some (tx_polids t)) (Some (tx_coeffs t))
    (if fixed_scale then Some (tx_scale t) else None) (if fixed_rotation then Some (tx_rotation t) else None) rpix rfp zbfit) (fun '(prm, zb) =>
  let '(scale, rotation, offset_x, offset_y) := prm in
  let '(polids, coeffs) := match zb with Some pc => pc | None => (tx_polids t, tx_coeffs t) end in
  let t' := {| xfvc_scale := xfvc_scale t; yfvc_scale := yfvc_scale t; xfvc_offset := xfvc_offset t; yfvc_offset := yfvc_offset t;
    tx_scale := scale; tx_rotation := rotation; tx_offset_x := offset_x; tx_offset_y := offset_y; tx_polids := polids; tx_coeffs := coeffs |} in
  rbind (goodness_of_fit t' (length fidspots) fidspots' metrology') (fun g =>
  if update_spots then
    rbind (fvc2fp t' (map s_pix spots)) (fun meas =>
    rbind (metro_columns spots metrology) (fun cols => Ok (t', g, Some (combine meas cols))))
  else Ok (t', g, None))))).
End Fit.
