(** Model of fvc_proc, preproc and get_expected_pos of /repo/py/desimeter/processfvc.py (lines 83-390) without the options --use-spotmatch
    and --output-transform, and without the bias image and directories made by preproc. Detection of spots in an image, the turbulence
    correction, the field model and the optimiser are parameters. Of the columns of a table of spots those set here are kept, except
    COUNTS, errors, Z_FP_METRO, EXP_Q_0, EXP_S_0, DEVICE_ID and DEVICE_TYPE. *)
From Verif.Model Require Export FindFiducials Xy2qs PyString.
From Coq Require Import String.
Local Open Scope R_scope.
Local Open Scope string_scope.
Local Open Scope list_scope.

(** A row of the metrology table; findfiducials and FVC2FP.fit read it with load_metrology. *)
Record mrow := { w_type : string; w_location : Z; w_pinhole : Z; w_fp : point; w_z : R }.
Definition to_device (w : mrow) : device := {| v_type := w_type w; v_location := w_location w; v_pinhole := w_pinhole w; v_fp := w_fp w |}.
Definition to_metro (w : mrow) : metro := {| m_location := w_location w; m_pinhole := w_pinhole w; m_fp := w_fp w; m_z := w_z w |}.

(** ** Expected positions *)

(** The columns of a table of expected positions, [None] if missing; nan as [None]. *)
Record expected_table := { x_fp : option (list point); x_fp_exp : option (list point); exp_qs : option (list (option R * option R));
  x_location : option (list Z); x_petal_device : option (list (Z * Z)); x_pinhole : option (list Z) }.
(** A row as used by fvc_proc. *)
Record expected := { e_fp : point; e_location : Z; e_petal_device : option (Z * Z) }.
(** lines 177-186 *)
Definition from_qs (qs : option R * option R) : point :=
  match qs with (Some q, Some s) => qs2xy q s | _ => (-99999, -99999) end.
(** lines 166-202, of a table that was read; line 318 raises KeyError if there is no X_FP *)
Definition get_expected_pos (t : expected_table) : res (list expected) :=
  rbind (match x_fp t, x_fp_exp t, exp_qs t with
         | Some l, _, _ => Ok l
         | None, Some l, _ => Ok l
         | None, None, Some l => Ok (map from_qs l)
         | None, None, None => Err KeyError
         end) (fun fp =>
  rbind (match x_location t, x_petal_device t with
         | Some l, _ => Ok l
         | None, Some l => Ok (map (fun '(p, d) => (p * 1000 + d)%Z) l)
         | None, None => Err KeyError
         end) (fun location =>
  let petal := match x_petal_device t with Some l => map Some l | None => map (fun _ => None) fp end in
  let rows := map (fun '(p, l, pd) => {| e_fp := p; e_location := l; e_petal_device := pd |}) (combine (combine fp location) petal) in
  Ok (match x_pinhole t with
      | None => rows
      | Some ids => map fst (filter (fun '(_, id) => Z.eqb id 0) (combine rows ids))
      end))).

(** ** One table of spots *)

(** A row of the table written. *)
Record row := { r_pix : point; r_location : Z; r_petal_loc : Z; r_device_loc : Z; r_pinhole : Z; r_fp : point; r_metro : point; r_exp : point; r_radec : option point }.

(** Options of one run: lines 246, 253, 272, 191, 319, 339-350, 375 *)
Record settings := { g_input_tx : tx; g_init_tx : tx; g_mm : R; g_zbfit : bool; g_fixed_scale : bool; g_fixed_rotation : bool;
  g_max_match_distance : R; g_metrology : list mrow; g_expected : option expected_table;
  g_turbulence : option (list (point * point) -> res (list point)); g_field_model : option (list point -> res (list point)) }.

(** load_metrology() as table of expected positions *)
Definition metrology_table (l : list mrow) : expected_table :=
  {| x_fp := Some (map w_fp l); x_fp_exp := None; exp_qs := None; x_location := Some (map w_location l);
     x_petal_device := Some (map (fun w => (w_location w / 1000, w_location w mod 1000)%Z) l); x_pinhole := Some (map w_pinhole l) |}.

(** [a[mask] = vs], for as many values as true entries *)
Fixpoint put_where {A} (mask : list bool) (vs : list A) (l : list A) : list A :=
  match mask, l with
  | m :: mask, a :: l => if m then match vs with v :: vs => v :: put_where mask vs l | [] => a :: put_where mask [] l end else a :: put_where mask vs l
  | _, _ => l
  end.
Definition isnt_zero (x : R) : bool := negb (Reqb x 0).
(** lines 360-365 *)
Definition take_metro (r : row) : row :=
  {| r_pix := r_pix r; r_location := r_location r; r_petal_loc := r_petal_loc r; r_device_loc := r_device_loc r; r_pinhole := r_pinhole r; r_fp := r_fp r; r_metro := r_metro r;
     r_exp := (if isnt_zero (fst (r_metro r)) then fst (r_metro r) else fst (r_exp r), if isnt_zero (snd (r_metro r)) then snd (r_metro r) else snd (r_exp r)); r_radec := r_radec r |}.
Definition with_fp (r : row) (p : point) : row :=
  {| r_pix := r_pix r; r_location := r_location r; r_petal_loc := r_petal_loc r; r_device_loc := r_device_loc r; r_pinhole := r_pinhole r; r_fp := p; r_metro := r_metro r; r_exp := r_exp r; r_radec := r_radec r |}.
Definition with_radec (r : row) (p : point) : row :=
  {| r_pix := r_pix r; r_location := r_location r; r_petal_loc := r_petal_loc r; r_device_loc := r_device_loc r; r_pinhole := r_pinhole r; r_fp := r_fp r; r_metro := r_metro r; r_exp := r_exp r; r_radec := Some p |}.
(** lines 325-336, a matched fibre *)
Definition with_expected (r : row) (e : expected) : row :=
  {| r_pix := r_pix r; r_location := e_location e;
     r_petal_loc := match e_petal_device e with Some pd => fst pd | None => r_petal_loc r end; r_device_loc := match e_petal_device e with Some pd => snd pd | None => r_device_loc r end;
     r_pinhole := r_pinhole r; r_fp := r_fp r; r_metro := r_metro r; r_exp := e_fp e; r_radec := r_radec r |}.

Section Process.
Variable argsort : forall K, (K -> K -> bool) -> list K -> list nat.
Variable query2 : list point -> point -> edist * nat.
Variable query3 : list descr -> descr -> edist * nat.
Variable query4 : list point -> R -> point -> list (edist * nat).
Variable minimize : (R * R * R * R -> res R) -> R * R * R * R -> res (R * R * R * R).

(** lines 276-277, 317-336 *)
Definition match_fibers (max_distance : R) (expected_pos : list expected) (rows : list row) : res (list row) :=
  let selection := map (fun r => Z.eqb (r_location r) (-1)) rows in
  let fibers := filter (fun r => Z.eqb (r_location r) (-1)) rows in
  rbind (match_same_system argsort query2 (map r_fp fibers) (map e_fp expected_pos) true) (fun '(ind, dis) =>
  rbind (rmapM (fun '(r, (z, d)) => if (below d max_distance && (0 <=? z)%Z)%bool then rmap (with_expected r) (geti expected_pos (Z.to_nat z)) else Ok r) (combine fibers (combine ind dis))) (fun fibers =>
  Ok (put_where selection fibers rows))).
(** lines 339-358; here the columns X_FP_EXP, Y_FP_EXP of the fiducials are still 0, or those of the table read *)
Definition correct_turbulence (correct : list (point * point) -> res (list point)) (rows : list row) : res (list row) :=
  let matched := fun r => ((0 <=? r_location r)%Z && isnt_zero (fst (r_exp r)) && isnt_zero (snd (r_exp r)))%bool in
  let sel := filter matched rows in
  rbind (correct (map (fun r => (r_fp r, r_exp r)) sel)) (fun fp =>
  Ok (put_where (map matched rows) (map (fun '(r, p) => with_fp r p) (combine sel fp)) rows)).
(** lines 375-384 *)
Definition add_radec (fp2radec : list point -> res (list point)) (rows : list row) : res (list row) :=
  let on := fun r => (isnt_zero (fst (r_fp r)) && isnt_zero (snd (r_fp r)))%bool in
  let rows := map (fun r => with_radec r (0, 0)) rows in
  let sel := filter on rows in
  rbind (fp2radec (map r_fp sel)) (fun sky => Ok (put_where (map on rows) (map (fun '(r, p) => with_radec r p) (combine sel sky)) rows)).

(** A spot to process: pixels, and its X_FP_EXP, Y_FP_EXP if the table read has these columns (line 327 keeps them), else 0. *)
Notation spot_in := (point * point)%type (only parsing).
(** lines 240-384 for one table: [None] for fewer than three fiducials *)
Definition process (g : settings) (cache : tables) (detected : list spot_in) : res (option (list row)) * tables :=
  let xy := map fst detected in
  let '(found, cache) := findfiducials argsort query2 query3 query4 cache (map to_device (g_metrology g)) (g_input_tx g) (g_mm g) xy in
  (rbind found (fun marks =>
   if (count (fun m => Z.eqb (k_pinhole m) 4) marks <? 3)%Z then Ok None else
   let spots := map (fun '(p, m) => {| s_location := k_location m; s_pinhole := k_pinhole m; s_pix := p |}) (combine xy marks) in
   rbind (fit argsort minimize (g_init_tx g) spots (map to_metro (g_metrology g)) true (g_zbfit g) (g_fixed_scale g) (g_fixed_rotation g)) (fun '(_, _, cols) =>
   rbind (match cols with Some c => Ok c | None => Err KeyError end) (fun cols =>
   let rows := map (fun '((p, e), m, (fp, mt)) =>
     {| r_pix := p; r_location := k_location m; r_petal_loc := k_petal_loc m; r_device_loc := k_device_loc m; r_pinhole := k_pinhole m; r_fp := fp;
        r_metro := match mt with Some mt => m_fp mt | None => (0, 0) end; r_exp := e; r_radec := None |}) (combine (combine detected marks) cols) in
   rbind (get_expected_pos (match g_expected g with Some t => t | None => metrology_table (g_metrology g) end)) (fun expected_pos =>
   rbind (match_fibers (g_max_match_distance g) expected_pos rows) (fun rows =>
   rbind (match g_expected g, g_turbulence g with Some _, Some correct => correct_turbulence correct rows | _, _ => Ok rows end) (fun rows =>
   let rows := map take_metro rows in
   rbind (match g_field_model g with Some f => add_radec f rows | None => Ok rows end) (fun rows => Ok (Some rows)))))))), cache).

(** ** The program *)

Record fopts := { f_infile : string; f_outfile : string; f_threshold : bool; f_sequence : bool; f_nomatch : bool; f_min_spots : option Z; f_max_spots : option Z }.
(** A file written: the spots as detected, or the table. *)
Inductive output := Spots (detected : list (point * point)) | Rows (rows : list row).
Definition outputs := string -> option output.
Definition put (fs : outputs) (name : string) (o : output) : outputs := fun q => if String.eqb q name then Some o else fs q.

(** lines 227-232: the name of the file written for an extension *)
Definition outname (o : fopts) (extname : string) : string :=
  if f_sequence o then replace ".csv" ("-" ++ extname ++ ".csv") (f_outfile o) else f_outfile o.
Definition outside (o : fopts) (n : Z) : bool :=
  (match f_min_spots o with Some m => (n <? m)%Z | None => false end || match f_max_spots o with Some m => (m <? n)%Z | None => false end)%bool.

(** lines 216-390: exit code, module variables and files. An exception keeps the files written before. *)
Fixpoint run (o : fopts) (g : settings) (cache : tables) (fs : outputs) (l : list (string * list spot_in)) : res Z * tables * outputs :=
  match l with
  | [] => (Ok 0%Z, cache, fs)
  | (extname, xy) :: l =>
      if outside o (Z.of_nat (List.length xy)) then run o g cache fs l
      else if f_nomatch o then run o g cache (put fs (outname o extname) (Spots xy)) l
      else let '(r, cache) := process g cache xy in
           match r with
           | Err e => (Err e, cache, fs)
           | Ok None => (Ok 13%Z, cache, fs)
           | Ok (Some rows) => run o g cache (put fs (outname o extname) (Rows rows)) l
           end
  end.
(** lines 205-390 with preproc (83-118) and get_spots_list (121-163); [read_fits], [read_csv]: the extensions and spots of a file. A table
    of spots is written with the name F0000 with --sequence (line 232). *)
Variable read_fits : string -> res (list (string * list spot_in)).
Variable read_csv : string -> res (list spot_in).
Definition fvc_proc (o : fopts) (g : settings) (cache : tables) (fs : outputs) : res Z * tables * outputs :=
  if negb (endswith ".csv" (f_outfile o)) then (Ok 12%Z, cache, fs)
  else if f_threshold o then (Ok 1%Z, cache, fs)
  else if (find ".fits" (f_infile o) >? 0)%Z then
    match read_fits (f_infile o) with Err e => (Err e, cache, fs) | Ok l => run o g cache fs l end
  else if (find ".csv" (f_infile o) >? 0)%Z then
    match read_csv (f_infile o) with Err e => (Err e, cache, fs) | Ok xy => run o g cache fs [("F0000", xy)] end
  else (Ok 13%Z, cache, fs).
End Process.
