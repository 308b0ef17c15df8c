(** Model of the method [fit] and of the JSON functions of /repo/py/desimeter/transform/tan2fp/raytracefit.py. *)
From Verif.Model Require Export RayTraceFit Dm2pm.
From Verif.Model Require Fitter.
Local Open Scope R_scope.

(** A row of the table: columns ADC1, ADC2, X_TAN and Y_TAN, X_FP and Y_FP. *)
Record ray_row := { w_adc1 : R; w_adc2 : R; w_tan : point; w_fp : point }.
(** raytracefit.py:115 *)
Definition setup_code (w : ray_row) : R := w_adc1 w + 1000 * w_adc2 w.
(** raytracefit.py:143 *)
Definition fit_polids : list Z := [0; 1; 2; 3; 4; 5; 6; 9; 14; 15; 20; 27; 28; 29; 30]%Z.
(** raytracefit.py:128-147: one turn of the loop *)
Definition fit_config (table : list ray_row) (code : R) : res (R * R * list R) :=
  let selection := filter (fun w => Reqb (setup_code w) code) table in
  match selection with
  | [] => Err IndexError
  | w :: _ =>
      rbind (fitZhaoBurge (map (fun w => reduce_xytan (w_tan w)) selection) (map (fun w => reduce_xyfp (w_fp w)) selection) (Some fit_polids)) (fun f =>
      Ok (w_adc1 w, w_adc2 w, snd f))
  end.
(** raytracefit.py:112-167; the object after an exception is left out; [np.vstack] of an empty list raises ValueError. *)
Definition fit (table : list ray_row) : res rtf :=
  rbind (rmapM (fit_config table) (Fitter.unique_R (map setup_code table))) (fun cs =>
  match cs with
  | [] => Err ValueError
  | _ => Ok {| r_adc1 := map (fun c => fst (fst c)) cs; r_adc2 := map (fun c => snd (fst c)) cs;
               r_scale := map (fun _ => 1) cs; r_rotation := map (fun _ => 0) cs; r_offset_x := map (fun _ => 0) cs; r_offset_y := map (fun _ => 0) cs;
               r_polids := fit_polids; r_coeffs := map snd cs |}
  end).

(** raytracefit.py:72-84, before [json.dumps]; [ravel] goes row by row *)
Definition reals (l : list R) : json := JArr (map JNum l).
Definition rtf_tojson (t : rtf) : dict string json :=
  [("method", JStr "Ray Trace fit with Zhao-Burge"); ("version", JStr "1"); ("adc1", reals (r_adc1 t)); ("adc2", reals (r_adc2 t)); ("scale", reals (r_scale t));
   ("rotation", reals (r_rotation t)); ("offset_x", reals (r_offset_x t)); ("offset_y", reals (r_offset_y t));
   ("zbpolids", JArr (map JInt (r_polids t))); ("zbcoeffs", reals (List.concat (r_coeffs t)))]%string.
(** [a.reshape((n, m))]: n rows of m; raises ValueError unless a has n * m entries. *)
Fixpoint rows_of (n m : nat) (l : list R) : list (list R) :=
  match n with O => [] | S n' => firstn m l :: rows_of n' m (skipn m l) end.
Definition reshape (l : list R) (n m : nat) : res (list (list R)) := if Nat.eqb (length l) (n * m) then Ok (rows_of n m l) else Err ValueError.
(** raytracefit.py:86-100, after [json.loads] *)
Definition rtf_fromjson (params : dict string json) : res rtf :=
  rbind (assert_is params "method" "Ray Trace fit with Zhao-Burge") (fun _ =>
  rbind (assert_is params "version" "1") (fun _ =>
  let get k := rbind (item params k) real_array in
  rbind (get "adc1"%string) (fun adc1 =>
  rbind (get "adc2"%string) (fun adc2 =>
  rbind (get "scale"%string) (fun scale =>
  rbind (get "rotation"%string) (fun rotation =>
  rbind (get "offset_x"%string) (fun offset_x =>
  rbind (get "offset_y"%string) (fun offset_y =>
  rbind (rbind (item params "zbpolids") int_array) (fun ids =>
  rbind (rbind (get "zbcoeffs"%string) (fun c => reshape c (length adc1) (length ids))) (fun coeffs =>
  Ok {| r_adc1 := adc1; r_adc2 := adc2; r_scale := scale; r_rotation := rotation; r_offset_x := offset_x; r_offset_y := offset_y;
        r_polids := ids; r_coeffs := coeffs |})))))))))).
