(** Model of /repo/py/desimeter/transform/pos2ptl.py (the conversions between positioner
    coordinates; the petal part is in Model/Xy2qs.v). *)
From Verif.Model Require Export Xy2tp Numpy.
Local Open Scope R_scope.

(** An argument which may be a scalar or a vector. *)
Inductive arg (A : Type) := Scalar (a : A) | Vec (l : list A).
Arguments Scalar {A} a. Arguments Vec {A} l.

(** pos2ptl.py:360-380 [_to_numpy], [_to_list] (a scalar becomes a vector of length 1). *)
Definition to_vec {A} (u : arg A) : list A := match u with Scalar a => [a] | Vec l => l end.

(** numpy broadcasting of a binary operation on one-dimensional arrays. *)
Definition broadcast {A B C} (f : A -> B -> C) (u : list A) (v : list B) : res (list C) :=
  if Nat.eqb (length u) (length v) then Ok (map (fun p => f (fst p) (snd p)) (combine u v))
  else match u, v with
       | [a], _ => Ok (map (f a) v)
       | _, [b] => Ok (map (fun a => f a b) u)
       | _, _ => Err ValueError
       end.

(** pos2ptl.py:382-386 *)
Definition add_offset (u offset : arg R) : res (list R) := broadcast Rplus (to_vec u) (to_vec offset).
(** pos2ptl.py:98-114, 116-131, 215-231, 233-248 *)
Definition flat2loc (u_flat u_offset : arg R) : res (list R) := add_offset u_flat (Vec (map Ropp (to_vec u_offset))).
Definition loc2flat (u_loc u_offset : arg R) : res (list R) := add_offset u_loc u_offset.
Definition ext2int (u_ext u_offset : arg R) : res (list R) := add_offset u_ext (Vec (map Ropp (to_vec u_offset))).
Definition int2ext (u_int u_offset : arg R) : res (list R) := add_offset u_int u_offset.

(** pos2ptl.py:388-392 *)
Definition extend_list {A} (L : list A) (n : nat) : res (list A) :=
  if Nat.eqb (length L) n then Ok L else match L with a :: _ => Ok (repeat a n) | [] => Err IndexError end.

(** pos2ptl.py:77-78; xy2tp.epsilon = sys.float_info.epsilon = 2^-52 (xy2tp.py:22) *)
Definition epsilon : R := / 4503599627370496.
Definition default_t_int_range : R * R := (-180 + epsilon, 180).
Definition default_p_int_range : R * R := (-20, 200).

(** pos2ptl.py:177-191 for one point. *)
Definition loc2ext_point (x y r1 r2 t_offset p_offset : R) (t_guess : option R) (t_guess_tol : R) : res (point * bool) :=
  let shift (range : R * R) (o : R) := (fst range + o, snd range + o) in
  xy2tp (x, y) (r1, r2) (shift default_t_int_range t_offset, shift default_p_int_range p_offset) t_guess t_guess_tol.

(** pos2ptl.py:133-195 [loc2ext]; the three vectors returned as one vector of triples. *)
Definition loc2ext (x_loc y_loc r1 r2 t_offset p_offset : arg R) (t_ext_guess : arg (option R)) (t_guess_tol : arg R)
  : res (list (point * bool)) :=
  let x_loc := to_vec x_loc in
  let y_loc := to_vec y_loc in
  let n := length x_loc in
  rbind (extend_list (to_vec r1) n) (fun r1 =>
  rbind (extend_list (to_vec r2) n) (fun r2 =>
  rbind (extend_list (to_vec t_offset) n) (fun t_offset =>
  rbind (extend_list (to_vec p_offset) n) (fun p_offset =>
  rbind (extend_list (to_vec t_ext_guess) n) (fun t_guess =>
  rbind (extend_list (to_vec t_guess_tol) n) (fun t_guess_tol =>
  rmapM (fun i =>
    rbind (geti t_offset i) (fun to => rbind (geti p_offset i) (fun po =>
    rbind (geti x_loc i) (fun x => rbind (geti y_loc i) (fun y =>
    rbind (geti r1 i) (fun a => rbind (geti r2 i) (fun b =>
    rbind (geti t_guess i) (fun g => rbind (geti t_guess_tol i) (fun tol =>
    loc2ext_point x y a b to po g tol)))))))))
  (seq 0 n))))))).

(** pos2ptl.py:197-213 *)
Definition ext2loc (t_ext p_ext r1 r2 : arg R) : res (list R * list R) :=
  let t := map radians (to_vec t_ext) in
  rbind (broadcast Rplus t (map radians (to_vec p_ext))) (fun t_plus_p =>
  let term (f : R -> R) : res (list R) :=
    rbind (broadcast Rmult (to_vec r1) (map f t)) (fun a =>
    rbind (broadcast Rmult (to_vec r2) (map f t_plus_p)) (fun b => broadcast Rplus a b)) in
  rbind (term cos) (fun x => rbind (term sin) (fun y => Ok (x, y)))).

(** pos2ptl.py:305-315 *)
Definition int2loc (t_int p_int r1 r2 t_offset p_offset : arg R) : res (list R * list R) :=
  rbind (int2ext t_int t_offset) (fun t_ext =>
  rbind (int2ext p_int p_offset) (fun p_ext => ext2loc (Vec t_ext) (Vec p_ext) r1 r2)).

(** pos2ptl.py:317-333; the guess is None, a scalar or a vector of angles. *)
Definition loc2int (x_loc y_loc r1 r2 t_offset p_offset : arg R) (t_int_guess : option (arg R)) (t_guess_tol : arg R)
  : res (list R * list R * list bool) :=
  rbind (match t_int_guess with
         | None => Ok (Scalar None)
         | Some g => rbind (int2ext g t_offset) (fun v => Ok (Vec (map Some v)))
         end) (fun t_ext_guess =>
  rbind (loc2ext x_loc y_loc r1 r2 t_offset p_offset t_ext_guess t_guess_tol) (fun tpu =>
  rbind (ext2int (Vec (map (fun a => fst (fst a)) tpu)) t_offset) (fun t_int =>
  rbind (ext2int (Vec (map (fun a => snd (fst a)) tpu)) p_offset) (fun p_int =>
  Ok (t_int, p_int, map snd tpu))))).

(** np.sign *)
Definition Rsign (x : R) : R := if Rltb 0 x then 1 else if Rltb x 0 then -1 else 0.
(** pos2ptl.py:296-302 for one component; [direction] already reduced to its sign. *)
Definition delta_angle1 (natural_delta direction : R) : R :=
  let direction := if Reqb direction 0 then Rsign natural_delta else direction in
  let delta_u := if Reqb direction (Rsign natural_delta) then natural_delta else pymod natural_delta (direction * 360) in
  if Reqb (pymod natural_delta 360) 0 then Rabs natural_delta * direction else delta_u.
(** pos2ptl.py:250-303 [delta_angle]; indexing with a mask of another length (line 297) raises
    IndexError. *)
Definition delta_angle (u_start u_final direction : arg R) : res (list R) :=
  let u_start := to_vec u_start in
  rbind (broadcast Rmult (map (fun _ => 1) u_start) (to_vec direction)) (fun direction =>
  let direction := map Rsign direction in
  rbind (broadcast Rminus (to_vec u_final) u_start) (fun natural_delta =>
  if Nat.eqb (length direction) (length natural_delta)
  then Ok (map (fun p => delta_angle1 (fst p) (snd p)) (combine natural_delta direction))
  else Err IndexError)).
