(** Images of pixels under a transformation, and the rows of positioner parameters that are used. *)
From Verif.Model Require Import CentresTx.
Local Open Scope R_scope.
Local Open Scope list_scope.

(** Place of a pixel in the focal plane *)
Definition image (t : tx) (p : R * R) : R * R := match fvc2fp t [p] with Ok [q] => q | _ => (0, 0) end.
Definition with_coeffs (t : tx) (c : list R) : tx :=
  {| xfvc_scale := xfvc_scale t; yfvc_scale := yfvc_scale t; xfvc_offset := xfvc_offset t; yfvc_offset := yfvc_offset t;
     tx_scale := tx_scale t; tx_rotation := tx_rotation t; tx_offset_x := tx_offset_x t; tx_offset_y := tx_offset_y t; tx_polids := tx_polids t; tx_coeffs := c |}.
Definition same_camera (t u : tx) : Prop :=
  xfvc_scale t = xfvc_scale u /\ yfvc_scale t = yfvc_scale u /\ xfvc_offset t = xfvc_offset u /\ yfvc_offset t = yfvc_offset u.
(** The row of a device in the metrology: the last one with its name *)
Definition row_of (metrology : list device) (p : string) (v : device) : Prop :=
  exists a b, metrology = a ++ v :: b /\ d_id v = p /\ Forall (fun w => d_id w <> p) b.
(** A row is used: no flag and a small error, as far as the table tells *)
Definition good (max_rms : R) (t : postable) (r : posrow) : Prop :=
  (has_flags t = true -> q_flags r = 0%Z) /\ (has_error t = true -> 0 < max_rms -> q_error r < max_rms).
Inductive kept_rows {A} (P : A -> Prop) : list A -> list A -> Prop :=
| kr_nil : kept_rows P [] []
| kr_yes x l k : P x -> kept_rows P l k -> kept_rows P (x :: l) (x :: k)
| kr_no x l k : ~ P x -> kept_rows P l k -> kept_rows P (x :: l) k.
(** What a file contributes: nothing if it is not there or has no centres, otherwise the pairs (centre, place in the metrology) of its good rows *)
Definition gives (flat2fp : Z -> R * R -> res (R * R)) (max_rms : R) (metrology : list device) (f : option postable) (part : option (list ((R * R) * (R * R)))) : Prop :=
  match f with
  | None => part = None
  | Some t =>
      if (has_offset t || has_static t)%bool then exists rows l, part = Some l /\ kept_rows (good max_rms t) (q_rows t) rows /\
        Forall2 (fun r pq => exists v, row_of metrology (q_id r) v /\ flat2fp (d_petal v) (if has_offset t then q_offset r else q_static r) = Ok (fst pq) /\ snd pq = d_fp v) rows l
      else part = None
  end.
Definition contents {A} (part : option (list A)) : list A := match part with Some l => l | None => [] end.
