(** Model of /repo/py/desimeter/bitmask.py. *)
From Verif.Model Require Export Prelude.
From Coq Require Import DecimalString.

(** bitmask.py:83-98 [_MaskBit]: name, bit number, comment; the integer value and the
    [mask] attribute are both 2**bitnum. Simplified: the optional dictionary of extra
    attributes is left out, and bit numbers are natural numbers (a negative one would
    make 2**bitnum a float). *)
Record maskbit := { mb_name : string; mb_num : N; mb_comment : string }.
Definition mb_mask (b : maskbit) : Z := 2 ^ Z.of_N (mb_num b).

(** Keys of the dictionary [_bits]: names (str) and bit numbers (int). *)
Inductive key := KS (s : string) | KN (n : Z).
Definition key_eqb (a b : key) : bool :=
  match a, b with
  | KS s, KS t => String.eqb s t
  | KN m, KN n => Z.eqb m n
  | _, _ => false
  end.

(** One line [name, bitnum, comment] of the definition list (bitmask.py:132-133). *)
Definition bitdef : Type := string * N * string.
Definition bits := dict key maskbit.

(** bitmask.py:132-142 [BitMask.__init__], one turn of the loop. *)
Definition add_def (d : bits) (x : bitdef) : bits :=
  let '(nm, num, cm) := x in
  let b := {| mb_name := nm; mb_num := num; mb_comment := cm |} in
  let d1 := dict_set key_eqb d (KS nm) b in
  dict_set key_eqb d1 (KN (Z.of_N num)) b.
Definition mk_bitmask (defs : list bitdef) : bits := fold_left add_def defs [].

(** bitmask.py:144-147 *)
Definition getitem (d : bits) (k : key) : res maskbit := dict_getE key_eqb d k.
(** bitmask.py:149-162 *)
Definition bitnum (d : bits) (k : key) : res N := rmap mb_num (getitem d k).
(** bitmask.py:164-177 *)
Definition bitname (d : bits) (k : key) : res string := rmap mb_name (getitem d k).
(** bitmask.py:179-192 *)
Definition comment (d : bits) (k : key) : res string := rmap mb_comment (getitem d k).

(** bitmask.py:218-221, the loop over the parts of 'A|B|..'. *)
Fixpoint or_masks (d : bits) (acc : Z) (l : list string) : res Z :=
  match l with
  | [] => Ok acc
  | nm :: r => rbind (getitem d (KS nm)) (fun b => or_masks d (Z.lor acc (mb_mask b)) r)
  end.
(** bitmask.py:194-221 *)
Definition mask (d : bits) (k : key) : res Z :=
  match k with
  | KN _ => rmap mb_mask (getitem d k)
  | KS s => or_masks d 0 (split_char "|" s)
  end.

(** [str(n)] for n >= 0. *)
Definition str_of_N (n : N) : string := NilZero.string_of_uint (N.to_uint n).

(** bitmask.py:248-251: the label of a set bit. *)
Definition bit_label (d : bits) (n : N) : string :=
  match dict_get key_eqb d (KN (Z.of_N n)) with
  | Some b => mb_name b
  | None => append "UNKNOWN" (str_of_N n)
  end.

(** bitmask.py:244-252, the while loop, with fuel. *)
Fixpoint names_loop (fuel : nat) (d : bits) (n : N) (m : Z) : res (list string) :=
  match fuel with
  | O => Err OutOfFuel
  | S f =>
      if 2 ^ Z.of_N n <=? m then
        rbind (names_loop f d (N.succ n) m) (fun rest =>
          if Z.eqb (Z.land (2 ^ Z.of_N n) m) 0 then Ok rest
          else Ok (bit_label d n :: rest))
      else Ok []
  end.
(** bitmask.py:243-254 [names(mask)]. The fuel covers every turn of the loop. *)
Definition names (d : bits) (m : Z) : res (list string) :=
  names_loop (S (S (Z.to_nat (Z.log2 m)))) d 0%N m.

(** bitmask.py:238-242 [names()]: integer keys in increasing order. *)
Fixpoint insert_Z (x : Z) (l : list Z) : list Z :=
  match l with
  | [] => [x]
  | y :: r => if x <=? y then x :: l else y :: insert_Z x r
  end.
Definition sort_Z (l : list Z) : list Z := fold_right insert_Z [] l.
Definition int_keys (d : bits) : list Z :=
  flat_map (fun kv => match fst kv with KN n => [n] | KS _ => [] end) d.
Definition all_names (d : bits) : res (list string) :=
  rmapM (fun n => rmap mb_name (getitem d (KN n))) (sort_Z (int_keys d)).

(** posparams/movemask.py:4-12 *)
Definition movemask_defs : list bitdef :=
  [ ("THETA_STUCK", 0%N, "Theta motor is not moving");
    ("PHI_STUCK", 1%N, "Phi motor is not moving");
    ("FAILED_FIT", 2%N, "Calibration fit failed");
    ("INVALID_TABLE", 3%N, "I/O issue or empty input table");
    ("INVALID_AFTER_FILTER", 4%N, "not enough data in table after filtering") ]%string.

(** posparams/posflags_mask.py:14-76 *)
Definition posflags_defs : list bitdef :=
  [ ("MATCHED", 0%N, "Matched"); ("PINHOLE", 1%N, "Fiducial pinhole");
    ("POSITIONER", 2%N, "Positioner"); ("FIDUCIAL", 3%N, "Fiducial");
    ("FVCERROR", 4%N, "FVC error"); ("BADPOSFID", 5%N, "FVC bad posfid");
    ("MOVED", 6%N, "Moved"); ("GIF", 7%N, "GIF"); ("ETC", 8%N, "ETC");
    ("FITTEDPINHOLE", 9%N, "Fitted pinhole"); ("MATCHEDCENTER", 10%N, "Matched to center");
    ("AMBIGUOUS", 11%N, "Ambiguous match"); ("FVCPROC", 12%N, "FVCPROC");
    ("ASSIGNED", 14%N, "Target assiged"); ("CONVERGED", 15%N, "Converged on target");
    ("NOTCTLENABLED", 16%N, "Control disabled"); ("BROKENFIBER", 17%N, "Fiber not intact");
    ("COMERROR", 18%N, "CAN communication error"); ("OVERLAP", 19%N, "Overlapping targets");
    ("FROZEN", 20%N, "Frozen by anticollision"); ("UNREACHABLE", 21%N, "Unreachable target");
    ("BOUNDARYVIOLATION", 22%N, "Exceeds boundaries"); ("MULTIPLEREQUESTS", 23%N, "Multiple requests");
    ("NONFUNCTIONAL", 24%N, "Device nonfunctional"); ("REJECTED", 25%N, "Movetable rejected");
    ("EXPERTLIMIT", 26%N, "Exceeds expert limit"); ("BADNEIGHBOR", 27%N, "Bad neighbor");
    ("MISSINGSPOT", 28%N, "Unmatched"); ("BADPERFORMANCE", 29%N, "Exceeded max error") ]%string.
