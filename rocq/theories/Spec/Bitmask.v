(** What bit masks are supposed to do, stated on the definition list alone. *)
From Coq Require Import List ZArith String Ascii Sorted DecimalString.
Import ListNotations.

(** [(s, i, c)] is the definition that owns bit number [i]: the last one with that number. *)
Definition owns_num (defs : list (string * N * string)) (i : N) (s c : string) : Prop :=
  exists pre post, defs = pre ++ (s, i, c) :: post /\ forall s' c', ~ In (s', i, c') post.
(** ... and the definition that owns the name [s]: the last one with that name. *)
Definition owns_name (defs : list (string * N * string)) (s : string) (i : N) (c : string) : Prop :=
  exists pre post, defs = pre ++ (s, i, c) :: post /\ forall i' c', ~ In (s, i', c') post.
Definition undefined_num (defs : list (string * N * string)) (i : N) : Prop :=
  forall s c, ~ In (s, i, c) defs.
Definition undefined_name (defs : list (string * N * string)) (s : string) : Prop :=
  forall i c, ~ In (s, i, c) defs.

(** Decimal text of a number. *)
Definition decimal (i : N) : string := NilZero.string_of_uint (N.to_uint i).

Definition label_of (defs : list (string * N * string)) (i : N) (s : string) : Prop :=
  (exists c, owns_num defs i s c) \/ (undefined_num defs i /\ s = append "UNKNOWN" (decimal i)).

(** [l] decodes the integer [m]: one label per set bit, increasing bit order; nothing for
    zero or negative integers. *)
Definition decodes (defs : list (string * N * string)) (m : Z) (l : list string) : Prop :=
  exists bits : list N,
    StronglySorted N.lt bits /\
    (forall i, In i bits <-> (0 < m)%Z /\ Z.testbit m (Z.of_N i) = true) /\
    Forall2 (label_of defs) bits l.

Definition distinct_names (defs : list (string * N * string)) : Prop :=
  NoDup (map (fun x => fst (fst x)) defs).
Definition distinct_nums (defs : list (string * N * string)) : Prop :=
  NoDup (map (fun x => snd (fst x)) defs).
