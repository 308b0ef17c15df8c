(** Names of the files of positioners. *)
From Coq Require Import NArith Ascii String List.
Import ListNotations.
Local Open Scope string_scope.

Definition char_range (a b c : ascii) : Prop := (N_of_ascii a <= N_of_ascii c <= N_of_ascii b)%N.
(** A letter and five digits *)
Definition positioner_name (s : string) : Prop :=
  exists c d1 d2 d3 d4 d5, s = String c (String d1 (String d2 (String d3 (String d4 (String d5 ""))))) /\
    (char_range "A" "Z" c \/ char_range "a" "z" c) /\ Forall (char_range "0" "9") [d1; d2; d3; d4; d5]%list.
Fixpoint no_slash (s : string) : Prop := match s with EmptyString => True | String c r => c <> "/"%char /\ no_slash r end.
(** The file is of the positioner: [directory/][name][anything].csv *)
Definition file_of (p file : string) : Prop :=
  positioner_name p /\ exists rest, no_slash rest /\ (file = p ++ rest ++ ".csv" \/ exists dir, file = dir ++ "/" ++ p ++ rest ++ ".csv").
