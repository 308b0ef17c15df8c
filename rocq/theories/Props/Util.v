(** C03: fiber list parsing. *)
From Verif.Model Require Import Util.
From Verif.Spec Require Import Util.
From Verif.Proofs Require Util.

(** Every well formed comma separated list is understood, and denotes the concatenation of
    its items; the range symbol used in an item does not matter (see [item]). *)
Theorem C03_accepts :
  forall parts ls,
    parts <> [] -> Forall no_comma parts -> Forall2 item parts ls ->
    parse_fibers (Some (with_commas parts)) = Ok (List.concat ls).
Proof. exact Util.parse_accepts. Qed.
Print Assumptions C03_accepts.

(** Nothing else is: an accepted string is blank or a well formed list. *)
Theorem C03_accepts_only :
  forall s l, parse_fibers (Some s) = Ok l ->
    (blank s /\ l = []) \/
    (exists parts ls, parts <> [] /\ s = with_commas parts /\ Forall no_comma parts /\
                      Forall2 item parts ls /\ l = List.concat ls).
Proof. exact Util.parse_only. Qed.
Print Assumptions C03_accepts_only.

Theorem C03_blank : forall s, blank s -> parse_fibers (Some s) = Ok [].
Proof. exact Util.parse_blank. Qed.
Print Assumptions C03_blank.

Theorem C03_none : parse_fibers None = Ok [].
Proof. exact (eq_refl (Ok (@nil Z))). Qed.
Print Assumptions C03_none.

(** The only failure is an exit with status 1. *)
Theorem C03_failure_is_exit_1 : forall s e, parse_fibers s = Err e -> e = SysExit 1.
Proof. exact Util.parse_total. Qed.
Print Assumptions C03_failure_is_exit_1.

Example C03_example :
  parse_fibers (Some " 3, 10:13,20..22 ,7-7,5 - 8"%string) = Ok [3; 10; 11; 12; 20; 21; 5; 6; 7] /\
  parse_fibers (Some "1,,2"%string) = Err (SysExit 1) /\ parse_fibers (Some "1:2-3"%string) = Err (SysExit 1) /\
  Forall2 item [" 3"; " 10:12"]%string [[3]; [10; 11]] /\ Forall no_comma [" 3"; " 10:12"]%string.
Proof.
  repeat split; try reflexivity.
  - constructor; [apply Util.parse_item_spec; reflexivity|].
    constructor; [apply Util.parse_item_spec; reflexivity|constructor].
  - repeat constructor; discriminate.
Qed.
