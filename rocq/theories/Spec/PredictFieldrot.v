(** Arguments and headers for the prediction of the field rotation. *)
From Verif.Model Require Import PredictFieldrot.
Local Open Scope R_scope.

(** How often a character is in a text *)
Fixpoint count_char (c : ascii) (s : string) : nat := match s with EmptyString => 0 | String a r => (if Ascii.eqb a c then 1 else 0) + count_char c r end.
(** Texts joined by a separator *)
Fixpoint joined (c : ascii) (w : string) (l : list string) : string := match l with nil => w | cons v r => (w ++ String c (joined c v r))%string end.
(** The sidereal time that the options tell *)
Definition told_lst (a : arguments) (ra mjd : R) : R := match a_lst a, a_ha a with Some lst, _ => lst | None, Some ha => ra + ha | None, None => mjd2lst mjd end.
(** It cannot be computed *)
Definition lst_fails (a : arguments) : Prop := a_lst a = None /\ match a_ha a with Some _ => a_ra a = None | None => a_mjd a = None end.
(** The header with the pointing: that of HDU 0 if it has TARGTRA, else that of HDU 1 *)
Definition pointing (f : res header * res header) (h : header) : Prop :=
  (fst f = Ok h /\ h_targtra h <> None) \/ (exists h0, fst f = Ok h0 /\ h_targtra h0 = None /\ snd f = Ok h /\ h_targtra h <> None).
