(** Shared vocabulary of the models: Python exceptions as values, dictionaries,
    and the few list helpers Python and numpy provide. *)
From Coq Require Export String Ascii Bool List ZArith Lia.
Export ListNotations.
#[global] Open Scope Z_scope.
#[global] Open Scope list_scope.

(** The ways a modelled Python call can end abnormally. [OutOfFuel] is an artefact
    of modelling a loop with fuel; theorems show it is never returned. *)
Inductive exn :=
| KeyError | ValueError | AssertionError | IndexError | TypeError | NameError
| AttributeError | RuntimeError | ZeroDivision | SysExit (code : Z) | LinAlgError | EOFError | FileNotFound
| NonFinite (** not an exception: numpy went on with inf or nan *)
| OutOfFuel.

Inductive res (A : Type) := Ok (a : A) | Err (e : exn).
Arguments Ok {A} a. Arguments Err {A} e.

Definition rbind {A B} (r : res A) (f : A -> res B) : res B :=
  match r with Ok a => f a | Err e => Err e end.
Definition rmap {A B} (f : A -> B) (r : res A) : res B :=
  match r with Ok a => Ok (f a) | Err e => Err e end.

(** Left to right evaluation of a list of calls, stopping at the first exception. *)
Fixpoint rmapM {A B} (f : A -> res B) (l : list A) : res (list B) :=
  match l with
  | [] => Ok []
  | a :: r => rbind (f a) (fun b => rbind (rmapM f r) (fun bs => Ok (b :: bs)))
  end.

(** Python dictionary: association list, [dict_set] keeps the position of an existing
    key and appends a new one (insertion order of Python 3.7+). *)
Section Dict.
Context {K V : Type} (keq : K -> K -> bool).
Definition dict := list (K * V).
Fixpoint dict_get (d : dict) (k : K) : option V :=
  match d with
  | [] => None
  | (k', v) :: r => if keq k k' then Some v else dict_get r k
  end.
Fixpoint dict_set (d : dict) (k : K) (v : V) : dict :=
  match d with
  | [] => [(k, v)]
  | (k', v') :: r => if keq k k' then (k', v) :: r else (k', v') :: dict_set r k v
  end.
Definition dict_getE (d : dict) (k : K) : res V :=
  match dict_get d k with Some v => Ok v | None => Err KeyError end.
Definition dict_mem (d : dict) (k : K) : bool :=
  match dict_get d k with Some _ => true | None => false end.
End Dict.
Arguments dict K V : clear implicits.

(** [str.split(c)] for a one character separator. *)
Fixpoint split_char (c : ascii) (s : string) : list string :=
  match s with
  | EmptyString => [EmptyString]
  | String a r =>
      if Ascii.eqb a c then EmptyString :: split_char c r
      else match split_char c r with
           | [] => [String a EmptyString]
           | w :: ws => String a w :: ws
           end
  end.

(** [c.join(l)] *)
Fixpoint join_str (c : string) (l : list string) : string :=
  match l with
  | [] => EmptyString
  | [w] => w
  | w :: ws => append w (append c (join_str c ws))
  end.

(** [c in s] for a character. *)
Fixpoint has_char (c : ascii) (s : string) : bool :=
  match s with
  | EmptyString => false
  | String a r => Ascii.eqb a c || has_char c r
  end.
