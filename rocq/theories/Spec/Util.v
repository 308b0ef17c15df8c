(** The language of fiber lists. *)
From Coq Require Import List ZArith String Ascii.
Import ListNotations.
Open Scope Z_scope.

(** [numeral s n]: the non-empty decimal text [s] denotes [n]. *)
Definition digit_char (a : ascii) (d : Z) : Prop := 0 <= d <= 9 /\ a = ascii_of_N (Z.to_N (48 + d)).
Inductive numeral : string -> Z -> Prop :=
| numeral_one a d : digit_char a d -> numeral (String a EmptyString) d
| numeral_more a d s n : digit_char a d -> numeral s n ->
    numeral (String a s) (d * 10 ^ Z.of_nat (String.length s) + n).

(** The half-open range [a, b). *)
Definition half_open (a b : Z) (l : list Z) : Prop :=
  Z.of_nat (List.length l) = Z.max 0 (b - a) /\
  forall k v, nth_error l k = Some v -> v = a + Z.of_nat k.

(** Equality up to blanks. *)
Inductive blanks_removed : string -> string -> Prop :=
| br_nil : blanks_removed EmptyString EmptyString
| br_blank s t : blanks_removed s t -> blanks_removed (String " " s) t
| br_keep a s t : a <> " "%char -> blanks_removed s t -> blanks_removed (String a s) (String a t).

Definition range_symbol (sym : string) : Prop := sym = ":"%string \/ sym = ".."%string \/ sym = "-"%string.

(** One item of the list denotes the integers [l]. *)
Inductive item : string -> list Z -> Prop :=
| item_number s t n : blanks_removed s t -> numeral t n -> item s [n]
| item_range s t a b sym na nb l :
    blanks_removed s t -> range_symbol sym -> t = append a (append sym b) ->
    numeral a na -> numeral b nb -> half_open na nb l -> item s l.

(** Only blanks and tabs. *)
Definition blank (s : string) : Prop :=
  forall k a, String.get k s = Some a -> a = " "%char \/ a = "009"%char.

Fixpoint no_comma (s : string) : Prop :=
  match s with EmptyString => True | String a r => a <> ","%char /\ no_comma r end.

(** Comma separated concatenation. *)
Fixpoint with_commas (l : list string) : string :=
  match l with
  | [] => EmptyString
  | [w] => w
  | w :: ws => append w (String "," (with_commas ws))
  end.
