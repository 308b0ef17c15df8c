(** File names of exposures. *)
From Coq Require Import String Ascii List.
Local Open Scope string_scope.

Definition occurs (sub s : string) : Prop := exists a b, s = a ++ sub ++ b.
(** no character of [s] satisfies [P] *)
Definition free_of (P : ascii -> Prop) (s : string) : Prop := forall a c b, s = a ++ String c b -> ~ P c.
Definition white (c : ascii) : Prop := In (nat_of_ascii c) (9 :: 10 :: 11 :: 12 :: 13 :: 28 :: 29 :: 30 :: 31 :: 32 :: nil).
(** [f] is the file of the exposure [b] in the directory [d] (empty or ending with a slash) *)
Record exposure (d b f : string) : Prop := {
  e_name : f = d ++ b ++ ".fits" \/ f = d ++ b ++ ".fits.fz";
  e_dir : d = "" \/ exists d', d = d' ++ "/";
  e_base : free_of (fun c => c = "/"%char) b;
  e_some : d ++ b <> "";
  e_fits : ~ occurs ".fits" (d ++ b);
  e_csv : ~ occurs ".csv" f;
  e_white : free_of white f;
  e_dash : forall r, f <> "-" ++ r }.
