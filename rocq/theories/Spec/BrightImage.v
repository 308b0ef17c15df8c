(** Correlation of a template with the edges of an image inside a disk. *)
From Coq Require Import List Reals ZArith.
Import ListNotations.
Local Open Scope R_scope.

Definition total (l : list R) : R := fold_right Rplus 0 l.
Definition inner (a b : list (list R)) : R := total (map (fun rs => total (map (fun uv => fst uv * snd uv) (combine (fst rs) (snd rs)))) (combine a b)).
(** [e] with 0 at a distance of [pad] pixels or more of the centre *)
Definition inside (pad : nat) (e : list (list R)) : list (list R) :=
  map (fun i => map (fun j => if Rlt_dec ((INR i - INR pad) ^ 2 + (INR j - INR pad) ^ 2) (INR pad ^ 2) then nth j (nth i e []) 0 else 0) (seq 0 (2 * pad + 1))) (seq 0 (2 * pad + 1)).
Definition correlation (t e : list (list R)) : R := inner t e / sqrt (inner e e).
(** the smoothing scales tried *)
Definition scales : list R := [1 / 10; 2 / 10; 5 / 10; 1; 15 / 10].
