(** The corners of the guide cameras from planes fitted to stars. *)
From Verif.Model Require Import Ptl2fp GfaPatch.
From Verif.Spec Require Export Gfa.
Local Open Scope R_scope.
Local Open Scope list_scope.

Definition plane (c : R * R * R) (q : R * R) : R := let '(c0, c1, c2) := c in c0 + c1 * fst q + c2 * snd q.
(** The six petals with guide cameras that have a plane *)
Definition planes : list Z := [0; 2; 3; 5; 7; 8]%Z.
(** Pixels of the corners *)
Definition corner (h : Z) : R * R := if Z.eqb h 1 then (0, 0) else if Z.eqb h 2 then (2047, 0) else if Z.eqb h 3 then (2047, 1031) else (0, 1031).
(** Measured petals, and the rows of a pinhole in the two tables *)
Definition measured (p : Z) : bool := negb (Z.eqb p 3 || Z.eqb p 7).
Definition avg_rows (A : list mrow) (h : Z) : list mrow := filter (fun t => Z.eqb (m_pinhole t) h && m_gfa t && measured (m_petal t))%bool A.
Definition petal_rows (M : list mrow) (p h : Z) : list mrow := filter (fun t => Z.eqb (m_pinhole t) h && m_gfa t && Z.eqb (m_petal t) p)%bool M.
(** The tables have what the script needs *)
Definition averages (A : list mrow) : Prop := (forall t, In t A -> (0 <= m_petal t <= 9)%Z) /\ forall h, (1 <= h <= 4)%Z -> length (avg_rows A h) = 8%nat.
Definition measures (M : list mrow) : Prop := forall p h, In p [0; 2; 5; 8]%Z -> (1 <= h <= 4)%Z -> length (petal_rows M p h) = 1%nat.
Definition aligned (d : list (Z * alignment)) : Prop := forall p, In p planes -> exists a, dict_get Z.eqb d p = Some a.
(** The sum of one coordinate over the eight rows, divided by eight *)
Definition average (A : list mrow) (h : Z) (coord : R * R * R -> R) : R := fold_right (fun t s => coord (m_ptl t) + s) 0 (avg_rows A h) / 8.
(** Where a corner is first thought to be, and its height *)
Definition first_place (d : list (Z * alignment)) (A M : list mrow) (p h : Z) (g : option (R * R)) (z : R) : Prop :=
  if measured p then exists t x y, petal_rows M p h = [t] /\ m_fp t = (x, y, z) /\ g = Some (x, y)
  else z = average A h (fun v => snd v) /\ exists v, ptl2fp d p (average A h (fun v => fst (fst v))) (average A h (fun v => snd (fst v))) None = Ok v /\ g = option_map fst v.
(** Three points seen from above, none missing and not on a line *)
Definition open_corner (g1 g2 g3 : option (R * R)) : Prop :=
  match g1, g2, g3 with
  | Some p, Some q, Some r => (fst q - fst p) * (snd r - snd q) - (snd q - snd p) * (fst r - fst q) <> 0
  | _, _, _ => False
  end.
(** A row of the output as a row of the table of gfa2fp *)
Definition as_metrology (r : prow) (g : gfa_row) : Prop :=
  g_is_gfa g = true /\ g_petal g = p_loc r /\ g_pinhole g = p_pinhole r /\ p_x r = Some (g_x g) /\ p_y r = Some (g_y g) /\ p_z r = g_z g.
