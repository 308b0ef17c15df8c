(** C09, C10: assignment of spots to positioners. *)
From Verif.Model Require Import MatchPositioners.
From Verif.Spec Require Import Numpy Match MatchPositioners.
From Verif.Proofs Require MatchPositioners Numpy RealNum.
From Coq Require Import Lra.

(** One entry per spot, distinct positioners, scores telling whether the spot is within reach
    of the arms, total counting those; each alternative is another such table with at least as
    many pairs in reach. *)
Theorem C09_assignment_is_valid_and_scored :
  forall argsort, is_argsort argsort ->
  forall (K : Type) (ltb eqb : K -> K -> bool), strict_total ltb -> (forall x y, eqb x y = true <-> x = y) ->
  forall median solve, assignment_solver solve ->
  forall fvc metr cal thresh fudge ret scores total alts,
  match_positioners argsort ltb eqb median solve fvc metr cal thresh fudge = Ok (ret, scores, total, alts) ->
  valid_result fvc metr thresh ret /\
  length scores = length fvc /\
  (forall f, nth_error ret f = Some (-1) -> nth_error scores f = Some None) /\
  (forall f p, nth_error ret f = Some (Z.of_nat p) ->
     (nth_error scores f = Some (Some 1) /\ within_reach eqb median fvc metr cal fudge f p) \/
     (nth_error scores f = Some (Some 0) /\ ~ within_reach eqb median fvc metr cal fudge f p)) /\
  total = Z.of_nat (length (filter (fun s => match s with Some 1 => true | _ => false end) scores)) /\
  (forall alt, In alt alts -> valid_result fvc metr thresh alt /\
     exists L, NoDup (map fst L) /\ Z.of_nat (length L) = total /\
       Forall (fun fp => nth_error alt (fst fp) = Some (Z.of_nat (snd fp)) /\
                         within_reach eqb median fvc metr cal fudge (fst fp) (snd fp)) L).
Proof. exact @MatchPositioners.match_positioners_spec. Qed.
Print Assumptions C09_assignment_is_valid_and_scored.

(** No one to one pairing has more pairs in reach. *)
Theorem C09_total_is_maximal :
  forall argsort, is_argsort argsort ->
  forall (K : Type) (ltb eqb : K -> K -> bool), strict_total ltb -> (forall x y, eqb x y = true <-> x = y) ->
  forall median solve, optimal_solver solve ->
  forall fvc metr cal thresh fudge ret scores total alts,
  match_positioners argsort ltb eqb median solve fvc metr cal thresh fudge = Ok (ret, scores, total, alts) ->
  forall L, NoDup (map fst L) -> NoDup (map snd L) ->
    (forall f p, In (f, p) L -> assignable fvc metr thresh f p /\ within_reach eqb median fvc metr cal fudge f p) ->
    Z.of_nat (length L) <= total.
Proof.
  intros s Hs K l e Hl He md sv Hv fvc metr cal t f r sc tot al H.
  exact (@MatchPositioners.match_positioners_optimal s Hs K l e Hl He md sv fvc metr cal t f r sc tot al Hv H).
Qed.
Print Assumptions C09_total_is_maximal.

(** An assigned pair which some one to one pairing with as many pairs in reach does without is left out by one of the alternatives:
    the alternatives show every assigned pair which is not forced. *)
Theorem C09_alternatives :
  forall argsort, is_argsort argsort ->
  forall (K : Type) (ltb eqb : K -> K -> bool), strict_total ltb -> (forall x y, eqb x y = true <-> x = y) ->
  forall median solve, optimal_solver solve ->
  forall fvc metr cal thresh fudge ret scores total alts,
  match_positioners argsort ltb eqb median solve fvc metr cal thresh fudge = Ok (ret, scores, total, alts) ->
  forall f p L, nth_error ret f = Some (Z.of_nat p) -> NoDup (map fst L) -> NoDup (map snd L) ->
    (forall f p, In (f, p) L -> assignable fvc metr thresh f p /\ within_reach eqb median fvc metr cal fudge f p) ->
    Z.of_nat (length L) = total -> ~ In (f, p) L ->
    exists alt L', In alt alts /\ NoDup (map fst L') /\ Z.of_nat (length L') = total /\ ~ In (f, p) L' /\
      Forall (fun fp => nth_error alt (fst fp) = Some (Z.of_nat (snd fp)) /\
                        within_reach eqb median fvc metr cal fudge (fst fp) (snd fp)) L'.
Proof.
  intros s Hs K l e Hl He md sv Hv fvc metr cal t f r sc tot al H.
  exact (@MatchPositioners.match_positioners_alternative s Hs K l e Hl He md sv (proj1 Hv) fvc metr cal t f r sc tot al Hv H).
Qed.
Print Assumptions C09_alternatives.

(** The function returns as soon as one spot is in reach of a positioner... *)
Theorem C09_returns_normally :
  forall argsort, is_argsort argsort ->
  forall (K : Type) (ltb eqb : K -> K -> bool), strict_total ltb -> (forall x y, eqb x y = true <-> x = y) ->
  forall median solve, assignment_solver solve ->
  forall fvc metr cal thresh fudge f p,
  NoDup (map d_id (filter (fun d => d_pinhole d =? 0) metr)) ->
  assignable fvc metr thresh f p -> within_reach eqb median fvc metr cal fudge f p ->
  exists out, match_positioners argsort ltb eqb median solve fvc metr cal thresh fudge = Ok out.
Proof. exact @MatchPositioners.match_positioners_ok. Qed.
Print Assumptions C09_returns_normally.

(** ... and raises ValueError for a repeated device or without positioner. *)
Theorem C09_errors :
  forall argsort, is_argsort argsort ->
  forall (K : Type) (ltb eqb : K -> K -> bool), strict_total ltb -> (forall x y, eqb x y = true <-> x = y) ->
  forall median solve, assignment_solver solve ->
  forall fvc metr cal thresh fudge,
  ~ NoDup (map d_id (filter (fun d => d_pinhole d =? 0) metr)) \/ (forall d, In d metr -> d_pinhole d <> 0) ->
  match_positioners argsort ltb eqb median solve fvc metr cal thresh fudge = Err ValueError.
Proof.
  intros s Hs K l e Hl He md sv Hv fvc metr cal t f [H|H].
  - exact (@MatchPositioners.match_positioners_dup s K l e He md sv fvc metr cal t f H).
  - exact (@MatchPositioners.match_positioners_no_positioner s Hs K l e Hl He md sv fvc metr cal t f H).
Qed.
Print Assumptions C09_errors.

(** "Every assigned pair is within reach" is false: a spot out of reach can be paired. *)
Definition w_fvc : list spot := [Spot 0 100 (0, 0); Spot 0 100 (7, 0)]%R.
Definition w_metr : list (@device Z) := [Device 0 11 (0, 0)%R; Device 0 12 (1, 0)%R; Device 1 13 (0, 0)%R].
Definition w_cal : list (@calib Z) := [Calib 11 (3/2)%R (3/2)%R; Calib 12 (3/2)%R (3/2)%R].
(* the solver which matches row i with column i is a valid one *)
Definition w_solve (n m : nat) (_ : nat -> nat -> Z) : list (nat * nat) := map (fun i => (i, i)) (seq 0 (Nat.min n m)).

Lemma w_solve_ok : assignment_solver w_solve.
Proof.
  intros n m sc. unfold w_solve. split; [|now rewrite map_length, seq_length].
  split; [|split]; rewrite ?map_map; cbn; rewrite ?map_id; try apply seq_NoDup.
  intros i j H. apply in_map_iff in H as (k & [= <- <-] & H). apply in_seq in H. lia.
Qed.

(** A case meeting the hypotheses of the theorems above: spot 0 is in reach of positioner 0. *)
Example C09_example : is_argsort isort_argsort /\ strict_total Z.ltb /\ assignment_solver w_solve /\
  NoDup (map d_id (filter (fun d => d_pinhole d =? 0) w_metr)) /\
  assignable w_fvc w_metr 50 0 0 /\ within_reach Z.eqb (fun l => hd 0%R l) w_fvc w_metr w_cal 0 0 0 /\
  (forall a, reach Z.eqb (fun l => hd 0%R l) w_metr w_cal 0 (Device 0 12 (1, 0)%R) a <-> a = 3%R) /\
  ~ within_reach Z.eqb (fun l => hd 0%R l) w_fvc w_metr w_cal 0 1 1.
Proof.
  assert (Hst : strict_total Z.ltb) by (split; [split|]; intros; lia).
  assert (R12 : forall a, reach Z.eqb (fun l => hd 0%R l) w_metr w_cal 0 (Device 0 12 (1, 0)%R) a <-> a = 3%R).
  { intros a. unfold reach, calibrated_arm. cbn. split; [intros [[_ H]|[H _]]; lra|]. intros ->. left. lra. }
  split; [exact Numpy.isort_is_argsort|]. split; [exact Hst|]. split; [exact w_solve_ok|].
  split; [repeat constructor; cbn; intuition lia|]. split.
  { exists (Spot 0 100 (0, 0)%R), (Device 0 11 (0, 0)%R). repeat split; cbn; lra. }
  split.
  { exists (Spot 0 100 (0, 0)%R), (Device 0 11 (0, 0)%R), 3%R. repeat split.
    - left. unfold calibrated_arm. cbn. split; lra.
    - unfold distance. cbn. replace ((0 - 0) * ((0 - 0) * 1) + (0 - 0) * ((0 - 0) * 1))%R with 0%R by lra. rewrite sqrt_0. lra. }
  split; [exact R12|].
  intros (s & d & a & H1 & H2 & H3 & H4). cbn in H1, H2. injection H1 as <-. injection H2 as <-. apply R12 in H3. subst a.
  unfold distance in H4. cbn in H4. replace ((1 - 7) * ((1 - 7) * 1) + (0 - 0) * ((0 - 0) * 1))%R with (6 * 6)%R in H4 by lra.
  rewrite sqrt_square in H4; lra.
Qed.

(** "Assigned means reachable" is refuted: with a solver returning complete assignments some
    input has an assigned pair with score 0. *)
Theorem C09_assigned_in_reach_refuted :
  ~ (forall argsort, is_argsort argsort ->
     forall (K : Type) (ltb eqb : K -> K -> bool), strict_total ltb -> (forall x y, eqb x y = true <-> x = y) ->
     forall median solve, assignment_solver solve ->
     forall fvc metr cal thresh fudge ret scores total alts,
     match_positioners argsort ltb eqb median solve fvc metr cal thresh fudge = Ok (ret, scores, total, alts) ->
     forall f p, nth_error ret f = Some (Z.of_nat p) -> within_reach eqb median fvc metr cal fudge f p).
Proof.
  intros H. destruct C09_example as (Ha & Hst & Hs & Hn & As & W & R12 & NW).
  destruct (C09_returns_normally _ Ha Z Z.ltb Z.eqb Hst Z.eqb_eq (fun l => hd 0%R l) w_solve Hs w_fvc w_metr w_cal 50%R 0%R 0 0 Hn As W) as [[[[ret sc] tot] al] E].
  apply NW. apply (H _ Ha Z Z.ltb Z.eqb Hst Z.eqb_eq _ w_solve Hs _ _ _ _ _ _ _ _ _ E).
  assert (U1 : Rltb 50 100 = true) by (apply RealNum.Rltb_true; lra).
  unfold match_positioners in E. cbn [w_fvc where_ where_from usable_spot s_pinhole s_counts] in E. unfold where_ in E. cbn [where_from usable_spot s_pinhole s_counts Z.eqb andb] in E.
  rewrite !U1 in E. cbn [w_metr where_from is_positioner d_pinhole Z.eqb] in E.
  cbn -[arm_lengths score_matrix rmapM alternatives_of IZR] in E. unfold take in E. cbn -[arm_lengths score_matrix alternatives_of rmapM IZR] in E. cbn [rmapM geti nth_error rbind w_fvc w_metr] in E.
  match type of E with context [arm_lengths ?a ?b ?c ?d ?e ?f ?g] => destruct (arm_lengths a b c d e f g) as [arms|] end; cbn [rbind] in E; [|discriminate].
  destruct (score_matrix _ _ _) as [s|]; cbn [rbind] in E; [|discriminate].
  destruct (rmapM (to_table _ _ _) _) as [alts|]; cbn [rbind] in E; [|discriminate].
  cbn in E. injection E as <- _ _ _. reflexivity.
Qed.
Print Assumptions C09_assigned_in_reach_refuted.

(** The dictionary lists, for every positioner, exactly the spots assigned to it in the main
    assignment or in one of the alternatives; it has no entry for -1 nor empty entries. *)
Theorem C10_possible_assignments :
  forall (assignment : list Z) (alternatives : option (list (list Z))) (k : Z),
  let all := assignment :: match alternatives with Some l => l | None => [] end in
  let assigned x := exists a, In a all /\ nth_error a x = Some k in
  match dict_get Z.eqb (possible_assignments_dict assignment alternatives) k with
  | Some s => k <> -1 /\ s <> [] /\ NoDup s /\ forall x, In x s <-> assigned x
  | None => k = -1 \/ forall x, ~ assigned x
  end.
Proof. exact MatchPositioners.possible_spec. Qed.
Print Assumptions C10_possible_assignments.

Example C10_example :
  possible_assignments_dict [3; -1; 5] (Some [[5; 3; -1]; [3; -1; 5]]) = [(3, [0; 1]%nat); (5, [2; 0]%nat)].
Proof. reflexivity. Qed.
