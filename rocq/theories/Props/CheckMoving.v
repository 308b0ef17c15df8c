(** C126: which moves moved the positioners. *)
From Coq Require Import Lra Lia Permutation Sorted.
From Verif.Model Require Import CheckMoving.
From Verif.Spec Require Import CheckMoving.
From Verif.Proofs Require Import Prelude RealNum Numpy Sorting ReadMoves Fithandler CheckMoving.
Local Open Scope R_scope.
Local Open Scope list_scope.

Lemma locations_found l : (forall p, In p l -> exists loc, get_petal_loc p = Ok loc) -> exists locs, rmapM get_petal_loc l = Ok locs /\ Forall2 (fun p loc => get_petal_loc p = Ok loc) l locs.
Proof.
  induction l as [|p l IH]; intros H; [exists []; split; [reflexivity|constructor]|]. destruct (H p) as (loc & E); [now left|]. destruct IH as (locs & E' & F); [intros q I; apply H; now right|].
  exists (loc :: locs). cbn [rmapM]. rewrite E. cbn [rbind]. rewrite E'. split; [reflexivity|]. now constructor.
Qed.
(** C126: if the locations of all petals are known, the petals come in the order of their locations, each with the lines of its positioners *)
Theorem C126_lines argsort query petalids : is_argsort argsort -> (forall p, In p petalids -> exists loc, get_petal_loc p = Ok loc) ->
  exists ps locs ls, check_moving argsort query petalids = Ok (concat ls) /\ Permutation ps petalids /\ Forall2 (fun p loc => get_petal_loc p = Ok loc) ps locs /\ StronglySorted Z.le locs /\
    Forall2 (fun '(p, loc) l => lines_of loc (query p) l) (combine ps locs) ls.
Proof.
  intros AS H. destruct (locations_found _ H) as (locs & E & F). unfold check_moving. rewrite E. cbn [rbind].
  assert (M : map (fun p => match get_petal_loc p with Ok l => l | Err _ => 0%Z end) petalids = locs) by (clear - F; induction F as [|p loc ps ls Q _ IH]; cbn; [reflexivity|]; now rewrite Q, IH).
  rewrite <- M. destruct (sorting_take Z.ltb (fun p => match get_petal_loc p with Ok l => l | Err _ => 0%Z end) petalids _ (AS Z Z.ltb _ (st_weak _ Zltb_strict))) as (ps & E' & P & S0).
  rewrite E'. cbn [rbind]. assert (H' : forall p, In p ps -> exists loc, get_petal_loc p = Ok loc) by (intros p I; apply H; now apply (Permutation_in _ P)).
  destruct (locations_found ps H') as (locs' & _ & F'). assert (M' : map (fun p => match get_petal_loc p with Ok l => l | Err _ => 0%Z end) ps = locs') by (clear - F'; induction F' as [|p loc ps ls Q _ IH]; cbn; [reflexivity|]; now rewrite Q, IH).
  rewrite M' in S0. assert (G : exists ls, rmapM (check_petal argsort query) ps = Ok ls /\ Forall2 (fun '(p, loc) l => lines_of loc (query p) l) (combine ps locs') ls).
  { clear - F' AS. induction F' as [|p loc ps ls Q _ IH]; [exists []; split; [reflexivity|constructor]|]. destruct IH as (r & E & F). destruct (petal_spec argsort AS query p loc Q) as (l & El & Sl).
    exists (l :: r). cbn [rmapM combine]. rewrite El. cbn [rbind]. rewrite E. split; [reflexivity|]. now constructor. }
  destruct G as (ls & El & Fl). exists ps, locs', ls. rewrite El. repeat split; auto.
  clear - S0. induction S0 as [|a m S1 IH F]; constructor; auto. eapply Forall_impl; [|exact F]. intros b Hb. cbn in Hb. now apply Z.ltb_ge in Hb.
Qed.
(** A petal without a location stops the script before anything is asked for *)
Theorem C126_fails argsort query petalids p : In p petalids -> get_petal_loc p = Err KeyError -> check_moving argsort query petalids = Err KeyError.
Proof.
  intros I E. unfold check_moving. enough (rmapM get_petal_loc petalids = Err KeyError) as -> by reflexivity. induction petalids as [|q l IH]; [destruct I|]. cbn [rmapM].
  destruct (get_petal_loc q) as [loc|e] eqn:Q; cbn [rbind].
  - destruct I as [->|I]; [congruence|]. rewrite (IH I). reflexivity.
  - unfold get_petal_loc in Q. destruct (dict_get Z.eqb petal_locs q); congruence.
Qed.
(** The petals with a location are those with a number from 0 to 11; those from 2 on have the ten locations, each one of them, and 0 and 1 that of petal 4 *)
Theorem C126_locations : (forall p, (exists loc, get_petal_loc p = Ok loc) <-> (0 <= p <= 11)%Z) /\ (forall p, ~ (0 <= p <= 11)%Z -> get_petal_loc p = Err KeyError) /\
  (forall loc, (0 <= loc <= 9)%Z -> exists! p, (2 <= p <= 11)%Z /\ get_petal_loc p = Ok loc) /\ (forall p loc, get_petal_loc p = Ok loc -> (0 <= loc <= 9)%Z) /\
  get_petal_loc 0 = get_petal_loc 4 /\ get_petal_loc 1 = get_petal_loc 4.
Proof.
  assert (C : forall p, (0 <= p <= 11)%Z \/ get_petal_loc p = Err KeyError).
  { intros p. destruct (Z_le_dec 0 p); [destruct (Z_le_dec p 11); [left; lia|]|]; right; unfold get_petal_loc, petal_locs; cbn [dict_get]; repeat match goal with |- context [(p =? ?k)%Z] => destruct (Z.eqb_spec p k); [exfalso; lia|] end; reflexivity. }
  assert (D : forall p, (0 <= p <= 11)%Z -> In p [0; 1; 2; 3; 4; 5; 6; 7; 8; 9; 10; 11]%Z) by (intros p H; cbn; lia).
  assert (D' : forall p, (2 <= p <= 11)%Z -> In p [2; 3; 4; 5; 6; 7; 8; 9; 10; 11]%Z) by (intros p H; cbn; lia).
  split; [|split; [|split; [|split; [|split; reflexivity]]]].
  - intros p. split; [intros (loc & E); destruct (C p) as [H|H]; [exact H|congruence]|]. intros H. apply D in H. cbn in H. repeat (destruct H as [<-|H]; [eexists; reflexivity|]). destruct H.
  - intros p N. destruct (C p); tauto.
  - intros loc H. assert (I : In loc [0; 1; 2; 3; 4; 5; 6; 7; 8; 9]%Z) by (cbn; lia). clear H. cbn in I.
    assert (U : forall p q, (2 <= q <= 11)%Z -> get_petal_loc q = Ok loc -> (2 <= p <= 11)%Z -> get_petal_loc p = Ok loc -> p = q).
    { intros p q Hq Eq Hp Ep. apply D' in Hp, Hq. cbn in Hp, Hq. repeat (destruct Hp as [<-|Hp]; [vm_compute in Ep; injection Ep as <-; repeat (destruct Hq as [<-|Hq]; [vm_compute in Eq; try discriminate Eq; reflexivity|]); destruct Hq|]). destruct Hp. }
    assert (X : exists p, (2 <= p <= 11)%Z /\ get_petal_loc p = Ok loc).
    { destruct I as [<-|[<-|[<-|[<-|[<-|[<-|[<-|[<-|[<-|[<-|[]]]]]]]]]]]; [exists 4%Z|exists 5%Z|exists 6%Z|exists 3%Z|exists 8%Z|exists 10%Z|exists 11%Z|exists 2%Z|exists 7%Z|exists 9%Z]; (split; [lia|reflexivity]). }
    destruct X as (p & Hp & Ep). exists p. split; [auto|]. intros q (Hq & Eq). now apply (U p q).
  - intros p loc E. destruct (C p) as [H|H]; [|congruence]. apply D in H. cbn in H. repeat (destruct H as [<-|H]; [vm_compute in E; injection E as <-; lia|]). destruct H.
Qed.
Print Assumptions C126_lines.
Print Assumptions C126_fails.
Print Assumptions C126_locations.

(** * A petal *)
Definition mv (p : string) (i : Z) (x : option R) : dbmove := {| v_pos := p; v_index := i; v_bus := 10 + i; v_x := x; v_y := Some 0 |}.
Definition ex_query (p : Z) : list dbmove := if (p =? 4)%Z then [mv "M2" 3 (Some 1); mv "M1" 7 (Some 5); mv "M2" 2 (Some 0); mv "M2" 1 None; mv "M2" 4 (Some (1 + 1 / 100))] else [].
Lemma flag a b c : (c <= 0.05 /\ 0 <= c /\ (a - b) ^ 2 = c ^ 2 -> moved (b, Some 0) (a, Some 0) = false) /\ (0.05 < c /\ (a - b) ^ 2 = c ^ 2 -> moved (b, Some 0) (a, Some 0) = true).
Proof.
  unfold moved. cbn [fst snd]. replace ((a - b) ^ 2 + (0 - 0) ^ 2) with ((a - b) ^ 2) by ring. split.
  - intros (H1 & H2 & ->). rewrite sqrt_pow2 by exact H2. destruct (Rltb 0.05 c) eqn:E; [apply Rltb_true in E; lra|reflexivity].
  - intros (H1 & ->). rewrite sqrt_pow2 by lra. now apply Rltb_true.
Qed.
Example C126_example : check_moving (@isort_argsort) ex_query [5; 4]%Z = Ok [{| l_pos := "M2"; l_petal := 0; l_bus := 13; l_moving := [true; false] |}].
Proof.
  assert (A : moved (0, Some 0) (1, Some 0) = true) by (apply (flag 1 0 1); lra). assert (B : moved (1, Some 0) (1 + 1 / 100, Some 0) = false) by (apply (flag (1 + 1 / 100) 1 (1 / 100)); lra).
  cbv -[moved Rplus Rdiv IZR]. cbv -[moved Rplus Rdiv IZR] in A, B. rewrite ?A, ?B. reflexivity.
Qed.
(** It is false that a positioner found at two places farther than 0.05 mm from each other has a move flagged (small steps add up) *)
Definition slow_query (p : Z) : list dbmove := [mv "M1" 1 (Some 0); mv "M1" 2 (Some (4 / 100)); mv "M1" 3 (Some (8 / 100))].
Theorem C126_slow_refuted : ~ (forall query petalids out l v w p, check_moving (@isort_argsort) query petalids = Ok out -> In l out -> In p petalids -> In v (query p) -> In w (query p) ->
  v_pos v = l_pos l -> v_pos w = l_pos l -> far v w -> In true (l_moving l)).
Proof.
  intros H. assert (A : moved (0, Some 0) (4 / 100, Some 0) = false) by (apply (flag (4 / 100) 0 (4 / 100)); lra). assert (B : moved (4 / 100, Some 0) (8 / 100, Some 0) = false) by (apply (flag (8 / 100) (4 / 100) (4 / 100)); lra).
  assert (E : check_moving (@isort_argsort) slow_query [4]%Z = Ok [{| l_pos := "M1"; l_petal := 0; l_bus := 11; l_moving := [false; false] |}]).
  { cbv -[moved Rplus Rdiv IZR]. cbv -[moved Rplus Rdiv IZR] in A, B. rewrite ?A, ?B. reflexivity. }
  specialize (H slow_query [4]%Z _ _ (mv "M1" 1 (Some 0)) (mv "M1" 3 (Some (8 / 100))) 4%Z E (or_introl eq_refl) (or_introl eq_refl)). cbn in H. destruct H as [H|[H|[]]]; try discriminate; auto 6.
  exists 0, 0, (8 / 100), 0. repeat split. replace ((8 / 100 - 0) ^ 2 + (0 - 0) ^ 2) with ((8 / 100) ^ 2) by ring. rewrite sqrt_pow2 by lra. lra.
Qed.
Print Assumptions C126_slow_refuted.
