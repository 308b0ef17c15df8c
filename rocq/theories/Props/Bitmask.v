(** C01, C02: bit masks. *)
From Verif.Model Require Import Bitmask.
From Verif.Spec Require Import Bitmask.
From Verif.Proofs Require Bitmask.
From Coq Require Import Sorted.

(** Every integer of any size decodes, and decodes exactly (the loop always ends). *)
Theorem C01_names_decode_exactly :
  forall defs m, exists l, names (mk_bitmask defs) m = Ok l /\ decodes defs m l.
Proof. exact Bitmask.names_decodes. Qed.
Print Assumptions C01_names_decode_exactly.

(** Decoding then OR-ing mask(name) gives the mask back. *)
Theorem C01_decode_encode :
  forall defs m l,
    distinct_names defs -> distinct_nums defs -> 0 < m ->
    (forall s i c, In (s, i, c) defs -> has_char "|" s = false) ->
    (forall i, Z.testbit m (Z.of_N i) = true -> exists s c, In (s, i, c) defs) ->
    names (mk_bitmask defs) m = Ok l ->
    mask (mk_bitmask defs) (KS (join_str "|" l)) = Ok m.
Proof. exact Bitmask.mask_of_joined. Qed.
Print Assumptions C01_decode_encode.

(** names() without argument: the owner of each defined number, increasing numbers. *)
Theorem C01_all_names :
  forall defs, exists l (nums : list N), all_names (mk_bitmask defs) = Ok l /\
    StronglySorted N.lt nums /\ (forall i, In i nums <-> exists s c, In (s, i, c) defs) /\
    Forall2 (fun i s => exists c, owns_num defs i s c) nums l.
Proof. exact Bitmask.all_names_spec. Qed.
Print Assumptions C01_all_names.

Example C01_example :
  distinct_names movemask_defs /\ distinct_nums movemask_defs /\
  (forall s i c, In (s, i, c) movemask_defs -> has_char "|" s = false) /\
  (forall i, Z.testbit 21 (Z.of_N i) = true -> exists s c, In (s, i, c) movemask_defs) /\
  names (mk_bitmask movemask_defs) 21 = Ok ["THETA_STUCK"; "FAILED_FIT"; "INVALID_AFTER_FILTER"]%string /\
  names (mk_bitmask movemask_defs) (2 ^ 70 + 2) = Ok ["PHI_STUCK"; "UNKNOWN70"]%string.
Proof.
  split; [|split; [|split; [|split; [|split]]]].
  - repeat constructor; cbn; intuition discriminate.
  - repeat constructor; cbn; intuition discriminate.
  - intros s i c H. repeat (destruct H as [H|H]; [injection H as <- <- <-; reflexivity|]). destruct H.
  - intros i H. destruct (N.lt_ge_cases i 5) as [Hl|Hl].
    + assert (E : (i = 0 \/ i = 1 \/ i = 2 \/ i = 3 \/ i = 4)%N) by lia.
      destruct E as [->|[->|[->|[->| ->]]]]; cbn; eauto 10.
    + rewrite Z.bits_above_log2 in H; [discriminate|lia|cbn; lia].
  - reflexivity.
  - reflexivity.
Qed.

(** Lookup by name and by number find the same bit when definitions are distinct. *)
Theorem C02_lookups_agree :
  forall defs s i c,
    distinct_names defs -> distinct_nums defs -> In (s, i, c) defs ->
    let d := mk_bitmask defs in
    bitnum d (KS s) = Ok i /\ bitname d (KN (Z.of_N i)) = Ok s /\
    comment d (KS s) = Ok c /\ comment d (KN (Z.of_N i)) = Ok c /\
    mask d (KN (Z.of_N i)) = Ok (2 ^ Z.of_N i) /\
    (has_char "|" s = false -> mask d (KS s) = Ok (2 ^ Z.of_N i)) /\
    getitem d (KS s) = getitem d (KN (Z.of_N i)).
Proof. exact Bitmask.lookups_agree. Qed.
Print Assumptions C02_lookups_agree.

(** In general, with repeated names or numbers, the last definition wins, separately for
    names and for numbers; anything not defined raises KeyError. *)
Theorem C02_last_definition_by_name :
  forall defs s i c, owns_name defs s i c <->
    getitem (mk_bitmask defs) (KS s) = Ok {| mb_name := s; mb_num := i; mb_comment := c |}.
Proof. exact Bitmask.getitem_name. Qed.
Print Assumptions C02_last_definition_by_name.

Theorem C02_last_definition_by_number :
  forall defs s i c, owns_num defs i s c <->
    getitem (mk_bitmask defs) (KN (Z.of_N i)) = Ok {| mb_name := s; mb_num := i; mb_comment := c |}.
Proof. exact Bitmask.getitem_num. Qed.
Print Assumptions C02_last_definition_by_number.

Theorem C02_undefined_name :
  forall defs s, undefined_name defs s <-> getitem (mk_bitmask defs) (KS s) = Err KeyError.
Proof. exact Bitmask.getitem_missing_name. Qed.
Print Assumptions C02_undefined_name.

Theorem C02_undefined_number :
  forall defs n, (forall s i c, In (s, i, c) defs -> Z.of_N i <> n) <->
    getitem (mk_bitmask defs) (KN n) = Err KeyError.
Proof. exact Bitmask.getitem_missing_num. Qed.
Print Assumptions C02_undefined_number.

(** mask('A|B|..') is the OR of the parts; a part that is not defined raises KeyError. *)
Theorem C02_mask_of_or :
  forall defs (parts : list (string * N * string)),
    parts <> [] ->
    Forall (fun x => has_char "|" (fst (fst x)) = false /\
                     owns_name defs (fst (fst x)) (snd (fst x)) (snd x)) parts ->
    mask (mk_bitmask defs) (KS (join_str "|" (map (fun x => fst (fst x)) parts)))
    = Ok (fold_left (fun a x => Z.lor a (2 ^ Z.of_N (snd (fst x)))) parts 0).
Proof. exact Bitmask.mask_joined. Qed.
Print Assumptions C02_mask_of_or.

Theorem C02_mask_undefined_part :
  forall defs s p, In p (split_char "|" s) -> undefined_name defs p ->
    mask (mk_bitmask defs) (KS s) = Err KeyError.
Proof. exact Bitmask.mask_undefined_part. Qed.
Print Assumptions C02_mask_undefined_part.

(** A repeated number: the first name still resolves to the number, but the number
    resolves to the second name, so the two lookups no longer agree. *)
Example C02_example :
  let defs := [("A", 3%N, "first"); ("B", 3%N, "second"); ("C", 1%N, "")]%string in
  bitnum (mk_bitmask defs) (KS "A") = Ok 3%N /\ bitname (mk_bitmask defs) (KN 3) = Ok "B"%string /\
  mask (mk_bitmask defs) (KS "A|C") = Ok 10 /\ mask (mk_bitmask defs) (KS "A|D") = Err KeyError /\
  distinct_names posflags_defs /\ distinct_nums posflags_defs.
Proof.
  repeat split; try reflexivity; repeat constructor; cbn; intuition discriminate.
Qed.
