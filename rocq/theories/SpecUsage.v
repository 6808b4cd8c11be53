(** Independent specification vocabulary: sequences of calls. *)
From Verif Require Export SpecPositions SpecPlain SpecPlainSound.

Section SpecUsage.
Context {E : env}.

(** The challenges under which the response at a digit of the signer's index vanishes, one per digit... *)
Definition rejecting_challenges (t : transcript) (st : statement E) (w : witness E) (seed : bytes) : list scalar :=
  map (fun j => - mat (map balance (c_a (prover_coins t st w seed))) j (N.to_nat (gray_digit (get_n (st_get_params st)) (w_get_l w) j)))%sc
      (seq 0 (N.to_nat (get_m (st_get_params st)))).
(** ... and a nonce, not at such a digit, that is zero. *)
Definition zero_nonce (t : transcript) (st : statement E) (w : witness E) (seed : bytes) : Prop :=
  exists j i, (j < N.to_nat (get_m (st_get_params st)))%nat /\ (i < N.to_nat (get_n (st_get_params st)))%nat /\
    i <> N.to_nat (gray_digit (get_n (st_get_params st)) (w_get_l w) j) /\
    mat (map balance (c_a (prover_coins t st w seed))) j i = s0.

(** Calling [verify_batch_with_single_blame] and removing the proof it names, until it accepts; [k] proofs are removed. *)
Inductive pruned (md : overflow_mode) : list (statement E) -> list (proof E) -> list transcript -> nat ->
    list (statement E) -> list (proof E) -> list transcript -> Prop :=
| pruned_done sts pfs ts : single_blame_returns md sts pfs ts (Ok tt) ts -> pruned md sts pfs ts 0 sts pfs ts
| pruned_more sts pfs ts i k sts' pfs' ts' :
    single_blame_returns md sts pfs ts (Err (FailedBatchVerificationWithSingleBlame (Some i))) ts ->
    pruned md (remove_at i sts) (remove_at i pfs) (remove_at i ts) k sts' pfs' ts' ->
    pruned md sts pfs ts (S k) sts' pfs' ts'.

(** No invalid part of the batch cancels with its weights. *)
Definition never_cancels (sts : list (statement E)) (pfs : list (proof E)) (ts : list transcript) : Prop :=
  forall st ks, In st sts -> StronglySorted lt ks -> (forall k, In k ks -> (k < length sts)%nat) ->
    ~ weights_cancel (st_get_params st) (get_keys (st_get_input_set st)) (pick ks sts) (pick ks pfs) (pick ks ts).

(** Transcripts that have seen several proofs, at a prover and at a verifier. *)
Definition prover_history (t : transcript) (h : list (statement E * proof E)) : transcript :=
  fold_left (fun t x => prover_transcript t (fst x) (snd x)) h t.
Definition verifier_history (t : transcript) (h : list (statement E * proof E)) : transcript :=
  fold_left (fun t x => verifier_transcript t (fst x) (snd x)) h t.
(** Successive successful calls of the prover with one transcript and one generator... *)
Inductive proves {R} (ro : rng_ops R) : list (witness E * statement E) -> R -> transcript -> list (statement E * proof E) -> transcript -> R -> Prop :=
| proves_nil rng t : proves ro [] rng t [] t rng
| proves_cons w st jobs rng t pf t1 rng1 h t' rng' :
    prove_with_rng ro w st rng t = (Ok pf, t1, rng1) -> proves ro jobs rng1 t1 h t' rng' ->
    proves ro ((w, st) :: jobs) rng t ((st, pf) :: h) t' rng'.
(** ... and successive accepting verifications with one transcript. *)
Inductive verifies (md : overflow_mode) : list (statement E * proof E) -> transcript -> transcript -> Prop :=
| verifies_nil t : verifies md [] t t
| verifies_cons st pf h t t1 t' : verify_returns md pf st t (Ok tt) t1 -> verifies md h t1 t' -> verifies md ((st, pf) :: h) t t'.

End SpecUsage.
