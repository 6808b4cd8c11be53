(** Independent specification vocabulary: every way a batch verification of Triptych proofs can end. *)
From Verif Require Export SpecPlain.

Section SpecVerdict.
Context {E : env}.

(** What is wrong with the dimensions of a proof, in the order in which it is reported. *)
Inductive shape_fault (p : params E) (pf : proof E) : string -> Prop :=
| fault_X : length (pf_X pf) <> N.to_nat (get_m p) -> shape_fault p pf "proof `X` vector length was not `m`"
| fault_Y : length (pf_X pf) = N.to_nat (get_m p) -> length (pf_Y pf) <> N.to_nat (get_m p) ->
    shape_fault p pf "proof `Y` vector length was not `m`"
| fault_rows : length (pf_X pf) = N.to_nat (get_m p) -> length (pf_Y pf) = N.to_nat (get_m p) ->
    length (pf_f pf) <> N.to_nat (get_m p) -> shape_fault p pf "proof `f` matrix did not have `m` rows"
| fault_columns row : length (pf_X pf) = N.to_nat (get_m p) -> length (pf_Y pf) = N.to_nat (get_m p) ->
    length (pf_f pf) = N.to_nat (get_m p) -> In row (pf_f pf) -> length row <> (N.to_nat (get_n p) - 1)%nat ->
    shape_fault p pf "proof `f` matrix did not have `n - 1` columns".

(** All statements have the input set hash, or the parameter hash, of the first. *)
Definition same_input_sets (st0 : statement E) (sts : list (statement E)) : Prop :=
  forall st, In st sts -> input_set_get_hash (st_get_input_set st) = input_set_get_hash (st_get_input_set st0).
Definition same_parameters (st0 : statement E) (sts : list (statement E)) : Prop :=
  forall st, In st sts -> params_get_hash (st_get_params st) = params_get_hash (st_get_params st0).

(** A batch that passes every check made before any transcript is touched, except for its size. *)
Definition admissible (st0 : statement E) (sts : list (statement E)) (pfs : list (proof E)) (ts : list transcript) : Prop :=
  length (st0 :: sts) = length pfs /\ length (st0 :: sts) = length ts /\
  same_input_sets st0 sts /\ same_parameters st0 sts /\
  forall pf, In pf pfs -> well_shaped (st_get_params st0) pf.

(** Result and transcripts after the call, for each kind of batch. *)
Inductive batch_verdict (md : overflow_mode) : list (statement E) -> list (proof E) -> list transcript ->
    outcome proof_error unit -> list transcript -> Prop :=
| verdict_proof_count sts pfs ts :
    length sts <> length pfs ->
    batch_verdict md sts pfs ts (Err (InvalidParameter "number of statements and proof does not match")) ts
| verdict_transcript_count sts pfs ts :
    length sts = length pfs -> length sts <> length ts ->
    batch_verdict md sts pfs ts (Err (InvalidParameter "number of statements and transcripts does not match")) ts
| verdict_empty : batch_verdict md [] [] [] (Ok tt) []
| verdict_input_sets st0 sts pfs ts :
    length (st0 :: sts) = length pfs -> length (st0 :: sts) = length ts -> ~ same_input_sets st0 sts ->
    batch_verdict md (st0 :: sts) pfs ts (Err (InvalidParameter "statement input sets do not match")) ts
| verdict_parameters st0 sts pfs ts :
    length (st0 :: sts) = length pfs -> length (st0 :: sts) = length ts -> same_input_sets st0 sts ->
    ~ same_parameters st0 sts ->
    batch_verdict md (st0 :: sts) pfs ts (Err (InvalidParameter "statement parameters do not match")) ts
| verdict_shape st0 sts pfs1 pf pfs2 ts reason :
    length (st0 :: sts) = length (pfs1 ++ pf :: pfs2) -> length (st0 :: sts) = length ts ->
    same_input_sets st0 sts -> same_parameters st0 sts ->
    (forall pf', In pf' pfs1 -> well_shaped (st_get_params st0) pf') -> shape_fault (st_get_params st0) pf reason ->
    batch_verdict md (st0 :: sts) (pfs1 ++ pf :: pfs2) ts (Err (InvalidParameter reason)) ts
| verdict_batch_size st0 sts pfs ts :
    admissible st0 sts pfs ts -> (2 ^ 32 <= N.of_nat (length pfs))%N ->
    batch_verdict md (st0 :: sts) pfs ts (Err (InvalidParameter "batch size overflowed `u32`")) ts
| verdict_overflow st0 sts pfs ts :
    admissible st0 sts pfs ts -> (N.of_nat (length pfs) < 2 ^ 32)%N -> md = OverflowPanics ->
    (2 ^ 32 <= msm_size (st_get_params st0) (N.of_nat (length pfs)))%N ->
    batch_verdict md (st0 :: sts) pfs ts Panic ts
| verdict_zero_challenge st0 sts pfs ts sts1 st sts2 pfs1 pf pfs2 ts1 t ts2 :
    admissible st0 sts pfs ts -> fits md (st_get_params st0) (N.of_nat (length pfs)) ->
    st0 :: sts = sts1 ++ st :: sts2 -> pfs = pfs1 ++ pf :: pfs2 -> ts = ts1 ++ t :: ts2 ->
    length sts1 = length pfs1 -> length sts1 = length ts1 ->
    (forall i st' pf' t', member sts1 pfs1 ts1 i st' pf' t' -> challenge t' st' pf' <> s0) -> challenge t st pf = s0 ->
    batch_verdict md (st0 :: sts) pfs ts (Err InvalidChallenge)
      (verified_transcripts sts1 pfs1 ts1 ++ [prover_transcript t st pf] ++ ts2)
| verdict_zero_response st0 sts pfs ts i st pf t :
    admissible st0 sts pfs ts -> fits md (st_get_params st0) (N.of_nat (length pfs)) ->
    (forall i st pf t, member (st0 :: sts) pfs ts i st pf t -> challenge t st pf <> s0) ->
    member (st0 :: sts) pfs ts i st pf t -> ~ nondegenerate t st pf ->
    batch_verdict md (st0 :: sts) pfs ts (Err (InvalidParameter "proof `f` matrix contained 0"))
      (verified_transcripts (st0 :: sts) pfs ts)
| verdict_accept st0 sts pfs ts ws :
    admissible st0 sts pfs ts -> fits md (st_get_params st0) (N.of_nat (length pfs)) ->
    (forall i st pf t, member (st0 :: sts) pfs ts i st pf t -> nondegenerate t st pf) ->
    batch_weights (E := E) 4 (length pfs) (weight_rng (st0 :: sts) pfs ts) ws ->
    weighted_defects (st_get_params st0) (get_keys (st_get_input_set st0)) (st0 :: sts) pfs ts ws = pid E ->
    batch_verdict md (st0 :: sts) pfs ts (Ok tt) (verified_transcripts (st0 :: sts) pfs ts)
| verdict_reject st0 sts pfs ts ws :
    admissible st0 sts pfs ts -> fits md (st_get_params st0) (N.of_nat (length pfs)) ->
    (forall i st pf t, member (st0 :: sts) pfs ts i st pf t -> nondegenerate t st pf) ->
    batch_weights (E := E) 4 (length pfs) (weight_rng (st0 :: sts) pfs ts) ws ->
    weighted_defects (st_get_params st0) (get_keys (st_get_input_set st0)) (st0 :: sts) pfs ts ws <> pid E ->
    batch_verdict md (st0 :: sts) pfs ts (Err FailedVerification) (verified_transcripts (st0 :: sts) pfs ts).

End SpecVerdict.
