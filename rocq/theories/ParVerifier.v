(** Model of src/parallel/proof.rs, part 2: the verifiers.  [md] says whether unchecked [u32] arithmetic panics or
    wraps on overflow; [fuel] bounds the retries of the weight loop (lines 777-783). *)
From Verif Require Export ParProver.

Section Verifier.
Context {E : env}.

(** parallel/proof.rs lines 629-662 *)
Fixpoint check_dims (p : params E) (proofs : list (proof E)) : outcome proof_error unit :=
  match proofs with
  | [] => Ok tt
  | pf :: rest =>
      if negb (N.of_nat (length (pf_X pf)) =? get_m p)%N
      then Err (InvalidParameter "proof `X` vector length was not `m`")
      else if negb (N.of_nat (length (pf_X1 pf)) =? get_m p)%N
      then Err (InvalidParameter "proof `X1` vector length was not `m`")
      else if negb (N.of_nat (length (pf_Y pf)) =? get_m p)%N
      then Err (InvalidParameter "proof `Y` vector length was not `m`")
      else if negb (N.of_nat (length (pf_f pf)) =? get_m p)%N
      then Err (InvalidParameter "proof `f` matrix did not have `m` rows")
      else
        let* _ := check_rows (get_n p) (pf_f pf) in
        check_dims p rest
  end.

(** parallel/proof.rs lines 669-687: [u32] arithmetic, evaluated left to right.  The conversion to [usize] cannot fail on a
    64-bit target; the value is only used as a capacity. *)
Definition final_size (md : overflow_mode) (p : params E) (batch_size : N) : outcome proof_error N :=
  let* nm := arith32 md (get_n p * get_m p) in
  let* s := arith32 md (1 + 1 + nm) in
  let* s := arith32 md (s + 1) in
  let* N2 := arith32 md (2 * get_N p) in
  let* s := arith32 md (s + N2) in
  let* s := arith32 md (s + 1) in
  let* m3 := arith32 md (3 * get_m p) in
  let* per := arith32 md (4 + 1 + 1 + m3) in
  let* b := arith32 md (batch_size * per) in
  arith32 md (s + b).

(** parallel/proof.rs lines 689-711 *)
Definition final_points (p : params E) (M M1 : list (pt E)) (proofs : list (proof E)) (statements : list (statement E))
    : list (pt E) :=
  concat (map (fun ps => [pf_A (fst ps); pf_B (fst ps); pf_C (fst ps); pf_D (fst ps); st_get_J (snd ps)]
                         ++ pf_X (fst ps) ++ pf_X1 (fst ps) ++ pf_Y (fst ps) ++ [st_get_offset (snd ps)])
              (combine proofs statements))
  ++ [get_G p] ++ [get_G1 p] ++ get_CommitmentG p ++ [get_CommitmentH p] ++ M ++ M1 ++ [get_U p].

(** parallel/proof.rs lines 731-745: challenges of all proofs and the weight transcript; the callers' transcripts are
    updated in place, also when a challenge is invalid. *)
Fixpoint challenge_loop (p : params E) (statements : list (statement E)) (proofs : list (proof E))
    (transcripts : list transcript) (tw : transcript)
    : outcome proof_error (list (list scalar) * transcript) * list transcript :=
  match statements, proofs, transcripts with
  | st :: sts, pf :: pfs, t :: ts =>
      let '(t, _, _) := pt_new null_rng t st tt None in
      let '(powers, t, _, _) :=
        pt_commit null_rng t None tt p (pf_A pf) (pf_B pf) (pf_C pf) (pf_D pf) (pf_X pf) (pf_X1 pf) (pf_Y pf) in
      match powers with
      | Ok xi_powers =>
          let '(g, t, _) := pt_response (E := E) null_rng t None tt (pf_f pf) (pf_z_A pf) (pf_z_C pf) (pf_z pf) (pf_z1 pf) in
          let (x, _) := trng_next_u64 (E := E) g in
          let tw := append_u64 tw (b_ "proof") x in
          let (res, ts) := challenge_loop p sts pfs ts tw in
          (let* (all, tw) := res in Ok (xi_powers :: all, tw), t :: ts)
      | Err e => (Err e, t :: ts)
      | Panic => (Panic, t :: ts)
      | OutOfFuel => (OutOfFuel, t :: ts)
      end
  | _, _, _ => (Ok ([], tw), transcripts)
  end.

(** parallel/proof.rs lines 771-783: draw five weights until none is zero. *)
Fixpoint weights_loop (fuel : nat) (g : trng) (w1 w2 w3 w4 w5 : scalar)
    : outcome proof_error (scalar * scalar * scalar * scalar * scalar * trng) :=
  if seqb w1 s0 || seqb w2 s0 || seqb w3 s0 || seqb w4 s0 || seqb w5 s0 then
    match fuel with
    | O => OutOfFuel
    | S fuel' =>
        let (w1, g) := draw (E := E) g in
        let (w2, g) := draw (E := E) g in
        let (w3, g) := draw (E := E) g in
        let (w4, g) := draw (E := E) g in
        let (w5, g) := draw (E := E) g in
        weights_loop fuel' g w1 w2 w3 w4 w5
    end
  else Ok (w1, w2, w3, w4, w5, g).

(** The accumulators of parallel/proof.rs lines 713-723; [a_G1] is called [H_scalar] there. *)
Record acc := mk_acc {
  a_scalars : list scalar;
  a_G : scalar;
  a_G1 : scalar;
  a_CommitmentG : list scalar;
  a_CommitmentH : scalar;
  a_M : list scalar;
  a_M1 : list scalar;
  a_U : scalar }.

(** parallel/proof.rs lines 751-867: one iteration of the main loop.  The last loop runs over the accumulators of both key
    vectors zipped with the Gray iterator. *)
Definition process_proof (fuel : nat) (p : params E) (pf : proof E) (xi_powers : list scalar) (g : trng) (ac : acc)
    : outcome proof_error (trng * acc) :=
  let* f := f_full (get_m p) xi_powers (pf_f pf) in
  if contains_zero f then Err (InvalidParameter "proof `f` matrix contained 0")
  else
    let* (w1, w2, w3, w4, w5, g) := weights_loop fuel g s0 s0 s0 s0 s0 in
    let* xi := index xi_powers 1 in
    let G_scalar := (a_G ac - w3 * pf_z pf)%sc in
    let G1_scalar := (a_G1 ac - w5 * pf_z1 pf)%sc in
    let CommitmentG_scalars :=
      zip_add (a_CommitmentG ac) (map (fun x => w1 * x + w2 * x * (xi - x))%sc (concat f)) in
    let CommitmentH_scalar := (a_CommitmentH ac + (w1 * pf_z_A pf + w2 * pf_z_C pf))%sc in
    let* x1 := index xi_powers 1 in
    let* low_powers := slice xi_powers 0 (N.to_nat (get_m p)) in
    let scalars :=
      a_scalars ac ++ [(- w1)%sc; ((- w1) * x1)%sc; ((- w2) * x1)%sc; (- w2)%sc; ((- w4) * pf_z pf)%sc]
      ++ map (fun x => (- w3) * x)%sc low_powers ++ map (fun x => (- w5) * x)%sc low_powers
      ++ map (fun x => (- w4) * x)%sc low_powers in
    let* products := all_f_products (get_n p) (get_m p) (length (combine (a_M ac) (a_M1 ac))) f in
    let M_scalars := zip_add (a_M ac) (map (fun x => w3 * x)%sc products) in
    let M1_scalars := zip_add (a_M1 ac) (map (fun x => w5 * x)%sc products) in
    let U_scalar := (a_U ac + w4 * ssum products)%sc in
    let scalars := scalars ++ [((- w5) * ssum products)%sc] in
    Ok (g, mk_acc scalars G_scalar G1_scalar CommitmentG_scalars CommitmentH_scalar M_scalars M1_scalars U_scalar).

(** parallel/proof.rs lines 750-867: [proofs.iter().zip(xi_powers_all.iter())] *)
Fixpoint process_all (fuel : nat) (p : params E) (proofs : list (proof E)) (powers : list (list scalar))
    (g : trng) (ac : acc) : outcome proof_error acc :=
  match proofs, powers with
  | pf :: pfs, xi_powers :: rest =>
      let* (g, ac) := process_proof fuel p pf xi_powers g ac in
      process_all fuel p pfs rest g ac
  | _, _ => Ok ac
  end.

(** parallel/proof.rs lines 713-723 *)
Definition acc_start (p : params E) (M M1 : list (pt E)) : acc :=
  mk_acc [] s0 s0 (repeat s0 (length (get_CommitmentG p))) s0 (repeat s0 (length M)) (repeat s0 (length M1)) s0.

(** parallel/proof.rs lines 869-876 *)
Definition final_scalars (ac : acc) : list scalar :=
  a_scalars ac ++ [a_G ac] ++ [a_G1 ac] ++ a_CommitmentG ac ++ [a_CommitmentH ac] ++ a_M ac ++ a_M1 ac ++ [a_U ac].

(** parallel/proof.rs lines 725-727 *)
Definition weights_transcript : transcript :=
  append_u64 (transcript_new TRANSCRIPT_PARALLEL_VERIFIER_WEIGHTS) (b_ "version") VERSION.

(** parallel/proof.rs lines 592-687: everything before the first transcript operation.  [Ok None] is the early return for an
    empty batch. *)
Definition batch_checks (md : overflow_mode) (statements : list (statement E)) (proofs : list (proof E))
    (transcripts : list transcript) : outcome proof_error (option (statement E)) :=
  if negb (Nat.eqb (length statements) (length proofs))
  then Err (InvalidParameter "number of statements and proofs does not match")
  else if negb (Nat.eqb (length statements) (length transcripts))
  then Err (InvalidParameter "number of statements and transcripts does not match")
  else match statements with
  | [] => Ok None
  | first_statement :: _ =>
      if negb (all_equal (map (fun s => input_set_get_hash (st_get_input_set s)) statements))
      then Err (InvalidParameter "statement input sets do not match")
      else if negb (all_equal (map (fun s => params_get_hash (st_get_params s)) statements))
      then Err (InvalidParameter "statement parameters do not match")
      else
        let p := st_get_params first_statement in
        let* _ := check_dims p proofs in
        let* batch_size := ok_or (checked u32_bound (N.of_nat (length proofs)))
                                 (InvalidParameter "batch size overflowed `u32`") in
        let* _ := final_size md p batch_size in
        Ok (Some first_statement)
  end.

(** parallel/proof.rs lines 587-884.  Returns the result and the callers' transcripts. *)
Definition verify_batch (fuel : nat) (md : overflow_mode) (statements : list (statement E)) (proofs : list (proof E))
    (transcripts : list transcript) : outcome proof_error unit * list transcript :=
  match batch_checks md statements proofs transcripts with
  | Err e => (Err e, transcripts)
  | Panic => (Panic, transcripts)
  | OutOfFuel => (OutOfFuel, transcripts)
  | Ok None => (Ok tt, transcripts)
  | Ok (Some first_statement) =>
      let M := get_keys (st_get_input_set first_statement) in
      let M1 := get_auxiliary_keys (st_get_input_set first_statement) in
      let p := st_get_params first_statement in
      let points := final_points p M M1 proofs statements in
      let (challenges, transcripts) := challenge_loop p statements proofs transcripts weights_transcript in
      (let* (xi_powers_all, tw) := challenges in
       let (g, _) := finalize_rng null_rng tw [] tt in
       let* ac := process_all fuel p proofs xi_powers_all g (acc_start p M M1) in
       let* result := vartime_multiscalar_mul (final_scalars ac) points in
       if peqb E result (pid E) then Ok tt else Err FailedVerification, transcripts)
  end.

(** parallel/proof.rs lines 450-457 *)
Definition verify (fuel : nat) (md : overflow_mode) (pf : proof E) (st : statement E) (t : transcript)
    : outcome proof_error unit * transcript :=
  let (res, ts) := verify_batch fuel md [st] [pf] [t] in
  (res, match ts with [t'] => t' | _ => t end).

(** parallel/proof.rs lines 487-540: the binary search.  A panic of an inner call propagates. *)
Fixpoint blame_loop (search_fuel : nat) (fuel : nat) (md : overflow_mode) (statements : list (statement E))
    (proofs : list (proof E)) (transcripts : list transcript) (left right : nat) : outcome proof_error unit :=
  if (left <? right)%nat then
    match search_fuel with
    | O => OutOfFuel
    | S search_fuel' =>
        let average := (left + (right - left) / 2)%nat in
        let mid := if ((right - left) mod 2 =? 0)%nat then average else (average + 1)%nat in
        let* sts := slice statements left mid in
        let* pfs := slice proofs left mid in
        let* ts := slice transcripts left mid in
        match fst (verify_batch fuel md sts pfs ts) with
        | Panic => Panic
        | OutOfFuel => OutOfFuel
        | Err _ => (* failure_on_left *)
            match mid with
            | O => Err (FailedBatchVerificationWithSingleBlame None)
            | S left_check =>
                if (left =? left_check)%nat then Err (FailedBatchVerificationWithSingleBlame (Some left))
                else blame_loop search_fuel' fuel md statements proofs transcripts left mid
            end
        | Ok _ =>
            if (right =? mid + 1)%nat then
              match right with
              | O => Err (FailedBatchVerificationWithSingleBlame None)
              | S right_result => Err (FailedBatchVerificationWithSingleBlame (Some right_result))
              end
            else blame_loop search_fuel' fuel md statements proofs transcripts mid right
        end
    end
  else Err (FailedBatchVerificationWithSingleBlame None).

(** parallel/proof.rs lines 473-541: works on copies of the transcripts, so the callers' are returned unchanged.  The
    additions on [usize] indices cannot overflow, being bounded by a vector length. *)
Definition verify_batch_with_single_blame (fuel : nat) (md : overflow_mode) (statements : list (statement E))
    (proofs : list (proof E)) (transcripts : list transcript) : outcome proof_error unit * list transcript :=
  match fst (verify_batch fuel md statements proofs transcripts) with
  | Ok _ => (Ok tt, transcripts)
  | Panic => (Panic, transcripts)
  | OutOfFuel => (OutOfFuel, transcripts)
  | Err _ => (blame_loop (S (length proofs)) fuel md statements proofs transcripts 0 (length proofs), transcripts)
  end.

(** parallel/proof.rs lines 566-573: [izip!(statements, proofs, transcripts.iter_mut()).enumerate()] *)
Fixpoint full_blame_loop (fuel : nat) (md : overflow_mode) (index : nat) (statements : list (statement E))
    (proofs : list (proof E)) (transcripts : list transcript) : outcome proof_error (list nat) * list transcript :=
  match statements, proofs, transcripts with
  | st :: sts, pf :: pfs, t :: ts =>
      let (res, t) := verify fuel md pf st t in
      match res with
      | Panic => (Panic, t :: ts)
      | OutOfFuel => (OutOfFuel, t :: ts)
      | Ok _ =>
          let (failures, ts) := full_blame_loop fuel md (S index) sts pfs ts in (failures, t :: ts)
      | Err _ =>
          let (failures, ts) := full_blame_loop fuel md (S index) sts pfs ts in
          (let* l := failures in Ok (index :: l), t :: ts)
      end
  | _, _, _ => (Ok [], transcripts)
  end.

(** parallel/proof.rs lines 556-576: the first attempt works on copies, the second on the callers' transcripts. *)
Definition verify_batch_with_full_blame (fuel : nat) (md : overflow_mode) (statements : list (statement E))
    (proofs : list (proof E)) (transcripts : list transcript) : outcome proof_error unit * list transcript :=
  match fst (verify_batch fuel md statements proofs transcripts) with
  | Ok _ => (Ok tt, transcripts)
  | Panic => (Panic, transcripts)
  | OutOfFuel => (OutOfFuel, transcripts)
  | Err _ =>
      let (failures, transcripts) := full_blame_loop fuel md 0 statements proofs transcripts in
      (let* l := failures in Err (FailedBatchVerificationWithFullBlame l), transcripts)
  end.

End Verifier.
