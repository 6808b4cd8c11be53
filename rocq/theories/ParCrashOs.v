(** Model of src/parallel/proof.rs, part 5: what a call of the prover leaves behind when its generator panics in the middle of it. *)
From Verif Require Export ParProverOs CrashResult.

Section Crash.
Context {E : env} {O : Type}.

(** parallel/proof.rs lines 172-443 with parallel/transcript.rs lines 26-101 unfolded.  The generator is read in [finalize], once in
    [ProofTranscript::new] (parallel/transcript.rs lines 33-46), after the three [append]s, and once in [commit] (lines 64-101), after the first
    message has been absorbed and before the challenge is taken: these are the two places where it can panic. *)
Definition prove_crash (os : os_source O) (w : witness E) (st : statement E) (o : O) (t : transcript) (tm : timing)
    : crash_result O (outcome proof_error (proof E)) :=
  let keys := [(b_ "l", le_bytes 4 (w_get_l w)); (b_ "r", scalar_to_bytes (w_get_r w)); (b_ "r1", scalar_to_bytes (w_get_r1 w))] in
  match prove_checks tm w st with
  | Err e => Finished (Err e) t o
  | Panic => Finished Panic t o
  | OutOfFuel => Finished OutOfFuel t o
  | Ok _ =>
      let t := pt_init t (st_get_hash st) in
      match os o 32%nat with
      | (None, o) => Crashed t o
      | (Some seed, o) =>
          match prove_first_message tm w st (mk_trng t keys seed []) with
          | Err e => Finished (Err e) t o
          | Panic => Finished Panic t o
          | OutOfFuel => Finished OutOfFuel t o
          | Ok fm =>
              let t := absorb_first_message t (fm_A fm) (fm_B fm) (fm_C fm) (fm_D fm) (fm_X fm) (fm_X1 fm) (fm_Y fm) in
              match os o 32%nat with
              | (None, o) => Crashed t o
              | (Some _, o) =>
                  let (xi_bytes, t) := challenge_bytes (E := E) t (b_ "xi") 64 in
                  Finished (let* xi_powers := challenge_powers (get_m (st_get_params st)) (scalar_from_wide xi_bytes) in
                            prove_response (st_get_params st) (w_get_r w) (w_get_r1 w) fm xi_powers) t o
              end
          end
      end
  end.

End Crash.
