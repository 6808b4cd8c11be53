(** Independent specification vocabulary, parallel protocol: the errors a caller has to be prepared for. *)
From Verif Require Export ParSpecVerdict ParSpecSound.
Local Open Scope string_scope.

(** Reasons a proof is refused for its dimensions, or for one of its responses. *)
Definition shape_reasons : list string :=
  ["proof `X` vector length was not `m`"; "proof `X1` vector length was not `m`"; "proof `Y` vector length was not `m`";
   "proof `f` matrix did not have `m` rows"; "proof `f` matrix did not have `n - 1` columns"; "proof `f` matrix contained 0"].
(** Reasons a batch is refused as a whole. *)
Definition batch_reasons : list string :=
  ["number of statements and proofs does not match"; "number of statements and transcripts does not match";
   "statement input sets do not match"; "statement parameters do not match"; "batch size overflowed `u32`"].
(** Reasons a prover refuses. *)
Definition prover_reasons : list string :=
  ["witness and statement parameters did not match"; "`M[l] != r * G`"; "`M1[l] - offset != r1 * G1`"; "`r * J != U`"].

Definition single_errors : list proof_error := InvalidChallenge :: FailedVerification :: map InvalidParameter shape_reasons.
Definition batch_errors : list proof_error := single_errors ++ map InvalidParameter batch_reasons.
Definition prover_errors : list proof_error := InvalidChallenge :: map InvalidParameter prover_reasons.

(** The errors of the constructors. *)
Definition parameter_errors : list parameter_error :=
  map PE_InvalidParameter ["`n < 2`"; "`m < 2`"; "`n**m` overflowed `u32`"].
Definition input_set_errors : list statement_error :=
  map SE_InvalidParameter ["`M` and `M1` did not have matching lengths"; "unpadded size overflowed `u32`"; "unpadded size exceeded `N`"; "`M` was empty"].
Definition statement_errors : list statement_error :=
  map SE_InvalidParameter ["input vector size was not `N`"; "input vector contained the identity point"].
Definition witness_errors : list witness_error := map WE_InvalidParameter ["`r == 0`"; "`r1 == 0`"; "`l >= N`"].
