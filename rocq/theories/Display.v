(** The texts that the [Display] implementations of the error types print.  They are generated by the [Snafu] derive from the
    [#[snafu(display(..))]] attributes; what is modelled is the format string of each attribute, with [{reason}] replaced. *)
From Verif Require Export Core.
Local Open Scope string_scope.

(** parameters.rs line 40 / parallel/parameters.rs line 41 *)
Definition display_parameter_error (e : parameter_error) : string :=
  match e with PE_InvalidParameter reason => "An invalid parameter was provided: " ++ reason end.
(** statement.rs line 112 / parallel/statement.rs line 150 *)
Definition display_statement_error (e : statement_error) : string :=
  match e with SE_InvalidParameter reason => "An invalid parameter was provided: " ++ reason end.
(** witness.rs line 28 / parallel/witness.rs line 29 *)
Definition display_witness_error (e : witness_error) : string :=
  match e with WE_InvalidParameter reason => "An invalid parameter was provided: " ++ reason end.
(** proof.rs lines 57-81 / parallel/proof.rs lines 57-81 *)
Definition display_proof_error (e : proof_error) : string :=
  match e with
  | InvalidParameter reason => "An invalid parameter was provided: " ++ reason
  | InvalidChallenge => "A transcript challenge was invalid"
  | FailedDeserialization => "Proof deserialization failed"
  | FailedVerification => "Single proof verification failed"
  | FailedBatchVerification => "Batch proof verification failed"
  | FailedBatchVerificationWithSingleBlame _ => "Batch proof verification failed"
  | FailedBatchVerificationWithFullBlame _ => "Batch proof verification failed"
  end.

Definition is_batch_failure (e : proof_error) : bool :=
  match e with
  | FailedBatchVerification | FailedBatchVerificationWithSingleBlame _ | FailedBatchVerificationWithFullBlame _ => true
  | _ => false
  end.
Lemma display_tells_apart e e' : is_batch_failure e = false -> display_proof_error e = display_proof_error e' -> e = e'.
Proof.
  intros Hb H. destruct e; try discriminate Hb; destruct e'; cbn in H; try discriminate H; try reflexivity.
  injection H as <-. reflexivity.
Qed.
