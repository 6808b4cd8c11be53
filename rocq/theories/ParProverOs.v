(** Model of src/parallel/proof.rs, part 4: the entry points that read the operating system's generator. *)
From Verif Require Export ParProver OsRng.

Section ParProverOs.
Context {E : env} {O : Type}.

(** parallel/proof.rs lines 142-150 *)
Definition prove (os : os_source O) (w : witness E) (st : statement E) (o : O) (t : transcript) : os_result O (outcome proof_error (proof E)) :=
  os_run (prove_internal (os_rng os) w st (o, false) t ConstantTime).
(** parallel/proof.rs lines 101-109 *)
Definition prove_vartime (os : os_source O) (w : witness E) (st : statement E) (o : O) (t : transcript) : os_result O (outcome proof_error (proof E)) :=
  os_run (prove_internal (os_rng os) w st (o, false) t VariableTime).

(** parallel/witness.rs lines 69-82, called with [OsRng]: [None] is a call that unwinds. *)
Definition witness_random_os (os : os_source O) (p : params E) (o : O) : option (witness E * O) :=
  let '(w, (o', failed)) := witness_random (os_rng os) p (o, false) in if failed then None else Some (w, o').

End ParProverOs.
