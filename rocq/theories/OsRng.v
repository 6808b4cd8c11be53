(** Model of [rand_core::OsRng] as the crate uses it (src/proof.rs lines 106 and 147, src/parallel/proof.rs likewise): reading from the
    operating system may fail, and [fill_bytes] then panics.

    What an unwinding call leaves in the caller's transcript is in CrashOs.v and ParCrashOs.v. *)
From Verif Require Export Env.

(** The operating system's generator, with a state of type [O]: a read of [n] bytes delivers them or fails.  (Behind proof.rs lines 106 and 147.) *)
Definition os_source (O : Type) : Type := O -> nat -> option bytes * O.

(** The generator that is handed to the prover.  The state remembers whether a read has failed.  (proof.rs lines 106 and 147.) *)
Definition os_rng {O} (os : os_source O) : rng_ops (O * bool) := {|
  rng_fill := fun s n =>
    match os (fst s) n with
    | (Some bs, o) => (bs, (o, snd s))
    | (None, o) => (repeat x00 n, (o, true))
    end;
  rng_next_u64 := fun s =>
    match os (fst s) 8%nat with
    | (Some bs, o) => (le_val bs, (o, snd s))
    | (None, o) => (0%N, (o, true))
    end |}.

(** What a call that uses it does.  (proof.rs lines 101-109 and 142-150.) *)
Inductive os_result (O A : Type) :=
| Unwinds
| Returns (result : A) (t : transcript) (o : O).
Arguments Unwinds {O A}.
Arguments Returns {O A} _ _ _.

(** the outcome of such a call, from what the generator remembers: proof.rs lines 101-109 and 142-150 *)
Definition os_run {O A} (x : A * transcript * (O * bool)) : os_result O A :=
  let '(r, t, (o, failed)) := x in if failed then Unwinds else Returns r t o.
