# A Rocq model of tari-project/triptych

The plan was written before the proofs; this version describes what exists.

## 1. What is modelled

| /repo file | model file (rocq/theories) | contents |
|---|---|---|
| (dependencies), src/util.rs, domain separators of src/*.rs | Base.v, Scalar.v, Env.v | outcomes, machine integers, scalars, the environment record, `delta`, `NullRng`, `OperationTiming` |
| src/gray.rs | Gray.v | `decompose_vartime`, `decompose`, `GrayIterator::{new,next}` |
| src/parameters.rs | Params.v | `new`, `new_with_generators`, `commit_matrix`, accessors |
| src/statement.rs | Statement.v | `TriptychInputSet::{new,new_with_padding,new_internal}`, `TriptychStatement::new`, accessors |
| src/witness.rs | Witness.v | `new`, `random`, `compute_linking_tag`, `compute_verification_key`, accessors |
| src/transcript.rs | Transcript.v | `ProofTranscript::{new,commit,response,as_mut_rng,build_transcript_rng}` |
| src/proof.rs | Core.v, Prover.v | `prove_internal` with both timings (`prove_with_rng`, `prove_with_rng_vartime`), the proof structure |
| | Verifier.v | `verify`, `verify_batch`, `verify_batch_with_single_blame`, `verify_batch_with_full_blame` |
| | CodecCore.v, Codec.v | `to_bytes`, `from_bytes`, `BorshSerialize`, `BorshDeserialize` |
| | OsRng.v, ProverOs.v, CrashResult.v, CrashOs.v | `prove`, `prove_vartime`: the operating system's generator, which may fail, and what an unwinding call leaves |
| | Serde.v, SerdeProof.v | what `derive(Serialize, Deserialize)` generates, over serde's data model |
| (derives of src/{parameters,statement,proof}.rs) | Equality.v, ParEquality.v | the derived `PartialEq` of the proof, and the `==` of statements, input sets and parameters |
| (control flow of src/proof.rs, src/gray.rs, src/util.rs, `commit_matrix`) | LeakCore.v, Leak.v, ParLeak.v | the provers again, returning beside their result the trace of branches, indices, sizes and variable-time operands; proved to compute the same results |
| (memory after a call of the prover; derive(Zeroize) of src/witness.rs) | Residue.v, ParResidue.v | the provers again, returning the named local variables that are not wiped; proved to compute the same results |
| (the `snafu(display(..))` attributes of the error types) | Display.v | the messages |
| src/parallel/*.rs | ParParams, ParStatement, ParWitness, ParTranscript, ParProver, ParVerifier, ParCodec, ParProverOs, ParSerdeProof | the same for the parallel protocol, modelled function by function from its own source |

`Core.v` and `CodecCore.v` hold the inner loops that proof.rs and parallel/proof.rs share word for word (cited from both).
`Calls.v`/`ParCalls.v` are the blame functions again, instrumented to return the list of verification calls they make;
they are proved equal to the uninstrumented ones.

Not modelled: `Debug`, the source chain and backtraces of the errors, zeroization beyond named variables (C130), time in seconds (only the source-level
leakage traces of C102/C103), memory exhaustion
(`with_capacity`), the state of a `&mut` argument that a caller sees after *catching* a panic, byte-level behaviour of
serde formats (the model starts at serde's data model), and benches/tests.

### Machine level choices
* `u32`, `u64`, `usize` values are `N`; widths are enforced by the operations (`checked_*`, `saturating_*`,
  `mod 2^32` for unchecked ones). Vector indices are `nat`. `usize` is 64 bits.
* A function that can fail returns `outcome err A = Ok | Err | Panic | OutOfFuel`. Every `v[i]`, `&v[a..b]`
  and every multiscalar multiplication (dalek asserts equal lengths) is written with an operation that
  returns `Panic` out of range. Unchecked `u32` arithmetic in `verify_batch` is parameterised by
  `overflow_mode` (panics as in debug builds / wraps as in release builds).
* `&mut` arguments (transcripts, generators) are returned as new values, also on error paths.
* Loops are structural recursions; the two `while` loops (weights, binary search) and the Gray iterator loop
  of the prover take fuel and return `OutOfFuel`, which theorems exclude or show unreachable. The verifiers' functions
  take fuel; `verify_returns`, `verify_batch_returns`, ... mean "for some fuel the call returns this", and the result is
  proved independent of the fuel.

### The environment
The dependencies are an explicit record `env` (Env.v): the Ristretto group, its 32-byte codec, Merlin as
functions of the list of transcript operations, Merlin's transcript RNG as a function of (transcript,
witness rekeys, 32 external bytes, requests so far), BLAKE3's XOF. Scalars are concrete: integers modulo the
prime 2^252 + 27742317777372353535851937790883648493, whose primality is proved in Prime.v by
Pocklington's criterion. `env_laws E` lists the laws used: abelian group, scalar action, decidable
equality, canonical codec, byte sources return the requested number of bytes. Every theorem takes the environment and its
laws as ordinary hypotheses. `ToyEnv.v` builds environments satisfying the laws (points are scalars, the codec is the
scalar codec, the Merlin functions are computable toy functions), so no hypothesis is vacuous and the refutations compute.

No cryptographic assumption is used: where the English property holds only up to a hash collision, a
discrete-log relation or a weight cancellation, the theorem returns that event explicitly, naming the two
queries, the relation vector (computed by an explicit extractor) or the weights.

## 2. Specifications

Statements use the API functions of the model and the following small files, none of which refers to the proofs:
`Spec.v` (sums, matrices), `SpecPlain.v`/`ParSpec.v` (what it means to be made by the API, the relation, the shape of a
proof, the verification equations, the challenge transcript, `fits`), `SpecGray.v`, `Extractor.v` and
`SpecPlainSound.v`/`ParSpecSound.v` (forks, extraction), `SpecPlainZK.v`/`ParSpecZK.v` (simulation), `SpecKeyless.v`/`ParSpecKeyless.v`, `SpecVerdict.v` (every
way a batch verification can end), `SpecTamper.v` (exactly one equation fails), `SpecPositions.v`, `SpecUsage.v`
(sequences of calls), each with its Par counterpart.

Theorems called `Cxx_...` are in the `Properties_*.v` files, with `Print Assumptions` under each; examples beside them
(`Cxx_..._example`, and `Properties_Cases.v`/`Properties_ParCases.v` for hypotheses about runs) show that hypotheses are met
by concrete calls in a toy environment.

## 3. Properties and how they are proved

* C01-C03, C57: unfolding plus arithmetic on `n^m < 2^32`; injectivity of the list of transcript operations.
* C04-C06: closed form `digit j = (v/n^j - v/n^(j+1)) mod n`, loop invariant on the shift, induction on the
  low digit for bijectivity, one-digit-change lemma for the iterator.
* C07-C10, C58: field arithmetic.
* C11-C14, C55, C56, C59, C60: list lemmas and injectivity of framed transcripts.
* C15-C21, C61: symbolic evaluation of `prove_internal` to a closed form (no `Panic`, no `OutOfFuel`).
* C22, C24-C26, C62, C63: invariant of the verifier loop (`f_product` after step k is the product of the
  digit entries of k), giving one multi-scalar identity; polynomial identities for the convolution
  (coefficients of the product of m linear polynomials), sum-over-codes = product-of-sums.
* C23, C38, C42, C44, C49, C08, C31: `_refuted` theorems with explicit witnesses in a toy environment.
* C27, C64: explicit extractor; leading-coefficient Lagrange weights, binding up to an explicit relation,
  b(1-b) = 0 from three challenges, row sums, Gray bijection.
* C28, C29, C65: corollaries by field arithmetic.
* C30-C34, C66: case analysis of `verify_batch`, every index in range.
* C35-C37, C52, C68: injectivity of transcripts.
* C39-C44, C67: loop invariant of the binary search; fuel bound.
* C45-C51, C69: codec lemmas.
* C53, C54: algebra; computational indistinguishability of X, Y (a DDH-type assumption) cannot be
  expressed without a probability model, so full zero knowledge is not claimed.
* C70, C71, C72: transcript of the weights; `verify_batch` as a relation (`SpecVerdict`) proved equivalent to the function,
  including texts of errors, transcripts on every exit, and the number of calls made by the blame functions.
* C73, C74: nonzero weights cannot hide a single failing equation (field arithmetic).
* C75, C81: composition of the prover, codec, verifier and blame theorems over one call history.
* C76, C82: counting: the challenges for which an honest proof is rejected are the roots of explicit polynomials.
* C77-C80, C83-C86: composition; lists of positions in `PositionFacts.v`; induction on the sequence of proofs for chains.
* C87, C88, C93: length arithmetic, closed forms of generators and the soundness theorems of both protocols together.
* C89, C90: the operating system's source is an arbitrary function of an arbitrary state that may fail at each read; the
  generator records a failure, and the call unwinds if there was one.
* C91, C92: induction on serde's value trees; a visitor reading a map accepts exactly the permutations of the fields.
* C94, C95, C97-C99: induction on the ledger over the extraction theorems C27/C64; equal tags give equal keys, so different tags
  give different keys; for C99 also C65 and a comparison of sums over lists without repetitions. The escape clauses are computed
  by the extractor from the runs, not merely said to exist (in a group of prime order relations and logarithms always exist).
* C96: lengths of the hash inputs, injectivity of little-endian encodings.
* C100, C101: the derived comparisons decide equality; hashes are functions of the other fields.

C102/C103 (Properties_Leakage, Properties_ParLeakage): constant-time execution in the leakage model of constant-time
programming. LeakCore.v/Leak.v/ParLeak.v instrument the prover; erasure lemmas prove that the instrumented prover is the prover;
LeakFacts.v has the relational rules (two computations with equal traces and related results) and LeakRun.v/ParLeakRun.v apply
them to the whole run. Trusted: that the library routines listed at the top of LeakCore.v run in constant time, and that the
compiler preserves the source-level trace.

C104/C105 (Properties_Keyless, Properties_ParKeyless): the reduction of zero knowledge to decisional Diffie-Hellman, as exact
statements about `keyless_proof` (SpecKeyless.v, ParSpecKeyless.v), which has no key among its arguments. The probabilistic last
step (a distinguisher's advantage) is not formalised.

C106/C107 (Properties_Replay, Properties_ParReplay): from `accepted_batch`, the injectivity of the challenge query (C35) and the two
commitment equations: responses do not change between two acceptances, so subtracting the equations determines B and C. Tightness
(`C106_public_proofs_exist`) is by construction of such a proof.

C108/C109 (SpecUniform, Uniform, Properties_Uniform, Properties_ParUniform): counting by explicit bijections with initial segments of
the natural numbers (`has_card`), no probability theory.

C110/C111 (DecodeCost, Properties_DecodeCost, Properties_ParDecodeCost): the decoder written a second time with a step counter and proved
to return what the first one returns; the bound is an amortized argument (every loop iteration that succeeds takes a 32-byte chunk; rows
are never empty because n > 1 is checked first).

C112/C113 (SoundnessError, Properties_Forger, Properties_ParForger): satisfying the equations is decidable and scalars can be searched,
so a strategy answers at most m challenges or m + 1 listed ones, and then `extract_sound` (C27/C64) applies. Tightness by the monic
polynomial with the chosen challenges as roots. The strategy is a function from challenges to proofs (rewinding); the random-oracle
forking argument, which turns a forger against the hash into such a strategy, is not formalised.

C114/C115 (CountWeights, Properties_Weights, Properties_ParWeights): tables are counted by explicit enumerations; a condition that
determines one entry from the others (C26) injects accepting tables times nonzero scalars into all tables. Connected to the verifier by
the exact verdict (C71). That the drawn weights behave as uniform ones is an assumption about the transcript generator and not stated.

C116/C117 (Properties_Nonces, Properties_ParNonces): equal commitments A have equal contents or differ by an explicit relation
between the commitment generators; with equal contents the two completed response matrices lie on one line whose slope is the
0/1 matrix of the signer's digits, so a search over all positions (`find_signer`) finds exactly one.  That honest runs do not
share nonces follows from C20/C61 (injectivity of the generator's state) and injectivity of the Fiat-Shamir transcript; the
remaining alternative, equal outputs from different states, is named in the conclusion.  The example uses an environment whose
generator ignores its state.

C118, C119 (cost of verification).  `VerifyCost.v` and the `Counting` sections repeat the verifier with a counter: one unit for each
multiplication of scalars, a unit function of the size for batch inversion and for the multiscalar multiplication (additions,
comparisons, hashing and drawing weights are not counted, nor the cost of retrying weights).  `C118_same_verifier` proves for all
inputs that the counting verifier returns what the verifier returns, so the counts speak about the model; that each `tick` stands at
the right place is checked by reading (lines cited).  The counts then follow by induction over the batch from the shape lemmas.
The cost of the blame functions adds up the calls of `verify_batch` that `Calls.v` logs (C41, C43, C72 bound their number and size).

C122, C123 (cost of proving).  `ProverCost.v` and `Properties_ProveCost.v` repeat the prover with a counter as for C118; erasure
(`C122_same_prover`) holds for all inputs, and the exact counts come from the shape lemmas of the honest prover (`prove_cases`), one case
for each kind of result.  Drawing of random values, additions, hashing and the decomposition of the index are not counted.

C120, C121 (random oracle model).  `Oracle.v` defines players as trees (a question and a continuation for every answer), so every
adaptive, computationally unbounded forger is covered, and proves a forking bound by induction on the tree: if at every question at
most k scalars can be followed by a win, the wins are at most n*k*(floor(2^512/l)+1)*2^(512(n-1)); otherwise k+1 winning runs fork at
a question.  Answers are byte strings, so the bias of the reduction modulo l is included.  With k = m the extractor of C27 applies to
the fork.  The random oracle is a modelling device (answers range over all sequences); `C120_real_run` shows that a run against the
concrete transcript function is one of the counted games, and nothing is assumed about that function.

C124, C125 (fresh questions).  `Fresh.v` counts the tuples of 64-byte strings that an injective function of the scalars sends into a given
list.  That the first message determines the masks follows from the transcript being injective (C24) and `G` not being the identity, which
follows from the checks in `TriptychStatement::new` for a ring that contains a key of the signer.

C126, C127 (64 bits).  A negative result about the code as it is: `honest_defects` computes the error of the prover's equations for a wrong
key, and the exact acceptance criterion (`verify_batch_accepts_iff`) with weights that depend on the 64-bit number alone gives the linking
tag (or the ring key, or in the parallel version the offset) that cancels them.  The positive counterpart, for weights drawn after the batch is fixed, is C114/C115.

C128, C129 (what 64 bits give).  `Searcher.v` counts the answer sequences of an adaptive player against two random functions (proof to number,
number to weights).  A thing with nonzero errors is cancelled by fewer than `k` of the known weight rows as long as no row lies in the span of
`k - 1` earlier ones (k independent rows cancel only zero: proved by counting, an injective map of a finite set to itself is onto), and
the exceptions are counted.  The numbers and weights are idealised as random here; that the verifier uses nothing else is `C128_real_run`.

C130, C131 (memory).  `Residue.v` repeats the prover and keeps the contents of the named variables that are not of a self-wiping type; erasure
(`C130_same_prover`) holds for all inputs.  Closed form by the shape lemmas; the key is then independent of what is left because only the
masks (wiped) tie it to the response `z`.

Cannot be expressed in the model (C130): copies of secrets made by the compiler, in registers or unnamed temporaries, and the inside of
dalek's and merlin's types.

C132, C133 (crash points).  `CrashOs.v` writes the prover once more with the two reads of its generator as points where it may stop,
keeping the caller's transcript; erasing the transcript of the crashed runs gives `prove` and `prove_vartime` for all inputs
(`C132_same_prover`).  The left-over transcript is given in closed form; the consequences for a retry follow from completeness (C22) and
`no_replay_core`, the core of C106.

C134, C135 (errors).  `SpecErrors.v` lists the errors of each call; the verifier's by inversion of the verdict (C71), the blame search by
an induction over its interval (widths of two or more always end with an index), the prover's from C15.  `Display.v` gives the messages.

C136, C137 (collisions).  `LazyOracle.v`: a player asks a random function that gives the next of a sequence of answers to each new question and
repeats itself on old ones; two different questions with the same answer need two equal answers in the sequence, and of all sequences of n
32-byte answers at most a fraction n(n-1)/2^257 has two equal ones (counted exactly, by induction on n).  A searcher is such a player; what it
ends with is hashed by six questions of the same kind, the transcripts the code hashes (`C136_statements_described`).  By injectivity of
these transcripts (C54-C56) success is two equal answers.  The reading of Merlin's `hash` challenge as a random function is the usual
idealization and is part of the statement; `C136_real_run` ties the game to runs against the real hash function.

C138, C139 (second preimages).  The same game, except that a given description is hashed first: success needs one of the first three answers
to come again (`Repeats.v` counts these sequences), because both hashes are the same and the transcripts are injective.

### English properties that are false of the code
These are theorems with suffix `_refuted`; the strongest true variant is proved beside each.
* C08/C58: `TriptychWitness::random` can produce a zero key (if the generator delivers it).
* C23/C62: an honest proof may be rejected (a zero among the completed responses); C76/C82 say exactly when.
* C24/C63: an accepted proof need not satisfy the equations (weights may cancel); C73/C74 give cases where it must.
* C31/C66: `verify_batch` panics in a build with overflow checks when the size of the final multiplication exceeds `u32`.
* C38/C68: after a proof was made and verified, prover and verifier transcripts differ.
* C42, C44/C67: with proofs but no statements the blame search panics; with mixed rings single blame names a valid proof and
  full blame fails naming nobody.
* C134/C135: the blame without index that "should never happen" does, when the numbers of statements and proofs differ; a rejected batch
  is reported as "Single proof verification failed"; the message of a blame does not name the proof.
* C49/C69: `to_bytes` panics on proofs without rows and loses the shape of ragged ones (reachable only through serde).
* C70/C68: different proofs may lead to the same weight generator, which sees 64 bits of each transcript.
* C79/C85, C80/C86: with the identity as U all tags agree; a chain of proofs on one running transcript does not verify
  as a chain, since the verifier absorbs the responses into the caller's transcript and the prover does not.
* C91/C92: a proof read by serde need not be encodable. C93: a parallel proof with named fields is read as a plain one.

## 4. Trusted base
* Coq 8.16.1's kernel (and coqchk, which vcheck runs). No axiom: `Print Assumptions` under every theorem of the Properties
  files prints "Closed under the global context". No `vm_compute`-only trust: the VM is part of the kernel's conversion, and
  coqchk re-checks those casts without it.
* The library axioms that vcheck lists are fields of module types of `Coq.ssr.ssrunder`, which is loaded; no theorem here
  depends on them.
* The reading of /repo in the model files (each definition cites file and lines and states its simplifications), and the
  environment record as a description of curve25519-dalek, merlin, blake3, rand_core and serde.

## 5. Wrong programs
`seeded/LOG.jsonl` has one line per edited model: the definition, the edit, the claim it breaks and the theorems that fail.
Edits were applied to a copy of the model and everything was rebuilt with `make -k`; `tools/mutlog.py` turns the results into
the log. Edits that no theorem noticed led to the tightenings recorded there.
