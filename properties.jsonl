{"id": "C01", "title": "Parameter acceptance is exactly n > 1, m > 1, n^m < 2^32", "statement": "TriptychParameters::new(n, m) and new_with_generators(n, m, G, U) return Ok exactly when n >= 2, m >= 2 and n^m < 2^32; otherwise they return InvalidParameter naming the first violated condition. No accepted or rejected pair ever reaches the `n*m overflowed` error, and none panics.", "quantifier": "all u32 pairs (n, m) and all group elements G, U", "why_tests_cant": "2^64 pairs; the boundary n^m = 2^32 and the unreachability of the n*m error are statements about all of them", "anchors": ["src/parameters.rs: TriptychParameters::new, new_with_generators"]}
{"id": "C02", "title": "Derived parameter quantities are exact and the commitment generators depend only on (n, m)", "statement": "For accepted parameters get_n, get_m, get_G, get_U return the inputs, get_N returns exactly n^m (the unchecked pow never overflows), there are exactly n*m matrix generators, and the matrix generators and the blinding generator are the same for any two accepted parameter objects with the same (n, m), whatever G and U are.", "quantifier": "all accepted parameters", "why_tests_cant": "needs every accepted (n, m) and arbitrary generators", "anchors": ["src/parameters.rs: get_N, get_n, get_m, get_G, get_U, new_with_generators"]}
{"id": "C03", "title": "The parameter hash binds n, m, G and U", "statement": "If two accepted parameter objects were hashed from the same Merlin query then they are equal in every field; so two different parameter objects with equal hashes exhibit two distinct Merlin queries with equal output (a collision), and equal inputs give equal objects.", "quantifier": "all pairs of accepted parameters", "why_tests_cant": "injectivity over all pairs of inputs", "anchors": ["src/parameters.rs: new_with_generators lines 124-136"]}
{"id": "C04", "title": "Every ring index has one well-defined digit encoding, the same in constant and variable time", "statement": "For valid (n, m) and every index v < n^m the constant-time and variable-time digit decompositions both succeed and return the same m digits, namely digit j is (floor(v/n^j) - floor(v/n^(j+1))) mod n, each below n; they fail exactly on n <= 1 or m = 0.", "quantifier": "all n, m with n^m < 2^32 and all v < n^m", "why_tests_cant": "all indices and all shapes; overflow of the running shift must be excluded for all of them", "anchors": ["src/gray.rs: decompose, decompose_vartime"]}
{"id": "C05", "title": "The digit encoding is a bijection between ring indices and digit vectors", "statement": "Distinct indices below n^m have distinct digit vectors, and every vector of m digits below n is the encoding of an index below n^m.", "quantifier": "all n, m, all pairs of indices, all digit vectors", "why_tests_cant": "bijectivity over a set of size n^m", "anchors": ["src/gray.rs: decompose_vartime"]}
{"id": "C06", "title": "Prover and verifier enumerate all n^m encodings, once each, changing one digit at a time", "statement": "Starting from the all-zero vector and applying the (index, old, new) items of the iterator yields, after item k, the encoding of index k; there are exactly n^m items and then the iterator stays exhausted; each item after the first changes exactly one digit, `old` is that digit's previous value and new = old + 1 mod n.", "quantifier": "all accepted (n, m), all positions k", "why_tests_cant": "unbounded length enumeration", "anchors": ["src/gray.rs: GrayIterator::new, next"]}
{"id": "C07", "title": "Witness acceptance is exactly r != 0 and l < N", "statement": "TriptychWitness::new(params, l, r) returns Ok exactly when r is nonzero and l < n^m, the accessors then return (params, l, r), and otherwise it returns the error naming the first violated condition.", "quantifier": "all parameters, indices and scalars", "why_tests_cant": "all inputs", "anchors": ["src/witness.rs: TriptychWitness::new"]}
{"id": "C08", "title": "A random witness has an index in range, consumes the generator in a fixed order, but its key is not guaranteed to be nonzero", "statement": "TriptychWitness::random always returns an index below n^m equal to a u64 draw reduced modulo n^m and a key equal to a 64-byte draw reduced modulo the group order. The documented requirement that signing keys be nonzero is NOT enforced: for a generator output that reduces to zero it returns a witness that TriptychWitness::new would reject (refuted).", "quantifier": "all generators and parameters", "why_tests_cant": "depends on every generator output", "anchors": ["src/witness.rs: TriptychWitness::random"]}
{"id": "C09", "title": "Linking tags and verification keys satisfy the signing relation", "statement": "For every witness with nonzero key r: r * compute_linking_tag() = U and compute_verification_key() = r * G; hence a statement built from them is accepted by the prover at the witness index.", "quantifier": "all witnesses", "why_tests_cant": "all scalars", "anchors": ["src/witness.rs: compute_linking_tag, compute_verification_key"]}
{"id": "C10", "title": "Linking tags identify signing keys", "statement": "For parameters with a common U that is not the identity, two witnesses with nonzero keys have equal linking tags if and only if their keys are equal, independent of index, ring, n, m and G; likewise verification keys for G not the identity.", "quantifier": "all pairs of witnesses", "why_tests_cant": "all pairs of keys", "anchors": ["src/witness.rs: compute_linking_tag, compute_verification_key"]}
{"id": "C11", "title": "Padding keeps the keys and repeats the last one up to N", "statement": "TriptychInputSet::new_with_padding(M, params) is Ok exactly when 1 <= |M| <= N; the resulting keys are M followed by N - |M| copies of the last element; so its length is exactly N and every padded position holds the last key. For |M| = N it equals TriptychInputSet::new(M).", "quantifier": "all key vectors and parameters", "why_tests_cant": "all lengths", "anchors": ["src/statement.rs: TriptychInputSet::new, new_with_padding"]}
{"id": "C12", "title": "The input set hash binds the keys and the unpadded size", "statement": "If two input sets were hashed from the same Merlin query they have the same keys in the same order and the same unpadded size; in particular a padded set and an explicitly repeated set of the same keys have different queries.", "quantifier": "all pairs of key vectors and sizes below 2^32", "why_tests_cant": "injectivity", "anchors": ["src/statement.rs: new_internal"]}
{"id": "C13", "title": "Statement acceptance is exactly |keys| = N and no identity key", "statement": "TriptychStatement::new(params, set, J) is Ok exactly when the set has n^m keys and none is the identity; any J is accepted; accessors return the inputs.", "quantifier": "all parameters, sets, tags", "why_tests_cant": "all inputs", "anchors": ["src/statement.rs: TriptychStatement::new"]}
{"id": "C14", "title": "The statement hash binds parameters hash, input set hash and linking tag", "statement": "Two statements whose hashes come from the same Merlin query have the same parameters hash, input-set hash and linking tag.", "quantifier": "all pairs of statements", "why_tests_cant": "injectivity", "anchors": ["src/statement.rs: TriptychStatement::new"]}
{"id": "C15", "title": "A proof is produced exactly for true relations, with exact errors", "statement": "prove_with_rng(witness, statement, rng, transcript) returns Ok if and only if the parameters agree, keys[l] = r*G, r*J = U and the derived challenge is nonzero; otherwise it returns InvalidParameter for the first violated relation, or InvalidChallenge. No other error is possible.", "quantifier": "all witnesses, statements, generators, transcripts", "why_tests_cant": "all inputs and all transcript outputs", "anchors": ["src/proof.rs: prove_with_rng, prove_internal"]}
{"id": "C16", "title": "The prover never panics and always terminates", "statement": "prove_with_rng and prove_with_rng_vartime never panic (no index out of range, no length assertion) for any witness and statement obtained from the API; every loop terminates.", "quantifier": "all constructible witnesses and statements", "why_tests_cant": "all shapes", "anchors": ["src/proof.rs: prove_internal"]}
{"id": "C17", "title": "Constant-time and variable-time provers are functionally identical", "statement": "prove_with_rng and prove_with_rng_vartime return the same result, leave the transcript in the same state and consume the same randomness, on every input.", "quantifier": "all inputs", "why_tests_cant": "equality of two functions", "anchors": ["src/proof.rs: prove_with_rng, prove_with_rng_vartime", "src/util.rs: delta"]}
{"id": "C18", "title": "A refused proof leaves transcript and generator untouched", "statement": "When proving fails because the parameters differ or the relation does not hold, neither the caller's transcript nor the generator state has changed.", "quantifier": "all failing inputs", "why_tests_cant": "all inputs", "anchors": ["src/proof.rs: prove_internal lines 179-214"]}
{"id": "C19", "title": "Proofs have the shape their parameters prescribe", "statement": "Every proof returned by the prover has m elements in X and Y and an m by (n-1) matrix f, so it passes every dimension check and serializes to 8 + 32*(7 + 2m + m(n-1)) bytes.", "quantifier": "all proofs produced", "why_tests_cant": "all n, m", "anchors": ["src/proof.rs: prove_internal, to_bytes"]}
{"id": "C20", "title": "Prover nonces are hedged: they depend on the transcript, statement, index, key and external randomness", "statement": "The generator state from which all nonces are drawn is determined by the caller's transcript, the statement hash, l, r and 32 external bytes, and two states are equal only if all of these are equal: with a broken external generator, proofs for different statements, transcripts, indices or keys still use different nonce streams.", "quantifier": "all pairs of prover calls", "why_tests_cant": "injectivity over all pairs", "anchors": ["src/transcript.rs: ProofTranscript::new, build_transcript_rng"]}
{"id": "C21", "title": "The prover's use of randomness does not depend on secrets", "statement": "A proof that passes the relation checks takes exactly two 32-byte requests from the external generator, whatever the witness, statement and transcript are: the generator's final state is a function of its initial state only; all nonces are drawn from the transcript generator in one fixed order and number.", "quantifier": "all witnesses", "why_tests_cant": "all inputs", "anchors": ["src/proof.rs: prove_internal", "src/transcript.rs: build_transcript_rng"]}
{"id": "C22", "title": "Completeness: an honest proof verifies", "statement": "If prove_with_rng returns a proof for a statement and transcript, then verify on the same statement and an equal transcript accepts it unless a response matrix entry is zero, in which case it returns the `contained 0` error; it never panics (release arithmetic).", "quantifier": "all honest executions", "why_tests_cant": "all nonces, keys, rings", "anchors": ["src/proof.rs: prove_with_rng, verify"]}
{"id": "C23", "title": "Perfect completeness does not hold", "statement": "There are honest executions (a nonce making a response matrix entry zero) whose proof is rejected (refuted: exhibits one).", "quantifier": "exists an execution", "why_tests_cant": "probability-negligible case tests never hit", "anchors": ["src/proof.rs: verify_batch lines 706-713"]}
{"id": "C24", "title": "verify decides exactly the weighted Triptych verification equations", "statement": "For a well-formed proof, verify returns Ok exactly when the challenge is nonzero, no reconstructed f entry is zero and w1*E1 + w2*E2 + w3*E3 + w4*E4 = 0 for the nonzero weights it derives, where E1..E4 are the four verification equations of the Triptych paper; each failure has its own error value.", "quantifier": "all statements, proofs, transcripts", "why_tests_cant": "functional correctness of the whole inner loop", "anchors": ["src/proof.rs: verify, verify_batch"]}
{"id": "C25", "title": "Batch verification accepts every batch of valid proofs", "statement": "If every proof of a batch over one ring and one parameter set satisfies the four equations for its own statement and transcript, has no zero f entry and a nonzero challenge, then verify_batch accepts, for every batch size and order.", "quantifier": "all batches", "why_tests_cant": "all sizes", "anchors": ["src/proof.rs: verify_batch"]}
{"id": "C26", "title": "A batch containing an invalid proof is accepted only by an exact weight cancellation", "statement": "If verify_batch accepts then either every proof satisfies its four equations or the derived weights are a nontrivial solution of sum_i w_i*E_i = 0; and for any violated equation, with all other weights fixed, at most one value of its weight lets the check pass.", "quantifier": "all batches", "why_tests_cant": "all batches and all weights", "anchors": ["src/proof.rs: verify_batch"]}
{"id": "C27", "title": "Special soundness: m+1 accepting challenges yield the signing key", "statement": "From responses to m+1 distinct challenges for the same statement and first message satisfying the four equations, an explicit algorithm computes either an index l < N and key r with keys[l] = r*G and r*J = U, or an explicit nontrivial linear relation between the commitment generators.", "quantifier": "all statements, first messages and response sets", "why_tests_cant": "existence of an extractor cannot be tested", "anchors": ["src/proof.rs: verify_batch", "src/gray.rs: decompose"]}
{"id": "C28", "title": "Linkability: two proofs made with the same key carry the same tag", "statement": "If two statements over the same G, U have extractable proofs and the extracted indices point at the same verification key, then the linking tags are equal; equal tags (U not the identity) imply the same signing key, hence the same verification key.", "quantifier": "all pairs of extractable proofs", "why_tests_cant": "all pairs", "anchors": ["src/proof.rs: verify_batch", "src/witness.rs: compute_linking_tag"]}
{"id": "C29", "title": "Responses are unique given the first message and challenge", "statement": "For a fixed statement, first message and challenge, with G not the identity, two responses satisfying the equations either coincide or give an explicit nontrivial relation between the commitment generators ; so accepted proofs cannot be mauled into different accepted proofs.", "quantifier": "all pairs of accepted responses", "why_tests_cant": "all pairs", "anchors": ["src/proof.rs: verify_batch"]}
{"id": "C30", "title": "Verification never panics on any proof object (release arithmetic)", "statement": "verify and verify_batch return Ok or an error, never a panic, for every proof object including hand-made or deserialized ones with arbitrary vector lengths, when integer overflow wraps.", "quantifier": "all proof objects, statements, transcripts", "why_tests_cant": "all malformed shapes", "anchors": ["src/proof.rs: verify_batch"]}
{"id": "C31", "title": "With overflow checks on, verification panics for accepted parameters near the u32 limit", "statement": "In builds with overflow checks, verify_batch never panics if 3 + n*m + N + |batch|*(5+2m) < 2^32, and does panic otherwise on well-formed input (refuted as an unconditional claim).", "quantifier": "all parameters and batch sizes", "why_tests_cant": "needs rings of size near 2^32", "anchors": ["src/proof.rs: verify_batch lines 623-639"]}
{"id": "C32", "title": "Empty and mismatched batches", "statement": "verify_batch returns Ok on an empty batch and an InvalidParameter error, without touching any transcript, whenever the numbers of statements, proofs and transcripts differ.", "quantifier": "all batches", "why_tests_cant": "all lengths", "anchors": ["src/proof.rs: verify_batch lines 552-568"]}
{"id": "C33", "title": "Malformed proofs are rejected with an error", "statement": "A batch containing a proof whose X, Y or f does not have the dimensions of the parameters is never accepted and leaves all transcripts unchanged.", "quantifier": "all proof objects", "why_tests_cant": "all shapes", "anchors": ["src/proof.rs: verify_batch lines 588-616"]}
{"id": "C34", "title": "Batches mixing rings or parameters are rejected", "statement": "verify_batch returns an error, leaving transcripts unchanged, whenever two statements of the batch have different input-set hashes or different parameter hashes.", "quantifier": "all batches", "why_tests_cant": "all pairs in all batches", "anchors": ["src/proof.rs: verify_batch lines 570-582"]}
{"id": "C35", "title": "Fiat-Shamir: the challenge binds transcript, statement and the whole first message", "statement": "The query from which the challenge is derived determines the caller's transcript, the statement hash, A, B, C, D, X and Y; and prover and verifier make the same query for the same inputs.", "quantifier": "all pairs of inputs", "why_tests_cant": "injectivity", "anchors": ["src/transcript.rs: ProofTranscript::new, commit"]}
{"id": "C36", "title": "Batch weights bind every response", "statement": "The query that feeds the batch weights determines each proof's f, z_A, z_C, z in addition to everything bound by the challenge.", "quantifier": "all pairs of proofs of the same shape", "why_tests_cant": "injectivity", "anchors": ["src/transcript.rs: response", "src/proof.rs: verify_batch lines 671-692"]}
{"id": "C37", "title": "Effect of verification on transcripts", "statement": "After verify_batch reaches the challenge phase each processed transcript has been extended by the proof's own messages only, in order; verification is a function of its inputs (no randomness), and transcripts after a failing challenge are untouched.", "quantifier": "all batches", "why_tests_cant": "all executions", "anchors": ["src/proof.rs: verify_batch lines 677-689"]}
{"id": "C38", "title": "Prover and verifier do not leave the transcript in the same state", "statement": "After an honest prove and an accepting verify starting from equal transcripts the two transcripts differ (the verifier absorbs the responses, the prover does not), so composing a further protocol on the same transcript desynchronises (refuted claim: transcripts stay in sync).", "quantifier": "all honest executions", "why_tests_cant": "holds for every run", "anchors": ["src/proof.rs: prove_internal", "src/proof.rs: verify_batch line 687"]}
{"id": "C39", "title": "Single-blame verification agrees with batch verification and leaves transcripts unchanged", "statement": "verify_batch_with_single_blame returns Ok exactly when verify_batch does, and never modifies the caller's transcripts.", "quantifier": "all batches", "why_tests_cant": "all inputs", "anchors": ["src/proof.rs: verify_batch_with_single_blame"]}
{"id": "C40", "title": "Single blame points at the first invalid proof", "statement": "On a batch with equal lengths, if batch verification is exact on contiguous sub-batches (no weight cancellation), the blamed index is the least index whose proof is individually invalid; unconditionally, the blamed index is in range.", "quantifier": "all batches", "why_tests_cant": "all sizes and invalid-subsets", "anchors": ["src/proof.rs: verify_batch_with_single_blame"]}
{"id": "C41", "title": "Single blame performs logarithmically many sub-verifications", "statement": "After the initial failure at most ceil(log2(size)) + 1 further batch verifications are made, and the search terminates.", "quantifier": "all batch sizes", "why_tests_cant": "all sizes", "anchors": ["src/proof.rs: verify_batch_with_single_blame"]}
{"id": "C42", "title": "Single blame does not meet its documentation on mismatched lengths and mixed rings", "statement": "With fewer statements (or transcripts) than proofs it panics instead of returning an error, and on a batch mixing two rings it can blame a proof that is individually valid (both refuted with witnesses).", "quantifier": "exists inputs", "why_tests_cant": "needs specific malformed calls", "anchors": ["src/proof.rs: verify_batch_with_single_blame"]}
{"id": "C43", "title": "Full blame lists exactly the individually invalid proofs", "statement": "verify_batch_with_full_blame returns Ok exactly when verify_batch does (leaving transcripts unchanged); otherwise the listed indexes are exactly, in increasing order, those i for which verify of proof i alone fails.", "quantifier": "all batches", "why_tests_cant": "all batches", "anchors": ["src/proof.rs: verify_batch_with_full_blame"]}
{"id": "C44", "title": "Full blame can fail with an empty list", "statement": "On a batch of individually valid proofs over two different rings full blame returns an error blaming no proof (refuted claim: failure names at least one proof).", "quantifier": "exists a batch", "why_tests_cant": "specific input", "anchors": ["src/proof.rs: verify_batch_with_full_blame"]}
{"id": "C45", "title": "Serialization round-trips", "statement": "from_bytes(to_bytes(p)) = Ok(p) for every proof produced by the prover or by from_bytes (indeed for every rectangular proof with m >= 2 rows of 1 <= n-1 < 2^32-1 columns).", "quantifier": "all proofs", "why_tests_cant": "all proofs", "anchors": ["src/proof.rs: to_bytes, from_bytes"]}
{"id": "C46", "title": "Serialization is canonical", "statement": "If from_bytes(b) = Ok(p) then to_bytes(p) = b: no two byte strings decode to the same proof; and distinct proofs have distinct encodings.", "quantifier": "all byte strings", "why_tests_cant": "all byte strings", "anchors": ["src/proof.rs: from_bytes"]}
{"id": "C47", "title": "Encoded length and shape are determined by the header", "statement": "An accepted encoding has length exactly 8 + 32*(7 + 2m + m(n-1)) for the (n-1, m) in its first 8 bytes, with n, m >= 2; every truncation or extension of an accepted encoding is rejected.", "quantifier": "all byte strings", "why_tests_cant": "all byte strings", "anchors": ["src/proof.rs: from_bytes"]}
{"id": "C48", "title": "from_bytes is total: it never panics and every failure is FailedDeserialization", "statement": "For every byte string from_bytes returns a proof or FailedDeserialization.", "quantifier": "all byte strings", "why_tests_cant": "all byte strings", "anchors": ["src/proof.rs: from_bytes"]}
{"id": "C49", "title": "to_bytes panics on some representable proof objects", "statement": "to_bytes never panics on proofs from prove or from_bytes but panics on a proof with an empty f matrix, which the derived serde implementation can create; on ragged f it does not round-trip (refuted).", "quantifier": "exists a proof object", "why_tests_cant": "not constructible in the crate's tests", "anchors": ["src/proof.rs: to_bytes lines 817-830"]}
{"id": "C50", "title": "Borsh encoding round-trips and composes", "statement": "Borsh deserialization of serialize(p) followed by arbitrary trailing data returns p and leaves exactly the trailing data; it accepts only length-prefixed canonical encodings.", "quantifier": "all proofs and trailing data", "why_tests_cant": "all", "anchors": ["src/proof.rs: BorshSerialize, BorshDeserialize"]}
{"id": "C51", "title": "Verification survives the wire", "statement": "Verifying a deserialized proof gives the same verdict and the same transcripts as verifying the original.", "quantifier": "all proofs", "why_tests_cant": "all", "anchors": ["src/proof.rs: from_bytes, verify"]}
{"id": "C52", "title": "Single and parallel protocols are domain separated", "statement": "No Merlin query made for a challenge, parameter, input set or statement hash, or weight by the plain protocol is ever made by the parallel protocol on the same caller transcript; hash queries of different kinds never coincide.", "quantifier": "all pairs of executions", "why_tests_cant": "all pairs", "anchors": ["src/lib.rs: domains", "src/transcript.rs", "src/parallel/transcript.rs"]}
{"id": "C53", "title": "Honest-verifier zero knowledge of the equations: simulated transcripts satisfy the same equations", "statement": "For every challenge and every choice of responses and free first-message elements there is exactly one completion of the first message satisfying all four equations, computable without the witness.", "quantifier": "all statements and challenges", "why_tests_cant": "existence of a simulator", "anchors": ["src/proof.rs: prove_internal, verify_batch"]}
{"id": "C54", "title": "Perfect hiding of the index in the matrix part of the proof", "statement": "For fixed challenge, the map from prover nonces to the responses f, z_A, z_C is a bijection for every index l, so these responses are distributed identically for all l.", "quantifier": "all indices, challenges", "why_tests_cant": "distribution equality", "anchors": ["src/proof.rs: prove_internal"]}
{"id": "C55", "title": "The ring is bound position by position", "statement": "A proof accepted for one input set is checked against a different challenge query for any other input set, linking tag or parameters, unless their statement hashes collide.", "quantifier": "all pairs of statements", "why_tests_cant": "all pairs", "anchors": ["src/statement.rs", "src/transcript.rs"]}
{"id": "C56", "title": "Only the first statement's ring matters, and hashes guarantee it is everyone's ring", "statement": "In a batch whose statements came from constructors, equal input-set and parameter hashes imply equal keys and parameters unless a Merlin collision is exhibited; so batch verification checks each proof against its own statement.", "quantifier": "all batches", "why_tests_cant": "all", "anchors": ["src/proof.rs: verify_batch lines 570-586"]}
{"id": "C57", "title": "Parallel: parameter acceptance and derived quantities", "statement": "As C01/C02/C03 for parallel::TriptychParameters with the additional generator G1, which the hash binds as well.", "quantifier": "all inputs", "why_tests_cant": "all inputs", "anchors": ["src/parallel/parameters.rs: TriptychParameters"]}
{"id": "C58", "title": "Parallel: witness acceptance and keys", "statement": "parallel::TriptychWitness::new accepts exactly r != 0, r1 != 0, l < N; tags and keys satisfy the relations, auxiliary key = r1*G1; random witnesses have index below N.", "quantifier": "all inputs", "why_tests_cant": "all inputs", "anchors": ["src/parallel/witness.rs: TriptychWitness"]}
{"id": "C59", "title": "Parallel: input sets and padding", "statement": "Both vectors must have equal lengths; padding repeats each vector's own last element to exactly N; the hash binds both vectors and the unpadded size.", "quantifier": "all inputs", "why_tests_cant": "all inputs", "anchors": ["src/parallel/statement.rs: TriptychInputSet"]}
{"id": "C60", "title": "Parallel: statement acceptance", "statement": "Accepted exactly when the set has N keys, no identity key and no auxiliary key equal to the offset; the hash binds parameters, set, offset and tag.", "quantifier": "all inputs", "why_tests_cant": "all inputs", "anchors": ["src/parallel/statement.rs: TriptychStatement::new"]}
{"id": "C61", "title": "Parallel: prover exactness, no panics, timing equivalence, frame", "statement": "As C15-C21 with the extra relation keys1[l] - offset = r1*G1.", "quantifier": "all inputs", "why_tests_cant": "all inputs", "anchors": ["src/parallel/proof.rs: prove_internal"]}
{"id": "C62", "title": "Parallel: completeness", "statement": "As C22 and C25 for the parallel protocol.", "quantifier": "all honest executions", "why_tests_cant": "all", "anchors": ["src/parallel/proof.rs: prove_with_rng, verify, verify_batch"]}
{"id": "C63", "title": "Parallel: verification decides the weighted equations and batch soundness", "statement": "As C24 and C26 with the fifth equation for the auxiliary keys.", "quantifier": "all inputs", "why_tests_cant": "all", "anchors": ["src/parallel/proof.rs: verify_batch"]}
{"id": "C64", "title": "Parallel: special soundness", "statement": "m+1 accepting challenges yield l, r, r1 with keys[l] = r*G, keys1[l] - offset = r1*G1 at the SAME index l, and r*J = U, or a relation between the commitment generators.", "quantifier": "all statements", "why_tests_cant": "existence of an extractor", "anchors": ["src/parallel/proof.rs: verify_batch"]}
{"id": "C65", "title": "Parallel: amounts balance when auxiliary keys are commitments", "statement": "If the auxiliary key at the extracted index is a commitment v*H + s*G1 and the offset is v'*H + s'*G1 then either v = v' or the extracted auxiliary key yields the discrete logarithm of H to base G1.", "quantifier": "all commitments", "why_tests_cant": "all", "anchors": ["src/parallel/proof.rs: verify_batch"]}
{"id": "C66", "title": "Parallel: malformed proofs and batches", "statement": "As C30-C34 for the parallel protocol (overflow bound 4 + n*m + 2N + |batch|*(6+3m)).", "quantifier": "all inputs", "why_tests_cant": "all", "anchors": ["src/parallel/proof.rs: verify_batch"]}
{"id": "C67", "title": "Parallel: blame functions", "statement": "As C39-C44 for the parallel protocol.", "quantifier": "all batches", "why_tests_cant": "all", "anchors": ["src/parallel/proof.rs: verify_batch_with_single_blame, verify_batch_with_full_blame"]}
{"id": "C68", "title": "Parallel: transcript binding", "statement": "As C35-C38 with X1, z1 and the offset bound.", "quantifier": "all pairs", "why_tests_cant": "all", "anchors": ["src/parallel/transcript.rs"]}
{"id": "C69", "title": "Parallel: serialization", "statement": "As C45-C51 with length 8 + 32*(8 + 3m + m(n-1)).", "quantifier": "all byte strings and proofs", "why_tests_cant": "all", "anchors": ["src/parallel/proof.rs: to_bytes, from_bytes"]}
{"id": "C70", "title": "Batch weights depend on a proof only through a 64-bit tag", "statement": "The generator of the batch weights is determined by one 64-bit number per proof; hence (refuted claim: the weights determine the proof) for every statement, transcript and proof there are two proofs that differ in their response z and yet lead to the same weights, although the transcripts their tags are derived from differ.", "quantifier": "all batches, all environments", "why_tests_cant": "no test can find two such proofs; it is a counting argument", "anchors": ["src/proof.rs: verify_batch (transcript_weights.append_u64)"]}
{"id": "C71", "title": "Exact verdict of a batch verification", "statement": "The result of verify_batch and the transcripts it leaves behind are a function of the batch given by a case distinction in a fixed order: unequal counts, empty batch, differing input sets, differing parameters, the first misshaped proof (with a reason naming the wrong dimension), too many proofs, overflow of the size computation, the first zero challenge, a zero response, and otherwise acceptance exactly when the weighted sum of all equation defects is the identity. Every error but the last three leaves the transcripts as they were; the last three leave them as the Fiat-Shamir runs do.", "quantifier": "all batches, proofs, transcripts and environments", "why_tests_cant": "tests try one defect at a time; the order of checks, the reported reason and the transcripts afterwards matter for all combinations", "anchors": ["src/proof.rs: verify_batch, verify"]}
{"id": "C72", "title": "Parallel: exact verdict and cost of the verifiers", "statement": "As C71 for the parallel protocol, with the reasons for misshaped and mixed batches (C24, C33, C34) and the number and ranges of verifications made by the two blame functions (C41, C43).", "quantifier": "all batches, proofs, transcripts and environments", "why_tests_cant": "as C71", "anchors": ["src/parallel/proof.rs: verify_batch, verify, verify_batch_with_single_blame, verify_batch_with_full_blame"]}
{"id": "C73", "title": "A failed equation that is alone in its batch is always found", "statement": "If all proofs of a batch over one ring are valid except one, which violates exactly one verification equation, then verify_batch rejects whatever the weights are, verify_batch_with_single_blame names exactly that proof and verify_batch_with_full_blame lists exactly it. In particular replacing z_A or z_C of a valid proof by any other value is always noticed and attributed; replacing z is noticed unless the weights satisfy w3*G + w4*J = 0, whatever the new value.", "quantifier": "all batches, positions, replacement values, weights and environments", "why_tests_cant": "a test flips a few bits; this is for every replacement value and every outcome of the weight hash", "anchors": ["src/proof.rs: verify_batch, verify_batch_with_single_blame, verify_batch_with_full_blame"]}
{"id": "C74", "title": "Parallel: a failed equation that is alone in its batch is always found", "statement": "As C73 for the parallel protocol, with z1 among the responses whose replacement is always noticed.", "quantifier": "all batches, positions, replacement values, weights and environments", "why_tests_cant": "as C73", "anchors": ["src/parallel/proof.rs: verify_batch, verify_batch_with_single_blame, verify_batch_with_full_blame"]}
{"id": "C75", "title": "The whole life of a proof", "statement": "For every parameter set and every ring of 1 to N non-identity keys, the owner of the key at position k can pad the ring, build the statement with her linking tag, and prove at index k (or, when k is the last position, at every padded index); the proof serializes and deserializes to itself, and verification terminates and accepts unless one of the response matrix entries is zero, in which case it is rejected for exactly that reason. The only other outcome of proving is a zero challenge.", "quantifier": "all parameters, rings of every length, signing positions, secrets, generators of randomness, transcripts and environments", "why_tests_cant": "the composition of construction, padding, proving, encoding and verification must work at every position of every ring for every source of randomness", "anchors": ["src/statement.rs: new_with_padding, TriptychStatement::new", "src/witness.rs: new, compute_linking_tag, compute_verification_key", "src/proof.rs: prove_with_rng, to_bytes, from_bytes, verify"]}
{"id": "C76", "title": "How often an honest proof is rejected", "statement": "The challenges under which an honest proof is rejected are at most m, one per digit, and the nonces alone determine them, unless a nonce away from the signer's digits is zero; in that case the proof is rejected under every challenge. There is no other rejection.", "quantifier": "all honest runs of the prover, all statements and environments", "why_tests_cant": "the exceptional challenges have negligible density: random tests never meet them", "anchors": ["src/proof.rs: prove_internal (f matrix), verify_batch (f check)"]}
{"id": "C77", "title": "Removing what the blame functions name leaves a batch that verifies", "statement": "Unless weights cancel, dropping from a batch the indices listed by verify_batch_with_full_blame leaves exactly the valid proofs, and verify_batch accepts them. Repeatedly calling verify_batch_with_single_blame and dropping the named proof terminates after one call per invalid proof and a last one, and leaves exactly the valid proofs, in order.", "quantifier": "all batches over one ring, all subsets of invalid proofs", "why_tests_cant": "a statement about loops of calls over every batch and every pattern of failures", "anchors": ["src/proof.rs: verify_batch_with_single_blame, verify_batch_with_full_blame"]}
{"id": "C78", "title": "A padded ring is not the ring written out", "statement": "Padding a ring and writing the padded keys down give input sets with equal keys, but statements over the two cannot be verified in one batch: verify_batch refuses with InvalidParameter, unless the hash of the two different queries collides.", "quantifier": "all rings shorter than N, all parameters and batches", "why_tests_cant": "for every ring and padding length; an example says nothing about others", "anchors": ["src/statement.rs: TriptychInputSet::new, new_with_padding, new_internal", "src/proof.rs: verify_batch"]}
{"id": "C79", "title": "The identity as linking tag or generator", "statement": "A statement with the identity as linking tag can be built, but unless U is the identity no witness exists for it, the prover refuses every witness, and forked forgeries yield a relation among the commitment generators. With the identity as G nothing can be proved. Refuted: that parameters guarantee different tags for different keys, since U may be the identity.", "quantifier": "all statements, witnesses, forgers and environments", "why_tests_cant": "non-existence of witnesses for every key and index", "anchors": ["src/parameters.rs: new_with_generators", "src/statement.rs: TriptychStatement::new", "src/proof.rs: prove_internal"]}
{"id": "C80", "title": "Several proofs on one running transcript", "statement": "What a sequence of proofs leaves in a transcript determines all statements and first messages, their order and their number. The prover's transcript afterwards holds the first messages only, while the verifier's holds the whole proofs, so after the first proof the two sides never query the same challenge: that a chain of honest proofs on a running transcript verifies as a chain is refuted.", "quantifier": "all sequences of statements and proofs of every length, all transcripts", "why_tests_cant": "a statement about histories of unbounded length", "anchors": ["src/transcript.rs: ProofTranscript", "src/proof.rs: prove_internal, verify_batch"]}
{"id": "C81", "title": "Parallel: the whole life of a proof", "statement": "As C75 for the parallel protocol; the auxiliary key of the signer is her auxiliary verification key plus the offset, and no auxiliary key equals the offset.", "quantifier": "all parameters, rings of every length, signing positions, secrets, generators of randomness, transcripts and environments", "why_tests_cant": "as C75", "anchors": ["src/parallel/statement.rs: new_with_padding, TriptychStatement::new", "src/parallel/witness.rs: new, compute_linking_tag, compute_verification_key", "src/parallel/proof.rs: prove_with_rng, to_bytes, from_bytes, verify"]}
{"id": "C82", "title": "Parallel: how often an honest proof is rejected", "statement": "As C76 for the parallel protocol.", "quantifier": "all honest runs of the prover, all statements and environments", "why_tests_cant": "as C76", "anchors": ["src/parallel/proof.rs: prove_internal (f matrix), verify_batch (f check)"]}
{"id": "C83", "title": "Parallel: removing what the blame functions name leaves a batch that verifies", "statement": "As C77 for the parallel protocol.", "quantifier": "all batches over one ring, all subsets of invalid proofs", "why_tests_cant": "as C77", "anchors": ["src/parallel/proof.rs: verify_batch_with_single_blame, verify_batch_with_full_blame"]}
{"id": "C84", "title": "Parallel: a padded ring is not the ring written out", "statement": "As C78 for the parallel protocol, for keys and auxiliary keys.", "quantifier": "all rings shorter than N, all parameters and batches", "why_tests_cant": "as C78", "anchors": ["src/parallel/statement.rs: TriptychInputSet::new, new_with_padding, new_internal", "src/parallel/proof.rs: verify_batch"]}
{"id": "C85", "title": "Parallel: the identity as linking tag or generator", "statement": "As C79 for the parallel protocol; with the identity as G1 nothing can be proved either.", "quantifier": "all statements, witnesses, forgers and environments", "why_tests_cant": "as C79", "anchors": ["src/parallel/parameters.rs: new_with_generators", "src/parallel/statement.rs: TriptychStatement::new", "src/parallel/proof.rs: prove_internal"]}
{"id": "C86", "title": "Parallel: several proofs on one running transcript", "statement": "As C80 for the parallel protocol.", "quantifier": "all sequences of statements and proofs of every length, all transcripts", "why_tests_cant": "as C80", "anchors": ["src/parallel/transcript.rs: ProofTranscript", "src/parallel/proof.rs: prove_internal, verify_batch"]}
{"id": "C87", "title": "No byte string is a proof in both protocols", "statement": "A byte string that TriptychProof::from_bytes of one protocol accepts is refused with FailedDeserialization by that of the other, and the same holds for Borsh readers.", "quantifier": "all byte strings and readers", "why_tests_cant": "all byte strings of every length", "anchors": ["src/proof.rs: from_bytes, BorshDeserialize", "src/parallel/proof.rs: from_bytes, BorshDeserialize"]}
{"id": "C88", "title": "Keys, tags and generators agree across the protocols", "statement": "For equal n and m both protocols use the same commitment generators and default G and U; a signing key has the same verification key and linking tag in both. The linking tags of a plain and a parallel proof are equal exactly if the signers' keys are, or forks of the proofs yield a relation between commitment generators.", "quantifier": "all parameters, witnesses, statements of the two protocols, forks and environments", "why_tests_cant": "for all keys and all rings; absence of unlinked double use is not testable", "anchors": ["src/parameters.rs: new_with_generators", "src/parallel/parameters.rs: new_with_generators", "src/witness.rs: compute_linking_tag", "src/parallel/witness.rs: compute_linking_tag"]}
{"id": "C89", "title": "Proving with the operating system's generator", "statement": "prove and prove_vartime read 32 bytes of the operating system's randomness twice, and only after all checks of the witness have passed: a refusal happens whatever the operating system does, and consumes nothing. If a read fails the call panics. Otherwise result and transcript are those of prove_with_rng with any generator that delivers the bytes of the first read; the second read has no influence. Both functions behave the same. TriptychWitness::random with that generator reads 8 bytes for the index and then 64 for the key; if a read fails it panics, otherwise the witness is the one these bytes determine.", "quantifier": "all behaviours of the operating system's source, all parameters, witnesses, statements and transcripts", "why_tests_cant": "all behaviours of the source, including failures a test cannot provoke", "anchors": ["src/proof.rs: prove, prove_vartime, prove_with_rng, prove_internal", "src/transcript.rs: ProofTranscript::new, commit", "src/witness.rs: TriptychWitness::random"]}
{"id": "C90", "title": "Parallel: proving with the operating system's generator", "statement": "As C89 for the parallel protocol; a random witness takes 64 bytes for each of its two keys.", "quantifier": "all behaviours of the operating system's source, all parameters, witnesses, statements and transcripts", "why_tests_cant": "as C89", "anchors": ["src/parallel/proof.rs: prove, prove_vartime, prove_with_rng, prove_internal", "src/parallel/transcript.rs: ProofTranscript::new, commit", "src/parallel/witness.rs: TriptychWitness::random"]}
{"id": "C91", "title": "Serde round trip, canonicity and safety", "statement": "Every proof, of any dimensions, written with Serialize is read back by Deserialize, in formats with and without field names, strict or lenient. A strict format accepts exactly what Serialize writes, up to the order of named fields and unknown fields among them. Reading never panics. Dimensions are not checked: a proof that was read may make to_bytes panic, or to_bytes write what from_bytes refuses (both refuted), but verifying it does not panic and accepts only right dimensions.", "quantifier": "all data-model values, all proofs, formats and statements", "why_tests_cant": "all values of serde's data model, all proofs", "anchors": ["src/proof.rs: derive(Serialize, Deserialize) for TriptychProof, to_bytes, from_bytes, verify"]}
{"id": "C92", "title": "Parallel: serde round trip, canonicity and safety", "statement": "As C91 for the parallel protocol.", "quantifier": "all data-model values, all proofs, formats and statements", "why_tests_cant": "as C91", "anchors": ["src/parallel/proof.rs: derive(Serialize, Deserialize) for TriptychProof, to_bytes, from_bytes, verify"]}
{"id": "C93", "title": "Serde and the two protocols", "statement": "A plain proof written by serde is never read as a parallel proof, and no sequence is accepted as both by a strict format. With named fields, however, every parallel proof is read as a plain proof (separation refuted).", "quantifier": "all proofs, formats and data-model values", "why_tests_cant": "all proofs and formats", "anchors": ["src/proof.rs: derive(Deserialize)", "src/parallel/proof.rs: derive(Serialize, Deserialize)"]}
{"id": "C94", "title": "A ledger that refuses repeated linking tags lets every key spend at most once", "statement": "Take any list of accepted spends (a statement with m+1 accepted proofs that share a first message and got different challenges) over whatever rings, with common G and U, U not the identity, and pairwise different linking tags. Unless the runs of one of them give an explicit relation between the commitment generators or its weights cancelled, the explicit extractor returns signing keys that are pairwise different and belong to pairwise different keys of the rings; so there are at most as many spends as keys in all the rings together.", "quantifier": "all finite ledgers, rings, parameters with common G and U", "why_tests_cant": "all ledgers of all lengths over all rings; needs extraction", "anchors": ["src/proof.rs: verify", "src/witness.rs: compute_linking_tag"]}
{"id": "C95", "title": "Nobody is framed: the tag of a key appears on a ledger only if its key was used", "statement": "If an accepted spend carries the linking tag that a witness computes, the extractor returns that very signing key from its runs (or the runs are broken). So as long as no spend's runs give away a key, its tag is not on the ledger and its spend is not refused as a repetition.", "quantifier": "all accepted spends, all witnesses with the same U", "why_tests_cant": "all provers, including malicious ones", "anchors": ["src/witness.rs: compute_linking_tag", "src/proof.rs: verify"]}
{"id": "C96", "title": "The generators fixed by `new` come from separate outputs of the hash function", "statement": "TriptychParameters::new of both protocols fixes G (the basepoint), U, CommitmentH, every CommitmentG entry (and G1) to the images of explicit 64-byte slices of BLAKE3 outputs; the protocols agree on all generators they share; and no two generators, in whatever sizes (n, m), come from overlapping slices.", "quantifier": "all sizes (n, m), all pairs of generators", "why_tests_cant": "all pairs of sizes and indices; injectivity of the hash inputs", "anchors": ["src/parameters.rs: new, new_with_generators", "src/parallel/parameters.rs: new, new_with_generators", "src/lib.rs: domains"]}
{"id": "C97", "title": "Parallel: a ledger that refuses repeated linking tags lets every key spend at most once", "statement": "As C94 for parallel proofs.", "quantifier": "all finite ledgers of parallel spends", "why_tests_cant": "all ledgers of all lengths over all rings", "anchors": ["src/parallel/proof.rs: verify", "src/parallel/witness.rs: compute_linking_tag"]}
{"id": "C98", "title": "Parallel: nobody is framed", "statement": "As C95 for parallel proofs.", "quantifier": "all accepted parallel spends, all witnesses with the same U", "why_tests_cant": "all provers, including malicious ones", "anchors": ["src/parallel/witness.rs: compute_linking_tag", "src/parallel/proof.rs: verify"]}
{"id": "C99", "title": "Parallel: no inflation", "statement": "Let auxiliary keys commit to amounts (amount times H plus mask times G1), one amount per verification key, and let the offset of every spend commit to the amount it claims. In a ledger of accepted spends with pairwise different tags the claimed amounts are, in order, the amounts of pairwise different coins of the rings, hence the total claimed is at most the total of all coins; or else the runs of a spend are broken, or give away the discrete logarithm of H as an explicit scalar.", "quantifier": "all finite ledgers of parallel spends, all assignments of amounts and masks", "why_tests_cant": "all ledgers, rings, amounts and (malicious) provers", "anchors": ["src/parallel/proof.rs: verify", "src/parallel/statement.rs: TriptychStatement::new"]}
{"id": "C100", "title": "What == means", "statement": "Two parameters are == exactly if made from the same n, m, G and U; two input sets are == if they have the same keys and came from lists of the same length, and only if the callers' lists are the same or the hashes collide; two statements exactly if parameters, input sets and tags are; two decodable proofs exactly if their encodings are the same. For all four types == is equality of all fields.", "quantifier": "all pairs of parameters, input sets, statements and proofs", "why_tests_cant": "all pairs of values", "anchors": ["src/parameters.rs: derive(PartialEq)", "src/statement.rs: derive(PartialEq)", "src/proof.rs: derive(PartialEq)"]}
{"id": "C101", "title": "Parallel: what == means", "statement": "As C100 for the parallel types, with G1, auxiliary keys and offsets compared too.", "quantifier": "all pairs of parallel parameters, input sets, statements and proofs", "why_tests_cant": "all pairs of values", "anchors": ["src/parallel/parameters.rs: derive(PartialEq)", "src/parallel/statement.rs: derive(PartialEq)", "src/parallel/proof.rs: derive(PartialEq)"]}
{"id": "C102", "title": "What the timing of the prover reveals", "statement": "Two calls of the constant-time prover with parameters of the same sizes n and m that both return a proof, or both return the same error, make the same sequence of branches, vector accesses, loop counts, sizes and operands of variable-time routines, whatever the keys, indices, rings, tags, generators, transcripts and random generators: nothing about the witness beyond success is revealed. The recorded traces belong to the prover that is modelled (same result, transcript and generator). The variable-time prover lacks this: its sequence determines the witness index.", "quantifier": "all pairs of constructible witnesses and statements of one size, all transcripts and generators", "why_tests_cant": "relates all pairs of executions; a timing test samples a few inputs on one machine", "anchors": ["src/proof.rs: prove_internal", "src/util.rs: delta, OperationTiming", "src/gray.rs: decompose", "src/parameters.rs: commit_matrix"]}
{"id": "C103", "title": "Parallel: what the timing of the prover reveals", "statement": "As C102 for Parallel Triptych, with auxiliary keys, offsets and both signing keys.", "quantifier": "all pairs of constructible parallel witnesses and statements of one size, all transcripts and generators", "why_tests_cant": "relates all pairs of executions; a timing test samples a few inputs on one machine", "anchors": ["src/parallel/proof.rs: prove_internal", "src/util.rs: delta, OperationTiming", "src/gray.rs: decompose", "src/parallel/parameters.rs: commit_matrix"]}
{"id": "C104", "title": "Zero knowledge, reduced to pairs of points", "statement": "Every proof the prover returns can be computed from its position, challenge, B, C, the responses and, for each of the last m - 1 masks, the pair (mask times G, mask times the linking tag), without the signing key. Such a computation satisfies all verification equations whatever pairs of points it is given and whatever the position; and for every position, lists of pairs and proofs satisfying the equations correspond one to one. So whoever tells real proofs from simulated ones, or one position from another, tells such pairs from random pairs of points (decisional Diffie-Hellman); B, C and responses are uniform for every witness by C54.", "quantifier": "all honest executions; all statements, positions, challenges, responses and lists of pairs", "why_tests_cant": "a correspondence between all masks and all proofs", "anchors": ["src/proof.rs: prove_internal", "src/proof.rs: verify"]}
{"id": "C105", "title": "Parallel: zero knowledge, reduced to pairs of points", "statement": "As C104 for parallel proofs; besides the pairs there are m - 1 points, each a mask times G1.", "quantifier": "all honest parallel executions; all statements, positions, challenges, responses, lists of pairs and points", "why_tests_cant": "a correspondence between all masks and all proofs", "anchors": ["src/parallel/proof.rs: prove_internal", "src/parallel/proof.rs: verify"]}
{"id": "C106", "title": "Proofs cannot be moved", "statement": "A proof returned by the prover for one transcript and statement is accepted for another transcript, ring, set of parameters or linking tag only after an event of negligible probability: a hash collision, two different challenge queries with the same answer, verification weights that cancel, a zero mask, or a relation between commitment generators that the prover's own run exhibits. In general a proof valid under two different challenges has public commitments B and C (position 0 without a mask); such proofs exist and satisfy the equations for both challenges.", "quantifier": "all honest executions, all other statements and transcripts; all proofs valid twice", "why_tests_cant": "a replay test tries a few other transcripts and statements", "anchors": ["src/proof.rs: prove_with_rng", "src/proof.rs: verify", "src/transcript.rs: commit"]}
{"id": "C107", "title": "Parallel: proofs cannot be moved", "statement": "As C106 for parallel proofs, which in addition are bound to the auxiliary keys and the offset.", "quantifier": "all honest parallel executions, all other statements and transcripts; all proofs valid twice", "why_tests_cant": "a replay test tries a few other transcripts, offsets and statements", "anchors": ["src/parallel/proof.rs: prove_with_rng", "src/parallel/proof.rs: verify", "src/parallel/transcript.rs: commit"]}
{"id": "C108", "title": "Random witnesses are uniform up to an exact bias", "statement": "A random witness is determined by the first 64-bit number and the following 64 bytes of the generator. For every index i below the ring size N and every key r, the number of such inputs that give (i, r) is exactly (2^64/N or one more) times (2^512/l or one more); so index probabilities differ by at most one part in 2^32 and not at all if N is a power of two, and key probabilities (like those of nonces, weights and challenges) by at most one part in 2^259.", "quantifier": "all parameters, indices, keys and generators", "why_tests_cant": "counts over 2^576 inputs", "anchors": ["src/witness.rs: TriptychWitness::random"]}
{"id": "C109", "title": "Parallel: random witnesses are uniform up to an exact bias", "statement": "As C108 for parallel witnesses, with two independent keys.", "quantifier": "all parallel parameters, indices, pairs of keys and generators", "why_tests_cant": "counts over 2^1088 inputs", "anchors": ["src/parallel/witness.rs: TriptychWitness::random"]}
{"id": "C110", "title": "Decoding costs linear time, whatever the header claims", "statement": "Decoding any byte string takes at most 6 steps (calls of the element parsers, loop iterations, stored elements, checked rows) per 32 bytes of input plus 5: a header that announces up to 2^32 - 1 rows or columns cannot make the decoder loop or store more than the input pays for.", "quantifier": "all byte strings, of every length and with every header", "why_tests_cant": "a resource bound over all inputs, hostile headers included", "anchors": ["src/proof.rs: TriptychProof::from_bytes"]}
{"id": "C111", "title": "Parallel: decoding costs linear time, whatever the header claims", "statement": "As C110 for parallel proofs.", "quantifier": "all byte strings, of every length and with every header", "why_tests_cant": "a resource bound over all inputs, hostile headers included", "anchors": ["src/parallel/proof.rs: TriptychProof::from_bytes"]}
{"id": "C112", "title": "Soundness error: a forger answers at most m challenges", "statement": "Fix a statement and a first message. Whatever strategy chooses the responses, either it satisfies the verification equations for at most m of the more than 2^252 possible challenges, or m + 1 of its answers give away a ring position with its signing key (or a nontrivial relation between the commitment generators). If the statement is false only the relation is left. The number m cannot be lowered: for a false statement with the identity as tag, somebody who holds a key of the ring can answer any m challenges he chooses.", "quantifier": "all statements and parameters, all strategies answering challenges for one first message (functions of the challenge), all challenges", "why_tests_cant": "a count over all challenges for every adversarial strategy", "anchors": ["src/proof.rs: TriptychProof::verify", "src/proof.rs: TriptychProof::verify_batch", "src/transcript.rs: ProofTranscript::commit"]}
{"id": "C113", "title": "Parallel: a forger answers at most m challenges", "statement": "As C112 for parallel statements: the extracted witness opens the key and the shifted auxiliary key at the same position.", "quantifier": "all parallel statements and parameters, all strategies answering challenges for one first message, all challenges", "why_tests_cant": "a count over all challenges for every adversarial strategy", "anchors": ["src/parallel/proof.rs: TriptychProof::verify", "src/parallel/transcript.rs: ProofTranscript::commit"]}
{"id": "C114", "title": "Soundness error of batch verification", "statement": "Of all tables of nonzero weights for a batch ((l-1)^(4b) tables for b proofs, l the group order), at most one in l-1 makes the verifier's final check pass if any proof of the batch fails any equation; the verifier accepts a well-formed batch exactly when the table it draws is one of those. The bound is reached: changing z in a valid proof leaves exactly (l-1)^3 accepting tables.", "quantifier": "all batches of every size, all proofs in them, all tables of weights", "why_tests_cant": "a count over all weight tables (more than 2^1000 of them per proof) for every invalid batch", "anchors": ["src/proof.rs: TriptychProof::verify_batch", "src/proof.rs: TriptychProof::verify"]}
{"id": "C115", "title": "Parallel: soundness error of batch verification", "statement": "As C114 with five weights per proof: at most one table in l-1 is accepting for a batch with a failing equation, and changing z leaves exactly (l-1)^4.", "quantifier": "all parallel batches of every size, all proofs in them, all tables of weights", "why_tests_cant": "a count over all weight tables for every invalid batch", "anchors": ["src/parallel/proof.rs: TriptychProof::verify_batch", "src/parallel/proof.rs: TriptychProof::verify"]}
{"id": "C116", "title": "Reused nonces reveal the signer, and the prover does not reuse them", "statement": "If two honest proofs share their first message (A, B, C, D, X, Y) but got different challenges, anyone can compute the ring position of the signer from them with an explicit search (and it is the same position in both). Two honest runs share a first message only if they returned the very same proof for the same transcript, statement hash, index, key and external bytes, or if generators in different states returned the same nonces, or if the provers hold two different openings of one commitment. In particular an external generator that repeats its output (a rollback, a cloned machine) does not make proofs under different transcripts or statements share nonces.", "quantifier": "all pairs of successful runs of the prover: all witnesses, statements over the same parameters, transcripts and external generators", "why_tests_cant": "all pairs of executions, including repeated external randomness", "anchors": ["src/proof.rs: TriptychProof::prove_internal", "src/transcript.rs: ProofTranscript::new", "src/transcript.rs: ProofTranscript::commit"]}
{"id": "C117", "title": "Parallel: reused nonces reveal the signer, and the prover does not reuse them", "statement": "As C116 for the parallel protocol; the state of the generator also determines the auxiliary signing key.", "quantifier": "all pairs of successful runs of the parallel prover", "why_tests_cant": "as C116", "anchors": ["src/parallel/proof.rs: TriptychProof::prove_internal", "src/parallel/transcript.rs: ProofTranscript::new", "src/parallel/transcript.rs: ProofTranscript::commit"]}
{"id": "C118", "title": "What verifying a batch costs", "statement": "Counting multiplications of scalars, batch inversions and multiscalar multiplications (with arbitrary unit costs): a call of verify_batch on b proofs that reaches its final check (accepted, or FailedVerification) costs exactly b * ((3N + 3nm + 4m + 8) multiplications + one inversion of nm scalars) plus ONE multiscalar multiplication with N + nm + 3 + b(2m + 5) terms; a call that stops earlier costs at most the former and makes no multiscalar multiplication; an empty batch costs nothing. So the work is the same for all contents of the proofs (only n, m and b matter), linear in N for each proof, and if multiscalar multiplications cost k for each term, b accepted proofs verified as a batch save k(N + nm + 3) exactly b - 1 times against verifying them one by one. The instrumented verifier used for counting returns the same result and the same transcripts as the verifier on every input. Charged that way, the verifications that verify_batch_with_single_blame makes on b proofs cost together at most (2b + ceil(log2 b)) times (the cost of a proof + k(2m + 5)) plus (1 + max(1, ceil(log2 b))) times k(N + nm + 3), and those of verify_batch_with_full_blame at most 2b times the former plus (1 + b) times the latter, whatever the proofs are.", "quantifier": "all batches of every size over statements made by the API, all proofs, transcripts, overflow modes, and all unit costs", "why_tests_cant": "all sizes n, m, b and all proof contents, including those crafted by an attacker to make verification expensive", "anchors": ["src/proof.rs: TriptychProof::verify_batch", "src/transcript.rs: ProofTranscript::commit", "src/gray.rs: GrayIterator"]}
{"id": "C119", "title": "Parallel: what verifying a batch costs", "statement": "As C118 with (4N + 3nm + 5m + 10) multiplications for each proof and one multiscalar multiplication with 2N + nm + 4 + b(3m + 6) terms; a batch saves k(2N + nm + 4) exactly b - 1 times. The bounds for the blame functions are those of C118 with k(3m + 6) for each proof and k(2N + nm + 4) shared.", "quantifier": "all parallel batches of every size over statements made by the API, all proofs, transcripts, overflow modes, and all unit costs", "why_tests_cant": "as C118", "anchors": ["src/parallel/proof.rs: TriptychProof::verify_batch", "src/parallel/transcript.rs: ProofTranscript::commit", "src/gray.rs: GrayIterator"]}
{"id": "C120", "title": "Forgers who may ask for many challenges (random oracle model)", "statement": "Let a forger, however it computes, ask adaptively for up to n challenges (each question a transcript, a statement over fixed parameters and a first message of its choice), receive 64 bytes for each, and end with a proof for one of its questions. Counted over all (2^512)^n sequences of answers, its proof satisfies the verification equations on a fraction of at most n*m/2^252 of them, unless m+1 of its winning runs, which share all answers up to a question and get different challenges there, give away (by the explicit extractor) a ring position and signing key for the statement of that question or a relation between the commitment generators. For statements that hold for no key only the relation remains. A run against the actual transcript hash that ends with a valid proof is a winning run of this game. The bound has the right size: for a false statement with the identity as tag, one question wins on at least m * floor(2^512/l) of the 2^512 answers.", "quantifier": "all adaptive forgers, all numbers of questions, all parameters, statements, transcripts and messages they choose, all sequences of random answers", "why_tests_cant": "a count over all oracle answers for every possible adversary", "anchors": ["src/transcript.rs: ProofTranscript::commit", "src/proof.rs: TriptychProof::verify", "src/proof.rs: TriptychProof::verify_batch"]}
{"id": "C121", "title": "Parallel: forgers who may ask for many challenges (random oracle model)", "statement": "As C120 for the parallel protocol; the extractor also yields the auxiliary key.", "quantifier": "as C120, and all auxiliary keys and offsets", "why_tests_cant": "as C120", "anchors": ["src/parallel/transcript.rs: ProofTranscript::commit", "src/parallel/proof.rs: TriptychProof::verify", "src/parallel/proof.rs: TriptychProof::verify_batch"]}
{"id": "C122", "title": "What proving costs", "statement": "Counting multiplications of scalars, multiplications of a point by a scalar and multiscalar multiplications (with arbitrary unit costs, which may differ between the constant-time and the variable-time multiscalar multiplication): a call of prove_with_rng or prove_with_rng_vartime that returns a proof costs exactly 2 + m point multiplications, 4 multiscalar multiplications with nm + 1 terms, m with N + 1 terms, and 3nm + 2N(m-1)(m+1) + (m+1) + m(n-1) + m + 3 multiplications of scalars; a call that returns InvalidChallenge stops after the first power of the challenge; a call with a wrong witness costs nothing, one or two point multiplications, by the check that fails; there are no other results. So the cost depends on n, m and the kind of result only, in both modes: it tells nothing about the key, the index, the ring, the random values or the transcript. The counting prover returns the same result, transcript and generator as the prover on every input.", "quantifier": "all witnesses and statements made by the API, all transcripts, external generators, both modes and all unit costs; the last sentence: all inputs", "why_tests_cant": "all sizes n, m, all secrets and all random values; a profile covers a few runs", "anchors": ["src/proof.rs: prove_internal, prove_with_rng, prove_with_rng_vartime", "src/parameters.rs: commit_matrix", "src/transcript.rs: ProofTranscript::commit"]}
{"id": "C123", "title": "Parallel: what proving costs", "statement": "As C122 with 3 + m point multiplications, 4 multiscalar multiplications with nm + 1 terms, m with N + 1 and m with N + 2 terms, and 3nm + 2N(m-1)(m+1) + (m+1) + m(n-1) + 2m + 4 multiplications of scalars; the failing checks cost none to three point multiplications.", "quantifier": "all parallel witnesses and statements made by the API, all transcripts, external generators, both modes and all unit costs", "why_tests_cant": "as C122", "anchors": ["src/parallel/proof.rs: prove_internal, prove_with_rng, prove_with_rng_vartime", "src/parallel/parameters.rs: commit_matrix", "src/parallel/transcript.rs: ProofTranscript::commit"]}
{"id": "C124", "title": "Nobody can have asked for a proof's challenge in advance", "statement": "The challenge of a proof is the answer of the transcript hash to a question that contains the proof's first message. The prover reads m masks of that message, each from 64 bytes of its generator, after all other random values. Whatever q questions have been asked before, by anybody, and whatever the other random values, the transcript and the statement, the prover's question is one of them for at most q times (floor(2^512 / order) + 1)^m of the (2^512)^m values of these bytes, which is a share of at most q / 2^(252 m). No assumption on the generators is needed: the checks of the statement exclude the exception. The same holds for the proofs made without the key of C104: at most q of the lists of m - 1 pairs of points lead to one of q questions. So in the random oracle model a proof can be replaced by one made without the key, whose challenge is chosen first.", "quantifier": "all witnesses and statements made by the API, all transcripts, all random values except the masks, all lists of questions of any length", "why_tests_cant": "counts all of 2^(512 m) mask values against arbitrary adversarial question lists", "anchors": ["src/proof.rs: prove_internal (rho, X, Y)", "src/transcript.rs: ProofTranscript::commit", "src/statement.rs: TriptychStatement::new"]}
{"id": "C125", "title": "Parallel: nobody can have asked for a proof's challenge in advance", "statement": "As C124 with the 2m masks of the parallel prover (m for each ring): at most q times (floor(2^512 / order) + 1)^(2m) of the (2^512)^(2m) values, a share of at most q / 2^(252 * 2m); and for the proofs made without the keys of C105.", "quantifier": "all parallel witnesses and statements made by the API, all transcripts, all random values except the masks, all lists of questions of any length", "why_tests_cant": "as C124", "anchors": ["src/parallel/proof.rs: prove_internal (rho, rho1, X, X1, Y)", "src/parallel/transcript.rs: ProofTranscript::commit", "src/parallel/statement.rs: TriptychStatement::new"]}
{"id": "C126", "title": "A 64-bit coincidence makes verify accept a false statement", "statement": "The verifier's weights depend on a proof only through a 64-bit number (C70), so they are known before the proof is made. For every such number, every ring, every position and every non-zero scalar r there is a linking tag, computable in advance from public values, such that what the prover computes without its checks and without any key of the ring is not a valid proof, but verify returns Ok whenever the number of the proof is the given one, which is one value in 2^64. Different r give different linking tags, and at most one r per ring key makes the statement true. There is also a ring key (a multiple of U) that allows this for every linking tag, including the identity, for which no key whatever satisfies the statement. In general such a proof is accepted exactly if the weighted sum of its two errors is zero. So nobody may rely on more than 64 bits of soundness or linkability against somebody who computes offline.", "quantifier": "all parameters, rings and statements made by the API, all transcripts, positions, random values and 64-bit numbers, both overflow modes", "why_tests_cant": "a statement about all statements and random values whose event has probability 2^-64", "anchors": ["src/proof.rs: verify, verify_batch (transcript_weights.append_u64(b\"proof\", ..next_u64()))", "src/transcript.rs: ProofTranscript::response"]}
{"id": "C127", "title": "Parallel: a 64-bit coincidence makes verify accept a false statement", "statement": "As C126: for every 64-bit number, all rings, every offset, every position and all scalars r (not zero) and r1 there is a linking tag, computable in advance, such that what the prover computes without checks and keys is not valid, but accepted by verify whenever the number of the proof is the given one; different r give different tags. Likewise there is, for all rings, every position and every linking tag, an offset that allows this (the auxiliary key plus a multiple of the key plus a multiple of U).", "quantifier": "all parallel parameters, rings and statements made by the API, all transcripts, positions, random values and 64-bit numbers, both overflow modes", "why_tests_cant": "as C126", "anchors": ["src/parallel/proof.rs: verify, verify_batch (transcript_weights.append_u64(b\"proof\", ..next_u64()))", "src/parallel/transcript.rs: ProofTranscript::response", "src/parallel/statement.rs: TriptychStatement::new (offset)"]}
{"id": "C128", "title": "Verification is as sound as 64 bits allow", "statement": "The counterpart of C126. verify decides a proof by a 64-bit number computed from it and four weights computed from that number. A player who asks, in any order and adaptively, for numbers of proofs and for weights of numbers, and gets n random answers, finds a proof that fails an equation and is nevertheless cancelled by the weights of its number on a share of at most 3 n / 2^64 + n^4 / 2^250 of all answer sequences. If verify accepts a proof that is not valid and whose number and weights the player has computed, the player has succeeded in this sense. The first term is right up to the factor 3: the forgery of C126 succeeds on exactly one pair of answers in 2^64 over every ring.", "quantifier": "all adaptive players, all numbers of questions, all transcripts, statements and proofs, all answer sequences", "why_tests_cant": "counts over 2^(1000 n) answer sequences and all adaptive strategies", "anchors": ["src/proof.rs: verify, verify_batch (transcript_weights, next_u64, the four weights)"]}
{"id": "C129", "title": "Parallel: verification is as sound as 64 bits allow", "statement": "As C128 with the five weights of the parallel verifier: a share of at most 4 n / 2^64 + n^5 / 2^250.", "quantifier": "all adaptive players, all numbers of questions, all parallel transcripts, statements and proofs, all answer sequences", "why_tests_cant": "as C128", "anchors": ["src/parallel/proof.rs: verify, verify_batch (transcript_weights, next_u64, the five weights)"]}
{"id": "C130", "title": "What is wiped from memory, and what is left", "statement": "zeroize (called by every drop of a witness) leaves a witness that is the same for every index and key and proves nothing: prove refuses every statement at once, with no effect on transcript or generator, and its key and tag are the identity. After a call of the prover that returned a proof, the local variables that are not wiped reveal the index of the signer (even the matrix a alone, together with the proof), but together with the responses of the proof they agree with every signing key, each with equally many masks. The masks, which are wiped, would reveal the key together with the proof.", "quantifier": "all witnesses, statements, transcripts, generators, both timings, all runs that return a proof, all other keys", "why_tests_cant": "that nothing about the key is left is a statement about all keys and masks that could have produced the same memory", "anchors": ["src/witness.rs: TriptychWitness (derive Zeroize, ZeroizeOnDrop)", "src/proof.rs: prove_internal (rho: Zeroizing)"]}
{"id": "C131", "title": "Parallel: what is wiped from memory, and what is left", "statement": "As C130 for the parallel protocol, with both keys and both vectors of masks.", "quantifier": "all witnesses, statements, transcripts, generators, both timings, all runs that return a proof, all other pairs of keys", "why_tests_cant": "as C130", "anchors": ["src/parallel/witness.rs: TriptychWitness (derive Zeroize, ZeroizeOnDrop)", "src/parallel/proof.rs: prove_internal (rho, rho1: Zeroizing)"]}
{"id": "C132", "title": "What a crash in the middle of proving leaves behind", "statement": "The prover's generator may panic only at its two reads of 32 bytes. If it does, the call unwinds and the caller's transcript is left changed: extended by the domain separator, the version and the statement hash if the first read failed (the same for every witness), and by the whole first message if the second failed; no challenge has been taken from it. A witness that is refused never reaches a crash point. A caller who tries again with the transcript that was left draws other nonces, even from the same random bytes, and gets a proof that a verifier starting from the left-over transcript accepts as usual, while a verifier starting from the transcript before the crash asks for a different challenge and accepts only if the two challenges coincide, its weights cancel, or a relation between the commitment generators is known.", "quantifier": "all generators and crash points, witnesses, statements, transcripts, both timings, all later runs of prover and verifier", "why_tests_cant": "crash points of the operating system's generator cannot be provoked from a test, and the consequences are about all later runs", "anchors": ["src/proof.rs: TriptychProof::prove, prove_vartime, prove_internal", "src/transcript.rs: ProofTranscript::new, ProofTranscript::commit, build_transcript_rng"]}
{"id": "C133", "title": "Parallel: what a crash in the middle of proving leaves behind", "statement": "As C132 for the parallel protocol.", "quantifier": "all generators and crash points, witnesses, statements, transcripts, both timings, all later runs of prover and verifier", "why_tests_cant": "as C132", "anchors": ["src/parallel/proof.rs: TriptychProof::prove, prove_vartime, prove_internal", "src/parallel/transcript.rs: ProofTranscript::new, ProofTranscript::commit, build_transcript_rng"]}
{"id": "C134", "title": "Which errors each call can return, and what they say", "statement": "Every call of the plain protocol fails only with errors from an explicit list: the constructors with their documented reasons; a prover with one of three reasons or an invalid challenge; the decoder with a failed deserialization; a single verification with one of five reasons about the proof, an invalid challenge or a failed verification; a batch verification with these or one of five reasons about the batch; verification with single blame only with a blame, whose index is that of a proof (it is missing only if there is at most one proof and the numbers of statements, proofs and transcripts differ); verification with full blame only with a list of indices of proofs. The plain failed-batch error is never returned. A batch too large for u32 is refused. The message of an error that carries no blame determines the error. False of the code, and refuted: that the missing index `should never happen`; that a failing batch is reported as a batch failure (it is reported as a failed single verification); that the message of a blame names the proof.", "quantifier": "all inputs of every public function, all generators, both timings and overflow modes", "why_tests_cant": "that no other error can occur is a statement about all inputs; reaching the batch size error takes 2^32 proofs", "anchors": ["src/proof.rs: ProofError, TriptychProof::prove, verify, verify_batch, verify_batch_with_single_blame, verify_batch_with_full_blame, from_bytes", "src/parameters.rs: ParameterError", "src/statement.rs: StatementError", "src/witness.rs: WitnessError"]}
{"id": "C135", "title": "Parallel: which errors each call can return, and what they say", "statement": "As C134 for the parallel protocol, with its additional reasons (`M` and `M1` of different lengths, `r1 == 0`, `X1` of the wrong length, `M1[l] - offset != r1 * G1`); an empty `M1` is never the reason.", "quantifier": "all inputs of every public function, all generators, both timings and overflow modes", "why_tests_cant": "as C134", "anchors": ["src/parallel/proof.rs: ProofError, TriptychProof::prove, verify, verify_batch, verify_batch_with_single_blame, verify_batch_with_full_blame, from_bytes", "src/parallel/parameters.rs: ParameterError", "src/parallel/statement.rs: StatementError", "src/parallel/witness.rs: WitnessError"]}
{"id": "C136", "title": "Finding two statements with the same hash takes about 2^128 hashes", "statement": "The remaining ways to break what statement hashes bind (C54, C55, C56) are collisions of the hash: of parameters, of input sets or of statements.  Each of them yields two different descriptions (parameters, keys, unpadded size, linking tag) with the same hash.  Whoever asks a random function for hashes, adaptively, and asks n times in all including the six hashes of the two descriptions it ends with, succeeds on at most n(n-1)/2^257 of all sequences of answers.", "quantifier": "all searchers, adaptive and unbounded in computation, all numbers of questions, all parameters, rings and tags", "why_tests_cant": "a bound on all searchers; collisions cannot be found by running tests", "anchors": ["src/parameters.rs: TriptychParameters::new_with_generators, hash", "src/statement.rs: TriptychInputSet::new_internal, TriptychStatement::new, hash"]}
{"id": "C137", "title": "Parallel: finding two statements with the same hash takes about 2^128 hashes", "statement": "As C136 for the parallel protocol, with auxiliary keys and the offset in the description.", "quantifier": "as C136, and all auxiliary keys and offsets", "why_tests_cant": "as C136", "anchors": ["src/parallel/parameters.rs: TriptychParameters::new_with_generators, hash", "src/parallel/statement.rs: TriptychInputSet::new_internal, TriptychStatement::new, hash"]}
{"id": "C138", "title": "Finding another statement with the hash of a given one takes about 2^254 hashes", "statement": "Given a statement, whoever asks a random function for hashes, adaptively, n times in all including the six hashes of the given statement and of what it ends with, finds a statement with other parameters, other keys or another linking tag but the same hash on at most 3(n-1)/2^256 of all sequences of answers.", "quantifier": "all given statements, all searchers (adaptive, unbounded in computation), all numbers of questions", "why_tests_cant": "a bound on all searchers; second preimages cannot be found by running tests", "anchors": ["src/parameters.rs: TriptychParameters::new_with_generators, hash", "src/statement.rs: TriptychInputSet::new_internal, TriptychStatement::new, hash"]}
{"id": "C139", "title": "Parallel: finding another statement with the hash of a given one takes about 2^254 hashes", "statement": "As C138 for the parallel protocol, with auxiliary keys and the offset.", "quantifier": "as C138", "why_tests_cant": "as C138", "anchors": ["src/parallel/parameters.rs: TriptychParameters::new_with_generators, hash", "src/parallel/statement.rs: TriptychInputSet::new_internal, TriptychStatement::new, hash"]}
