(** Independent specification vocabulary, part 2: Triptych (the non-parallel protocol). *)
From Verif Require Export Verifier Codec Spec.

Section SpecPlain.
Context {E : env}.

(** * Values the API can produce: the fields of parameters, input sets, statements and witnesses are private and these are
    their only constructors. *)
Definition made_params (p : params E) : Prop := exists n m G U, new_with_generators n m G U = Ok p.
Definition made_input_set (s : input_set E) : Prop :=
  (exists M, input_set_new M = Ok s) \/
  (exists M p, made_params p /\ input_set_new_with_padding M p = Ok s).
Definition made_statement (st : statement E) : Prop :=
  exists p s J, made_params p /\ made_input_set s /\ statement_new p s J = Ok st.
Definition made_witness (w : witness E) : Prop :=
  (exists p l r, made_params p /\ witness_new p l r = Ok w) \/
  (exists R (ro : rng_ops R) p rng, made_params p /\ fst (witness_random ro p rng) = w).

(** * The relation: the witness opens a ring member and its linking tag. *)
Definition relation (st : statement E) (l : N) (r : scalar) : Prop :=
  nth_error (get_keys (st_get_input_set st)) (N.to_nat l) = Some (pmul E r (get_G (st_get_params st))) /\
  pmul E r (st_get_J st) = get_U (st_get_params st).

(** * The Fiat-Shamir transcript of a proof, spelled out *)
Definition fs_transcript (t : transcript) (st : statement E) (pf : proof E) : transcript :=
  t ++ [TAppend (b_ "dom-sep") (b_ "Triptych proof");
        TAppend (b_ "version") (le_bytes 8 0);
        TAppend (b_ "statement") (st_get_hash st);
        TAppend (b_ "A") (compress E (pf_A pf));
        TAppend (b_ "B") (compress E (pf_B pf));
        TAppend (b_ "C") (compress E (pf_C pf));
        TAppend (b_ "D") (compress E (pf_D pf))]
    ++ map (fun P => TAppend (b_ "X") (compress E P)) (pf_X pf)
    ++ map (fun P => TAppend (b_ "Y") (compress E P)) (pf_Y pf).
(** The challenge: 64 bytes reduced modulo the group order. *)
Definition challenge (t : transcript) (st : statement E) (pf : proof E) : scalar :=
  scalar_from_wide (prf E (fs_transcript t st pf) (b_ "xi") 64).
(** What a prover leaves in the caller's transcript... *)
Definition prover_transcript (t : transcript) (st : statement E) (pf : proof E) : transcript :=
  fs_transcript t st pf ++ [TChallenge (b_ "xi") 64].
(** ... and what a verifier does. *)
Definition verifier_transcript (t : transcript) (st : statement E) (pf : proof E) : transcript :=
  prover_transcript t st pf
    ++ map (fun s => TAppend (b_ "f") (scalar_to_bytes s)) (concat (pf_f pf))
    ++ [TAppend (b_ "z_A") (scalar_to_bytes (pf_z_A pf));
        TAppend (b_ "z_C") (scalar_to_bytes (pf_z_C pf));
        TAppend (b_ "z") (scalar_to_bytes (pf_z pf))].

(** * The verification equations *)

(** The vectors have the lengths the parameters ask for. *)
Definition well_shaped (p : params E) (pf : proof E) : Prop :=
  length (pf_X pf) = N.to_nat (get_m p) /\ length (pf_Y pf) = N.to_nat (get_m p) /\
  shape (N.to_nat (get_m p)) (N.to_nat (get_n p) - 1) (pf_f pf).

(** The four equations of a proof for ring [M] and tag [J] under challenge [xi]. *)
Record equations (p : params E) (M : list (pt E)) (J : pt E) (pf : proof E) (xi : scalar) : Prop := {
  eq_A : com (get_CommitmentG p) (get_CommitmentH p) (complete xi (pf_f pf)) (pf_z_A pf)
         = padd E (pf_A pf) (pmul E xi (pf_B pf));
  eq_C : com (get_CommitmentG p) (get_CommitmentH p)
             (map (map (fun x => x * (xi - x))%sc) (complete xi (pf_f pf))) (pf_z_C pf)
         = padd E (pmul E xi (pf_C pf)) (pf_D pf);
  eq_M : lincomb (map (code_product (get_n p) (N.to_nat (get_m p)) (mat (complete xi (pf_f pf)))) (seq 0 (length M))) M
         = padd E (lincomb (powers xi (N.to_nat (get_m p))) (pf_X pf)) (pmul E (pf_z pf) (get_G p));
  eq_U : pmul E (spow xi (N.to_nat (get_m p))) (get_U p)
         = padd E (lincomb (powers xi (N.to_nat (get_m p))) (pf_Y pf)) (pmul E (pf_z pf) J) }.

(** The same equations as four points that have to vanish. *)
Definition defects (p : params E) (M : list (pt E)) (J : pt E) (pf : proof E) (xi : scalar) : list (pt E) :=
  [ psub (com (get_CommitmentG p) (get_CommitmentH p) (complete xi (pf_f pf)) (pf_z_A pf))
         (padd E (pf_A pf) (pmul E xi (pf_B pf)));
    psub (com (get_CommitmentG p) (get_CommitmentH p)
              (map (map (fun x => x * (xi - x))%sc) (complete xi (pf_f pf))) (pf_z_C pf))
         (padd E (pmul E xi (pf_C pf)) (pf_D pf));
    psub (lincomb (map (code_product (get_n p) (N.to_nat (get_m p)) (mat (complete xi (pf_f pf)))) (seq 0 (length M))) M)
         (padd E (lincomb (powers xi (N.to_nat (get_m p))) (pf_X pf)) (pmul E (pf_z pf) (get_G p)));
    psub (pmul E (spow xi (N.to_nat (get_m p))) (get_U p))
         (padd E (lincomb (powers xi (N.to_nat (get_m p))) (pf_Y pf)) (pmul E (pf_z pf) J)) ].

(** * What an honest prover computes *)

Record coins := mk_coins {
  c_r_A : scalar; c_a : list (list scalar); c_r_B : scalar; c_r_C : scalar; c_r_D : scalar; c_rho : list scalar }.

(** Coins are read from a generator in this order. *)
Definition read_coins (n m : nat) (g : trng) : coins :=
  let (r_A, g) := draw (E := E) g in
  let (a, g) := draw_rows (E := E) m n g in
  let (r_B, g) := draw (E := E) g in
  let (r_C, g) := draw (E := E) g in
  let (r_D, g) := draw (E := E) g in
  let (rho, g) := draws (E := E) m g in
  mk_coins r_A a r_B r_C r_D rho.

(** The proof for a statement, an index [l], a signing key [r], coins and a challenge. *)
Definition honest_proof (st : statement E) (l : N) (r : scalar) (c : coins) (xi : scalar) : proof E :=
  let p := st_get_params st in
  let n := N.to_nat (get_n p) in
  let m := N.to_nat (get_m p) in
  let M := get_keys (st_get_input_set st) in
  let commit := com (get_CommitmentG p) (get_CommitmentH p) in
  let a := mat (map balance (c_a c)) in
  let sigma := sigma_at (get_n p) l in
  let coefficients k := poly_prod (position_factors (get_n p) m a sigma k) in
  mk_proof
    (commit (mkmat m n a) (c_r_A c))
    (commit (mkmat m n sigma) (c_r_B c))
    (commit (mkmat m n (fun j i => a j i * (s1 - (s1 + s1) * sigma j i))%sc) (c_r_C c))
    (commit (mkmat m n (fun j i => - (a j i * a j i))%sc) (c_r_D c))
    (map (fun j => padd E (lincomb (map (fun k => nth j (coefficients k) s0) (seq 0 (length M))) M)
                          (pmul E (nth j (c_rho c) s0) (get_G p))) (seq 0 m))
    (map (fun j => pmul E (nth j (c_rho c) s0) (st_get_J st)) (seq 0 m))
    (mkmat m (n - 1) (fun j i => sigma j (S i) * xi + a j (S i))%sc)
    (c_r_A c + xi * c_r_B c)%sc
    (xi * c_r_C c + c_r_D c)%sc
    (r * spow xi m - sdot (c_rho c) (powers xi m))%sc.

(** The generator an honest prover reads its coins from: seeded with the transcript, the witness and 32 bytes of the
    external generator. *)
Definition prover_rng (t : transcript) (st : statement E) (w : witness E) (seed : bytes) : trng :=
  mk_trng (t ++ [TAppend (b_ "dom-sep") (b_ "Triptych proof");
                 TAppend (b_ "version") (le_bytes 8 0);
                 TAppend (b_ "statement") (st_get_hash st)])
          [(b_ "l", le_bytes 4 (w_get_l w)); (b_ "r", scalar_to_bytes (w_get_r w))] seed [].

(** Its coins, and the challenge it gets: the first message depends neither on the signing key nor on the challenge, so any
    placeholder does for the latter. *)
Definition prover_coins (t : transcript) (st : statement E) (w : witness E) (seed : bytes) : coins :=
  read_coins (N.to_nat (get_n (st_get_params st))) (N.to_nat (get_m (st_get_params st))) (prover_rng t st w seed).
Definition prover_challenge (t : transcript) (st : statement E) (w : witness E) (seed : bytes) : scalar :=
  challenge t st (honest_proof st (w_get_l w) (w_get_r w) (prover_coins t st w seed) s0).

(** * A proof that is valid for a statement: the right shape, a nonzero challenge, no zero in the completed response matrix,
    and the four equations. *)
Definition valid_proof (t : transcript) (st : statement E) (pf : proof E) : Prop :=
  well_shaped (st_get_params st) pf /\
  challenge t st pf <> s0 /\
  (forall row, In row (complete (challenge t st pf) (pf_f pf)) -> ~ In s0 row) /\
  equations (st_get_params st) (get_keys (st_get_input_set st)) (st_get_J st) pf (challenge t st pf).

(** * The verifier's weights *)

(** Eight bytes derived from everything in a proof, as a number. *)
Definition proof_tag (t : transcript) (st : statement E) (pf : proof E) : N :=
  le_val (trng_prf E (mk_trng (verifier_transcript t st pf) [] (repeat x00 32) []) 8).
(** The generator of the weights of a batch. *)
Definition weight_rng (sts : list (statement E)) (pfs : list (proof E)) (ts : list transcript) : trng :=
  mk_trng ([TAppend (b_ "dom-sep") (b_ "Triptych verifier weights"); TAppend (b_ "version") (le_bytes 8 0)]
           ++ map (fun x => TAppend (b_ "proof") (le_bytes 8 (proof_tag (snd x) (fst (fst x)) (snd (fst x)))))
                  (combine (combine sts pfs) ts))
          [] (repeat x00 32) [].

(** The weighted sum of all defects of a batch checked against ring [M]. *)
Definition weighted_defects (p : params E) (M : list (pt E)) (sts : list (statement E)) (pfs : list (proof E))
    (ts : list transcript) (ws : list (list scalar)) : pt E :=
  psum (map (fun x => let '(st, pf, t, w) := x in lincomb w (defects p M (st_get_J st) pf (challenge t st pf)))
            (combine (combine (combine sts pfs) ts) ws)).

(** Position [i] of a batch holds this statement, proof and transcript. *)
Definition member (sts : list (statement E)) (pfs : list (proof E)) (ts : list transcript) (i : nat)
    (st : statement E) (pf : proof E) (t : transcript) : Prop :=
  nth_error sts i = Some st /\ nth_error pfs i = Some pf /\ nth_error ts i = Some t.
(** Every proof of a batch is valid for its own statement and transcript. *)
Definition all_valid (sts : list (statement E)) (pfs : list (proof E)) (ts : list transcript) : Prop :=
  forall i st pf t, member sts pfs ts i st pf t -> valid_proof t st pf.

(** The challenge of a proof is not zero and neither is any entry of its completed response matrix. *)
Definition nondegenerate (t : transcript) (st : statement E) (pf : proof E) : Prop :=
  challenge t st pf <> s0 /\ forall row, In row (complete (challenge t st pf) (pf_f pf)) -> ~ In s0 row.

(** All statements of a batch claim the ring and the parameters of the first one. *)
Definition same_ring (st0 st : statement E) : Prop :=
  input_set_get_hash (st_get_input_set st) = input_set_get_hash (st_get_input_set st0) /\
  params_get_hash (st_get_params st) = params_get_hash (st_get_params st0).

(** All statements of a batch have the same parameters and the same input set. *)
Definition one_ring (sts : list (statement E)) : Prop :=
  forall st st', In st sts -> In st' sts -> st_get_params st = st_get_params st' /\ st_get_input_set st = st_get_input_set st'.

(** Number of points in the final multiscalar multiplication, and when computing it cannot overflow. *)
Definition msm_size (p : params E) (b : N) : N :=
  (1 + get_n p * get_m p + 1 + get_N p + 1 + b * (4 + 1 + 2 * get_m p))%N.
Definition fits (md : overflow_mode) (p : params E) (b : N) : Prop :=
  (b < 2 ^ 32)%N /\ (md = OverflowWraps \/ (msm_size p b < 2 ^ 32)%N).

(** * Results of the verifiers.  The weight loop of the verifier retries without bound, so the model takes fuel; these
    relations say what a call returns when it returns. *)
Definition verify_returns (md : overflow_mode) (pf : proof E) (st : statement E) (t : transcript)
    (r : outcome proof_error unit) (t' : transcript) : Prop :=
  exists fuel, verify fuel md pf st t = (r, t') /\ r <> OutOfFuel.
Definition verify_batch_returns (md : overflow_mode) (sts : list (statement E)) (pfs : list (proof E)) (ts : list transcript)
    (r : outcome proof_error unit) (ts' : list transcript) : Prop :=
  exists fuel, verify_batch fuel md sts pfs ts = (r, ts') /\ r <> OutOfFuel.
Definition single_blame_returns (md : overflow_mode) (sts : list (statement E)) (pfs : list (proof E)) (ts : list transcript)
    (r : outcome proof_error unit) (ts' : list transcript) : Prop :=
  exists fuel, verify_batch_with_single_blame fuel md sts pfs ts = (r, ts') /\ r <> OutOfFuel.
Definition full_blame_returns (md : overflow_mode) (sts : list (statement E)) (pfs : list (proof E)) (ts : list transcript)
    (r : outcome proof_error unit) (ts' : list transcript) : Prop :=
  exists fuel, verify_batch_with_full_blame fuel md sts pfs ts = (r, ts') /\ r <> OutOfFuel.

(** What [verify_batch] says about the proofs [a], .., [b - 1] of a batch on their own. *)
Definition part_returns (md : overflow_mode) (sts : list (statement E)) (pfs : list (proof E)) (ts : list transcript)
    (a b : nat) (r : outcome proof_error unit) : Prop :=
  exists ts', verify_batch_returns md (sub sts a b) (sub pfs a b) (sub ts a b) r ts'.
Definition part_accepted md sts pfs ts a b : Prop := part_returns md sts pfs ts a b (Ok tt).
Definition part_rejected md sts pfs ts a b : Prop := exists e, part_returns md sts pfs ts a b (Err e).

(** The transcripts after a batch has been verified. *)
Definition verified_transcripts (sts : list (statement E)) (pfs : list (proof E)) (ts : list transcript) : list transcript :=
  map (fun x => verifier_transcript (snd x) (fst (fst x)) (snd (fst x))) (combine (combine sts pfs) ts).

(** * Hashes: the Merlin queries they are the answers to *)
Definition params_query (n m : N) (G U : pt E) (CG : list (pt E)) (CH : pt E) : transcript :=
  [TAppend (b_ "dom-sep") (b_ "Triptych parameters"); TAppend (b_ "version") (le_bytes 8 0);
   TAppend (b_ "n") (le_bytes 4 n); TAppend (b_ "m") (le_bytes 4 m);
   TAppend (b_ "G") (compress E G); TAppend (b_ "U") (compress E U)]
  ++ map (fun P => TAppend (b_ "CommitmentG") (compress E P)) CG
  ++ [TAppend (b_ "CommitmentH") (compress E CH)].
Definition input_set_query (keys : list (pt E)) (unpadded_size : N) : transcript :=
  [TAppend (b_ "dom-sep") (b_ "Triptych input set"); TAppend (b_ "version") (le_bytes 8 0);
   TAppend (b_ "unpadded_size") (le_bytes 4 unpadded_size)]
  ++ map (fun P => TAppend (b_ "M") (compress E P)) keys.
Definition statement_query (params_hash input_set_hash : bytes) (J : pt E) : transcript :=
  [TAppend (b_ "dom-sep") (b_ "Triptych statement"); TAppend (b_ "version") (le_bytes 8 0);
   TAppend (b_ "params") params_hash; TAppend (b_ "input_set") input_set_hash; TAppend (b_ "J") (compress E J)].
Definition hash_of (q : transcript) : bytes := prf E q (b_ "hash") 32.
(** The query a set of parameters was hashed with. *)
Definition query_of_params (p : params E) : transcript :=
  params_query (get_n p) (get_m p) (get_G p) (get_U p) (get_CommitmentG p) (get_CommitmentH p).
Definition query_of_statement (st : statement E) : transcript :=
  statement_query (params_get_hash (st_get_params st)) (input_set_get_hash (st_get_input_set st)) (st_get_J st).
(** Two given queries collide. *)
Definition collide (q q' : transcript) : Prop := q <> q' /\ hash_of q = hash_of q'.
(** The hashes of two sets of parameters, or of two input sets, collide. *)
Definition params_collide (p p' : params E) : Prop := collide (query_of_params p) (query_of_params p').
Definition input_sets_collide (s s' : input_set E) : Prop :=
  exists k k', (k <= N.of_nat (length (get_keys s)))%N /\ (k' <= N.of_nat (length (get_keys s')))%N /\
    collide (input_set_query (get_keys s) k) (input_set_query (get_keys s') k').
Definition statements_collide (st st' : statement E) : Prop := collide (query_of_statement st) (query_of_statement st').

(** * Encodings *)

(** The shape an encoding can express: [m] elements in [X] and [Y], [m] rows of [n1] responses. *)
Definition rectangular (n1 m : N) (pf : proof E) : Prop :=
  (1 <= n1 /\ n1 + 1 < 2 ^ 32 /\ 2 <= m /\ m < 2 ^ 32)%N /\
  length (pf_X pf) = N.to_nat m /\ length (pf_Y pf) = N.to_nat m /\ shape (N.to_nat m) (N.to_nat n1) (pf_f pf).
(** Two little-endian 32-bit numbers, then 32 bytes for each element in this order. *)
Definition encoding (n1 m : N) (pf : proof E) : bytes :=
  le_bytes 4 n1 ++ le_bytes 4 m ++
  concat ([compress E (pf_A pf); compress E (pf_B pf); compress E (pf_C pf); compress E (pf_D pf);
           scalar_to_bytes (pf_z_A pf); scalar_to_bytes (pf_z_C pf); scalar_to_bytes (pf_z pf)]
          ++ map (compress E) (pf_X pf) ++ map (compress E) (pf_Y pf) ++ map scalar_to_bytes (concat (pf_f pf))).
Definition encoded_size (n1 m : N) : N := (8 + 32 * (7 + 2 * m + m * n1))%N.

End SpecPlain.
