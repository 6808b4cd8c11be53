(** The outside world of the crate: the Ristretto group, Merlin transcripts, BLAKE3 and the
    random number generators.  Nothing in this file is code of /repo; it is the interface of the
    dependencies named in /repo/Cargo.toml lines 14-25, written down as an environment record
    [env] that every definition of the model takes as an argument.  The laws a theorem needs are
    the explicit hypothesis [env_laws E] of that theorem, and [ToyEnv.v] exhibits environments
    that satisfy them. *)
From Verif Require Export Scalar.

(** * Merlin transcripts

    [merlin::Transcript] is a STROBE object.  Its observable behaviour is that of a list of
    framed operations, from which [challenge_bytes] and the transcript generator derive bytes;
    a transcript is therefore modelled by the list of operations performed on it, oldest first,
    and the sponge by the environment's functions of that list. *)
(** the operations that transcript.rs lines 58-75 and proof.rs line 688 use *)
Inductive transcript_op :=
| TAppend (label msg : bytes)        (* append_message(label, msg) *)
| TChallenge (label : bytes) (len : nat). (* challenge_bytes(label, &mut [0u8; len]) *)
(** `merlin::Transcript`: transcript.rs line 14 *)
Definition transcript := list transcript_op.

(** A [merlin::TranscriptRng]: the transcript it was built from, the witness bytes it was rekeyed
    with, the 32 bytes taken from the external generator by [finalize], and the lengths of the
    [fill_bytes] requests served so far.  (transcript.rs lines 125-133, proof.rs line 692.) *)
Record trng := mk_trng {
  tr_base : transcript;
  tr_keys : list (bytes * bytes);
  tr_seed : bytes;
  tr_used : list nat }.

(** * The environment *)
(** the dependencies of Cargo.toml lines 14-25, as used throughout src *)
Record env := {
  (* the Ristretto group: curve25519_dalek::RistrettoPoint *)
  pt : Type;
  pid : pt;                              (* RistrettoPoint::identity() *)
  padd : pt -> pt -> pt;
  popp : pt -> pt;
  pmul : scalar -> pt -> pt;             (* Scalar * RistrettoPoint *)
  peqb : pt -> pt -> bool;               (* == *)
  compress : pt -> bytes;                (* .compress().as_bytes() *)
  decompress : bytes -> option pt;       (* CompressedRistretto(bytes).decompress() *)
  from_uniform : bytes -> pt;            (* RistrettoPoint::from_uniform_bytes *)
  basepoint : pt;                        (* RISTRETTO_BASEPOINT_POINT *)
  (* Merlin *)
  prf : transcript -> bytes -> nat -> bytes; (* output of challenge_bytes(label, len) *)
  trng_prf : trng -> nat -> bytes;       (* output of TranscriptRng::fill_bytes, len *)
  (* BLAKE3: [xof input offset len] is the slice [offset, offset+len) of the output stream *)
  xof : bytes -> nat -> nat -> bytes }.

(** `RistrettoPoint - RistrettoPoint`: parallel/proof.rs line 218, parallel/statement.rs lines 185-190 *)
Definition psub {E : env} (p q : pt E) : pt E := padd E p (popp E q).

(** The laws of the dependencies that the theorems rely on.  (No code of /repo.) *)
Record env_laws (E : env) : Prop := {
  padd_assoc : forall p q r, padd E p (padd E q r) = padd E (padd E p q) r;
  padd_comm : forall p q, padd E p q = padd E q p;
  padd_0_l : forall p, padd E (pid E) p = p;
  padd_opp_r : forall p, padd E p (popp E p) = pid E;
  pmul_1_l : forall p, pmul E s1 p = p;
  pmul_assoc : forall a b p, pmul E a (pmul E b p) = pmul E (a * b)%sc p;
  pmul_add_l : forall a b p, pmul E (a + b)%sc p = padd E (pmul E a p) (pmul E b p);
  pmul_add_r : forall a p q, pmul E a (padd E p q) = padd E (pmul E a p) (pmul E a q);
  peqb_eq : forall p q, peqb E p q = true <-> p = q;
  (* the Ristretto encoding is a canonical 32-byte encoding *)
  compress_length : forall p, length (compress E p) = 32%nat;
  decompress_compress : forall p, decompress E (compress E p) = Some p;
  compress_decompress : forall bs p, length bs = 32%nat -> decompress E bs = Some p -> compress E p = bs;
  (* the byte sources return as many bytes as they are asked for *)
  prf_length : forall t l n, length (prf E t l n) = n;
  trng_prf_length : forall g n, length (trng_prf E g n) = n }.

(** The group has prime order [ell]: every element is a multiple of every nonidentity element.  (No code of /repo.) *)
Definition prime_order (E : env) : Prop :=
  forall B P : pt E, B <> pid E -> exists s, P = pmul E s B.

(** * Merlin operations *)

(** [Transcript::append_message].  (Used at parameters.rs line 127.) *)
Definition append_message (t : transcript) (label msg : bytes) : transcript := t ++ [TAppend label msg].
(** [Transcript::append_u64]: the value as 8 little-endian bytes.  (Used at proof.rs line 688.) *)
Definition append_u64 (t : transcript) (label : bytes) (x : N) : transcript :=
  append_message t label (le_bytes 8 x).
(** [Transcript::new]: Merlin itself absorbs the label under "dom-sep".  (Used at proof.rs line 672.) *)
Definition transcript_new (label : bytes) : transcript := append_message [] (b_ "dom-sep") label.
(** [Transcript::challenge_bytes].  (Used at parameters.rs line 136, transcript.rs line 75.) *)
Definition challenge_bytes {E : env} (t : transcript) (label : bytes) (len : nat) : bytes * transcript :=
  (prf E t label len, t ++ [TChallenge label len]).

(** * Random number generators *)

(** An external [CryptoRngCore] with state type [R].  (witness.rs line 64, util.rs lines 40-67.) *)
Record rng_ops (R : Type) := {
  rng_fill : R -> nat -> bytes * R;      (* fill_bytes *)
  rng_next_u64 : R -> N * R }.           (* next_u64 *)
Arguments rng_fill {R} _ _ _.
Arguments rng_next_u64 {R} _ _.

(** src/util.rs lines 40-67: [NullRng] only produces zeroes. *)
Definition null_rng : rng_ops unit := {|
  rng_fill := fun _ n => (repeat x00 n, tt);
  rng_next_u64 := fun _ => (le_val (repeat x00 8), tt) |}.

(** [TranscriptRngBuilder]: build_rng().rekey_with_witness_bytes(..)*.finalize(rng).  (transcript.rs lines 125-133, proof.rs line 692.) *)
Definition finalize_rng {R} (ro : rng_ops R) (t : transcript) (keys : list (bytes * bytes)) (r : R) : trng * R :=
  let (seed, r') := rng_fill ro r 32 in (mk_trng t keys seed [], r').

(** [TranscriptRng::fill_bytes].  (Used by the two that follow: proof.rs lines 220 and 688.) *)
Definition trng_fill {E : env} (g : trng) (n : nat) : bytes * trng :=
  (trng_prf E g n, mk_trng (tr_base g) (tr_keys g) (tr_seed g) (tr_used g ++ [n])).
(** [TranscriptRng::next_u64] (rand_core's [next_u64_via_fill]).  (proof.rs line 688.) *)
Definition trng_next_u64 {E : env} (g : trng) : N * trng :=
  let (bs, g') := trng_fill (E := E) g 8 in (le_val bs, g').

(** [Scalar::random]: 64 bytes reduced modulo [ell].  (proof.rs line 220.) *)
Definition draw {E : env} (g : trng) : scalar * trng :=
  let (bs, g') := trng_fill (E := E) g 64 in (scalar_from_wide bs, g').
(** `Scalar::random` with an external generator: witness.rs line 74 *)
Definition rng_scalar {R} (ro : rng_ops R) (r : R) : scalar * R :=
  let (bs, r') := rng_fill ro r 64 in (scalar_from_wide bs, r').

(** [k] successive draws.  (proof.rs lines 296-300.) *)
Fixpoint draws {E : env} (k : nat) (g : trng) : list scalar * trng :=
  match k with
  | O => ([], g)
  | S k' => let (s, g1) := draw (E := E) g in let (ss, g2) := draws (E := E) k' g1 in (s :: ss, g2)
  end.
(** An [m] by [n] matrix of draws, row by row.  (proof.rs lines 221-227.) *)
Fixpoint draw_rows {E : env} (m n : nat) (g : trng) : list (list scalar) * trng :=
  match m with
  | O => ([], g)
  | S m' => let (row, g1) := draws (E := E) n g in let (rows, g2) := draw_rows (E := E) m' n g1 in (row :: rows, g2)
  end.

(** * Sums and multiscalar multiplication *)

(** [iter().sum::<Scalar>()].  (proof.rs lines 229, 389, 700.) *)
Definition ssum (l : list scalar) : scalar := fold_right sadd s0 l.
(** [iter().product::<Scalar>()].  (proof.rs line 770.) *)
Definition sprod (l : list scalar) : scalar := fold_right smul s1 l.

(** the value of a multiscalar multiplication: proof.rs line 805 *)
Definition lincomb {E : env} (ss : list scalar) (ps : list (pt E)) : pt E :=
  fold_right (fun sp acc => padd E (pmul E (fst sp) (snd sp)) acc) (pid E) (combine ss ps).

(** [RistrettoPoint::multiscalar_mul] and [vartime_multiscalar_mul]: both assert that the numbers of
    scalars and points agree, and compute the same point.  (parameters.rs lines 176-177, proof.rs lines 361-362.) *)
Definition multiscalar_mul {Er} {E : env} (ss : list scalar) (ps : list (pt E)) : outcome Er (pt E) :=
  if Nat.eqb (length ss) (length ps) then Ok (lincomb ss ps) else Panic.
(** parameters.rs line 177, proof.rs lines 362 and 805 *)
Definition vartime_multiscalar_mul {Er} {E : env} (ss : list scalar) (ps : list (pt E)) : outcome Er (pt E) :=
  if Nat.eqb (length ss) (length ps) then Ok (lincomb ss ps) else Panic.

(** [Scalar::batch_invert].  (proof.rs line 778.) *)
Definition batch_invert (l : list scalar) : list scalar := map sinv l.

(** Comparisons of byte strings and lists of points (derived [PartialEq]).  (Derived at parameters.rs, used by `!=` at proof.rs line 180.) *)
Fixpoint pts_eqb {E : env} (a b : list (pt E)) : bool :=
  match a, b with
  | [], [] => true
  | x :: a', y :: b' => peqb E x y && pts_eqb a' b'
  | _, _ => false
  end.

(** * src/util.rs lines 13-38 *)
(** lines 13-20: [OperationTiming::{Constant, Variable}] *)
Inductive timing := ConstantTime | VariableTime.

(** util.rs lines 22-38: Kronecker delta.  [conditional_assign] is a selection. *)
Definition delta (x y : N) (tm : timing) : scalar :=
  match tm with
  | ConstantTime => let result := s0 in if (x =? y)%N then s1 else result
  | VariableTime => if (x =? y)%N then s1 else s0
  end.

(** * src/lib.rs lines 141-168: domain separators *)
Definition VERSION : N := 0.
(** src/lib.rs line 147 *)
Definition TRANSCRIPT_HASH_BYTES : nat := 32.
(** src/lib.rs line 150 *)
Definition TRANSCRIPT_PARAMETERS := b_ "Triptych parameters".
(** src/lib.rs line 151 *)
Definition TRANSCRIPT_PARALLEL_PARAMETERS := b_ "Parallel Triptych parameters".
(** src/lib.rs line 152 *)
Definition POINT_G1 := b_ "Triptych G1".
(** src/lib.rs line 153 *)
Definition POINT_U := b_ "Triptych U".
(** src/lib.rs line 154 *)
Definition POINT_COMMITMENT_G := b_ "Triptych CommitmentG".
(** src/lib.rs line 155 *)
Definition POINT_COMMITMENT_H := b_ "Triptych CommitmentH".
(** src/lib.rs line 158 *)
Definition TRANSCRIPT_INPUT_SET := b_ "Triptych input set".
(** src/lib.rs line 159 *)
Definition TRANSCRIPT_PARALLEL_INPUT_SET := b_ "Parallel Triptych input set".
(** src/lib.rs line 160 *)
Definition TRANSCRIPT_STATEMENT := b_ "Triptych statement".
(** src/lib.rs line 161 *)
Definition TRANSCRIPT_PARALLEL_STATEMENT := b_ "Parallel Triptych statement".
(** src/lib.rs line 164 *)
Definition TRANSCRIPT_PROOF := b_ "Triptych proof".
(** src/lib.rs line 165 *)
Definition TRANSCRIPT_PARALLEL_PROOF := b_ "Parallel Triptych proof".
(** src/lib.rs line 166 *)
Definition TRANSCRIPT_VERIFIER_WEIGHTS := b_ "Triptych verifier weights".
(** src/lib.rs line 167 *)
Definition TRANSCRIPT_PARALLEL_VERIFIER_WEIGHTS := b_ "Parallel Triptych verifier weights".

(** Hashing a list of messages under a label is always done with several [append_message] calls.  (parameters.rs lines 131-133, transcript.rs lines 63-68.) *)
Definition append_all (t : transcript) (label : bytes) (msgs : list bytes) : transcript :=
  fold_left (fun t m => append_message t label m) msgs t.
