(** Model of src/parallel/transcript.rs. *)
From Verif Require Export ParWitness.

Section Transcript.
Context {E : env}.

(** parallel/transcript.rs lines 136-152 *)
Definition build_transcript_rng {R} (ro : rng_ops R) (t : transcript) (w : option (witness E)) (rng : R) : trng * R :=
  match w with
  | Some w => finalize_rng ro t [(b_ "l", le_bytes 4 (w_get_l w)); (b_ "r", scalar_to_bytes (w_get_r w));
                             (b_ "r1", scalar_to_bytes (w_get_r1 w))] rng
  | None => finalize_rng ro t [] rng
  end.

(** parallel/transcript.rs lines 33-35 *)
Definition pt_init (t : transcript) (statement_hash : bytes) : transcript :=
  let t := append_message t (b_ "dom-sep") TRANSCRIPT_PARALLEL_PROOF in
  let t := append_u64 t (b_ "version") VERSION in
  append_message t (b_ "statement") statement_hash.

(** parallel/transcript.rs lines 26-46: returns the transcript, the transcript generator and the external one. *)
Definition pt_new {R} (ro : rng_ops R) (t : transcript) (st : statement E) (rng : R) (w : option (witness E))
    : transcript * trng * R :=
  let t := pt_init t (st_get_hash st) in
  let (g, rng) := build_transcript_rng ro t w rng in
  (t, g, rng).

(** parallel/transcript.rs lines 64-76 *)
Definition absorb_first_message (t : transcript) (A B C D : pt E) (X X1 Y : list (pt E)) : transcript :=
  let t := append_message t (b_ "A") (compress E A) in
  let t := append_message t (b_ "B") (compress E B) in
  let t := append_message t (b_ "C") (compress E C) in
  let t := append_message t (b_ "D") (compress E D) in
  let t := append_all t (b_ "X") (map (compress E) X) in
  let t := append_all t (b_ "X1") (map (compress E) X1) in
  append_all t (b_ "Y") (map (compress E) Y).

(** parallel/transcript.rs lines 49-101 *)
Definition pt_commit {R} (ro : rng_ops R) (t : transcript) (w : option (witness E)) (rng : R)
    (p : params E) (A B C D : pt E) (X X1 Y : list (pt E))
    : outcome proof_error (list scalar) * transcript * trng * R :=
  let t := absorb_first_message t A B C D X X1 Y in
  let (g, rng) := build_transcript_rng ro t w rng in
  let (xi_bytes, t) := challenge_bytes (E := E) t (b_ "xi") 64 in
  let xi := scalar_from_wide xi_bytes in
  (challenge_powers (get_m p) xi, t, g, rng).

(** parallel/transcript.rs lines 113-121 *)
Definition absorb_response (t : transcript) (f : list (list scalar)) (z_A z_C z z1 : scalar) : transcript :=
  let t := append_all t (b_ "f") (map scalar_to_bytes (concat f)) in
  let t := append_message t (b_ "z_A") (scalar_to_bytes z_A) in
  let t := append_message t (b_ "z_C") (scalar_to_bytes z_C) in
  let t := append_message t (b_ "z") (scalar_to_bytes z) in
  append_message t (b_ "z1") (scalar_to_bytes z1).

(** parallel/transcript.rs lines 104-128 *)
Definition pt_response {R} (ro : rng_ops R) (t : transcript) (w : option (witness E)) (rng : R)
    (f : list (list scalar)) (z_A z_C z z1 : scalar) : trng * transcript * R :=
  let t := absorb_response t f z_A z_C z z1 in
  let (g, rng) := build_transcript_rng ro t w rng in
  (g, t, rng).

End Transcript.
