(** Model of src/transcript.rs. *)
From Verif Require Export Witness.

Section Transcript.
Context {E : env}.

(** transcript.rs lines 119-134 *)
Definition build_transcript_rng {R} (ro : rng_ops R) (t : transcript) (w : option (witness E)) (rng : R) : trng * R :=
  match w with
  | Some w => finalize_rng ro t [(b_ "l", le_bytes 4 (w_get_l w)); (b_ "r", scalar_to_bytes (w_get_r w))] rng
  | None => finalize_rng ro t [] rng
  end.

(** transcript.rs lines 28-31 *)
Definition pt_init (t : transcript) (statement_hash : bytes) : transcript :=
  let t := append_message t (b_ "dom-sep") TRANSCRIPT_PROOF in
  let t := append_u64 t (b_ "version") VERSION in
  append_message t (b_ "statement") statement_hash.

(** transcript.rs lines 21-42: returns the transcript, the transcript generator and the external one. *)
Definition pt_new {R} (ro : rng_ops R) (t : transcript) (st : statement E) (rng : R) (w : option (witness E))
    : transcript * trng * R :=
  let t := pt_init t (st_get_hash st) in
  let (g, rng) := build_transcript_rng ro t w rng in
  (t, g, rng).

(** transcript.rs lines 58-68 *)
Definition absorb_first_message (t : transcript) (A B C D : pt E) (X Y : list (pt E)) : transcript :=
  let t := append_message t (b_ "A") (compress E A) in
  let t := append_message t (b_ "B") (compress E B) in
  let t := append_message t (b_ "C") (compress E C) in
  let t := append_message t (b_ "D") (compress E D) in
  let t := append_all t (b_ "X") (map (compress E) X) in
  append_all t (b_ "Y") (map (compress E) Y).

(** transcript.rs lines 44-93 *)
Definition pt_commit {R} (ro : rng_ops R) (t : transcript) (w : option (witness E)) (rng : R)
    (p : params E) (A B C D : pt E) (X Y : list (pt E))
    : outcome proof_error (list scalar) * transcript * trng * R :=
  let t := absorb_first_message t A B C D X Y in
  let (g, rng) := build_transcript_rng ro t w rng in
  let (xi_bytes, t) := challenge_bytes (E := E) t (b_ "xi") 64 in
  let xi := scalar_from_wide xi_bytes in
  (challenge_powers (get_m p) xi, t, g, rng).

(** transcript.rs lines 98-106 *)
Definition absorb_response (t : transcript) (f : list (list scalar)) (z_A z_C z : scalar) : transcript :=
  let t := append_all t (b_ "f") (map scalar_to_bytes (concat f)) in
  let t := append_message t (b_ "z_A") (scalar_to_bytes z_A) in
  let t := append_message t (b_ "z_C") (scalar_to_bytes z_C) in
  append_message t (b_ "z") (scalar_to_bytes z).

(** transcript.rs lines 95-112 *)
Definition pt_response {R} (ro : rng_ops R) (t : transcript) (w : option (witness E)) (rng : R)
    (f : list (list scalar)) (z_A z_C z : scalar) : trng * transcript * R :=
  let t := absorb_response t f z_A z_C z in
  let (g, rng) := build_transcript_rng ro t w rng in
  (g, t, rng).

End Transcript.
