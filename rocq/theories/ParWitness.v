(** Model of src/parallel/witness.rs. *)
From Verif Require Export ParStatement.
Local Open Scope N_scope.

Section Witness.
Context {E : env}.

(** parallel/witness.rs lines 17-23 *)
Record witness := mk_witness { w_params : params E; w_l : N; w_r : scalar; w_r1 : scalar }.

(** parallel/witness.rs lines 42-60 *)
Definition witness_new (p : params E) (l : N) (r r1 : scalar) : outcome witness_error witness :=
  if seqb r s0 then Err (WE_InvalidParameter "`r == 0`")
  else if seqb r1 s0 then Err (WE_InvalidParameter "`r1 == 0`")
  else if get_N p <=? l then Err (WE_InvalidParameter "`l >= N`")
  else Ok (mk_witness p l r r1).

(** parallel/witness.rs lines 69-82: first the index, then the keys. *)
Definition witness_random {R} (ro : rng_ops R) (p : params E) (rng : R) : witness * R :=
  let (x, rng) := rng_next_u64 ro rng in
  let l := (x mod get_N p) mod u32_bound in
  let (r, rng) := rng_scalar ro rng in
  let (r1, rng) := rng_scalar ro rng in
  (mk_witness p l r r1, rng).

(** parallel/witness.rs lines 84-102 *)
Definition w_get_params (w : witness) := w_params w.
(** parallel/witness.rs lines 90-92 *)
Definition w_get_l (w : witness) := w_l w.
(** parallel/witness.rs lines 95-97 *)
Definition w_get_r (w : witness) := w_r w.
(** parallel/witness.rs lines 100-102 *)
Definition w_get_r1 (w : witness) := w_r1 w.

(** parallel/witness.rs lines 105-107 *)
Definition compute_linking_tag (w : witness) : pt E := pmul E (sinv (w_r w)) (get_U (w_params w)).
(** parallel/witness.rs lines 110-112 *)
Definition compute_verification_key (w : witness) : pt E := pmul E (w_r w) (get_G (w_params w)).
(** parallel/witness.rs lines 115-117 *)
Definition compute_auxiliary_verification_key (w : witness) : pt E := pmul E (w_r1 w) (get_G1 (w_params w)).

End Witness.
Arguments witness : clear implicits.
