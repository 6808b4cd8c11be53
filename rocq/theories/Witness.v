(** Model of src/witness.rs. *)
From Verif Require Export Statement.
Local Open Scope N_scope.

Section Witness.
Context {E : env}.

(** witness.rs lines 17-22 *)
Record witness := mk_witness { w_params : params E; w_l : N; w_r : scalar }.

(** witness.rs lines 42-55 *)
Definition witness_new (p : params E) (l : N) (r : scalar) : outcome witness_error witness :=
  if seqb r s0 then Err (WE_InvalidParameter "`r == 0`")
  else if get_N p <=? l then Err (WE_InvalidParameter "`l >= N`")
  else Ok (mk_witness p l r).

(** witness.rs lines 64-76: first the index, then the key. *)
Definition witness_random {R} (ro : rng_ops R) (p : params E) (rng : R) : witness * R :=
  let (x, rng) := rng_next_u64 ro rng in
  let l := (x mod get_N p) mod u32_bound in
  let (r, rng) := rng_scalar ro rng in
  (mk_witness p l r, rng).

(** witness.rs lines 78-91 *)
Definition w_get_params (w : witness) := w_params w.
(** witness.rs lines 84-86 *)
Definition w_get_l (w : witness) := w_l w.
(** witness.rs lines 89-91 *)
Definition w_get_r (w : witness) := w_r w.

(** witness.rs lines 94-96 *)
Definition compute_linking_tag (w : witness) : pt E := pmul E (sinv (w_r w)) (get_U (w_params w)).
(** witness.rs lines 99-101 *)
Definition compute_verification_key (w : witness) : pt E := pmul E (w_r w) (get_G (w_params w)).

End Witness.
Arguments witness : clear implicits.
