(** Independent specification vocabulary, part 8: counting. *)
From Verif Require Export Env.
From Verif Require Import Prime.
Local Open Scope N_scope.

(** Exactly [c] values satisfy [S]: the numbers below [c] enumerate them without repetition. *)
Definition has_card {A} (S : A -> Prop) (c : N) : Prop :=
  exists f : N -> A, (forall k, k < c -> S (f k)) /\ (forall x, S x -> exists! k, k < c /\ f k = x).
(** When [total] values are dealt to [classes] classes in turn, how many go to class [v]. *)
Definition share (total classes v : N) : N := total / classes + (if v <? total mod classes then 1 else 0).

(** The size of the scalar field as a natural number. *)
Definition order : N := Z.to_N ell.

(** A generator that delivers one 64-bit number and then given strings. *)
Definition tape : rng_ops (N * list bytes) := {|
  rng_fill := fun r n => match snd r with bs :: rest => (bs, (fst r, rest)) | [] => (repeat x00 n, r) end;
  rng_next_u64 := fun r => (fst r, r) |}.
