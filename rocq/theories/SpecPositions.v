(** Independent specification vocabulary: positions in rings and batches. *)
From Coq Require Export List Arith Lia Sorted.
Export ListNotations.

(** The position of a ring at which the key for index [l] is found, when the ring is padded with its last key. *)
Definition signing_position {A} (ring : list A) (l : nat) : nat := Nat.min l (length ring - 1).

(** The elements of a list at the given positions... *)
Definition pick {A} (ks : list nat) (xs : list A) : list A :=
  flat_map (fun k => match nth_error xs k with Some x => [x] | None => [] end) ks.
(** ... the positions below [n] that are not in [l]... *)
Definition other_positions (l : list nat) (n : nat) : list nat :=
  filter (fun k => negb (existsb (Nat.eqb k) l)) (seq 0 n).
(** ... and a list without the element at [i]. *)
Definition remove_at {A} (i : nat) (xs : list A) : list A := firstn i xs ++ skipn (S i) xs.

