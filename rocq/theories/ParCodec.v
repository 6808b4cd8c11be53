(** Model of src/parallel/proof.rs, part 3: serialization. *)
From Verif Require Export ParProver.

Section Codec.
Context {E : env}.

(** parallel/proof.rs lines 886-933.  The capacity and the header index [self.f[0]], which panics on an empty matrix; lengths
    are truncated to [u32]. *)
Definition to_bytes (pf : proof E) : outcome proof_error bytes :=
  let* f0 := index (pf_f pf) 0 in
  let n_minus_1 := (N.of_nat (length f0) mod u32_bound)%N in
  let m := (N.of_nat (length (pf_f pf)) mod u32_bound)%N in
  Ok (le_bytes 4 n_minus_1 ++ le_bytes 4 m
      ++ compress E (pf_A pf) ++ compress E (pf_B pf) ++ compress E (pf_C pf) ++ compress E (pf_D pf)
      ++ scalar_to_bytes (pf_z_A pf) ++ scalar_to_bytes (pf_z_C pf) ++ scalar_to_bytes (pf_z pf)
      ++ scalar_to_bytes (pf_z1 pf)
      ++ concat (map (compress E) (pf_X pf))
      ++ concat (map (compress E) (pf_X1 pf))
      ++ concat (map (compress E) (pf_Y pf))
      ++ concat (map scalar_to_bytes (concat (pf_f pf)))).

(** parallel/proof.rs lines 939-1062 *)
Definition from_bytes (bs : bytes) : outcome proof_error (proof E) :=
  let* (n_minus_1, iter) := parse_u32 bs in
  let* n := ok_or (checked_add u32_bound n_minus_1 1) FailedDeserialization in
  if (n <? 2)%N then Err FailedDeserialization
  else
    let* (m, iter) := parse_u32 iter in
    if (m <? 2)%N then Err FailedDeserialization
    else
      let c := chunks_of iter in
      let* (A, c) := parse_point c in
      let* (B, c) := parse_point c in
      let* (C, c) := parse_point c in
      let* (D, c) := parse_point c in
      let* (z_A, c) := parse_scalar c in
      let* (z_C, c) := parse_scalar c in
      let* (z, c) := parse_scalar c in
      let* (z1, c) := parse_scalar c in
      let* (X, c) := parse_many parse_point (N.to_nat m) c in
      let* (X1, c) := parse_many parse_point (N.to_nat m) c in
      let* (Y, c) := parse_many parse_point (N.to_nat m) c in
      let* (f, c) := parse_many (parse_many parse_scalar (N.to_nat n_minus_1)) (N.to_nat m) c in
      if negb (Nat.eqb (length (ch_remainder c)) 0) then Err FailedDeserialization
      else match next_chunk c with
      | Some _ => Err FailedDeserialization
      | None =>
          if negb (N.of_nat (length X) =? m)%N || negb (N.of_nat (length X1) =? m)%N || negb (N.of_nat (length Y) =? m)%N then Err FailedDeserialization
          else if negb (N.of_nat (length f) =? m)%N then Err FailedDeserialization
          else if existsb (fun row => negb (N.of_nat (length row) =? n_minus_1)%N) f then Err FailedDeserialization
          else Ok (mk_proof A B C D X X1 Y f z_A z_C z z1)
      end.

(** parallel/proof.rs lines 1065-1070: Borsh writes [to_bytes] as a [Vec<u8>], that is a little-endian [u32] length (an error if the
    length does not fit) followed by the bytes. *)
Inductive io_error := IoError.
(** parallel/proof.rs lines 1065-1070 *)
Definition borsh_serialize (pf : proof E) : outcome io_error bytes :=
  match to_bytes pf with
  | Ok bs => if (N.of_nat (length bs) <? u32_bound)%N then Ok (le_bytes 4 (N.of_nat (length bs)) ++ bs) else Err IoError
  | Err _ => Err IoError
  | Panic => Panic
  | OutOfFuel => OutOfFuel
  end.

(** parallel/proof.rs lines 1072-1080: reads a [Vec<u8>] from the reader, then [from_bytes]; returns the proof and what is left in
    the reader. *)
Definition borsh_deserialize_reader (reader : bytes) : outcome io_error (proof E * bytes) :=
  if (length reader <? 4)%nat then Err IoError
  else
    let len := N.to_nat (le_val (firstn 4 reader)) in
    let rest := skipn 4 reader in
    if (length rest <? len)%nat then Err IoError
    else match from_bytes (firstn len rest) with
         | Ok pf => Ok (pf, skipn len rest)
         | Err _ => Err IoError
         | Panic => Panic
         | OutOfFuel => OutOfFuel
         end.

End Codec.
