(** Pieces of the model that src/*.rs and src/parallel/*.rs share word for word: the error types and
    the inner loops of parameters.rs, transcript.rs and proof.rs.  Line numbers "a-b / c-d" are those of
    the plain file and of its parallel copy. *)
From Verif Require Export Gray.

(** * Errors *)

(** parameters.rs lines 36-45 / parallel/parameters.rs lines 37-46 *)
Inductive parameter_error := PE_InvalidParameter (reason : string).
(** statement.rs lines 108-117 / parallel/statement.rs lines 146-155 *)
Inductive statement_error := SE_InvalidParameter (reason : string).
(** witness.rs lines 24-33 / parallel/witness.rs lines 25-34 *)
Inductive witness_error := WE_InvalidParameter (reason : string).
(** proof.rs lines 53-86 / parallel/proof.rs lines 53-86 *)
Inductive proof_error :=
| InvalidParameter (reason : string)
| InvalidChallenge
| FailedDeserialization
| FailedVerification
| FailedBatchVerification
| FailedBatchVerificationWithSingleBlame (index : option nat)
| FailedBatchVerificationWithFullBlame (indexes : list nat).

(** `is_ok()` / `is_err()`: proof.rs lines 439 and 466-471 *)
Definition is_ok {Er A} (x : outcome Er A) : bool := match x with Ok _ => true | _ => false end.

(** [0..k] as vector indices.  (proof.rs lines 221 and 228.) *)
Definition range (k : N) : list nat := seq 0 (N.to_nat k).

(** [u32::pow] in [get_N] (parameters.rs lines 215-218 / parallel/parameters.rs lines 241-244).  The code
    comments that it cannot overflow; the model wraps, and [Properties] proves that it never does. *)
Definition pow_u32 (n m : N) : N := (n ^ m mod u32_bound)%N.

Section Core.
Context {E : env}.

(** * parameters.rs *)

(** parameters.rs lines 99-105 / parallel/parameters.rs lines 115-121 *)
Definition commitment_H : pt E :=
  from_uniform E (xof E (POINT_COMMITMENT_H ++ le_bytes 8 VERSION) 0 64).

(** parameters.rs lines 107-122 / parallel/parameters.rs lines 123-138: [count] generators, each from the
    next 64 bytes of the extendable output. *)
Definition commitment_G (n m count : N) : list (pt E) :=
  let seed := POINT_COMMITMENT_G ++ le_bytes 8 VERSION ++ le_bytes 4 n ++ le_bytes 4 m in
  map (fun i => from_uniform E (xof E seed (64 * i) 64)) (range count).

(** parameters.rs lines 60-66 / parallel/parameters.rs lines 69-75: the default [U]. *)
Definition default_U : pt E := from_uniform E (xof E (POINT_U ++ le_bytes 8 VERSION) 0 64).
(** parallel/parameters.rs lines 61-67: the default [G1]. *)
Definition default_G1 : pt E := from_uniform E (xof E (POINT_G1 ++ le_bytes 8 VERSION) 0 64).

(** parameters.rs lines 149-179 / parallel/parameters.rs lines 167-197 *)
Definition commit_matrix_with (n m : N) (CG : list (pt E)) (CH : pt E)
    (matrix : list (list scalar)) (mask : scalar) (tm : timing) : outcome parameter_error (pt E) :=
  if negb (N.of_nat (length matrix) =? m)%N then Err (PE_InvalidParameter "matrix did not have `m` rows")
  else if existsb (fun row => negb (N.of_nat (length row) =? n)%N) matrix
       then Err (PE_InvalidParameter "matrix did not have `n` columns")
  else
    let scalars := concat matrix ++ [mask] in
    let points := CG ++ [CH] in
    match tm with
    | ConstantTime => multiscalar_mul scalars points
    | VariableTime => vartime_multiscalar_mul scalars points
    end.

(** * transcript.rs *)

(** transcript.rs lines 78-92 / parallel/transcript.rs lines 86-100: the powers [xi^0 .. xi^m], stopping with an
    error at the first zero one.  [k] is the number of iterations left. *)
Fixpoint powers_loop (k : nat) (xi xi_power : scalar) : outcome proof_error (list scalar) :=
  match k with
  | O => Ok []
  | S k' =>
      if seqb xi_power s0 then Err InvalidChallenge
      else let* rest := powers_loop k' xi (xi_power * xi)%sc in Ok (xi_power :: rest)
  end.

(** transcript.rs lines 78-92 and its parallel copy: the powers 0, ..., m of the challenge *)
Definition challenge_powers (m : N) (xi : scalar) : outcome proof_error (list scalar) :=
  let* count := ok_or (checked_add usize_bound m 1)
                      (InvalidParameter "challenge power count overflowed `usize`") in
  powers_loop (N.to_nat count) xi s1.

(** * proof.rs: prover *)

(** proof.rs lines 196-205 / parallel/proof.rs lines 200-211: selecting the key at the witness index; in
    constant time by conditional assignment over the whole vector, otherwise by indexing. *)
Definition select_ct (M : list (pt E)) (l : N) : pt E :=
  fold_left (fun acc it => if (N.of_nat (fst it) =? l)%N then snd it else acc)
            (combine (seq 0 (length M)) M) (pid E).
(** proof.rs lines 196-205, the choice by timing *)
Definition select_key (tm : timing) (M : list (pt E)) (l : N) : outcome proof_error (pt E) :=
  match tm with
  | ConstantTime => Ok (select_ct M l)
  | VariableTime => index M (N.to_nat l)
  end.

(** proof.rs lines 228-230 / parallel/proof.rs lines 239-241: [a[j][0] = -sum(a[j][1..])] *)
Definition balance_row (row : list scalar) : outcome proof_error (list scalar) :=
  match row with
  | [] => Panic
  | _ :: rest => Ok (sopp (ssum rest) :: rest)
  end.

(** proof.rs lines 239-250 / parallel/proof.rs lines 250-261 *)
Definition decompose_index (tm : timing) (n m l : N) : outcome proof_error (list N) :=
  match tm with
  | ConstantTime => ok_or (decompose n m l) (InvalidParameter "`l` decomposition failed")
  | VariableTime => ok_or (decompose_vartime n m l) (InvalidParameter "`l` decomposition failed")
  end.

(** proof.rs lines 251-257 / parallel/proof.rs lines 262-268 *)
Definition sigma_matrix (tm : timing) (n m : N) (l_decomposed : list N) : outcome proof_error (list (list scalar)) :=
  mapM (fun j => let* lj := index l_decomposed j in
                 Ok (map (fun i => delta lj (N.of_nat i) tm) (range n))) (range m).

(** `a[j as usize][i as usize]`: proof.rs line 270 *)
Definition index2 (mat : list (list scalar)) (j i : nat) : outcome proof_error scalar :=
  let* row := index mat j in index row i.

(** [Scalar::from(2u32)].  (proof.rs line 265.) *)
Definition s2 : scalar := smk 2.

(** proof.rs lines 265-273 / parallel/proof.rs lines 276-284 *)
Definition a_sigma_matrix (n m : N) (a sigma : list (list scalar)) : outcome proof_error (list (list scalar)) :=
  mapM (fun j => mapM (fun i => let* aji := index2 a j i in
                                let* sji := index2 sigma j i in
                                Ok (aji * (s1 - s2 * sji))%sc) (range n)) (range m).

(** proof.rs lines 282-288 / parallel/proof.rs lines 293-299 *)
Definition a_square_matrix (n m : N) (a : list (list scalar)) : outcome proof_error (list (list scalar)) :=
  mapM (fun j => mapM (fun i => let* aji := index2 a j i in Ok ((- aji) * aji)%sc) (range n)) (range m).

(** [slice::rotate_right(1)]: the last element moves to the front; panics on an empty slice.  (proof.rs line 336.) *)
Definition rotate_right1 (l : list scalar) : outcome proof_error (list scalar) :=
  match rev l with
  | [] => Panic
  | x :: r => Ok (x :: rev r)
  end.

(** proof.rs lines 326-347 / parallel/proof.rs lines 342-363: one convolution with the degree-one polynomial
    [a[j][k_j] + sigma[j][k_j] x] *)
Definition convolve (a sigma : list (list scalar)) (k_decomposed : list N) (j : nat) (coefficients : list scalar)
    : outcome proof_error (list scalar) :=
  let* kj := index k_decomposed j in
  let* a_jk := index2 a j (N.to_nat kj) in
  let degree_0_portion := map (fun c => (a_jk * c)%sc) coefficients in
  let* shifted_coefficients := rotate_right1 coefficients in
  let* sigma_jk := index2 sigma j (N.to_nat kj) in
  let degree_1_portion := map (fun c => (sigma_jk * c)%sc) shifted_coefficients in
  Ok (map (fun xy => (fst xy + snd xy)%sc) (combine degree_0_portion degree_1_portion)).

(** proof.rs lines 325-347 / parallel/proof.rs lines 341-363: the loop over the remaining rows *)
Fixpoint convolve_all (a sigma : list (list scalar)) (k_decomposed : list N) (js : list nat) (coefficients : list scalar)
    : outcome proof_error (list scalar) :=
  match js with
  | [] => Ok coefficients
  | j :: js' => let* c := convolve a sigma k_decomposed j coefficients in convolve_all a sigma k_decomposed js' c
  end.

(** proof.rs lines 312-347 / parallel/proof.rs lines 328-363: coefficients of the polynomial of one ring index *)
Definition poly_coefficients (m : N) (a sigma : list (list scalar)) (k_decomposed : list N)
    : outcome proof_error (list scalar) :=
  let* count := ok_or (checked_add usize_bound m 1) (InvalidParameter "polynomial degree overflowed") in
  let coefficients := repeat s0 (N.to_nat count) in
  let* k0 := index k_decomposed 0 in
  let* a0 := index2 a 0 (N.to_nat k0) in
  let* coefficients := vec_set coefficients 0 a0 in
  let* sigma0 := index2 sigma 0 (N.to_nat k0) in
  let* coefficients := vec_set coefficients 1 sigma0 in
  convolve_all a sigma k_decomposed (seq 1 (N.to_nat m - 1)) coefficients.

(** proof.rs lines 305-350 / parallel/proof.rs lines 321-366: the loop over the Gray iterator *)
Fixpoint p_loop (fuel : nat) (m : N) (a sigma : list (list scalar)) (it : gray_iter) (k_decomposed : list N)
    : outcome proof_error (list (list scalar)) :=
  match fuel with
  | O => OutOfFuel
  | S fuel' =>
      match gray_next it with
      | (None, _) => Ok []
      | (Some (gray_index, _, gray_new), it') =>
          let* k_decomposed := vec_set k_decomposed gray_index gray_new in
          let* coefficients := poly_coefficients m a sigma k_decomposed in
          let* rest := p_loop fuel' m a sigma it' k_decomposed in
          Ok (coefficients :: rest)
      end
  end.

(** proof.rs lines 302-350 / parallel/proof.rs lines 318-366 *)
Definition p_vector (n m : N) (a sigma : list (list scalar)) : outcome proof_error (list (list scalar)) :=
  let* it := ok_or (gray_new n m) (InvalidParameter "coefficient decomposition failed") in
  p_loop (S (N.to_nat (pow_u32 n m))) m a sigma it (repeat 0%N (N.to_nat m)).

(** [p.iter().map(|p| &p[j])].  (proof.rs line 358.) *)
Definition p_column (p : list (list scalar)) (j : nat) : outcome proof_error (list scalar) :=
  mapM (fun row => index row j) p.

(** [multiscalar_mul] or [vartime_multiscalar_mul], by timing.  (proof.rs lines 360-363.) *)
Definition msm (tm : timing) (ss : list scalar) (ps : list (pt E)) : outcome proof_error (pt E) :=
  match tm with
  | ConstantTime => multiscalar_mul ss ps
  | VariableTime => vartime_multiscalar_mul ss ps
  end.

(** proof.rs lines 352-365 / parallel/proof.rs lines 368-381: the vector [X] *)
Definition X_vector (tm : timing) (p : list (list scalar)) (M : list (pt E)) (G : pt E) (rho : list scalar)
    : outcome proof_error (list (pt E)) :=
  mapM (fun jr => let* col := p_column p (fst jr) in msm tm (col ++ [snd jr]) (M ++ [G]))
       (combine (seq 0 (length rho)) rho).

(** proof.rs lines 373-380 / parallel/proof.rs lines 406-413: the response matrix *)
Definition f_matrix (n m : N) (a sigma : list (list scalar)) (xi_powers : list scalar)
    : outcome proof_error (list (list scalar)) :=
  mapM (fun j => mapM (fun i => let* sji := index2 sigma j i in
                                let* xi := index xi_powers 1 in
                                let* aji := index2 a j i in
                                Ok (sji * xi + aji)%sc) (seq 1 (N.to_nat n - 1))) (range m).

(** proof.rs lines 385-389 / parallel/proof.rs lines 418-427: [r * xi^m - sum_j rho_j xi^j] *)
Definition z_response (m : N) (r : scalar) (rho xi_powers : list scalar) : outcome proof_error scalar :=
  let* xi_m := index xi_powers (N.to_nat m) in
  Ok (r * xi_m - ssum (map (fun rx => fst rx * snd rx) (combine rho xi_powers)))%sc.

(** * proof.rs: verifier *)

(** [itertools::all_equal] on hashes.  (proof.rs lines 571 and 578.) *)
Fixpoint all_equal (l : list bytes) : bool :=
  match l with
  | x :: (y :: _) as r => bytes_eqb x y && all_equal r
  | _ => true
  end.

(** proof.rs lines 605-615 / parallel/proof.rs lines 651-661 *)
Fixpoint check_rows (n : N) (rows : list (list scalar)) : outcome proof_error unit :=
  match rows with
  | [] => Ok tt
  | row :: rest =>
      let* cols := ok_or (checked_sub n 1) (InvalidParameter "proof `f` matrix column count overflowed") in
      if negb (N.of_nat (length row) =? cols)%N
      then Err (InvalidParameter "proof `f` matrix did not have `n - 1` columns")
      else check_rows n rest
  end.

(** proof.rs lines 696-704 / parallel/proof.rs lines 752-760 *)
Definition f_full (m : N) (xi_powers : list scalar) (f : list (list scalar)) : outcome proof_error (list (list scalar)) :=
  mapM (fun j => let* xi := index xi_powers 1 in
                 let* row := index f j in
                 Ok ((xi - ssum row)%sc :: row)) (range m).

(** proof.rs lines 706-713 / parallel/proof.rs lines 762-769 *)
Definition contains_zero (f : list (list scalar)) : bool := existsb (existsb (fun x => seqb x s0)) f.

(** proof.rs lines 733-739 / parallel/proof.rs lines 794-800: add the second vector into the first, as far
    as both go. *)
Fixpoint zip_add (acc add : list scalar) : list scalar :=
  match acc, add with
  | x :: acc', y :: add' => (x + y)%sc :: zip_add acc' add'
  | _, _ => acc
  end.

(** [chunks_exact(size)]; [k] bounds the number of chunks.  (proof.rs lines 779-781 and 916.) *)
Fixpoint chunks_loop {A} (k size : nat) (l : list A) : list (list A) :=
  match k with
  | O => []
  | S k' => if (size <=? length l)%nat then firstn size l :: chunks_loop k' size (skipn size l) else []
  end.
(** the same; a size of zero panics: proof.rs lines 779-781 *)
Definition chunks_exact {A} (size : nat) (l : list A) : outcome proof_error (list (list A)) :=
  match size with
  | O => Panic
  | _ => Ok (chunks_loop (length l / size) size l)
  end.

(** proof.rs lines 784-791 / parallel/proof.rs lines 850-861: the products along the Gray code, one for each of
    [count] ring positions as long as the iterator lasts. *)
Fixpoint f_products (count : nat) (f f_inverse : list (list scalar)) (it : gray_iter) (f_product : scalar)
    : outcome proof_error (list scalar) :=
  match count with
  | O => Ok []
  | S count' =>
      match gray_next it with
      | (None, _) => Ok []
      | (Some (gray_index, gray_old, gray_new), it') =>
          let* inv := index2 f_inverse gray_index (N.to_nat gray_old) in
          let* new := index2 f gray_index (N.to_nat gray_new) in
          let f_product := (f_product * (inv * new))%sc in
          let* rest := f_products count' f f_inverse it' f_product in
          Ok (f_product :: rest)
      end
  end.

(** proof.rs lines 769-792 / parallel/proof.rs lines 835-861: initial product, Gray iterator, inversion and
    loop; returns the list of products.  The loop body only adds multiples of the products to the
    accumulators, so the model first computes the products. *)
Definition all_f_products (n m : N) (count : nat) (f : list (list scalar)) : outcome proof_error (list scalar) :=
  let* firsts := mapM (fun row => index row 0) f in
  let* it := ok_or (gray_new n m) (InvalidParameter "coefficient decomposition failed") in
  let* f_inverse := chunks_exact (N.to_nat n) (batch_invert (concat f)) in
  f_products count f f_inverse it (sprod firsts).

(** * proof.rs: serialization *)

(** proof.rs line 34 / parallel/proof.rs line 32 *)
Definition SERIALIZED_BYTES : nat := 32.

(** proof.rs lines 861-872 / parallel/proof.rs lines 940-951: the next four bytes as a [u32]. *)
Definition parse_u32 (iter : bytes) : outcome proof_error (N * bytes) :=
  let bs := firstn 4 iter in
  if negb (Nat.eqb (length bs) 4) then Err FailedDeserialization
  else Ok (le_val bs, skipn 4 iter).

(** A [ChunksExact] iterator: the chunks left, and the fixed remainder.  (proof.rs line 916.) *)
Record chunks := { ch_left : list bytes; ch_remainder : bytes }.
(** `chunks_exact(SERIALIZED_BYTES)`: proof.rs line 916 *)
Definition chunks_of (bs : bytes) : chunks :=
  let k := (length bs / SERIALIZED_BYTES)%nat in
  {| ch_left := chunks_loop k SERIALIZED_BYTES bs; ch_remainder := skipn (k * SERIALIZED_BYTES) bs |}.
(** `chunks.next()`: proof.rs lines 876 and 888 *)
Definition next_chunk (c : chunks) : option (bytes * chunks) :=
  match ch_left c with
  | [] => None
  | x :: r => Some (x, {| ch_left := r; ch_remainder := ch_remainder c |})
  end.

(** proof.rs lines 874-884 / parallel/proof.rs lines 953-963 *)
Definition parse_scalar (c : chunks) : outcome proof_error (scalar * chunks) :=
  match next_chunk c with
  | None => Err FailedDeserialization
  | Some (bs, c') =>
      let* s := ok_or (scalar_from_canonical bs) FailedDeserialization in Ok (s, c')
  end.

(** proof.rs lines 886-900 / parallel/proof.rs lines 965-979 *)
Definition parse_point (c : chunks) : outcome proof_error (pt E * chunks) :=
  match next_chunk c with
  | None => Err FailedDeserialization
  | Some (bs, c') =>
      let* p := ok_or (decompress E bs) FailedDeserialization in Ok (p, c')
  end.

(** [(0..k).map(|_| parse(&mut chunks)).collect::<Result<Vec<_>, _>>()].  (proof.rs lines 928-933.) *)
Fixpoint parse_many {A} (parse : chunks -> outcome proof_error (A * chunks)) (k : nat) (c : chunks)
    : outcome proof_error (list A * chunks) :=
  match k with
  | O => Ok ([], c)
  | S k' =>
      let* (x, c1) := parse c in
      let* (xs, c2) := parse_many parse k' c1 in
      Ok (x :: xs, c2)
  end.

End Core.
