(** Model of src/parallel/statement.rs. *)
From Verif Require Export ParParams.
Local Open Scope N_scope.

Section Statement.
Context {E : env}.

(** parallel/statement.rs lines 15-21 *)
Record input_set := mk_input_set { is_M : list (pt E); is_M1 : list (pt E); is_hash : bytes }.

(** parallel/statement.rs lines 95-104: the transcript that is hashed *)
Definition input_set_transcript (M M1 : list (pt E)) (unpadded_size : N) : transcript :=
  let t := transcript_new TRANSCRIPT_PARALLEL_INPUT_SET in
  let t := append_u64 t (b_ "version") VERSION in
  let t := append_message t (b_ "unpadded_size") (le_bytes 4 unpadded_size) in
  let t := append_all t (b_ "M") (map (compress E) M) in
  append_all t (b_ "M1") (map (compress E) M1).

(** parallel/statement.rs lines 87-113 *)
Definition new_internal (M M1 : list (pt E)) (unpadded_size : N) : outcome statement_error input_set :=
  let* unpadded_size := ok_or (checked u32_bound unpadded_size)
                              (SE_InvalidParameter "unpadded size overflowed `u32`") in
  let t := input_set_transcript M M1 unpadded_size in
  let (hash, _) := challenge_bytes (E := E) t (b_ "hash") TRANSCRIPT_HASH_BYTES in
  Ok (mk_input_set M M1 hash).

(** parallel/statement.rs lines 27-36 *)
Definition input_set_new (M M1 : list (pt E)) : outcome statement_error input_set :=
  if negb (length M =? length M1)%nat
  then Err (SE_InvalidParameter "`M` and `M1` did not have matching lengths")
  else new_internal M M1 (N.of_nat (length M)).

(** [M.last()].  (parallel/statement.rs lines 66-75.) *)
Definition last_opt {A} (l : list A) : option A :=
  match rev l with [] => None | x :: _ => Some x end.

(** parallel/statement.rs lines 48-85 *)
Definition input_set_new_with_padding (M M1 : list (pt E)) (p : params E) : outcome statement_error input_set :=
  if negb (length M =? length M1)%nat
  then Err (SE_InvalidParameter "`M` and `M1` did not have matching lengths")
  else
    let unpadded_size := N.of_nat (length M) in
    if get_N p <? unpadded_size then Err (SE_InvalidParameter "unpadded size exceeded `N`")
    else
      let* last := ok_or (last_opt M) (SE_InvalidParameter "`M` was empty") in
      let* last1 := ok_or (last_opt M1) (SE_InvalidParameter "`M1` was empty") in
      let M_padded := resize M (N.to_nat (get_N p)) last in
      let M1_padded := resize M1 (N.to_nat (get_N p)) last1 in
      new_internal M_padded M1_padded unpadded_size.

(** parallel/statement.rs lines 115-128 *)
Definition get_keys (s : input_set) : list (pt E) := is_M s.
(** parallel/statement.rs lines 121-123 *)
Definition get_auxiliary_keys (s : input_set) : list (pt E) := is_M1 s.
(** parallel/statement.rs lines 126-128 *)
Definition input_set_get_hash (s : input_set) : bytes := is_hash s.

(** parallel/statement.rs lines 136-144 *)
Record statement := mk_statement {
  st_params : params E;
  st_input_set : input_set;
  st_offset : pt E;
  st_J : pt E;
  st_hash : bytes }.

(** parallel/statement.rs lines 197-204: the transcript that is hashed *)
Definition statement_transcript (params_hash input_set_hash : bytes) (offset J : pt E) : transcript :=
  let t := transcript_new TRANSCRIPT_PARALLEL_STATEMENT in
  let t := append_u64 t (b_ "version") VERSION in
  let t := append_message t (b_ "params") params_hash in
  let t := append_message t (b_ "input_set") input_set_hash in
  let t := append_message t (b_ "offset") (compress E offset) in
  append_message t (b_ "J") (compress E J).

(** parallel/statement.rs lines 167-214 *)
Definition statement_new (p : params E) (s : input_set) (offset J : pt E) : outcome statement_error statement :=
  if negb (N.of_nat (length (get_keys s)) =? get_N p)
  then Err (SE_InvalidParameter "input vector size was not `N`")
  else if existsb (fun P => peqb E P (pid E)) (get_keys s)
  then Err (SE_InvalidParameter "input vector contained the identity point")
  else if existsb (fun P => peqb E P (pid E)) (map (fun P => psub P offset) (get_auxiliary_keys s))
  then Err (SE_InvalidParameter "input vector contained the identity point")
  else
    let t := statement_transcript (params_get_hash p) (input_set_get_hash s) offset J in
    let (hash, _) := challenge_bytes (E := E) t (b_ "hash") TRANSCRIPT_HASH_BYTES in
    Ok (mk_statement p s offset J hash).

(** parallel/statement.rs lines 216-240 *)
Definition st_get_params (s : statement) := st_params s.
(** parallel/statement.rs lines 222-224 *)
Definition st_get_input_set (s : statement) := st_input_set s.
(** parallel/statement.rs lines 227-229 *)
Definition st_get_offset (s : statement) := st_offset s.
(** parallel/statement.rs lines 233-235 *)
Definition st_get_J (s : statement) := st_J s.
(** parallel/statement.rs lines 238-240 *)
Definition st_get_hash (s : statement) := st_hash s.

End Statement.
Arguments input_set : clear implicits.
Arguments statement : clear implicits.
