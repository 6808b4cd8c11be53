(** Model of src/statement.rs. *)
From Verif Require Export Params.
Local Open Scope N_scope.

Section Statement.
Context {E : env}.

(** statement.rs lines 15-20 *)
Record input_set := mk_input_set { is_M : list (pt E); is_hash : bytes }.

(** statement.rs lines 68-74: the transcript that is hashed *)
Definition input_set_transcript (M : list (pt E)) (unpadded_size : N) : transcript :=
  let t := transcript_new TRANSCRIPT_INPUT_SET in
  let t := append_u64 t (b_ "version") VERSION in
  let t := append_message t (b_ "unpadded_size") (le_bytes 4 unpadded_size) in
  append_all t (b_ "M") (map (compress E) M).

(** statement.rs lines 60-82 *)
Definition new_internal (M : list (pt E)) (unpadded_size : N) : outcome statement_error input_set :=
  let* unpadded_size := ok_or (checked u32_bound unpadded_size)
                              (SE_InvalidParameter "unpadded size overflowed `u32`") in
  let t := input_set_transcript M unpadded_size in
  let (hash, _) := challenge_bytes (E := E) t (b_ "hash") TRANSCRIPT_HASH_BYTES in
  Ok (mk_input_set M hash).

(** statement.rs lines 24-27 *)
Definition input_set_new (M : list (pt E)) : outcome statement_error input_set :=
  new_internal M (N.of_nat (length M)).

(** [M.last()].  (statement.rs lines 49-51.) *)
Definition last_opt {A} (l : list A) : option A :=
  match rev l with [] => None | x :: _ => Some x end.

(** statement.rs lines 36-58 *)
Definition input_set_new_with_padding (M : list (pt E)) (p : params E) : outcome statement_error input_set :=
  let unpadded_size := N.of_nat (length M) in
  if get_N p <? unpadded_size then Err (SE_InvalidParameter "unpadded size exceeded `N`")
  else
    let* last := ok_or (last_opt M) (SE_InvalidParameter "`M` is empty") in
    let M_padded := resize M (N.to_nat (get_N p)) last in
    new_internal M_padded unpadded_size.

(** statement.rs lines 84-92 *)
Definition get_keys (s : input_set) : list (pt E) := is_M s.
(** statement.rs lines 90-92 *)
Definition input_set_get_hash (s : input_set) : bytes := is_hash s.

(** statement.rs lines 99-106 *)
Record statement := mk_statement {
  st_params : params E;
  st_input_set : input_set;
  st_J : pt E;
  st_hash : bytes }.

(** statement.rs lines 147-152: the transcript that is hashed *)
Definition statement_transcript (params_hash input_set_hash : bytes) (J : pt E) : transcript :=
  let t := transcript_new TRANSCRIPT_STATEMENT in
  let t := append_u64 t (b_ "version") VERSION in
  let t := append_message t (b_ "params") params_hash in
  let t := append_message t (b_ "input_set") input_set_hash in
  append_message t (b_ "J") (compress E J).

(** statement.rs lines 129-162 *)
Definition statement_new (p : params E) (s : input_set) (J : pt E) : outcome statement_error statement :=
  if negb (N.of_nat (length (get_keys s)) =? get_N p)
  then Err (SE_InvalidParameter "input vector length was not `N`")
  else if existsb (fun P => peqb E P (pid E)) (get_keys s)
  then Err (SE_InvalidParameter "input vector contained the identity point")
  else
    let t := statement_transcript (params_get_hash p) (input_set_get_hash s) J in
    let (hash, _) := challenge_bytes (E := E) t (b_ "hash") TRANSCRIPT_HASH_BYTES in
    Ok (mk_statement p s J hash).

(** statement.rs lines 164-184 *)
Definition st_get_params (s : statement) := st_params s.
(** statement.rs lines 170-172 *)
Definition st_get_input_set (s : statement) := st_input_set s.
(** statement.rs lines 176-178 *)
Definition st_get_J (s : statement) := st_J s.
(** statement.rs lines 181-183 *)
Definition st_get_hash (s : statement) := st_hash s.

End Statement.
Arguments input_set : clear implicits.
Arguments statement : clear implicits.
