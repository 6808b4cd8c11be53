(** Model of src/parallel/parameters.rs.  Names are those of the model of src/parameters.rs: the two models
    are never imported together, as the two Rust modules are not. *)
From Verif Require Export Core.
Local Open Scope N_scope.

Section Params.
Context {E : env}.

(** parallel/parameters.rs lines 24-35 *)
Record params := mk_params {
  p_n : N;
  p_m : N;
  p_G : pt E;
  p_G1 : pt E;
  p_U : pt E;
  p_CommitmentG : list (pt E);
  p_CommitmentH : pt E;
  p_hash : bytes }.

(** parallel/parameters.rs lines 140-153: the transcript that is hashed *)
Definition params_transcript (n m : N) (G G1 U : pt E) (CG : list (pt E)) (CH : pt E) : transcript :=
  let t := transcript_new TRANSCRIPT_PARALLEL_PARAMETERS in
  let t := append_u64 t (b_ "version") VERSION in
  let t := append_message t (b_ "n") (le_bytes 4 n) in
  let t := append_message t (b_ "m") (le_bytes 4 m) in
  let t := append_message t (b_ "G") (compress E G) in
  let t := append_message t (b_ "G1") (compress E G1) in
  let t := append_message t (b_ "U") (compress E U) in
  let t := append_all t (b_ "CommitmentG") (map (compress E) CG) in
  append_message t (b_ "CommitmentH") (compress E CH).

(** parallel/parameters.rs lines 92-165 *)
Definition new_with_generators (n m : N) (G G1 U : pt E) : outcome parameter_error params :=
  if n <? 2 then Err (PE_InvalidParameter "`n < 2`")
  else if m <? 2 then Err (PE_InvalidParameter "`m < 2`")
  else match checked_pow u32_bound n m with
  | None => Err (PE_InvalidParameter "`n**m` overflowed `u32`")
  | Some _ =>
      let CommitmentH := commitment_H in
      let* count := ok_or (checked_mul u32_bound n m) (PE_InvalidParameter "`n*m` overflowed `u32`") in
      let CommitmentG := commitment_G n m count in
      let t := params_transcript n m G G1 U CommitmentG CommitmentH in
      let (hash, _) := challenge_bytes (E := E) t (b_ "hash") TRANSCRIPT_HASH_BYTES in
      Ok (mk_params n m G G1 U CommitmentG CommitmentH hash)
  end.

(** parallel/parameters.rs lines 56-78 *)
Definition params_new (n m : N) : outcome parameter_error params :=
  new_with_generators n m (basepoint E) default_G1 default_U.

(** parallel/parameters.rs lines 167-197 *)
Definition commit_matrix (p : params) (matrix : list (list scalar)) (mask : scalar) (tm : timing)
    : outcome parameter_error (pt E) :=
  commit_matrix_with (p_n p) (p_m p) (p_CommitmentG p) (p_CommitmentH p) matrix mask tm.

(** parallel/parameters.rs lines 199-261: accessors *)
Definition get_G (p : params) : pt E := p_G p.
(** parallel/parameters.rs lines 211-213 *)
Definition get_G1 (p : params) : pt E := p_G1 p.
(** parallel/parameters.rs lines 219-221 *)
Definition get_U (p : params) : pt E := p_U p.
(** parallel/parameters.rs lines 226-228 *)
Definition get_n (p : params) : N := p_n p.
(** parallel/parameters.rs lines 233-235 *)
Definition get_m (p : params) : N := p_m p.
(** parallel/parameters.rs lines 241-244 *)
Definition get_N (p : params) : N := pow_u32 (p_n p) (p_m p).
(** parallel/parameters.rs lines 248-250 *)
Definition get_CommitmentG (p : params) : list (pt E) := p_CommitmentG p.
(** parallel/parameters.rs lines 254-256 *)
Definition get_CommitmentH (p : params) : pt E := p_CommitmentH p.
(** parallel/parameters.rs lines 259-261 *)
Definition params_get_hash (p : params) : bytes := p_hash p.

(** parallel/parameters.rs line 25: derived [PartialEq] *)
Definition params_eqb (p q : params) : bool :=
  (p_n p =? p_n q) && (p_m p =? p_m q) && peqb E (p_G p) (p_G q) && peqb E (p_G1 p) (p_G1 q) && peqb E (p_U p) (p_U q) &&
  pts_eqb (p_CommitmentG p) (p_CommitmentG q) && peqb E (p_CommitmentH p) (p_CommitmentH q) &&
  bytes_eqb (p_hash p) (p_hash q).

End Params.
Arguments params : clear implicits.
