(** Model of src/parameters.rs. *)
From Verif Require Export Core.
Local Open Scope N_scope.

Section Params.
Context {E : env}.

(** parameters.rs lines 24-34 *)
Record params := mk_params {
  p_n : N;
  p_m : N;
  p_G : pt E;
  p_U : pt E;
  p_CommitmentG : list (pt E);
  p_CommitmentH : pt E;
  p_hash : bytes }.

(** parameters.rs lines 124-136: the transcript that is hashed *)
Definition params_transcript (n m : N) (G U : pt E) (CG : list (pt E)) (CH : pt E) : transcript :=
  let t := transcript_new TRANSCRIPT_PARAMETERS in
  let t := append_u64 t (b_ "version") VERSION in
  let t := append_message t (b_ "n") (le_bytes 4 n) in
  let t := append_message t (b_ "m") (le_bytes 4 m) in
  let t := append_message t (b_ "G") (compress E G) in
  let t := append_message t (b_ "U") (compress E U) in
  let t := append_all t (b_ "CommitmentG") (map (compress E) CG) in
  append_message t (b_ "CommitmentH") (compress E CH).

(** parameters.rs lines 82-147 *)
Definition new_with_generators (n m : N) (G U : pt E) : outcome parameter_error params :=
  if n <? 2 then Err (PE_InvalidParameter "`n < 2`")
  else if m <? 2 then Err (PE_InvalidParameter "`m < 2`")
  else match checked_pow u32_bound n m with
  | None => Err (PE_InvalidParameter "`n**m` overflowed `u32`")
  | Some _ =>
      let CommitmentH := commitment_H in
      let* count := ok_or (checked_mul u32_bound n m) (PE_InvalidParameter "`n*m` overflowed `u32`") in
      let CommitmentG := commitment_G n m count in
      let t := params_transcript n m G U CommitmentG CommitmentH in
      let (hash, _) := challenge_bytes (E := E) t (b_ "hash") TRANSCRIPT_HASH_BYTES in
      Ok (mk_params n m G U CommitmentG CommitmentH hash)
  end.

(** parameters.rs lines 55-69 *)
Definition params_new (n m : N) : outcome parameter_error params :=
  new_with_generators n m (basepoint E) default_U.

(** parameters.rs lines 149-179 *)
Definition commit_matrix (p : params) (matrix : list (list scalar)) (mask : scalar) (tm : timing)
    : outcome parameter_error (pt E) :=
  commit_matrix_with (p_n p) (p_m p) (p_CommitmentG p) (p_CommitmentH p) matrix mask tm.

(** parameters.rs lines 181-235: accessors *)
Definition get_G (p : params) : pt E := p_G p.
(** parameters.rs lines 193-195 *)
Definition get_U (p : params) : pt E := p_U p.
(** parameters.rs lines 200-202 *)
Definition get_n (p : params) : N := p_n p.
(** parameters.rs lines 207-209 *)
Definition get_m (p : params) : N := p_m p.
(** parameters.rs lines 215-218 *)
Definition get_N (p : params) : N := pow_u32 (p_n p) (p_m p).
(** parameters.rs lines 222-224 *)
Definition get_CommitmentG (p : params) : list (pt E) := p_CommitmentG p.
(** parameters.rs lines 228-230 *)
Definition get_CommitmentH (p : params) : pt E := p_CommitmentH p.
(** parameters.rs lines 233-235 *)
Definition params_get_hash (p : params) : bytes := p_hash p.

(** parameters.rs line 25: derived [PartialEq] *)
Definition params_eqb (p q : params) : bool :=
  (p_n p =? p_n q) && (p_m p =? p_m q) && peqb E (p_G p) (p_G q) && peqb E (p_U p) (p_U q) &&
  pts_eqb (p_CommitmentG p) (p_CommitmentG q) && peqb E (p_CommitmentH p) (p_CommitmentH q) &&
  bytes_eqb (p_hash p) (p_hash q).

End Params.
Arguments params : clear implicits.
