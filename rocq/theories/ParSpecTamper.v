(** Independent specification vocabulary: batches of parallel proofs in which exactly one verification equation of one proof fails. *)
From Verif Require Export ParSpec.

Section ParSpecTamper.
Context {E : env}.

(** A proof of the right shape, with a nonzero challenge and nonzero responses, that satisfies all verification equations
    but one. *)
Definition one_failed_equation (t : transcript) (st : statement E) (pf : proof E) : Prop :=
  well_shaped (st_get_params st) pf /\ nondegenerate t st pf /\
  exists before d after,
    defects (st_get_params st) (get_keys (st_get_input_set st)) (get_auxiliary_keys (st_get_input_set st))
      (st_get_offset st) (st_get_J st) pf (challenge t st pf) = before ++ d :: after /\
    d <> pid E /\ Forall (fun x => x = pid E) before /\ Forall (fun x => x = pid E) after.

(** All proofs of a batch are valid except the one at [i], of which one equation fails. *)
Definition lone_failure (sts : list (statement E)) (pfs : list (proof E)) (ts : list transcript) (i : nat) : Prop :=
  (exists st pf t, member sts pfs ts i st pf t /\ one_failed_equation t st pf) /\
  (forall k st pf t, k <> i -> member sts pfs ts k st pf t -> valid_proof t st pf).

(** A proof with one response replaced. *)
Definition with_z_A (pf : proof E) (x : scalar) : proof E :=
  mk_proof (pf_A pf) (pf_B pf) (pf_C pf) (pf_D pf) (pf_X pf) (pf_X1 pf) (pf_Y pf) (pf_f pf) x (pf_z_C pf) (pf_z pf) (pf_z1 pf).
Definition with_z_C (pf : proof E) (x : scalar) : proof E :=
  mk_proof (pf_A pf) (pf_B pf) (pf_C pf) (pf_D pf) (pf_X pf) (pf_X1 pf) (pf_Y pf) (pf_f pf) (pf_z_A pf) x (pf_z pf) (pf_z1 pf).
Definition with_z (pf : proof E) (x : scalar) : proof E :=
  mk_proof (pf_A pf) (pf_B pf) (pf_C pf) (pf_D pf) (pf_X pf) (pf_X1 pf) (pf_Y pf) (pf_f pf) (pf_z_A pf) (pf_z_C pf) x (pf_z1 pf).
Definition with_z1 (pf : proof E) (x : scalar) : proof E :=
  mk_proof (pf_A pf) (pf_B pf) (pf_C pf) (pf_D pf) (pf_X pf) (pf_X1 pf) (pf_Y pf) (pf_f pf) (pf_z_A pf) (pf_z_C pf) (pf_z pf) x.

End ParSpecTamper.
