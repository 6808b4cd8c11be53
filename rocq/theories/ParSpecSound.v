(** Independent specification vocabulary, part 4: soundness of parallel Triptych. *)
From Verif Require Export ParSpec Extractor.

Section ParSpecSound.
Context {E : env}.

(** * Batches *)

(** All proofs of a batch satisfy the equations for rings [M] and [M1] and parameters [p]. *)
Definition all_equations (p : params E) (M M1 : list (pt E)) (sts : list (statement E)) (pfs : list (proof E)) (ts : list transcript) : Prop :=
  forall st pf t, In (st, pf, t) (combine (combine sts pfs) ts) -> equations p M M1 (st_get_offset st) (st_get_J st) pf (challenge t st pf).

(** The weights derived from a batch, none of which is zero, cancel the defects of a batch that has nonzero ones. *)
Definition weights_cancel (p : params E) (M M1 : list (pt E)) (sts : list (statement E)) (pfs : list (proof E)) (ts : list transcript) : Prop :=
  exists ws, batch_weights (E := E) 5 (length pfs) (weight_rng sts pfs ts) ws /\
    weighted_defects p M M1 sts pfs ts ws = pid E /\ ~ all_equations p M M1 sts pfs ts.

(** Weight [j] of proof [i] replaced by [w]. *)
Definition with_weight (h : nat -> nat -> scalar) (i j : nat) (w : scalar) (i' j' : nat) : scalar :=
  if (Nat.eqb i' i && Nat.eqb j' j)%bool then w else h i' j'.

(** * Extraction *)

Definition same_first_message (pf pf' : proof E) : Prop :=
  pf_A pf = pf_A pf' /\ pf_B pf = pf_B pf' /\ pf_C pf = pf_C pf' /\ pf_D pf = pf_D pf' /\
  pf_X pf = pf_X pf' /\ pf_X1 pf = pf_X1 pf' /\ pf_Y pf = pf_Y pf'.

(** A run: a challenge and the proof that answers it. *)
Definition answer_of (run : scalar * proof E) : answer :=
  mk_answer (fst run) (complete (fst run) (pf_f (snd run))) (pf_z_A (snd run)) (pf_z_C (snd run)).

(** A ring position and two signing keys, or a relation among the commitment generators. *)
Definition extract (p : params E) (runs : list (scalar * proof E)) : extraction (N * scalar * scalar) :=
  match extract_position (get_n p) (N.to_nat (get_m p)) (N.to_nat (get_N p)) (map answer_of runs) with
  | Broken cs => Broken cs
  | Witnessed l => Witnessed (l, extract_key (map fst runs) (map (fun run => pf_z (snd run)) runs),
                               extract_key (map fst runs) (map (fun run => pf_z1 (snd run)) runs))
  end.

(** * Two answers to one challenge *)
Definition response_difference (xi : scalar) (pf pf' : proof E) : list scalar :=
  vsub (opening_A (answer_of (xi, pf))) (opening_A (answer_of (xi, pf'))).
Definition square_difference (xi : scalar) (pf pf' : proof E) : list scalar :=
  vsub (opening_C (answer_of (xi, pf))) (opening_C (answer_of (xi, pf'))).

End ParSpecSound.
