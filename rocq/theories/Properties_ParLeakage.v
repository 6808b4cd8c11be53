(** Property C103: what the timing of the provers of Parallel Triptych can reveal. *)
From Verif Require Import ParSpecSound Algebra ParFacts ParProverFacts ParCompleteness ParCodecFacts ParProverApi ParBinding ParExamples ParLeakRun
  Properties_ParParams Properties_ParInputs.

(** The traces of [ParLeak.v] are traces of the prover of the model: apart from the trace, the instrumented prover returns the same
    result, transcript and generator, in both modes. *)
Theorem C103_traces_of_the_prover :
  forall (E : env) (R : Type) (ro : rng_ops R) (w : witness E) (st : statement E) (rng : R) (t : transcript),
    value (t_prove_internal ro w st rng t ConstantTime) = prove_with_rng ro w st rng t /\
    value (t_prove_internal ro w st rng t VariableTime) = prove_with_rng_vartime ro w st rng t.
Proof. intros. split; apply t_prove_internal_erase. Qed.
Print Assumptions C103_traces_of_the_prover.

(** The constant-time prover: two runs with parameters of the same sizes and the same kind of result (a proof, or the same error) have
    the same trace of branches, indices, sizes and variable-time operands, whatever the keys, indices, rings, linking tags, offsets, generators
    of the parameters, transcripts and random number generators. *)
Theorem C103_constant_time :
  forall (E : env), env_laws E -> forall (R R' : Type) (ro : rng_ops R) (ro' : rng_ops R')
      (w w' : witness E) (st st' : statement E) (rng : R) (rng' : R') (t t' : transcript),
    made_witness w -> made_statement st -> made_witness w' -> made_statement st' ->
    get_n (st_get_params st) = get_n (st_get_params st') -> get_m (st_get_params st) = get_m (st_get_params st') ->
    match fst (fst (prove_with_rng ro w st rng t)), fst (fst (prove_with_rng ro' w' st' rng' t')) with
    | Ok _, Ok _ => True | Err e, Err e' => e = e' | _, _ => False end ->
    leak_prove_with_rng ro w st rng t = leak_prove_with_rng ro' w' st' rng' t'.
Proof.
  intros E L R R' ro ro' w w' st st' rng rng' t t' Hw Hst Hw' Hst' Hn Hm H. apply (run_trace L); try assumption.
  rewrite !t_prove_internal_erase. exact H.
Qed.
Print Assumptions C103_constant_time.

(** The variable-time prover does not have this property: its trace determines the witness index. *)
Theorem C103_variable_time_reveals_index :
  forall (E : env), env_laws E -> forall (R R' : Type) (ro : rng_ops R) (ro' : rng_ops R')
      (w w' : witness E) (st st' : statement E) (rng : R) (rng' : R') (t t' : transcript),
    w_get_params w = st_get_params st -> w_get_params w' = st_get_params st' ->
    leak_prove_with_rng_vartime ro w st rng t = leak_prove_with_rng_vartime ro' w' st' rng' t' ->
    w_get_l w = w_get_l w'.
Proof.
  intros E L R R' ro ro' w w' st st' rng rng' t t' Hp Hp' H. apply (params_eqb_eq L) in Hp, Hp'.
  assert (Hf : forall R (ro : rng_ops R) (w : witness E) (st : statement E) rng t, params_eqb (w_get_params w) (st_get_params st) = true ->
            nth_error (leak_prove_with_rng_vartime ro w st rng t) 1 = Some (Access (N.to_nat (w_get_l w)))).
  { clear. intros R ro w st rng t Hp. unfold leak_prove_with_rng_vartime, t_prove_internal. rewrite tbind_leak.
    unfold t_prove_checks. rewrite tout_check_leak, Hp. cbn [negb]. cbv zeta.
    unfold tout at 1. rewrite tbind_leak. reflexivity. }
  apply (f_equal (fun l => nth_error l 1)) in H. rewrite (Hf _ _ _ _ _ _ Hp), (Hf _ _ _ _ _ _ Hp') in H.
  injection H as H. apply N2Nat.inj. exact H.
Qed.
Print Assumptions C103_variable_time_reveals_index.

(** One statement, a ring padded with the keys of the signer, and the two indices 1 and 3 at which these keys are found.  Both give
    proofs; the constant-time traces agree, the variable-time traces do not. *)
Definition z_key : pt E0 := pmul E0 x_r (x_G P0 T0).
Definition z_key1 : pt E0 := padd E0 (x_offset P0 T0) (pmul E0 x_r1 (x_G1 P0 T0)).
Definition z_ring : list (pt E0) := [smk 7; z_key; z_key; z_key].
Definition z_ring1 : list (pt E0) := [smk 1007; z_key1; z_key1; z_key1].
Definition z_set : input_set E0 := mk_input_set z_ring z_ring1 (prf E0 (input_set_transcript (E := E0) z_ring z_ring1 2) (b_ "hash") 32).
Definition z_statement : statement E0 :=
  mk_statement (x_params P0 T0) z_set (x_offset P0 T0) (x_J P0 T0)
    (prf E0 (statement_transcript (p_hash (x_params P0 T0)) (is_hash z_set) (x_offset P0 T0) (x_J P0 T0)) (b_ "hash") 32).
Lemma z_set_padded : input_set_new_with_padding (E := E0) [smk 7; z_key] [smk 1007; z_key1] (x_params P0 T0) = Ok z_set.
Proof. reflexivity. Qed.
Lemma z_statement_made : made_statement z_statement.
Proof.
  exists (x_params P0 T0), z_set, (x_offset P0 T0), (x_J P0 T0). split; [exact (x_params_made P0 T0)|].
  split; [right; exists [smk 7; z_key], [smk 1007; z_key1], (x_params P0 T0); split; [exact (x_params_made P0 T0)|exact z_set_padded]|].
  unfold statement_new. destruct (existsb _ (get_keys z_set)) eqn:Ee.
  { apply (existsb_peqb L0) in Ee. exfalso. cbn [z_set get_keys is_M z_ring In] in Ee.
    destruct Ee as [Ee|Ee]; [revert Ee; scalars_differ|]. pose proof (x_key_nonzero P0 T0 : ~ z_key = _) as Hk. tauto. }
  destruct (existsb _ (map _ (get_auxiliary_keys z_set))) eqn:Ee1; [|reflexivity].
  apply (existsb_peqb L0) in Ee1. exfalso. apply in_map_iff in Ee1. destruct Ee1 as (Q & HQ & Hin).
  apply (proj1 (psub_0 L0 Q (x_offset P0 T0))) in HQ. subst Q. cbn [z_set get_auxiliary_keys is_M1 z_ring1 In] in Hin.
  assert (Hk : z_key1 <> x_offset P0 T0) by scalars_differ.
  destruct Hin as [Hin|Hin]; [revert Hin; scalars_differ|]. tauto.
Qed.
Definition z_proves (l : nat) : bool :=
  negb (seqb (prover_challenge (E := E0) (x_transcript 1) z_statement (x_witness P0 T0 l) (fst (rng_fill counter 5%N 32))) s0).
Lemma z_proved l : (l < 4)%nat -> nth_error z_ring l = Some z_key -> nth_error z_ring1 l = Some z_key1 -> z_proves l = true ->
  exists pf, fst (fst (prove_with_rng counter (x_witness P0 T0 l) z_statement 5%N (x_transcript 1))) = Ok pf.
Proof.
  intros Hl Hk Hk1 Hx. apply negb_true_iff in Hx. apply seqb_neq in Hx.
  apply (prove_ok_iff L0 counter _ _ 5%N (x_transcript 1) (x_witness_made P0 T0 l Hl) z_statement_made).
  split; [reflexivity|]. split; [|exact Hx]. split; [|split; [|reflexivity]].
  - unfold x_witness, w_get_l. cbn [w_l]. rewrite Nat2N.id. exact Hk.
  - exists z_key1. unfold x_witness, w_get_l. cbn [w_l]. rewrite Nat2N.id. split; [exact Hk1|].
    change (get_G1 (st_get_params z_statement)) with (x_G1 P0 T0). change (st_get_offset z_statement) with (x_offset P0 T0). unfold z_key1, w_get_r1. cbn [w_r1].
    generalize (pmul E0 x_r1 (x_G1 P0 T0)). generalize (x_offset P0 T0). intros o q. module L0.
Qed.
Example C103_example : exists (w w' : witness E0) (st : statement E0),
  made_witness w /\ made_witness w' /\ made_statement st /\ w_get_l w <> w_get_l w' /\
  (exists pf, fst (fst (prove_with_rng counter w st 5%N (x_transcript 1))) = Ok pf) /\
  (exists pf, fst (fst (prove_with_rng counter w' st 5%N (x_transcript 1))) = Ok pf) /\
  leak_prove_with_rng counter w st 5%N (x_transcript 1) = leak_prove_with_rng counter w' st 5%N (x_transcript 1) /\
  leak_prove_with_rng_vartime counter w st 5%N (x_transcript 1) <> leak_prove_with_rng_vartime counter w' st 5%N (x_transcript 1).
Proof.
  pose proof (x_witness_made P0 T0 1 ltac:(lia)) as Hw. pose proof (x_witness_made P0 T0 3 ltac:(lia)) as Hw'.
  destruct (z_proved 1 ltac:(lia) eq_refl eq_refl ltac:(vm_compute; reflexivity)) as [pf Hp].
  destruct (z_proved 3 ltac:(lia) eq_refl eq_refl ltac:(vm_compute; reflexivity)) as [pf' Hp'].
  exists (x_witness P0 T0 1), (x_witness P0 T0 3), z_statement.
  split; [exact Hw|]. split; [exact Hw'|]. split; [exact z_statement_made|]. split; [discriminate|].
  split; [exists pf; exact Hp|]. split; [exists pf'; exact Hp'|]. split.
  - refine (C103_constant_time E0 L0 _ _ counter counter _ _ _ _ _ _ _ _ Hw z_statement_made Hw' z_statement_made eq_refl eq_refl _).
    rewrite Hp, Hp'. exact I.
  - intros H. apply (C103_variable_time_reveals_index E0 L0) in H; [discriminate|reflexivity|reflexivity].
Qed.
