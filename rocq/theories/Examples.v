(** Concrete parameters, rings, witnesses, statements and proofs in toy environments, for the examples next to the theorems
    and for the refutations. *)
From Verif Require Export ToyEnv SpecPlainSound.
From Verif Require Import Algebra PlainFacts ProverFacts VerifierFacts Completeness Binding ProverApi.

(** Decides a disequality of literal scalars. *)
Ltac scalars_differ := let H := fresh in intros H; apply (f_equal sval) in H; vm_compute in H; discriminate.

Section Examples.
Context (P : transcript -> bytes -> N) (T : trng -> N).
Notation E := (toy P T).

Definition x_r : scalar := smk 12345.
Definition x_J : pt E := smk 99.
Definition x_G : pt E := s1.
(** [U] is chosen so that [x_J] is the linking tag of [x_r]. *)
Definition x_U : pt E := pmul E x_r x_J.

Definition x_params : params E :=
  mk_params 2 2 x_G x_U (commitment_G 2 2 4) commitment_H
    (prf E (params_transcript 2 2 x_G x_U (commitment_G 2 2 4) commitment_H) (b_ "hash") 32).
Lemma x_params_new : new_with_generators 2 2 x_G x_U = Ok x_params.
Proof. apply new_with_generators_ok. unfold valid_nm. repeat split; vm_compute; congruence. Qed.
Lemma x_params_made : made_params x_params.
Proof. eexists _, _, _, _. exact x_params_new. Qed.

(** A ring of four keys with the key of the witness at position [l]. *)
Definition x_ring (l : nat) : list (pt E) :=
  map (fun i => if Nat.eqb i l then pmul E x_r x_G else smk (7 + Z.of_nat i)) (seq 0 4).
Definition x_set (l : nat) : input_set E :=
  mk_input_set (x_ring l) (prf E (input_set_transcript (x_ring l) 4) (b_ "hash") 32).
Lemma x_set_made l : made_input_set (x_set l).
Proof. left. exists (x_ring l). reflexivity. Qed.

Definition x_statement (l : nat) : statement E :=
  mk_statement x_params (x_set l) x_J
    (prf E (statement_transcript (p_hash x_params) (is_hash (x_set l)) x_J) (b_ "hash") 32).
Lemma x_key_nonzero : ~ pmul E x_r x_G = pid E.
Proof. scalars_differ. Qed.
Lemma x_ring_no_identity l : ~ In (pid E) (x_ring l).
Proof.
  intros H. apply in_map_iff in H. destruct H as (i & Hi & Hin). apply in_seq in Hin.
  destruct (Nat.eqb i l); [exact (x_key_nonzero Hi)|].
  assert (Hc : (i = 0 \/ i = 1 \/ i = 2 \/ i = 3)%nat) by lia.
  destruct Hc as [->|[->|[->| ->]]]; revert Hi; scalars_differ.
Qed.
Lemma x_statement_new l : statement_new x_params (x_set l) x_J = Ok (x_statement l).
Proof.
  unfold statement_new. destruct (existsb _ (get_keys (x_set l))) eqn:Ee.
  - apply (existsb_peqb (toy_laws P T)) in Ee. destruct (x_ring_no_identity l Ee).
  - reflexivity.
Qed.
Lemma x_statement_made l : made_statement (x_statement l).
Proof. exists x_params, (x_set l), x_J. split; [exact x_params_made|]. split; [exact (x_set_made l)|]. exact (x_statement_new l). Qed.

Definition x_witness (l : nat) : witness E := mk_witness x_params (N.of_nat l) x_r.
Lemma x_r_nonzero : x_r <> s0.
Proof. scalars_differ. Qed.
Lemma x_witness_made l : (l < 4)%nat -> made_witness (x_witness l).
Proof.
  intros Hl. left. exists x_params, (N.of_nat l), x_r. split; [exact x_params_made|]. unfold witness_new.
  rewrite (proj2 (seqb_neq _ _) x_r_nonzero). change (get_N x_params) with 4%N. rewrite (proj2 (N.leb_gt _ _)) by lia. reflexivity.
Qed.
Lemma x_relation l : (l < 4)%nat -> relation (x_statement l) (N.of_nat l) x_r.
Proof.
  intros Hl. split; [|reflexivity]. rewrite Nat2N.id.
  change (get_keys (st_get_input_set (x_statement l))) with (x_ring l). unfold x_ring.
  rewrite nth_error_map. rewrite (nth_error_nth' _ 0%nat) by (rewrite seq_length; exact Hl).
  rewrite seq_nth by exact Hl. cbn [option_map]. rewrite Nat.add_0_l, Nat.eqb_refl. reflexivity.
Qed.

(** A caller's transcript. *)
Definition x_transcript (k : N) : transcript := append_u64 (transcript_new (b_ "example")) (b_ "message") k.

(** The proof the prover makes for position [l] with transcript number [k]; the external generator is a counter started at 5. *)
Definition x_seed : bytes := fst (rng_fill counter 5%N 32).
Definition x_xi (l : nat) (k : N) : scalar := prover_challenge (x_transcript k) (x_statement l) (x_witness l) x_seed.
Definition x_proof (l : nat) (k : N) : proof E :=
  honest_proof (x_statement l) (N.of_nat l) x_r (prover_coins (x_transcript k) (x_statement l) (x_witness l) x_seed) (x_xi l k).
(** The prover does not fail, and no response is zero. *)
Definition x_check (l : nat) (k : N) : bool :=
  (negb (seqb (x_xi l k) s0) && negb (contains_zero (complete (x_xi l k) (pf_f (x_proof l k)))))%bool.

Lemma x_proved l k : (l < 4)%nat -> x_xi l k <> s0 ->
  challenge (x_transcript k) (x_statement l) (x_proof l k) = x_xi l k /\
  prove_with_rng counter (x_witness l) (x_statement l) 5%N (x_transcript k)
    = (Ok (x_proof l k), prover_transcript (x_transcript k) (x_statement l) (x_proof l k), 7%N).
Proof.
  intros Hl Hx. pose proof (x_witness_made l Hl) as Hw. pose proof (x_statement_made l) as Hs.
  destruct (prove_cases (toy_laws P T) counter (x_witness l) (x_statement l) 5%N (x_transcript k) ConstantTime Hw Hs)
    as (_ & _ & _ & _ & H).
  exact (H eq_refl (x_relation l Hl) Hx).
Qed.
Lemma x_check_ok l k : x_check l k = true ->
  x_xi l k <> s0 /\ forall row, In row (complete (x_xi l k) (pf_f (x_proof l k))) -> ~ In s0 row.
Proof.
  unfold x_check. intros H. apply andb_true_iff in H. destruct H as [H1 H2].
  apply negb_true_iff in H1, H2. split; [apply seqb_neq; exact H1|].
  apply (proj2 (no_zero_spec (x_proof l k) (x_xi l k)) H2).
Qed.
Lemma x_valid l k : (l < 4)%nat -> x_check l k = true -> valid_proof (x_transcript k) (x_statement l) (x_proof l k).
Proof.
  intros Hl Hc. destruct (x_check_ok l k Hc) as [Hx Hz]. destruct (x_proved l k Hl Hx) as [Hch _].
  unfold valid_proof. rewrite Hch. split; [exact (honest_well_shaped (x_statement l) (N.of_nat l) x_r _ (x_xi l k))|]. split; [exact Hx|]. split; [exact Hz|].
  apply (honest_equations (toy_laws P T) (x_statement l) (N.of_nat l) x_r).
  - apply (made_statement_good (toy_laws P T)). apply x_statement_made.
  - apply x_relation. exact Hl.
  - apply (prover_coins_good (E := E)).
Qed.
Lemma x_fits l md b : (b <= 1000)%N -> fits md (st_get_params (x_statement l)) b.
Proof.
  intros Hb. split; [eapply N.le_lt_trans; [exact Hb|reflexivity]|]. right. unfold msm_size.
  change (get_n (st_get_params (x_statement l))) with 2%N. change (get_m (st_get_params (x_statement l))) with 2%N.
  change (get_N (st_get_params (x_statement l))) with 4%N. change (2 ^ 32)%N with 4294967296%N. lia.
Qed.

End Examples.

(** Two positions and two transcripts in the environment [E0]. *)
Lemma x_check_2_1 : x_check P0 T0 2 1 = true.
Proof. vm_compute. reflexivity. Qed.
Lemma x_check_2_2 : x_check P0 T0 2 2 = true.
Proof. vm_compute. reflexivity. Qed.
Lemma x_check_1_1 : x_check P0 T0 1 1 = true.
Proof. vm_compute. reflexivity. Qed.
