(** Properties C15 to C21: the prover. *)
From Verif Require Import SpecPlainSound PlainFacts ProverFacts Completeness CodecFacts ProverApi Binding Examples
  Properties_Params Properties_Inputs.

(** Everything the prover does, case by case: the four refusals and the proof.  The cases are exhaustive.  [seed] is what the
    first of its two requests to the external generator returns, and [rng2] the state of that generator after the second. *)
Theorem C15_prove_exactly :
  forall (E : env), env_laws E -> forall (R : Type) (ro : rng_ops R) (w : witness E) (st : statement E) (rng : R) (t : transcript),
    made_witness w -> made_statement st ->
    let seed := fst (rng_fill ro rng 32) in
    let rng2 := snd (rng_fill ro (snd (rng_fill ro rng 32)) 32) in
    let xi := prover_challenge t st w seed in
    let pf := honest_proof st (w_get_l w) (w_get_r w) (prover_coins t st w seed) xi in
    (w_get_params w <> st_get_params st ->
       prove_with_rng ro w st rng t = (Err (InvalidParameter "witness and statement parameters did not match"), t, rng)) /\
    (w_get_params w = st_get_params st ->
     nth_error (get_keys (st_get_input_set st)) (N.to_nat (w_get_l w)) <> Some (pmul E (w_get_r w) (get_G (st_get_params st))) ->
       prove_with_rng ro w st rng t = (Err (InvalidParameter "`M[l] != r * G`"), t, rng)) /\
    (w_get_params w = st_get_params st ->
     nth_error (get_keys (st_get_input_set st)) (N.to_nat (w_get_l w)) = Some (pmul E (w_get_r w) (get_G (st_get_params st))) ->
     pmul E (w_get_r w) (st_get_J st) <> get_U (st_get_params st) ->
       prove_with_rng ro w st rng t = (Err (InvalidParameter "`r * J != U`"), t, rng)) /\
    (w_get_params w = st_get_params st -> relation st (w_get_l w) (w_get_r w) -> xi = s0 ->
       prove_with_rng ro w st rng t = (Err InvalidChallenge, prover_transcript t st pf, rng2)) /\
    (w_get_params w = st_get_params st -> relation st (w_get_l w) (w_get_r w) -> xi <> s0 ->
       challenge t st pf = xi /\ prove_with_rng ro w st rng t = (Ok pf, prover_transcript t st pf, rng2)).
Proof.
  intros E L R ro w st rng t Hw Hst seed rng2 xi pf.
  exact (prove_cases L ro w st rng t ConstantTime Hw Hst).
Qed.
Print Assumptions C15_prove_exactly.
(** Every case occurs: a proof... *)
Example C15_example : exists (w : witness E0) st, made_witness w /\ made_statement st /\ w_get_l w = 2%N /\
  relation st (w_get_l w) (w_get_r w) /\ prover_challenge (x_transcript 1) st w (fst (rng_fill counter 5%N 32)) <> s0 /\
  exists pf t', prove_with_rng counter w st 5%N (x_transcript 1) = (Ok pf, t', 7%N).
Proof.
  destruct (x_check_ok P0 T0 2 1 x_check_2_1) as [Hx _]. destruct (x_proved P0 T0 2 1 ltac:(lia) Hx) as [_ Hp].
  exists (x_witness P0 T0 2), (x_statement P0 T0 2).
  split; [exact (x_witness_made P0 T0 2 ltac:(lia))|]. split; [exact (x_statement_made P0 T0 2)|]. split; [reflexivity|].
  split; [exact (x_relation P0 T0 2 ltac:(lia))|]. split; [exact Hx|]. eexists _, _. exact Hp.
Qed.
(** ... the three refusals: other parameters, another position, another tag... *)
Lemma with_other_tag {E : env} (L : env_laws E) (p : params E) s J J' st : made_params p -> made_input_set s ->
  statement_new p s J = Ok st -> exists st', made_statement st' /\ statement_new p s J' = Ok st' /\
    st_get_params st' = p /\ st_get_input_set st' = s /\ st_get_J st' = J'.
Proof.
  intros Hp Hs H. destruct (C13_statement_accepted_exactly E L p s J Hp) as (_ & H2 & H3).
  destruct (C13_statement_accepted_exactly E L p s J' Hp) as (H1 & _ & _).
  destruct (N.eq_dec (N.of_nat (length (get_keys s))) (get_n p ^ get_m p)) as [Hl|Hl]; [|rewrite (H2 Hl) in H; discriminate].
  destruct (existsb (fun P => peqb E P (pid E)) (get_keys s)) eqn:Ee.
  - apply (existsb_peqb L) in Ee. rewrite (H3 Hl Ee) in H. discriminate.
  - assert (Hid : ~ In (pid E) (get_keys s)) by (intros Hc; apply (existsb_peqb L) in Hc; congruence).
    destruct (H1 Hl Hid) as (st' & Hst & Ha & Hb & Hc). exists st'. split; [exists p, s, J'; repeat split; assumption|]. repeat split; assumption.
Qed.
Example C15_refusals_example : exists (w w1 : witness E0) st st' t, made_witness w /\ made_witness w1 /\ made_statement st /\ made_statement st' /\
  relation st (w_get_l w) (w_get_r w) /\ w_get_r w1 = w_get_r w /\
  prove_with_rng counter w1 st 5%N t = (Err (InvalidParameter "`M[l] != r * G`"), t, 5%N) /\
  prove_with_rng counter w st' 5%N t = (Err (InvalidParameter "`r * J != U`"), t, 5%N).
Proof.
  destruct (with_other_tag L0 (x_params P0 T0) (x_set P0 T0 2) (x_J P0 T0) (smk 100) _ (x_params_made P0 T0) (x_set_made P0 T0 2) (x_statement_new P0 T0 2))
    as (st' & Hm & _ & Hp & Hs & HJ).
  exists (x_witness P0 T0 2), (x_witness P0 T0 1), (x_statement P0 T0 2), st', (x_transcript 1).
  assert (Hw := x_witness_made P0 T0 2 ltac:(lia)). assert (Hw1 := x_witness_made P0 T0 1 ltac:(lia)).
  split; [exact Hw|]. split; [exact Hw1|]. split; [exact (x_statement_made P0 T0 2)|]. split; [exact Hm|].
  split; [exact (x_relation P0 T0 2 ltac:(lia))|]. split; [reflexivity|]. split.
  - apply (C15_prove_exactly E0 L0 N counter (x_witness P0 T0 1) (x_statement P0 T0 2) 5%N (x_transcript 1) Hw1 (x_statement_made P0 T0 2)); [reflexivity|].
    intros H. apply (f_equal (option_map sval)) in H. revert H. vm_compute. discriminate.
  - apply (C15_prove_exactly E0 L0 N counter (x_witness P0 T0 2) st' 5%N (x_transcript 1) Hw Hm).
    + rewrite Hp. reflexivity.
    + rewrite Hp, Hs. exact (proj1 (x_relation P0 T0 2 ltac:(lia))).
    + rewrite Hp, HJ. intros H. apply (f_equal sval) in H. revert H. vm_compute. discriminate.
Qed.
Example C15_other_parameters_example : exists (w : witness E0) st t, made_witness w /\ made_statement st /\
  get_n (w_get_params w) = get_n (st_get_params st) /\ get_m (w_get_params w) = get_m (st_get_params st) /\
  prove_with_rng counter w st 5%N t = (Err (InvalidParameter "witness and statement parameters did not match"), t, 5%N).
Proof.
  destruct (proj1 (C01_parameters_accepted_exactly E0 2 2 (smk 1) (smk 4)) ltac:(unfold valid_nm; repeat split; vm_compute; congruence)) as [p Hp].
  destruct (C02_parameters_exact _ _ _ _ _ _ Hp) as (Hn & Hm & HG & HU & _).
  assert (Hmp : made_params p) by (eexists _, _, _, _; exact Hp).
  destruct (proj1 (C07_witness_accepted_exactly E0 p 2 x_r Hmp) x_r_nonzero) as (w & Hw & Hwp & _).
  { rewrite Hn, Hm. reflexivity. }
  assert (Hmw : made_witness w) by (left; exists p, 2%N, x_r; split; assumption).
  exists w, (x_statement P0 T0 2), (x_transcript 1). split; [exact Hmw|]. split; [exact (x_statement_made P0 T0 2)|].
  rewrite Hwp. split; [exact Hn|]. split; [exact Hm|].
  apply (C15_prove_exactly E0 L0 N counter w (x_statement P0 T0 2) 5%N (x_transcript 1) Hmw (x_statement_made P0 T0 2)).
  rewrite Hwp. intros H. assert (Hx : smk 4 = x_U P0 T0) by (rewrite <- HU, H; reflexivity).
  apply (f_equal sval) in Hx. revert Hx. vm_compute. discriminate.
Qed.
(** ... and a challenge that comes out zero, with a Merlin output that is constant. *)
Example C15_zero_challenge_example : exists (w : witness (toy (fun _ _ => 0%N) T0)) st t', made_witness w /\ made_statement st /\
  relation st (w_get_l w) (w_get_r w) /\ prove_with_rng counter w st 5%N (x_transcript 1) = (Err InvalidChallenge, t', 7%N).
Proof.
  pose (P := fun (_ : transcript) (_ : bytes) => 0%N). pose proof (toy_laws P T0) as L.
  exists (x_witness P T0 2), (x_statement P T0 2). eexists.
  assert (Hw := x_witness_made P T0 2 ltac:(lia)).
  split; [exact Hw|]. split; [exact (x_statement_made P T0 2)|].
  split; [exact (x_relation P T0 2 ltac:(lia))|].
  assert (Hz : forall t (st : statement (toy P T0)) pf, challenge t st pf = s0).
  { intros t st pf. unfold challenge. change (scalar_from_wide (le_bytes 64 0) = s0). apply scalar_ext. vm_compute. reflexivity. }
  exact (proj1 (proj2 (proj2 (proj2 (C15_prove_exactly _ L N counter (x_witness P T0 2) (x_statement P T0 2) 5%N (x_transcript 1) Hw (x_statement_made P T0 2)))))
    eq_refl (x_relation P T0 2 ltac:(lia)) (Hz _ _ _)).
Qed.

(** C15, in one line. *)
Theorem C15_proof_iff_relation :
  forall (E : env), env_laws E -> forall (R : Type) (ro : rng_ops R) (w : witness E) (st : statement E) (rng : R) (t : transcript),
    made_witness w -> made_statement st ->
    ((exists pf, fst (fst (prove_with_rng ro w st rng t)) = Ok pf) <->
     w_get_params w = st_get_params st /\ relation st (w_get_l w) (w_get_r w) /\
     prover_challenge t st w (fst (rng_fill ro rng 32)) <> s0).
Proof. intros E L R ro w st rng t Hw Hst. apply (prove_ok_iff L); assumption. Qed.
Print Assumptions C15_proof_iff_relation.

(** C16 *)
Theorem C16_prover_total :
  forall (E : env), env_laws E -> forall (R : Type) (ro : rng_ops R) (w : witness E) (st : statement E) (rng : R) (t : transcript),
    made_witness w -> made_statement st ->
    (exists pf, fst (fst (prove_with_rng ro w st rng t)) = Ok pf) \/
    (exists e, fst (fst (prove_with_rng ro w st rng t)) = Err e /\
       (e = InvalidChallenge \/ e = InvalidParameter "witness and statement parameters did not match" \/
        e = InvalidParameter "`M[l] != r * G`" \/ e = InvalidParameter "`r * J != U`")).
Proof. intros E L R ro w st rng t Hw Hst. apply (prove_total L); assumption. Qed.
Print Assumptions C16_prover_total.

(** C17 *)
Theorem C17_timing_equivalence :
  forall (E : env), env_laws E -> forall (R : Type) (ro : rng_ops R) (w : witness E) (st : statement E) (rng : R) (t : transcript),
    made_witness w -> made_statement st ->
    prove_with_rng ro w st rng t = prove_with_rng_vartime ro w st rng t.
Proof. intros E L R ro w st rng t Hw Hst. apply (prove_timing L); assumption. Qed.
Print Assumptions C17_timing_equivalence.

(** C18 *)
Theorem C18_refusal_has_no_effect :
  forall (E : env), env_laws E -> forall (R : Type) (ro : rng_ops R) (w : witness E) (st : statement E) (rng : R) (t : transcript),
    made_witness w -> made_statement st ->
    (w_get_params w <> st_get_params st \/ ~ relation st (w_get_l w) (w_get_r w)) ->
    exists reason, prove_with_rng ro w st rng t = (Err (InvalidParameter reason), t, rng).
Proof. intros E L R ro w st rng t Hw Hst. apply (prove_refused L); assumption. Qed.
Print Assumptions C18_refusal_has_no_effect.

(** C19 *)
Theorem C19_proof_shape :
  forall (E : env), env_laws E -> forall (R : Type) (ro : rng_ops R) (w : witness E) (st : statement E) (rng : R) (t : transcript) pf t' rng',
    made_witness w -> made_statement st -> prove_with_rng ro w st rng t = (Ok pf, t', rng') ->
    let n := get_n (st_get_params st) in let m := get_m (st_get_params st) in
    length (pf_X pf) = N.to_nat m /\ length (pf_Y pf) = N.to_nat m /\
    length (pf_f pf) = N.to_nat m /\ (forall row, In row (pf_f pf) -> length row = (N.to_nat n - 1)%nat) /\
    exists bs, to_bytes pf = Ok bs /\ N.of_nat (length bs) = (8 + 32 * (7 + 2 * m + m * (n - 1)))%N.
Proof. intros E L R ro w st rng t pf t' rng' Hw Hst H. apply (prove_shape L ro w st rng t pf t' rng'); assumption. Qed.
Print Assumptions C19_proof_shape.

(** C20: the state of the generator of all nonces determines, and is determined by, the transcript, the statement hash, the
    index, the key and the external bytes.  That the prover reads its coins from this generator is part of [C15_prove_exactly]. *)
Theorem C20_nonces_hedged :
  forall (E : env) (t t' : transcript) (st st' : statement E) (w w' : witness E) (seed seed' : bytes),
    made_witness w -> made_witness w' ->
    (prover_rng t st w seed = prover_rng t' st' w' seed' <->
     t = t' /\ st_get_hash st = st_get_hash st' /\ w_get_l w = w_get_l w' /\ w_get_r w = w_get_r w' /\ seed = seed').
Proof.
  intros E t t' st st' w w' seed seed' Hw Hw'. apply prover_rng_inj.
  - destruct (made_witness_index w Hw) as [Hg Hl]. rewrite (good_N _ Hg) in Hl. pose proof (gp_pow _ Hg) as Hp. change u32_bound with (2 ^ 32)%N in Hp. change (w_get_l w) with (w_l w). lia.
  - destruct (made_witness_index w' Hw') as [Hg Hl]. rewrite (good_N _ Hg) in Hl. pose proof (gp_pow _ Hg) as Hp. change u32_bound with (2 ^ 32)%N in Hp. change (w_get_l w') with (w_l w'). lia.
Qed.
Print Assumptions C20_nonces_hedged.
(** Same transcript, same external bytes, neighbouring positions: different generators. *)
Example C20_example : prover_rng (x_transcript 1) (x_statement P0 T0 2) (x_witness P0 T0 2) (x_seed) <>
  prover_rng (x_transcript 1) (x_statement P0 T0 2) (x_witness P0 T0 1) (x_seed).
Proof.
  intros H. apply (C20_nonces_hedged E0) in H; [|apply x_witness_made; lia|apply x_witness_made; lia].
  destruct H as (_ & _ & H & _). discriminate.
Qed.

(** C21: two requests of 32 bytes, whatever the secrets are. *)
Theorem C21_randomness_oblivious :
  forall (E : env), env_laws E -> forall (R : Type) (ro : rng_ops R) (w : witness E) (st : statement E) (rng : R) (t : transcript),
    made_witness w -> made_statement st -> w_get_params w = st_get_params st -> relation st (w_get_l w) (w_get_r w) ->
    snd (prove_with_rng ro w st rng t) = snd (rng_fill ro (snd (rng_fill ro rng 32)) 32).
Proof. intros E L R ro w st rng t Hw Hst Hp Hr. apply (prove_rng_use L); assumption. Qed.
Print Assumptions C21_randomness_oblivious.
(** C16, C17, C19 and C21 speak about the run of [C15_example]; C18 about those of the three refusals. *)
Example C21_example : snd (prove_with_rng counter (x_witness P0 T0 2) (x_statement P0 T0 2) 5%N (x_transcript 1)) = 7%N.
Proof.
  exact (C21_randomness_oblivious E0 L0 N counter _ _ 5%N (x_transcript 1) (x_witness_made P0 T0 2 ltac:(lia)) (x_statement_made P0 T0 2)
    eq_refl (x_relation P0 T0 2 ltac:(lia))).
Qed.
