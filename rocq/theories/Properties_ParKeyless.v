(** Property C105: zero knowledge of Parallel Triptych.  What a proof reveals about position and keys is confined to [m - 1] pairs of
    points, each a mask times [G] and the same mask times the linking tag, and [m - 1] points that are masks times [G1]. *)
From Verif Require Import ParSpecSound ParSpecKeyless ParFacts ParProverFacts ParCompleteness ParProverApi ParBinding ParKeyless ParExamples Properties_ParParams.
From Verif Require Import Algebra.

(** Every proof the prover returns is the keyless proof for its own responses and [B], [C], from the pairs and points made of the
    last [m - 1] masks of each kind.  The signing keys are not arguments of [keyless_proof]. *)
Theorem C105_made_without_key :
  forall (E : env), env_laws E -> forall (R : Type) (ro : rng_ops R) (w : witness E) (st : statement E) (rng rng' : R) (t t' : transcript) pf,
    made_witness w -> made_statement st -> prove_with_rng ro w st rng t = (Ok pf, t', rng') ->
    let masks := tl (c_rho (prover_coins t st w (fst (rng_fill ro rng 32)))) in
    let masks1 := tl (c_rho1 (prover_coins t st w (fst (rng_fill ro rng 32)))) in
    length masks = (N.to_nat (get_m (st_get_params st)) - 1)%nat /\ length masks1 = (N.to_nat (get_m (st_get_params st)) - 1)%nat /\
    pf = keyless_proof st (w_get_l w) (challenge t st pf) (pf_B pf) (pf_C pf) (pf_f pf) (pf_z_A pf) (pf_z_C pf) (pf_z pf) (pf_z1 pf)
           (map (fun rho => (pmul E rho (get_G (st_get_params st)), pmul E rho (st_get_J st))) masks)
           (map (fun rho1 => pmul E rho1 (get_G1 (st_get_params st))) masks1).
Proof.
  intros E L R ro w st rng rng' t t' pf Hw Hst H masks masks1.
  destruct (prove_result L ro w st rng t pf t' rng' Hw Hst H) as (Hr & _ & Hpf & _).
  pose proof (made_statement_good L st Hst) as Hg. pose proof (prover_coins_good t st w (fst (rng_fill ro rng 32))) as Hc.
  split; [|split].
  - unfold masks. destruct Hc as (_ & Hc & _). destruct (c_rho _); cbn [tl length] in *; change (p_m (st_params st)) with (get_m (st_get_params st)) in Hc; lia.
  - unfold masks1. destruct Hc as (_ & _ & Hc). destruct (c_rho1 _); cbn [tl length] in *; change (p_m (st_params st)) with (get_m (st_get_params st)) in Hc; lia.
  - pose proof (honest_keyless L st (w_get_l w) (w_get_r w) (w_get_r1 w) _ (challenge t st pf) Hg Hr Hc) as H1. cbv zeta in H1. rewrite <- Hpf in H1. exact H1.
Qed.
Print Assumptions C105_made_without_key.

(** A keyless proof satisfies the verification equations whatever the pairs and points are, for every position, keys known or not. *)
Theorem C105_keyless_proofs_satisfy_equations :
  forall (E : env), env_laws E -> forall (st : statement E) (l : N) xi B C f zA zC z z1 pairs points1,
    made_statement st -> length pairs = (N.to_nat (get_m (st_get_params st)) - 1)%nat ->
    length points1 = (N.to_nat (get_m (st_get_params st)) - 1)%nat ->
    equations (st_get_params st) (get_keys (st_get_input_set st)) (get_auxiliary_keys (st_get_input_set st)) (st_get_offset st) (st_get_J st) (keyless_proof st l xi B C f zA zC z z1 pairs points1) xi.
Proof.
  intros E L st l xi B C f zA zC z z1 pairs points1 Hst Hl Hl1. pose proof (gs_params _ (made_statement_good L st Hst)) as Hp. pose proof (gp_m _ Hp) as Hm.
  change (p_m (st_params st)) with (get_m (st_get_params st)) in Hm.
  apply (simulate_iff L); [lia| | | |reflexivity].
  - cbn [keyless_proof simulate pf_X length v_X]. rewrite map_length, combine_length, seq_length. lia.
  - cbn [keyless_proof simulate pf_X1 length v_X1]. rewrite map_length, combine_length, seq_length. lia.
  - cbn [keyless_proof simulate pf_Y length v_Y]. rewrite map_length. lia.
Qed.
Print Assumptions C105_keyless_proofs_satisfy_equations.

(** For every position, the lists of [m - 1] pairs and of [m - 1] points and the proofs satisfying the equations (with given [B], [C] and
    responses) correspond one to one.  So with uniformly random pairs and points all these proofs are equally likely, whatever the position. *)
Theorem C105_random_pairs_hide_position :
  forall (E : env), env_laws E -> forall (st : statement E) (l : N) xi pf,
    made_statement st -> well_shaped (st_get_params st) pf ->
    equations (st_get_params st) (get_keys (st_get_input_set st)) (get_auxiliary_keys (st_get_input_set st)) (st_get_offset st) (st_get_J st) pf xi ->
    exists! pp : list (pt E * pt E) * list (pt E), length (fst pp) = (N.to_nat (get_m (st_get_params st)) - 1)%nat /\
      length (snd pp) = (N.to_nat (get_m (st_get_params st)) - 1)%nat /\
      keyless_proof st l xi (pf_B pf) (pf_C pf) (pf_f pf) (pf_z_A pf) (pf_z_C pf) (pf_z pf) (pf_z1 pf) (fst pp) (snd pp) = pf.
Proof. intros E L st l xi pf Hst. apply (keyless_any L). apply (made_statement_good L). exact Hst. Qed.
Print Assumptions C105_random_pairs_hide_position.

(** The proof of [Examples.v] for position 2 is also the keyless proof for position 0. *)
Example C105_example : forall l, exists! pp : list (pt E0 * pt E0) * list (pt E0), length (fst pp) = 1%nat /\ length (snd pp) = 1%nat /\
  keyless_proof (x_statement P0 T0 2) l (challenge (x_transcript 1) (x_statement P0 T0 2) (x_proof P0 T0 2 1))
    (pf_B (x_proof P0 T0 2 1)) (pf_C (x_proof P0 T0 2 1)) (pf_f (x_proof P0 T0 2 1))
    (pf_z_A (x_proof P0 T0 2 1)) (pf_z_C (x_proof P0 T0 2 1)) (pf_z (x_proof P0 T0 2 1)) (pf_z1 (x_proof P0 T0 2 1)) (fst pp) (snd pp) = x_proof P0 T0 2 1.
Proof.
  intros l. destruct (x_valid P0 T0 2 1 ltac:(lia) x_check_2_1) as (Hs & _ & _ & He).
  exact (C105_random_pairs_hide_position E0 L0 (x_statement P0 T0 2) l _ _ (x_statement_made P0 T0 2) Hs He).
Qed.
Example C105_example_made : exists pf t' rng', made_witness (x_witness P0 T0 2) /\ made_statement (x_statement P0 T0 2) /\
  prove_with_rng counter (x_witness P0 T0 2) (x_statement P0 T0 2) 5%N (x_transcript 1) = (Ok pf, t', rng').
Proof.
  destruct (x_proved P0 T0 2 1 ltac:(lia) (proj1 (x_check_ok P0 T0 2 1 x_check_2_1))) as [_ H]. eexists _, _, _.
  split; [exact (x_witness_made P0 T0 2 ltac:(lia))|]. split; [exact (x_statement_made P0 T0 2)|]. exact H.
Qed.
