(** The prover as seen through the API: consequences of [ProverFacts.prove_internal_ok]. *)
From Verif Require Export PlainFacts ProverFacts Completeness CodecFacts.
From Verif Require Import Algebra.

Section ProverApi.
Context {E : env} (L : env_laws E).

Lemma prover_challenge_spec t (st : statement E) w seed :
  prover_challenge t st w seed = honest_challenge t st (w_l w) (prover_coins t st w seed).
Proof.
  reflexivity.
Qed.

Lemma prove_internal_err {R} (ro : rng_ops R) (w : witness E) st rng t tm e :
  prove_checks tm w st = Err e -> prove_internal ro w st rng t tm = (Err e, t, rng).
Proof. intros H. unfold prove_internal. rewrite H. reflexivity. Qed.

Lemma prove_cases {R} (ro : rng_ops R) (w : witness E) (st : statement E) rng t tm : made_witness w -> made_statement st ->
    let seed := fst (rng_fill ro rng 32) in
    let rng2 := snd (rng_fill ro (snd (rng_fill ro rng 32)) 32) in
    let xi := prover_challenge t st w seed in
    let pf := honest_proof st (w_get_l w) (w_get_r w) (prover_coins t st w seed) xi in
    (w_get_params w <> st_get_params st ->
       prove_internal ro w st rng t tm = (Err (InvalidParameter "witness and statement parameters did not match"), t, rng)) /\
    (w_get_params w = st_get_params st ->
     nth_error (get_keys (st_get_input_set st)) (N.to_nat (w_get_l w)) <> Some (pmul E (w_get_r w) (get_G (st_get_params st))) ->
       prove_internal ro w st rng t tm = (Err (InvalidParameter "`M[l] != r * G`"), t, rng)) /\
    (w_get_params w = st_get_params st ->
     nth_error (get_keys (st_get_input_set st)) (N.to_nat (w_get_l w)) = Some (pmul E (w_get_r w) (get_G (st_get_params st))) ->
     pmul E (w_get_r w) (st_get_J st) <> get_U (st_get_params st) ->
       prove_internal ro w st rng t tm = (Err (InvalidParameter "`r * J != U`"), t, rng)) /\
    (w_get_params w = st_get_params st -> relation st (w_get_l w) (w_get_r w) -> xi = s0 ->
       prove_internal ro w st rng t tm = (Err InvalidChallenge, prover_transcript t st pf, rng2)) /\
    (w_get_params w = st_get_params st -> relation st (w_get_l w) (w_get_r w) -> xi <> s0 ->
       challenge t st pf = xi /\ prove_internal ro w st rng t tm = (Ok pf, prover_transcript t st pf, rng2)).
Proof.
  intros Hw Hst seed rng2 xi pf.
  pose proof (made_statement_good L st Hst) as Hg. destruct (made_witness_index w Hw) as [_ Hl].
  pose proof (prover_challenge_spec t st w seed) as Hxi. fold xi in Hxi.
  assert (Hpt : prover_transcript t st pf = prover_transcript t st (honest_proof st (w_l w) s0 (prover_coins t st w seed) s0)).
  { reflexivity. }
  assert (Hch : challenge t st pf = xi).
  { rewrite Hxi. reflexivity. }
  pose proof (prove_internal_ok L ro w st rng t tm Hg Hl) as Hok. cbv zeta in Hok.
  fold seed in Hok. fold rng2 in Hok.
  change (read_coins (E := E) (N.to_nat (p_n (st_params st))) (N.to_nat (p_m (st_params st))) (prover_rng t st w seed))
    with (prover_coins t st w seed) in Hok.
  rewrite <- Hxi, <- Hpt in Hok.
  unfold w_get_params, st_get_params, w_get_l, w_get_r in *.
  destruct (prove_checks_cases L tm w st Hg Hl) as [(H1 & H2 & H3)|[(H1 & H3)|[(H1 & H2 & H3)|(H1 & H2 & H2' & H3)]]].
  - specialize (Hok H3 H1). unfold relation in *. unfold st_get_params, st_get_input_set, get_keys, get_G, get_U, st_get_J in *.
    repeat split; intros; try tauto.
    + rewrite Hok. rewrite (proj2 (seqb_eq xi s0)) by assumption. reflexivity.
    + rewrite Hok. rewrite (proj2 (seqb_neq xi s0)) by assumption. reflexivity.
  - split; [intros _; apply prove_internal_err; exact H3|]. repeat split; intros; contradiction.
  - split; [intros; contradiction|]. split; [intros; apply prove_internal_err; exact H3|].
    unfold relation. unfold st_get_params, st_get_input_set, get_keys, get_G, get_U, st_get_J in *.
    repeat split; intros; try contradiction; tauto.
  - split; [intros; contradiction|]. unfold relation. unfold st_get_params, st_get_input_set, get_keys, get_G, get_U, st_get_J in *.
    split; [intros; contradiction|]. split; [intros; apply prove_internal_err; exact H3|].
    split; intros; tauto.
Qed.

Lemma relation_cases (st : statement E) l r :
  nth_error (get_keys (st_get_input_set st)) (N.to_nat l) <> Some (pmul E r (get_G (st_get_params st))) \/
  (nth_error (get_keys (st_get_input_set st)) (N.to_nat l) = Some (pmul E r (get_G (st_get_params st))) /\
   pmul E r (st_get_J st) <> get_U (st_get_params st)) \/
  relation st l r.
Proof.
  unfold relation. destruct (nth_error _ _) as [Q|]; [|left; discriminate].
  destruct (peqb E Q (pmul E r (get_G (st_get_params st)))) eqn:E1.
  - apply (peqb_eq E L) in E1. subst Q. right.
    destruct (peqb E (pmul E r (st_get_J st)) (get_U (st_get_params st))) eqn:E2.
    + apply (peqb_eq E L) in E2. right. split; [reflexivity|exact E2].
    + left. split; [reflexivity|]. intros H. apply (peqb_eq E L) in H. congruence.
  - left. intros H. injection H as H. apply (peqb_eq E L) in H. congruence.
Qed.

Lemma params_dec (p q : params E) : p = q \/ p <> q.
Proof.
  destruct (params_eqb p q) eqn:Ee; [left; apply (params_eqb_eq L); exact Ee|right].
  intros H. apply (params_eqb_eq L) in H. congruence.
Qed.

Lemma prove_ok_iff {R} (ro : rng_ops R) (w : witness E) (st : statement E) rng t : made_witness w -> made_statement st ->
    ((exists pf, fst (fst (prove_with_rng ro w st rng t)) = Ok pf) <->
     w_get_params w = st_get_params st /\ relation st (w_get_l w) (w_get_r w) /\
     prover_challenge t st w (fst (rng_fill ro rng 32)) <> s0).
Proof.
  intros Hw Hst. destruct (prove_cases ro w st rng t ConstantTime Hw Hst) as (H1 & H2 & H3 & H4 & H5).
  unfold prove_with_rng. split.
  - intros [pf Hpf]. destruct (params_dec (w_get_params w) (st_get_params st)) as [Hp|Hp].
    2:{ rewrite (H1 Hp) in Hpf. discriminate. }
    split; [exact Hp|]. destruct (relation_cases st (w_get_l w) (w_get_r w)) as [Hr|[[Hr Hr']|Hr]].
    + rewrite (H2 Hp Hr) in Hpf. discriminate.
    + rewrite (H3 Hp Hr Hr') in Hpf. discriminate.
    + split; [exact Hr|]. intros Hx. rewrite (H4 Hp Hr Hx) in Hpf. discriminate.
  - intros (Hp & Hr & Hx). destruct (H5 Hp Hr Hx) as [_ H]. rewrite H. eexists. reflexivity.
Qed.

Lemma prove_total {R} (ro : rng_ops R) (w : witness E) (st : statement E) rng t : made_witness w -> made_statement st ->
    (exists pf, fst (fst (prove_with_rng ro w st rng t)) = Ok pf) \/
    (exists e, fst (fst (prove_with_rng ro w st rng t)) = Err e /\
       (e = InvalidChallenge \/ e = InvalidParameter "witness and statement parameters did not match" \/
        e = InvalidParameter "`M[l] != r * G`" \/ e = InvalidParameter "`r * J != U`")).
Proof.
  intros Hw Hst. destruct (prove_cases ro w st rng t ConstantTime Hw Hst) as (H1 & H2 & H3 & H4 & H5).
  unfold prove_with_rng. destruct (params_dec (w_get_params w) (st_get_params st)) as [Hp|Hp].
  2:{ right. rewrite (H1 Hp). eexists. split; [reflexivity|]. tauto. }
  destruct (relation_cases st (w_get_l w) (w_get_r w)) as [Hr|[[Hr Hr']|Hr]].
  - right. rewrite (H2 Hp Hr). eexists. split; [reflexivity|]. tauto.
  - right. rewrite (H3 Hp Hr Hr'). eexists. split; [reflexivity|]. tauto.
  - destruct (scalar_eq_dec (prover_challenge t st w (fst (rng_fill ro rng 32))) s0) as [Hx|Hx].
    + right. rewrite (H4 Hp Hr Hx). eexists. split; [reflexivity|]. tauto.
    + left. destruct (H5 Hp Hr Hx) as [_ H]. rewrite H. eexists. reflexivity.
Qed.

Lemma prove_timing {R} (ro : rng_ops R) (w : witness E) (st : statement E) rng t : made_witness w -> made_statement st ->
  prove_with_rng ro w st rng t = prove_with_rng_vartime ro w st rng t.
Proof.
  intros Hw Hst. destruct (prove_cases ro w st rng t ConstantTime Hw Hst) as (H1 & H2 & H3 & H4 & H5).
  destruct (prove_cases ro w st rng t VariableTime Hw Hst) as (V1 & V2 & V3 & V4 & V5).
  unfold prove_with_rng, prove_with_rng_vartime. destruct (params_dec (w_get_params w) (st_get_params st)) as [Hp|Hp].
  2:{ rewrite (H1 Hp), (V1 Hp). reflexivity. }
  destruct (relation_cases st (w_get_l w) (w_get_r w)) as [Hr|[[Hr Hr']|Hr]].
  - rewrite (H2 Hp Hr), (V2 Hp Hr). reflexivity.
  - rewrite (H3 Hp Hr Hr'), (V3 Hp Hr Hr'). reflexivity.
  - destruct (scalar_eq_dec (prover_challenge t st w (fst (rng_fill ro rng 32))) s0) as [Hx|Hx].
    + rewrite (H4 Hp Hr Hx), (V4 Hp Hr Hx). reflexivity.
    + destruct (H5 Hp Hr Hx) as [_ H]. destruct (V5 Hp Hr Hx) as [_ V]. rewrite H, V. reflexivity.
Qed.

Lemma prove_refused {R} (ro : rng_ops R) (w : witness E) (st : statement E) rng t : made_witness w -> made_statement st ->
  (w_get_params w <> st_get_params st \/ ~ relation st (w_get_l w) (w_get_r w)) ->
  exists reason, prove_with_rng ro w st rng t = (Err (InvalidParameter reason), t, rng).
Proof.
  intros Hw Hst H. destruct (prove_cases ro w st rng t ConstantTime Hw Hst) as (H1 & H2 & H3 & _ & _).
  unfold prove_with_rng. destruct (params_dec (w_get_params w) (st_get_params st)) as [Hp|Hp].
  2:{ rewrite (H1 Hp). eexists. reflexivity. }
  destruct (relation_cases st (w_get_l w) (w_get_r w)) as [Hr|[[Hr Hr']|Hr]].
  - rewrite (H2 Hp Hr). eexists. reflexivity.
  - rewrite (H3 Hp Hr Hr'). eexists. reflexivity.
  - destruct H as [H|H]; contradiction.
Qed.

(** A proof that was returned is the honest one. *)
Lemma prove_result {R} (ro : rng_ops R) (w : witness E) (st : statement E) rng t pf t' rng' :
  made_witness w -> made_statement st -> prove_with_rng ro w st rng t = (Ok pf, t', rng') ->
  let c := prover_coins t st w (fst (rng_fill ro rng 32)) in
  relation st (w_get_l w) (w_get_r w) /\ challenge t st pf <> s0 /\
  pf = honest_proof st (w_get_l w) (w_get_r w) c (challenge t st pf) /\ t' = prover_transcript t st pf /\
  rng' = snd (rng_fill ro (snd (rng_fill ro rng 32)) 32).
Proof.
  intros Hw Hst H c. destruct (proj1 (prove_ok_iff ro w st rng t Hw Hst)) as (Hp & Hr & Hx).
  { rewrite H. eexists. reflexivity. }
  destruct (prove_cases ro w st rng t ConstantTime Hw Hst) as (_ & _ & _ & _ & H5).
  destruct (H5 Hp Hr Hx) as [Hc Hok]. unfold prove_with_rng in H. rewrite Hok in H. injection H as <- <- <-.
  rewrite Hc. split; [exact Hr|]. split; [exact Hx|]. split; [reflexivity|]. split; reflexivity.
Qed.

Lemma prover_coins_good t (st : statement E) w seed : good_coins st (prover_coins t st w seed).
Proof. apply coins_shape. Qed.

Lemma prove_shape {R} (ro : rng_ops R) (w : witness E) (st : statement E) rng t pf t' rng' :
  made_witness w -> made_statement st -> prove_with_rng ro w st rng t = (Ok pf, t', rng') ->
    let n := get_n (st_get_params st) in let m := get_m (st_get_params st) in
    length (pf_X pf) = N.to_nat m /\ length (pf_Y pf) = N.to_nat m /\
    length (pf_f pf) = N.to_nat m /\ (forall row, In row (pf_f pf) -> length row = (N.to_nat n - 1)%nat) /\
    exists bs, to_bytes pf = Ok bs /\ N.of_nat (length bs) = (8 + 32 * (7 + 2 * m + m * (n - 1)))%N.
Proof.
  intros Hw Hst H n m. destruct (prove_result ro w st rng t pf t' rng' Hw Hst H) as (_ & _ & Hpf & _).
  pose proof (made_statement_good L st Hst) as Hg.
  assert (Hs : well_shaped (st_params st) pf) by (rewrite Hpf; apply (honest_well_shaped L) || apply honest_well_shaped).
  pose proof (well_shaped_rectangular (st_params st) pf (gs_params st Hg) Hs) as Hrect.
  destruct Hs as (H1 & H2 & H3 & H4). repeat split; try assumption.
  - apply Forall_forall. exact H4.
  - eexists. split; [apply to_bytes_encoding; exact Hrect|]. rewrite (encoding_length L _ _ _ Hrect). reflexivity.
Qed.

Lemma prove_rng_use {R} (ro : rng_ops R) (w : witness E) (st : statement E) rng t :
  made_witness w -> made_statement st -> w_get_params w = st_get_params st -> relation st (w_get_l w) (w_get_r w) ->
  snd (prove_with_rng ro w st rng t) = snd (rng_fill ro (snd (rng_fill ro rng 32)) 32).
Proof.
  intros Hw Hst Hp Hr. destruct (prove_cases ro w st rng t ConstantTime Hw Hst) as (_ & _ & _ & H4 & H5).
  unfold prove_with_rng. destruct (scalar_eq_dec (prover_challenge t st w (fst (rng_fill ro rng 32))) s0) as [Hx|Hx].
  - rewrite (H4 Hp Hr Hx). reflexivity.
  - destruct (H5 Hp Hr Hx) as [_ H]. rewrite H. reflexivity.
Qed.

End ProverApi.
