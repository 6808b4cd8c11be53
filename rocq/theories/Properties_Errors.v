(** Property C134: which errors each call can return, and what they say. *)
From Verif Require Import SpecErrors Display PlainFacts VerifierFacts Completeness Verdict Search Blame VerifierApi ProverApi BatchVerdict ProverOs
  Examples ExamplesRun Properties_Params Properties_Inputs Properties_Prover Properties_Verifier Properties_Blame Properties_Codec Properties_Os
  Properties_Tamper Properties_Verdict.
From Verif Require Import Algebra.
Local Open Scope string_scope.

(** ** Verifying *)
Theorem C134_batch_errors :
  forall (E : env), env_laws E -> forall md (sts : list (statement E)) pfs ts e ts', Forall made_statement sts ->
    verify_batch_returns md sts pfs ts (Err e) ts' -> In e batch_errors.
Proof.
  intros E L md sts pfs ts e ts' Hm H. apply (proj1 (C71_batch_verdict E L md sts pfs ts (Err e) ts' Hm)) in H.
  inversion H; subst; try (cbn; tauto).
  match goal with Hf : shape_fault _ _ _ |- _ => destruct Hf; cbn; tauto end.
Qed.
Print Assumptions C134_batch_errors.

(** A single verification never reports one of the faults of a batch. *)
Theorem C134_single_errors :
  forall (E : env), env_laws E -> forall md (st : statement E) pf t e t', made_statement st ->
    verify_returns md pf st t (Err e) t' -> In e single_errors.
Proof.
  intros E L md st pf t e t' Hm H. apply verify_returns_batch in H.
  apply (proj1 (C71_batch_verdict E L md [st] [pf] [t] (Err e) [t'] (Forall_cons _ Hm (Forall_nil _)))) in H.
  inversion H; subst; try (cbn; tauto); try (cbn [length] in *; congruence); try (cbn [length] in *; lia).
  all: try (match goal with Hn : ~ same_input_sets _ _ |- _ => exfalso; apply Hn; intros ? []
       | Hn : ~ same_parameters _ _ |- _ => exfalso; apply Hn; intros ? [] end).
  match goal with Hf : shape_fault _ _ _ |- _ => destruct Hf; cbn; tauto end.
Qed.
Print Assumptions C134_single_errors.

(** The search for one invalid proof reports the index of a proof, always if there are two proofs or more; the faults of the batch and
    the reason for which the proof was refused are lost. *)
Lemma slice_cases {Er A} (l : list A) a b : (exists l', slice (E := Er) l a b = Ok l') \/ slice (E := Er) l a b = Panic.
Proof. unfold slice. destruct (_ && _)%bool; [left; eexists; reflexivity|right; reflexivity]. Qed.
Lemma blame_loop_errors {E : env} fuel md (sts : list (statement E)) pfs ts : forall k left right e,
  (left < right)%nat -> blame_loop k fuel md sts pfs ts left right = Err e ->
  (exists i, e = FailedBatchVerificationWithSingleBlame (Some i) /\ (left <= i < right)%nat) \/
  (e = FailedBatchVerificationWithSingleBlame None /\ right = S left).
Proof.
  induction k as [|k IH]; intros left right e Hlr H; cbn [blame_loop] in H; rewrite (proj2 (Nat.ltb_lt left right) Hlr) in H; [discriminate|].
  assert (Hmid : (if (right - left) mod 2 =? 0 then left + (right - left) / 2 else left + (right - left) / 2 + 1)%nat = (left + (right - left + 1) / 2)%nat).
  { rewrite <- half_up by lia. destruct (_ =? 0)%nat; lia. }
  cbv zeta in H. rewrite !Hmid in H. clear Hmid.
  pose proof (Nat.div_mod (right - left + 1) 2 ltac:(lia)) as Hd. pose proof (Nat.mod_upper_bound (right - left + 1) 2 ltac:(lia)) as Hu.
  set (h := ((right - left + 1) / 2)%nat) in *. clearbody h.
  set (q := ((right - left + 1) mod 2)%nat) in *. clearbody q.
  destruct (slice_cases (Er := proof_error) sts left (left + h)) as [(s1 & Hsl)|Hsl]; rewrite Hsl in H; clear Hsl; cbn [obind] in H; [|discriminate].
  destruct (slice_cases (Er := proof_error) pfs left (left + h)) as [(s2 & Hsl)|Hsl]; rewrite Hsl in H; clear Hsl; cbn [obind] in H; [|discriminate].
  destruct (slice_cases (Er := proof_error) ts left (left + h)) as [(s3 & Hsl)|Hsl]; rewrite Hsl in H; clear Hsl; cbn [obind] in H; [|discriminate].
  destruct (fst (verify_batch fuel md s1 s2 s3)) as [u|e1| |]; try discriminate.
  - destruct (Nat.eqb_spec right (left + h + 1)) as [He|He].
    + rewrite He, Nat.add_1_r in H. injection H as <-. left. exists (left + h)%nat. split; [reflexivity|lia].
    + destruct (Nat.ltb_spec (left + h) right) as [Hr|Hr].
      * destruct (IH (left + h)%nat right e Hr H) as [(i & Hi & Hir)|[_ Hn]]; [left; exists i; split; [exact Hi|lia]|lia].
      * assert (right = S left) by lia. subst right. assert (h = 1%nat) by lia. subst h. right. split; [|reflexivity].
        destruct k as [|k]; cbn [blame_loop] in H; replace (left + 1 <? S left)%nat with false in H by (symmetry; apply Nat.ltb_ge; lia); injection H as <-; reflexivity.
  - destruct (left + h)%nat as [|c] eqn:Ec; [lia|]. destruct (Nat.eqb_spec left c) as [He|He].
    + injection H as <-. left. exists left. split; [reflexivity|lia].
    + destruct (IH left (S c) e ltac:(lia) H) as [(i & Hi & Hir)|[_ Hn]]; [left; exists i; split; [exact Hi|lia]|lia].
Qed.
Theorem C134_single_blame_errors :
  forall (E : env) md (sts : list (statement E)) pfs ts e ts',
    single_blame_returns md sts pfs ts (Err e) ts' ->
    (exists i, e = FailedBatchVerificationWithSingleBlame (Some i) /\ (i < length pfs)%nat) \/
    (e = FailedBatchVerificationWithSingleBlame None /\ (length pfs <= 1)%nat /\ ~ (length sts = length pfs /\ length sts = length ts)).
Proof.
  intros E md sts pfs ts e ts' H. assert (H' := H). destruct H as (fuel & H & _). unfold verify_batch_with_single_blame in H.
  destruct (fst (verify_batch fuel md sts pfs ts)) as [u|e1| |]; try discriminate. apply (f_equal fst) in H. cbn [fst] in H.
  assert (Hn : e = FailedBatchVerificationWithSingleBlame None -> ~ (length sts = length pfs /\ length sts = length ts)).
  { intros -> [Hl1 Hl2]. destruct (C40_blame_in_range E md sts pfs ts _ _ Hl1 Hl2 H') as [Hr|[(i & Hr & _)|[Hr _]]]; discriminate. }
  destruct (length pfs) as [|k] eqn:Hk.
  - cbn in H. injection H as <-. right. split; [reflexivity|]. split; [lia|]. exact (Hn eq_refl).
  - destruct (blame_loop_errors fuel md sts pfs ts _ 0 (S k) e ltac:(lia) H) as [(i & Hi & Hir)|[He Hk1]].
    + left. exists i. split; [exact Hi|lia].
    + right. split; [exact He|]. split; [lia|]. exact (Hn He).
Qed.
Print Assumptions C134_single_blame_errors.

(** "This should never happen", says the code (proof.rs lines 499-500) of the missing index.  It does: when there is a
    statement but no proof, ... *)
Theorem C134_no_index_refuted :
  forall (E : env) md (st : statement E) sts ts,
    single_blame_returns md (st :: sts) [] ts (Err (FailedBatchVerificationWithSingleBlame None)) ts.
Proof.
  intros E md st sts ts. exists 0%nat. split; [|discriminate].
  unfold verify_batch_with_single_blame. rewrite (proj1 (verify_batch_lengths 0 md (st :: sts) [] ts)) by discriminate. reflexivity.
Qed.
Print Assumptions C134_no_index_refuted.
(** ... or when a valid proof comes with a statement too many. *)
Theorem C134_no_index_valid_refuted :
  forall (E : env), env_laws E -> weights_terminate (E := E) 4 -> forall md (st st' : statement E) pf t ts,
    made_statement st -> valid_proof t st pf -> fits md (st_get_params st) 1 ->
    single_blame_returns md [st; st'] [pf] (t :: ts) (Err (FailedBatchVerificationWithSingleBlame None)) (t :: ts).
Proof.
  intros E L Hw md st st' pf t ts Hm Hv Hf.
  assert (Ha : exists ts', verify_batch_returns md [st] [pf] [t] (Ok tt) ts').
  { destruct (batch_of_valid L md st [] [pf] [t] Hm) as [_ Hb]; try reflexivity.
    - intros a b [<-|[]] [<-|[]]. split; reflexivity.
    - intros i s p u (Ha & Hb & Hc). destruct i as [|i]; [|destruct i; discriminate]. cbn [nth_error] in *. injection Ha as <-. injection Hb as <-. injection Hc as <-. exact Hv.
    - exact Hf.
    - eexists. exact (Hb Hw). }
  destruct Ha as (ts' & fuel & Ha & _). exists fuel. split; [|discriminate].
  unfold verify_batch_with_single_blame. rewrite (proj1 (verify_batch_lengths fuel md [st; st'] [pf] (t :: ts))) by discriminate.
  cbn [fst length blame_loop]. change (0 <? 1)%nat with true. cbv iota zeta. change ((1 - 0) mod 2 =? 0)%nat with false. cbv iota.
  change (0 + (1 - 0) / 2 + 1)%nat with 1%nat. cbn [slice length Nat.leb andb Nat.sub skipn firstn obind]. rewrite Ha. reflexivity.
Qed.
Print Assumptions C134_no_index_valid_refuted.

Theorem C134_full_blame_errors :
  forall (E : env) md (sts : list (statement E)) pfs ts e ts',
    full_blame_returns md sts pfs ts (Err e) ts' ->
    exists l, e = FailedBatchVerificationWithFullBlame l /\
      forall i, In i l -> (i < length sts)%nat /\ (i < length pfs)%nat /\ (i < length ts)%nat.
Proof.
  intros E md sts pfs ts e ts' H. destruct (C43_full_blame_exact E md sts pfs ts _ ts' H) as (_ & _ & He).
  destruct (He e eq_refl) as (_ & l & Hl & _ & Hin & _). exists l. split; [exact Hl|].
  intros i Hi. apply Hin in Hi. destruct Hi as (st & pf & t & _ & _ & (Ha & Hb & Hc) & _).
  repeat split; apply nth_error_Some; congruence.
Qed.
Print Assumptions C134_full_blame_errors.

(** ** Proving and decoding *)
Theorem C134_prover_errors :
  forall (E : env), env_laws E -> forall (R : Type) (ro : rng_ops R) (w : witness E) (st : statement E) (rng : R) (t : transcript) e,
    made_witness w -> made_statement st ->
    (fst (fst (prove_with_rng ro w st rng t)) = Err e -> In e prover_errors) /\
    (fst (fst (prove_with_rng_vartime ro w st rng t)) = Err e -> In e prover_errors).
Proof.
  intros E L R ro w st rng t e Hw Hst. rewrite <- (C17_timing_equivalence E L R ro w st rng t Hw Hst).
  assert (H : fst (fst (prove_with_rng ro w st rng t)) = Err e -> In e prover_errors); [|split; exact H].
  destruct (C15_prove_exactly E L R ro w st rng t Hw Hst) as (H1 & H2 & H3 & H4 & H5).
  destruct (params_dec L (w_get_params w) (st_get_params st)) as [Hp|Hp]; [|rewrite (H1 Hp); cbn; intros [= <-]; tauto].
  destruct (relation_cases L st (w_get_l w) (w_get_r w)) as [Hk|[[Hk Hj]|Hrel]];
    [rewrite (H2 Hp Hk); cbn; intros [= <-]; tauto|rewrite (H3 Hp Hk Hj); cbn; intros [= <-]; tauto|].
  destruct (scalar_eq_dec (prover_challenge t st w (fst (rng_fill ro rng 32))) s0) as [Hx|Hx].
  - rewrite (H4 Hp Hrel Hx). cbn. intros [= <-]. tauto.
  - destruct (H5 Hp Hrel Hx) as [_ ->]. discriminate.
Qed.
Print Assumptions C134_prover_errors.
Theorem C134_prover_os_errors :
  forall (E : env), env_laws E -> forall (O : Type) (os : os_source O) (w : witness E) (st : statement E) (o o' : O) (t t' : transcript) e,
    made_witness w -> made_statement st ->
    prove os w st o t = Returns (Err e) t' o' \/ prove_vartime os w st o t = Returns (Err e) t' o' -> In e prover_errors.
Proof.
  intros E L O os w st o o' t t' e Hw Hst H.
  rewrite (C89_vartime_same E L O os w st o t Hw Hst) in H.
  assert (H' : prove os w st o t = Returns (Err e) t' o') by (destruct H; assumption). clear H.
  apply (proj1 (C134_prover_errors E L _ (os_rng os) w st (o, false) t e Hw Hst)).
  assert (Hpr : prove os w st o t = os_run (prove_with_rng (os_rng os) w st (o, false) t)) by reflexivity. rewrite Hpr in H'.
  destruct (prove_with_rng (os_rng os) w st (o, false) t) as [[r t1] [o1 failed]]. unfold os_run in H'.
  destruct failed; [discriminate|]. injection H' as -> _ _. reflexivity.
Qed.
Print Assumptions C134_prover_os_errors.

Theorem C134_decoder_errors :
  forall (E : env) bs e, from_bytes (E := E) bs = Err e -> e = FailedDeserialization.
Proof. intros E bs e H. destruct (C48_decoding_total E bs) as [[pf Hp]|Hp]; congruence. Qed.
Print Assumptions C134_decoder_errors.

(** ** The constructors *)
Theorem C134_constructor_errors :
  forall (E : env),
    (forall n m (G U : pt E) e, new_with_generators n m G U = Err e \/ params_new (E := E) n m = Err e -> In e parameter_errors) /\
    (forall (M : list (pt E)) e, input_set_new M = Err e -> In e input_set_errors) /\
    (forall (M : list (pt E)) p e, input_set_new_with_padding M p = Err e -> In e input_set_errors) /\
    (forall p s (J : pt E) e, statement_new p s J = Err e -> In e statement_errors) /\
    (forall (p : params E) l r e, witness_new p l r = Err e -> In e witness_errors).
Proof.
  intros E.
  assert (Hp : forall n m (G U : pt E) e, new_with_generators n m G U = Err e -> In e parameter_errors).
  { intros n m G U e H. destruct (C01_parameters_accepted_exactly E n m G U) as (H1 & H2 & H3 & H4 & _).
    destruct (N.lt_ge_cases n 2) as [Hn|Hn]; [rewrite (H2 Hn) in H; injection H as <-; cbn; tauto|].
    destruct (N.lt_ge_cases m 2) as [Hm|Hm]; [rewrite (H3 Hn Hm) in H; injection H as <-; cbn; tauto|].
    destruct (N.lt_ge_cases (n ^ m) (2 ^ 32)) as [Hk|Hk]; [|rewrite (H4 Hn Hm Hk) in H; injection H as <-; cbn; tauto].
    destruct (H1 (conj Hn (conj Hm Hk))) as [p Hpp]. congruence. }
  assert (Hi : forall (M : list (pt E)) k e, new_internal M k = Err e -> In e input_set_errors).
  { intros M k e H. unfold new_internal in H. destruct (checked u32_bound k) as [c|]; cbn [ok_or obind] in H.
    - destruct (challenge_bytes _ _ _) as [h t]. discriminate.
    - injection H as <-. cbn. tauto. }
  split; [|split; [|split; [|split]]].
  - intros n m G U e [H|H]; [exact (Hp n m G U e H)|]. exact (Hp _ _ _ _ e H).
  - intros M e H. exact (Hi _ _ e H).
  - intros M p e H. unfold input_set_new_with_padding in H. cbv zeta in H.
    destruct (get_N p <? N.of_nat (length M))%N; [injection H as <-; cbn; tauto|].
    destruct (last_opt M) as [x|]; cbn [ok_or obind] in H; [exact (Hi _ _ e H)|injection H as <-; cbn; tauto].
  - intros p s J e H. unfold statement_new in H.
    destruct (negb _); [injection H as <-; cbn; tauto|]. destruct (existsb _ _); [injection H as <-; cbn; tauto|].
    cbv zeta in H. destruct (challenge_bytes _ _ _) as [h t]. discriminate.
  - intros p l r e H. unfold witness_new in H. destruct (seqb r s0); [injection H as <-; cbn; tauto|].
    destruct (get_N p <=? l)%N; [injection H as <-; cbn; tauto|discriminate].
Qed.
Print Assumptions C134_constructor_errors.

(** ** [FailedBatchVerification] is never returned by anything *)
Theorem C134_never_returned :
  forall (E : env), env_laws E -> forall (sts : list (statement E)), Forall made_statement sts ->
    (forall md pfs ts ts', ~ verify_batch_returns md sts pfs ts (Err FailedBatchVerification) ts') /\
    (forall md st pf t t', In st sts -> ~ verify_returns md pf st t (Err FailedBatchVerification) t') /\
    (forall md pfs ts ts', ~ single_blame_returns md sts pfs ts (Err FailedBatchVerification) ts') /\
    (forall md pfs ts ts', ~ full_blame_returns md sts pfs ts (Err FailedBatchVerification) ts') /\
    (forall (R : Type) (ro : rng_ops R) w st rng t, made_witness w -> In st sts ->
       fst (fst (prove_with_rng ro w st rng t)) <> Err FailedBatchVerification /\
    fst (fst (prove_with_rng_vartime ro w st rng t)) <> Err FailedBatchVerification) /\
    (forall bs, from_bytes (E := E) bs <> Err FailedBatchVerification).
Proof.
  intros E L sts Hm. rewrite Forall_forall in Hm. split; [|split; [|split; [|split; [|split]]]].
  - intros md pfs ts ts' H. apply (C134_batch_errors E L) in H; [|apply Forall_forall; exact Hm]. cbn in H.
    repeat (destruct H as [H|H]; [discriminate|]). exact H.
  - intros md st pf t t' Hin H. apply (C134_single_errors E L) in H; [|exact (Hm st Hin)]. cbn in H.
    repeat (destruct H as [H|H]; [discriminate|]). exact H.
  - intros md pfs ts ts' H. apply C134_single_blame_errors in H. destruct H as [(i & H & _)|(H & _)]; discriminate.
  - intros md pfs ts ts' H. apply C134_full_blame_errors in H. destruct H as (l & H & _); discriminate.
  - intros R ro w st rng t Hw Hin.
    destruct (C134_prover_errors E L R ro w st rng t FailedBatchVerification Hw (Hm st Hin)) as [H1 H2].
    split; intros H; [apply H1 in H|apply H2 in H]; cbn in H; repeat (destruct H as [H|H]; [discriminate|]); exact H.
  - intros bs H. apply C134_decoder_errors in H. discriminate.
Qed.
Print Assumptions C134_never_returned.

(** ** The messages *)
(** An error of [verify], [verify_batch], a prover or the decoder can be read off its message; *)
Theorem C134_messages_tell_apart :
  forall e e', In e batch_errors \/ In e prover_errors \/ e = FailedDeserialization ->
    display_proof_error e = display_proof_error e' -> e = e'.
Proof.
  intros e e' Hin. apply display_tells_apart.
  destruct Hin as [H|[H| ->]]; [| |reflexivity]; cbn in H; repeat (destruct H as [<-|H]; [reflexivity|]); destruct H.
Qed.
Print Assumptions C134_messages_tell_apart.
(** and the messages of the constructors give their reason. *)
Theorem C134_constructor_messages :
  (forall e e', display_parameter_error e = display_parameter_error e' -> e = e') /\
  (forall e e', display_statement_error e = display_statement_error e' -> e = e') /\
  (forall e e', display_witness_error e = display_witness_error e' -> e = e').
Proof. repeat split; intros [r] [r'] H; cbn in H; injection H as <-; reflexivity. Qed.
Print Assumptions C134_constructor_messages.

(** But a batch of two proofs that fails is reported as a failed verification of a "Single proof", ... *)
Theorem C134_batch_message_refuted :
  exists md (sts : list (statement E0)) pfs ts ts', Forall made_statement sts /\ length pfs = 2%nat /\
    verify_batch_returns md sts pfs ts (Err FailedVerification) ts' /\
    display_proof_error FailedVerification = "Single proof verification failed".
Proof.
  destruct (proj1 C73_example) as (ts' & H). exists OverflowPanics, x_sts, x_pfs, x_ts, ts'.
  split; [exact x_statements_made|]. split; [reflexivity|]. split; [exact H|reflexivity].
Qed.
Print Assumptions C134_batch_message_refuted.
(** ... and the message of an error with blame does not say which proof is to blame. *)
Theorem C134_blame_message_refuted :
  exists md (sts : list (statement E0)) pfs ts ts' i l, Forall made_statement sts /\
    single_blame_returns md sts pfs ts (Err (FailedBatchVerificationWithSingleBlame (Some i))) ts /\
    full_blame_returns md sts pfs ts (Err (FailedBatchVerificationWithFullBlame l)) ts' /\
    forall j l', display_proof_error (FailedBatchVerificationWithSingleBlame (Some i)) = display_proof_error (FailedBatchVerificationWithSingleBlame j) /\
    display_proof_error (FailedBatchVerificationWithFullBlame l) = display_proof_error (FailedBatchVerificationWithFullBlame l').
Proof.
  destruct C73_example as (_ & H1 & ts' & H2). exists OverflowPanics, x_sts, x_pfs, x_ts, ts', 1%nat, [1%nat].
  split; [exact x_statements_made|]. split; [exact H1|]. split; [exact H2|]. intros j l'. split; reflexivity.
Qed.
Print Assumptions C134_blame_message_refuted.

(** Concrete calls with these results.  (The verdicts of C71 that end in an error each have an example there.) *)
Example C134_example :
  (exists ts', verify_batch_returns OverflowPanics x_sts x_pfs x_ts (Err FailedVerification) ts' /\ In FailedVerification batch_errors) /\
    single_blame_returns OverflowPanics [x_statement P0 T0 2; x_statement P0 T0 2] [x_proof P0 T0 2 1] [x_transcript 1]
    (Err (FailedBatchVerificationWithSingleBlame None)) [x_transcript 1] /\
    witness_new (x_params P0 T0) 9 s1 = Err (WE_InvalidParameter "`l >= N`").
Proof.
  split; [|split].
  - destruct (proj1 C73_example) as (ts' & H). exists ts'. split; [exact H|]. cbn. tauto.
  - exact (C134_no_index_valid_refuted E0 L0 (E0_weights_terminate 4) OverflowPanics _ _ _ _ [] (x_statement_made P0 T0 2)
      (x_valid P0 T0 2 1 ltac:(lia) x_check_2_1) (x_fits P0 T0 2 OverflowPanics 1 ltac:(lia))).
  - reflexivity.
Qed.

(** A batch of [2 ^ 32] or more acceptable proofs is refused for its size, without being looked at further. *)
Theorem C134_batch_size_occurs :
  forall (E : env), env_laws E -> weights_terminate (E := E) 4 -> forall md (st : statement E) pf t k,
    made_statement st -> well_shaped (st_get_params st) pf -> (2 ^ 32 <= N.of_nat (S k))%N ->
    verify_batch_returns md (repeat st (S k)) (repeat pf (S k)) (repeat t (S k))
      (Err (InvalidParameter "batch size overflowed `u32`")) (repeat t (S k)).
Proof.
  intros E L Hw md st pf t k Hm Hs Hk.
  assert (Hall : Forall made_statement (repeat st (S k))) by (apply Forall_forall; intros s Hin; apply repeat_spec in Hin; subst s; exact Hm).
  apply (proj2 (C71_batch_verdict E L md _ _ _ _ _ Hall) Hw). cbn [repeat] in Hall |- *.
  change (pf :: repeat pf k) with (repeat pf (S k)). change (t :: repeat t k) with (repeat t (S k)).
  apply verdict_batch_size; [|rewrite repeat_length; exact Hk].
  split; [rewrite repeat_length; cbn [length]; rewrite repeat_length; reflexivity|].
  split; [rewrite repeat_length; cbn [length]; rewrite repeat_length; reflexivity|].
  split; [intros s Hin; apply repeat_spec in Hin; subst s; reflexivity|].
  split; [intros s Hin; apply repeat_spec in Hin; subst s; reflexivity|].
  intros p Hin. apply repeat_spec in Hin. subst p. exact Hs.
Qed.
Print Assumptions C134_batch_size_occurs.
