(** Property C72, parallel protocol: exactly what a batch verification returns and reports, and how much work the blame functions do. *)
From Verif Require Import ParSpecSound ParSpecVerdict ParFacts ParVerifierFacts ParCompleteness ParVerdict ParVerifierApi ParBatchVerdict ParCalls
  ParExamples ParExamplesRun Properties_ParVerifier Properties_ParTamper.
From Verif Require Import Algebra.

(** ** The result of [verify_batch] and the transcripts it leaves behind are those of [batch_verdict], a case distinction that
    does not mention the code; and every verdict is reached. *)
Theorem C72_batch_verdict :
  forall (E : env), env_laws E -> forall md (sts : list (statement E)) pfs ts r ts', Forall made_statement sts ->
    (verify_batch_returns md sts pfs ts r ts' -> batch_verdict md sts pfs ts r ts') /\
    (weights_terminate (E := E) 5 -> batch_verdict md sts pfs ts r ts' -> verify_batch_returns md sts pfs ts r ts').
Proof.
  intros E L md sts pfs ts r ts' Hm. split; [apply (verdict_of_run L); exact Hm|].
  intros Ht. apply (run_of_verdict L); assumption.
Qed.
Print Assumptions C72_batch_verdict.

(** The verdict is unique, and there always is one. *)
Theorem C72_verdict_unique :
  forall (E : env), env_laws E -> weights_terminate (E := E) 5 ->
    forall md (sts : list (statement E)) pfs ts, Forall made_statement sts ->
    exists r ts', batch_verdict md sts pfs ts r ts' /\ forall r2 ts2, batch_verdict md sts pfs ts r2 ts2 -> r2 = r /\ ts2 = ts'.
Proof.
  intros E L Ht md sts pfs ts Hm.
  assert (Hg : Forall good_statement sts) by (eapply Forall_impl; [|exact Hm]; intros a; apply (made_statement_good L)).
  destruct (verify_batch_total L md sts pfs ts Hg Ht) as (r & ts' & H). exists r, ts'.
  split; [exact (verdict_of_run L md sts pfs ts r ts' Hm H)|]. intros r2 ts2 H2.
  apply (run_of_verdict L md sts pfs ts r2 ts2 Hm Ht) in H2. exact (verify_batch_returns_det md sts pfs ts r2 ts2 r ts' H2 H).
Qed.
Print Assumptions C72_verdict_unique.

(** Both verdicts on well-formed batches occur: an honest proof is accepted, a tampered one is rejected. *)
Lemma verdict_one {E : env} (L : env_laws E) md (pf : proof E) st t r t' : made_statement st ->
  verify_returns md pf st t r t' -> batch_verdict md [st] [pf] [t] r [t'].
Proof.
  intros Hm H. apply (C72_batch_verdict E L); [constructor; [exact Hm|constructor]|]. apply verify_returns_batch. exact H.
Qed.
Example C72_verdict_example :
  (exists (st : statement E0) pf t u, made_statement st /\ batch_verdict OverflowPanics [st] [pf] [t] (Ok tt) [u]) /\
  (exists us, batch_verdict OverflowPanics x_sts x_pfs x_ts (Err FailedVerification) us).
Proof.
  split.
  - destruct C62_completeness_example as (w & st & pf & t1 & _ & Hst & _ & _ & _ & _ & Hv).
    exists st, pf, (x_transcript 1), (verifier_transcript (x_transcript 1) st pf). split; [exact Hst|].
    exact (verdict_one L0 _ _ _ _ _ _ Hst Hv).
  - destruct (proj1 C74_example) as [us Hus]. exists us.
    exact (proj1 (C72_batch_verdict E0 L0 OverflowPanics x_sts x_pfs x_ts _ us x_statements_made) Hus).
Qed.

(** ** The case of a misshaped proof: the reason names the first dimension that is wrong. *)
Theorem C72_misshaped_reason :
  forall (E : env), env_laws E -> forall md (pf : proof E) (st : statement E) t r t', made_statement st ->
    verify_returns md pf st t r t' -> ~ well_shaped (st_get_params st) pf ->
    t' = t /\ exists reason, shape_fault (st_get_params st) pf reason /\ r = Err (InvalidParameter reason).
Proof.
  intros E L md pf st t r t' Hm H Hw. apply verify_returns_batch in H.
  pose proof (made_statement_good L st Hm) as Hg. pose proof (gp_n _ (gs_params _ Hg)) as Hn.
  destruct (check_dims_fault (st_params st) [pf] ltac:(lia)) as (pfs1 & q & pfs2 & s & He & _ & Hs & Hc).
  { intros Hc. exact (Hw (Forall_inv Hc)). }
  destruct pfs1 as [|a pfs1]; [|destruct pfs1; discriminate]. injection He as <- <-.
  assert (Hv : verify_batch_returns md [st] [pf] [t] (Err (InvalidParameter s)) [t]).
  { exists 0%nat. split; [|discriminate]. apply verify_batch_shape; try reflexivity; [intros x []|intros x []|exact Hc]. }
  destruct (verify_batch_returns_det md [st] [pf] [t] _ _ _ _ H Hv) as [Hr Ht]. split; [congruence|].
  exists s. split; [exact Hs|exact Hr].
Qed.
Print Assumptions C72_misshaped_reason.

(** The faults of a proof are exactly the ways of not having the right shape. *)
Theorem C72_faults_are_misshapes :
  forall (E : env) (p : params E) (pf : proof E), ~ well_shaped p pf <-> exists reason, shape_fault p pf reason.
Proof.
  intros E p pf. split.
  - unfold well_shaped, shape. intros H.
    destruct (Nat.eq_dec (length (pf_X pf)) (N.to_nat (get_m p))) as [HX|HX]; [|eexists; apply fault_X; exact HX].
    destruct (Nat.eq_dec (length (pf_X1 pf)) (N.to_nat (get_m p))) as [HX1|HX1]; [|eexists; apply fault_X1; assumption].
    destruct (Nat.eq_dec (length (pf_Y pf)) (N.to_nat (get_m p))) as [HY|HY]; [|eexists; apply fault_Y; assumption].
    destruct (Nat.eq_dec (length (pf_f pf)) (N.to_nat (get_m p))) as [Hf|Hf]; [|eexists; apply fault_rows; assumption].
    destruct (forallb (fun row => Nat.eqb (length row) (N.to_nat (get_n p) - 1)) (pf_f pf)) eqn:Hr.
    + apply forallb_rows in Hr. tauto.
    + apply forallb_false in Hr. destruct Hr as (row & Hi & Hr). apply Nat.eqb_neq in Hr. eexists. apply (fault_columns p pf row); assumption.
  - intros [s Hs]. exact (shape_fault_not_shaped p pf s Hs).
Qed.
Print Assumptions C72_faults_are_misshapes.

(** A proof with a row missing. *)
Example C72_misshaped_example :
  shape_fault (st_get_params (x_statement P0 T0 2)) x_clipped "proof `f` matrix did not have `m` rows".
Proof. exact x_clipped_fault. Qed.

(** ** The first misshaped proof of an otherwise well-formed batch is reported. *)
Theorem C72_malformed_reason :
  forall (E : env), env_laws E -> forall md (st0 : statement E) sts pfs1 pf pfs2 ts reason,
    made_statement st0 -> length (st0 :: sts) = length (pfs1 ++ pf :: pfs2) -> length (st0 :: sts) = length ts ->
    same_input_sets st0 sts -> same_parameters st0 sts ->
    (forall pf', In pf' pfs1 -> well_shaped (st_get_params st0) pf') -> shape_fault (st_get_params st0) pf reason ->
    verify_batch_returns md (st0 :: sts) (pfs1 ++ pf :: pfs2) ts (Err (InvalidParameter reason)) ts.
Proof.
  intros E L md st0 sts pfs1 pf pfs2 ts reason Hm Hl1 Hl2 Hi Hp Hw Hs. pose proof (made_statement_good L st0 Hm) as Hg.
  pose proof (gp_n _ (gs_params _ Hg)) as Hn. exists 0%nat. split; [|discriminate].
  apply verify_batch_shape; try assumption. apply check_dims_fault_fun; [lia|apply Forall_forall; exact Hw|exact Hs].
Qed.
Print Assumptions C72_malformed_reason.

Example C72_malformed_example : exists ts',
  verify_batch_returns OverflowPanics x_sts [x_proof P0 T0 2 1; x_clipped] x_ts
    (Err (InvalidParameter "proof `f` matrix did not have `m` rows")) ts'.
Proof.
  exists x_ts.
  apply (C72_malformed_reason E0 L0 OverflowPanics (x_statement P0 T0 2) [x_statement P0 T0 2] [x_proof P0 T0 2 1] x_clipped [] x_ts).
  - apply x_statement_made.
  - reflexivity.
  - reflexivity.
  - intros s [<-|[]]. reflexivity.
  - intros s [<-|[]]. reflexivity.
  - intros q [<-|[]]. exact (proj1 (x_valid P0 T0 2 1 ltac:(lia) x_check_2_1)).
  - exact x_clipped_fault.
Qed.

(** ** Mixed batches. *)
Theorem C72_mixed_reason :
  forall (E : env) md (st0 : statement E) sts pfs ts,
    length (st0 :: sts) = length pfs -> length (st0 :: sts) = length ts ->
    (~ same_input_sets st0 sts ->
       verify_batch_returns md (st0 :: sts) pfs ts (Err (InvalidParameter "statement input sets do not match")) ts) /\
    (same_input_sets st0 sts -> ~ same_parameters st0 sts ->
       verify_batch_returns md (st0 :: sts) pfs ts (Err (InvalidParameter "statement parameters do not match")) ts).
Proof.
  intros E md st0 sts pfs ts Hl1 Hl2. destruct (verify_batch_mixed 0 md st0 sts pfs ts Hl1 Hl2) as [H1 H2]. split.
  - intros H. exists 0%nat. split; [exact (H1 H)|discriminate].
  - intros Ha Hb. exists 0%nat. split; [exact (H2 Ha Hb)|discriminate].
Qed.
Print Assumptions C72_mixed_reason.

(** ** The calls the search makes.  [single_blame_calls] is the function again, with a log of the ranges handed to
    [verify_batch]: the whole batch once, then at most [ceil(log2 b)] contiguous parts (one for a single proof), and no more
    than [2b + ceil(log2 b)] proofs altogether. *)
Theorem C72_number_of_calls :
  forall (E : env) fuel md (sts : list (statement E)) pfs ts,
    let '(result, transcripts, calls) := single_blame_calls fuel md sts pfs ts in
    let b := length pfs in
    (result, transcripts) = verify_batch_with_single_blame fuel md sts pfs ts /\
    (length calls <= 1 + Nat.max 1 (Nat.log2_up b))%nat /\
    (list_sum (map (fun c => snd c - fst c) calls) <= 2 * b + Nat.log2_up b)%nat /\
    (exists later, calls = (0%nat, b) :: later /\ Forall (fun c => fst c < snd c <= b)%nat later).
Proof.
  intros E fuel md sts pfs ts. pose proof (single_blame_calls_fst fuel md sts pfs ts) as Hf.
  pose proof (single_blame_calls_bound fuel md sts pfs ts) as Hb. cbv zeta in Hb.
  assert (Hl : exists later, snd (single_blame_calls fuel md sts pfs ts) = (0%nat, length pfs) :: later /\ Forall (fun c => fst c < snd c <= length pfs)%nat later).
  { unfold single_blame_calls. destruct (fst (verify_batch fuel md sts pfs ts)) as [u|e| |]; try (eexists; split; [reflexivity|constructor]).
    pose proof (blame_loop_calls_bound fuel md sts pfs ts (S (length pfs)) (Nat.log2_up (length pfs)) 0 (length pfs)) as H.
    rewrite Nat.sub_0_r in H. specialize (H (log2_up_bound _)). cbv zeta in H.
    destruct (blame_loop_calls _ _ _ _ _ _ _ _) as [res later]. exists later. split; [reflexivity|]. destruct H as (_ & _ & H).
    eapply Forall_impl; [|exact H]. cbn beta. intros c Hc. cbn [snd] in *. lia. }
  destruct (single_blame_calls fuel md sts pfs ts) as [[r us] calls]. cbn [fst snd] in *. destruct Hb as (H1 & H2 & _).
  split; [exact Hf|]. split; [exact H1|]. split; [exact H2|exact Hl].
Qed.
Print Assumptions C72_number_of_calls.

(** Two proofs, the second tampered with: two calls, and index 1 is blamed. *)
Lemma calls_result {E : env} md (sts : list (statement E)) pfs ts r ts' : single_blame_returns md sts pfs ts r ts' ->
  exists fuel, fst (fst (single_blame_calls fuel md sts pfs ts)) = r.
Proof. intros (fuel & H & _). exists fuel. rewrite single_blame_calls_fst, H. reflexivity. Qed.
Example C72_calls_example :
  (exists fuel, fst (fst (single_blame_calls fuel OverflowPanics x_sts x_pfs x_ts)) = Err (FailedBatchVerificationWithSingleBlame (Some 1%nat))) /\
  length x_pfs = 2%nat /\ Nat.log2_up 2 = 1%nat.
Proof. split; [exact (calls_result _ _ _ _ _ _ (proj1 (proj2 C74_example)))|]. split; reflexivity. Qed.

(** ** After a failed batch, full blame verifies each proof once, in order. *)
Theorem C72_full_blame_calls :
  forall (E : env) fuel md (sts : list (statement E)) pfs ts,
    let '(result, transcripts, calls) := full_blame_calls fuel md sts pfs ts in
    (result, transcripts) = verify_batch_with_full_blame fuel md sts pfs ts /\
    exists k, (k <= length pfs)%nat /\ calls = (0%nat, length pfs) :: map (fun i => (i, S i)) (seq 0 k) /\
      (forall l, result = Err (FailedBatchVerificationWithFullBlame l) -> length sts = length pfs -> length sts = length ts -> k = length pfs).
Proof.
  intros E fuel md sts pfs ts. pose proof (full_blame_calls_fst fuel md sts pfs ts) as Hf.
  assert (Hl : exists k, (k <= length pfs)%nat /\ snd (full_blame_calls fuel md sts pfs ts) = (0%nat, length pfs) :: map (fun i => (i, S i)) (seq 0 k) /\
    (forall l, fst (fst (full_blame_calls fuel md sts pfs ts)) = Err (FailedBatchVerificationWithFullBlame l) -> length sts = length pfs -> length sts = length ts -> k = length pfs)).
  { unfold full_blame_calls. destruct (fst (verify_batch fuel md sts pfs ts)) as [u|e| |];
      try (exists 0%nat; split; [lia|]; split; [reflexivity|]; intros l Hl; discriminate).
    destruct (full_blame_loop_calls_list fuel md sts pfs ts 0) as (k & Hk & Hc & Hok).
    pose proof (full_blame_loop_calls_no_err fuel md sts pfs ts 0) as Hne.
    destruct (full_blame_loop_calls fuel md 0 sts pfs ts) as [[fl us] later]. cbn [fst snd] in *.
    exists k. split; [exact Hk|]. split; [rewrite Hc; reflexivity|]. intros l Hl. apply Hok. destruct fl as [l'|e'| |]; [reflexivity|exfalso; exact (Hne e' eq_refl)|discriminate|discriminate]. }
  destruct (full_blame_calls fuel md sts pfs ts) as [[r us] calls]. cbn [fst snd] in *. split; [exact Hf|exact Hl].
Qed.
Print Assumptions C72_full_blame_calls.
