(** Property C73: a failed equation that is alone in its batch is always detected and always attributed to the right proof,
    whatever the batch weights are; so changing the response [z_A] or [z_C] of a valid proof is always noticed. *)
From Verif Require Import SpecPlainSound SpecTamper PlainFacts VerifierFacts Completeness Verdict Blame VerifierApi Lone
  ExamplesRun Properties_Verifier Properties_Blame.
From Verif Require Import Algebra.

(** ** The batch is rejected, for every choice of weights. *)
Theorem C73_lone_failure_rejected :
  forall (E : env), env_laws E -> forall md (st0 : statement E) sts pfs ts i,
    made_statement st0 -> one_ring (st0 :: sts) -> length (st0 :: sts) = length pfs -> length (st0 :: sts) = length ts ->
    fits md (st_get_params st0) (N.of_nat (length pfs)) -> lone_failure (st0 :: sts) pfs ts i ->
    (forall r ts', verify_batch_returns md (st0 :: sts) pfs ts r ts' -> r = Err FailedVerification) /\
    (weights_terminate (E := E) 4 -> exists ts', verify_batch_returns md (st0 :: sts) pfs ts (Err FailedVerification) ts').
Proof.
  intros E L md st0 sts pfs ts i Hm Hr Hl1 Hl2 Hf Hlone.
  destruct (lone_batch L md st0 sts pfs ts i Hm Hr Hl1 Hl2 Hf Hlone) as [H1 H2]. split.
  - intros r ts' H. exact (proj1 (H1 r ts' H)).
  - intros Ht. eexists. exact (H2 Ht).
Qed.
Print Assumptions C73_lone_failure_rejected.

(** ** Both blame functions name exactly that proof. *)
Theorem C73_lone_failure_blamed :
  forall (E : env), env_laws E -> forall md (st0 : statement E) sts pfs ts i,
    Forall made_statement (st0 :: sts) -> one_ring (st0 :: sts) -> length (st0 :: sts) = length pfs -> length (st0 :: sts) = length ts ->
    fits md (st_get_params st0) (N.of_nat (length pfs)) -> lone_failure (st0 :: sts) pfs ts i ->
    (forall r ts', single_blame_returns md (st0 :: sts) pfs ts r ts' -> r = Err (FailedBatchVerificationWithSingleBlame (Some i))) /\
    (forall r ts', full_blame_returns md (st0 :: sts) pfs ts r ts' -> r = Err (FailedBatchVerificationWithFullBlame [i])).
Proof.
  intros E L md st0 sts pfs ts i Hm Hr Hl1 Hl2 Hf Hlone. split; intros r ts' H.
  - exact (proj1 (lone_single_blame L md st0 sts pfs ts i Hm Hr Hl1 Hl2 Hf Hlone r ts' H)).
  - exact (lone_full_blame L md st0 sts pfs ts i Hm Hr Hl1 Hl2 Hf Hlone r ts' H).
Qed.
Print Assumptions C73_lone_failure_blamed.

(** Both functions do return. *)
Lemma blame_returns {E : env} (L : env_laws E) md (st0 : statement E) sts pfs ts i : weights_terminate (E := E) 4 ->
  Forall made_statement (st0 :: sts) -> one_ring (st0 :: sts) -> length (st0 :: sts) = length pfs -> length (st0 :: sts) = length ts ->
  fits md (st_get_params st0) (N.of_nat (length pfs)) -> lone_failure (st0 :: sts) pfs ts i ->
  single_blame_returns md (st0 :: sts) pfs ts (Err (FailedBatchVerificationWithSingleBlame (Some i))) ts /\
  exists ts', full_blame_returns md (st0 :: sts) pfs ts (Err (FailedBatchVerificationWithFullBlame [i])) ts'.
Proof.
  intros Ht Hm Hr Hl1 Hl2 Hf Hlone.
  destruct (C73_lone_failure_blamed E L md st0 sts pfs ts i Hm Hr Hl1 Hl2 Hf Hlone) as [H1 H2]. split.
  - destruct (C40_single_blame_returns E L Ht md (st0 :: sts) pfs ts Hl1 Hl2 Hm) as [r H]. rewrite (H1 r ts H) in H. exact H.
  - destruct (C43_full_blame_returns E L Ht md (st0 :: sts) pfs ts Hm) as (r & ts' & H). exists ts'. rewrite (H2 r ts' H) in H. exact H.
Qed.

Example C73_example :
  (exists ts', verify_batch_returns OverflowPanics x_sts x_pfs x_ts (Err FailedVerification) ts') /\
  single_blame_returns OverflowPanics x_sts x_pfs x_ts (Err (FailedBatchVerificationWithSingleBlame (Some 1%nat))) x_ts /\
  exists ts', full_blame_returns OverflowPanics x_sts x_pfs x_ts (Err (FailedBatchVerificationWithFullBlame [1%nat])) ts'.
Proof.
  split.
  - exact (proj2 (C73_lone_failure_rejected E0 L0 OverflowPanics (x_statement P0 T0 2) [x_statement P0 T0 2] x_pfs x_ts 1
      (x_statement_made P0 T0 2) x_statements_ring eq_refl eq_refl (x_fits P0 T0 2 OverflowPanics 2 ltac:(lia)) x_lone) (E0_weights_terminate 4)).
  - exact (blame_returns L0 OverflowPanics (x_statement P0 T0 2) [x_statement P0 T0 2] x_pfs x_ts 1 (E0_weights_terminate 4)
      x_statements_made x_statements_ring eq_refl eq_refl (x_fits P0 T0 2 OverflowPanics 2 ltac:(lia)) x_lone).
Qed.

(** ** A valid proof in which [z_A] or [z_C] is replaced is rejected, alone or in any batch of otherwise valid proofs. *)
Theorem C73_tampered_masks_rejected :
  forall (E : env), env_laws E -> forall md (st0 : statement E) sts pfs1 pf pfs2 ts i pf',
    Forall made_statement (st0 :: sts) -> one_ring (st0 :: sts) ->
    length (st0 :: sts) = length (pfs1 ++ pf :: pfs2) -> length (st0 :: sts) = length ts ->
    fits md (st_get_params st0) (N.of_nat (length (st0 :: sts))) ->
    all_valid (st0 :: sts) (pfs1 ++ pf :: pfs2) ts -> get_CommitmentH (st_get_params st0) <> pid E -> length pfs1 = i ->
    (exists x, x <> pf_z_A pf /\ pf' = with_z_A pf x) \/ (exists x, x <> pf_z_C pf /\ pf' = with_z_C pf x) ->
    (forall r ts', verify_batch_returns md (st0 :: sts) (pfs1 ++ pf' :: pfs2) ts r ts' -> r = Err FailedVerification) /\
    (forall r ts', single_blame_returns md (st0 :: sts) (pfs1 ++ pf' :: pfs2) ts r ts' -> r = Err (FailedBatchVerificationWithSingleBlame (Some i))) /\
    (forall r ts', full_blame_returns md (st0 :: sts) (pfs1 ++ pf' :: pfs2) ts r ts' -> r = Err (FailedBatchVerificationWithFullBlame [i])).
Proof.
  intros E L md st0 sts pfs1 pf pfs2 ts i pf' Hm Hr Hl1 Hl2 Hf Hv HH <- Ht.
  assert (Hl1' : length (st0 :: sts) = length (pfs1 ++ pf' :: pfs2)) by (rewrite Hl1, !app_length; reflexivity).
  assert (Hlone : lone_failure (st0 :: sts) (pfs1 ++ pf' :: pfs2) ts (length pfs1)).
  { split.
    - destruct (member_exists (st0 :: sts) (pfs1 ++ pf :: pfs2) ts (length pfs1) Hl1 Hl2 ltac:(rewrite app_length; cbn [length]; lia)) as (st & q & t & Hmb).
      assert (q = pf) by (destruct Hmb as (_ & H & _); rewrite nth_error_app2, Nat.sub_diag in H by lia; cbn [nth_error] in H; congruence). subst q.
      exists st, pf', t. split.
      + destruct Hmb as (H1 & _ & H3). split; [exact H1|]. split; [|exact H3]. rewrite nth_error_app2, Nat.sub_diag by lia. reflexivity.
      + assert (Hst : st_get_params st = st_get_params st0).
        { destruct Hmb as (Hs & _). apply nth_error_In in Hs. apply (Hr st st0 Hs). left. reflexivity. }
        pose proof (Hv _ st pf t Hmb) as Hvp. rewrite <- Hst in HH.
        destruct Ht as [(x & Hx & ->)|(x & Hx & ->)]; [apply (tamper_z_A L)|apply (tamper_z_C L)]; assumption.
    - intros k st q t Hk (H1 & H2 & H3). apply (Hv k st q t). split; [exact H1|]. split; [|exact H3].
      destruct (le_lt_dec (length pfs1) k) as [Hle|Hlt].
      + rewrite nth_error_app2 in H2 |- * by lia. destruct (k - length pfs1)%nat as [|j] eqn:Hj; [lia|exact H2].
      + rewrite nth_error_app1 in H2 |- * by lia. exact H2. }
  rewrite Hl1' in Hf. split; [|apply (C73_lone_failure_blamed E L); assumption].
  exact (proj1 (C73_lone_failure_rejected E L md st0 sts _ ts _ (Forall_inv Hm) Hr Hl1' Hl2 Hf Hlone)).
Qed.
Print Assumptions C73_tampered_masks_rejected.

Example C73_tampered_example :
  all_valid x_sts [x_proof P0 T0 2 1; x_proof P0 T0 2 2] x_ts /\ get_CommitmentH (st_get_params (x_statement P0 T0 2)) <> pid E0 /\
  (exists x, x <> pf_z_A (x_proof P0 T0 2 2) /\ x_tampered = with_z_A (x_proof P0 T0 2 2) x) /\ x_pfs = [x_proof P0 T0 2 1] ++ [x_tampered].
Proof.
  split; [|split; [exact x_H_nonzero|split]].
  - intros k a b c (H1 & H2 & H3). destruct k as [|[|k]]; [| |destruct k; discriminate H1].
    + injection H1 as <-. injection H2 as <-. injection H3 as <-. exact (x_valid P0 T0 2 1 ltac:(lia) x_check_2_1).
    + injection H1 as <-. injection H2 as <-. injection H3 as <-. exact (x_valid P0 T0 2 2 ltac:(lia) x_check_2_2).
  - eexists. split; [|reflexivity]. apply add_one_differs.
  - reflexivity.
Qed.

(** ** Replacing [z] breaks two equations at once: the proof is accepted exactly when the two weights happen to satisfy
    [w3 * G + w4 * J = 0], a relation that does not depend on the new value. *)
Theorem C73_tampered_z :
  forall (E : env), env_laws E -> forall md (st : statement E) t pf x r t',
    made_statement st -> fits md (st_get_params st) 1 -> valid_proof t st pf -> x <> pf_z pf ->
    verify_returns md (with_z pf x) st t r t' ->
    exists w1 w2 w3 w4 g, next_weights (E := E) 4 (weight_rng [st] [with_z pf x] [t]) [w1; w2; w3; w4] g /\ ~ In s0 [w1; w2; w3; w4] /\
      ((r = Ok tt /\ padd E (pmul E w3 (get_G (st_get_params st))) (pmul E w4 (st_get_J st)) = pid E) \/
       (r = Err FailedVerification /\ padd E (pmul E w3 (get_G (st_get_params st))) (pmul E w4 (st_get_J st)) <> pid E)).
Proof.
  intros E L md st t pf x r t' Hm Hf Hv Hx H. pose proof (tamper_z_defects L t st pf x Hv) as Hd. destruct Hv as (Hw & Hc & Hz & _).
  destruct (C24_verify_exactly E L md (with_z pf x) st t r t' Hm H) as (_ & _ & _ & _ & Hlast).
  destruct (Hlast Hw Hf (conj Hc Hz)) as (_ & ws & g & Hws & Hlen & Hnz & Htot).
  destruct ws as [|w1 [|w2 [|w3 [|w4 [|w5 ws]]]]]; try discriminate. exists w1, w2, w3, w4, g. split; [exact Hws|]. split; [exact Hnz|].
  change (challenge t st (with_z pf x)) with (challenge t st pf) in Htot. rewrite Hd in Htot. clear Hd.
  rewrite !lincomb_cons, lincomb_nil_l in Htot. set (d := (pf_z pf - x)%sc) in Htot.
  assert (Hd : d <> s0) by (unfold d; intros He; apply Hx; replace x with (pf_z pf - (pf_z pf - x))%sc by ring; rewrite He; ring).
  assert (Hre : padd E (pmul E w1 (pid E)) (padd E (pmul E w2 (pid E)) (padd E (pmul E w3 (pmul E d (get_G (st_get_params st))))
             (padd E (pmul E w4 (pmul E d (st_get_J st))) (pid E)))) =
          pmul E d (padd E (pmul E w3 (get_G (st_get_params st))) (pmul E w4 (st_get_J st)))) by module L.
  rewrite Hre in Htot. destruct Htot as [[Ht ->]|[Ht ->]].
  - left. split; [reflexivity|]. exact (pmul_eq_0 L d _ Ht Hd).
  - right. split; [reflexivity|]. intros He. apply Ht. rewrite He. apply (pmul_0_r L).
Qed.
Print Assumptions C73_tampered_z.
