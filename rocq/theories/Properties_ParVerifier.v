(** Properties C62, C63 and C66, parallel protocol: completeness, the verdicts of the verifiers, malformed input, panics. *)
From Verif Require Import ParSpecSound ParFacts ParProverFacts ParVerifierFacts ParCompleteness ParVerdict ParSoundness ParProverApi ParBinding ParVerifierApi
  ParExamples Properties_ParParams Properties_ParInputs.
From Verif Require Import Algebra.

(** ** As C22: the verifier's only possible complaint about an honest proof is a zero among its responses; without one, the proof
    is accepted. *)
Theorem C62_completeness :
  forall (E : env), env_laws E -> forall (R : Type) (ro : rng_ops R) md (w : witness E) (st : statement E) (rng : R) (t : transcript) pf t' rng',
    made_witness w -> made_statement st ->
    prove_with_rng ro w st rng t = (Ok pf, t', rng') -> fits md (st_get_params st) 1 ->
    let no_zero_response := forall row, In row (complete (challenge t st pf) (pf_f pf)) -> ~ In s0 row in
    (forall r t'', verify_returns md pf st t r t'' ->
       (r = Ok tt <-> no_zero_response) /\
       (r = Err (InvalidParameter "proof `f` matrix contained 0") <-> ~ no_zero_response) /\
       (r = Ok tt \/ r = Err (InvalidParameter "proof `f` matrix contained 0"))) /\
    (no_zero_response -> weights_terminate (E := E) 5 -> verify_returns md pf st t (Ok tt) (verifier_transcript t st pf)).
Proof.
  intros E L R ro md w st rng t pf t' rng' Hw Hst Hp Hf nz.
  destruct (honest_verifies L md ro w st rng t pf t' rng' Hw Hst Hp Hf) as [H1 H2].
  destruct (prove_result L ro w st rng t pf t' rng' Hw Hst Hp) as (_ & Hx & _).
  assert (Hnd : nondegenerate t st pf <-> nz) by (unfold nondegenerate; tauto).
  split.
  - intros r t'' H. destruct (H1 r t'' H) as [Ha Hb]. rewrite Hnd in Ha, Hb. split; [exact Ha|]. split; [exact Hb|].
    destruct (nondeg_dec [(st, pf, t)]) as [Hd|Hd].
    + left. apply Ha. apply Hnd. exact (Forall_inv Hd).
    + right. apply Hb. intros Hc. apply Hd. constructor; [apply Hnd; exact Hc|constructor].
  - intros Hz Ht. apply H2; [exact Ht|apply Hnd; exact Hz].
Qed.
Print Assumptions C62_completeness.

(** A run of prover and verifier that meets the hypotheses, for the position 2 of a ring of four keys. *)
Example C62_completeness_example : exists (w : witness E0) st pf t',
  made_witness w /\ made_statement st /\ relation st (w_get_l w) (w_get_r w) (w_get_r1 w) /\ w_get_l w = 2%N /\ st_get_params st = w_get_params w /\
  prove_with_rng counter w st 5%N (x_transcript 1) = (Ok pf, t', 7%N) /\
  verify_returns OverflowPanics pf st (x_transcript 1) (Ok tt) (verifier_transcript (x_transcript 1) st pf).
Proof.
  destruct (x_check_ok P0 T0 2 1 x_check_2_1) as [Hx Hz].
  destruct (x_proved P0 T0 2 1 ltac:(lia) Hx) as [Hch Hp].
  exists (x_witness P0 T0 2), (x_statement P0 T0 2), (x_proof P0 T0 2 1), (prover_transcript (x_transcript 1) (x_statement P0 T0 2) (x_proof P0 T0 2 1)).
  assert (Hw : made_witness (x_witness P0 T0 2)) by (apply x_witness_made; lia).
  split; [exact Hw|]. split; [exact (x_statement_made P0 T0 2)|]. split; [apply (x_relation P0 T0 2); lia|].
  split; [reflexivity|]. split; [reflexivity|]. split; [exact Hp|].
  apply (C62_completeness E0 L0 N counter OverflowPanics _ _ _ _ _ _ _ Hw (x_statement_made P0 T0 2) Hp).
  - apply (x_fits P0 T0 2). lia.
  - rewrite Hch. exact Hz.
  - apply E0_weights_terminate.
Qed.

(** ** As C23: perfect completeness fails.  The condition under which an honest proof is rejected: one of the completed responses
    [a_ji + sigma_ji * xi] is zero... *)
Theorem C62_honest_rejection_condition :
  forall (E : env), env_laws E -> forall (R : Type) (ro : rng_ops R) (w : witness E) (st : statement E) (rng : R) (t : transcript) pf t' rng',
    made_witness w -> made_statement st -> prove_with_rng ro w st rng t = (Ok pf, t', rng') ->
    let n := get_n (st_get_params st) in let m := N.to_nat (get_m (st_get_params st)) in
    let a := mat (map balance (c_a (prover_coins t st w (fst (rng_fill ro rng 32))))) in
    (forall row, In row (complete (challenge t st pf) (pf_f pf)) -> ~ In s0 row) <->
    (forall j i, (j < m)%nat -> (i < N.to_nat n)%nat -> (a j i + sigma_at n (w_get_l w) j i * challenge t st pf)%sc <> s0).
Proof.
  intros E L R ro w st rng t pf t' rng' Hw Hst Hp n m a.
  destruct (prove_result L ro w st rng t pf t' rng' Hw Hst Hp) as (_ & _ & Hpf & _ & _).
  pose proof (made_statement_good L st Hst) as Hg.
  set (xi := challenge t st pf) in *. set (c := prover_coins t st w (fst (rng_fill ro rng 32))) in *.
  rewrite Hpf. rewrite (honest_complete st (w_get_l w) (w_get_r w) (w_get_r1 w) c xi Hg (prover_coins_good t st w _)).
  change (N.to_nat (p_m (st_params st))) with m. change (N.to_nat (p_n (st_params st))) with (N.to_nat n).
  unfold mkmat. split.
  - intros H j i Hj Hi He. apply (H (map (response_entry st (w_get_l w) c xi j) (seq 0 (N.to_nat n)))).
    + apply (in_map (fun j => map (response_entry st (w_get_l w) c xi j) (seq 0 (N.to_nat n)))). apply in_seq. lia.
    + apply in_map_iff. exists i. split; [|apply in_seq; lia]. rewrite <- He. unfold response_entry. fold n. fold a.
      change (p_n (st_params st)) with n. ring.
  - intros H row Hrow Hin. apply in_map_iff in Hrow. destruct Hrow as (j & <- & Hj). apply in_map_iff in Hin. destruct Hin as (i & He & Hi).
    apply in_seq in Hj, Hi. apply (H j i); [lia|lia|].
    rewrite <- He. unfold response_entry. fold n. fold a. change (p_n (st_params st)) with n. ring.
Qed.
Print Assumptions C62_honest_rejection_condition.

(** ... which happens: here all nonces are zero. *)
Definition T_zero (g : trng) : N := match tr_keys g with [] => T0 g | _ => 0%N end.
Theorem C62_perfect_completeness_refuted :
  exists (E : env), env_laws E /\ exists (R : Type) (ro : rng_ops R) (w : witness E) (st : statement E) (rng : R) t pf t' rng' t'',
    made_witness w /\ made_statement st /\ prove_with_rng ro w st rng t = (Ok pf, t', rng') /\
    verify_returns OverflowWraps pf st t (Err (InvalidParameter "proof `f` matrix contained 0")) t''.
Proof.
  exists (toy P0 T_zero). split; [apply toy_laws|].
  pose (E := toy P0 T_zero). pose (L := toy_laws P0 T_zero).
  assert (Hxi : seqb (x_xi P0 T_zero 2 1) s0 = false) by (vm_compute; reflexivity).
  assert (Hz : contains_zero (complete (x_xi P0 T_zero 2 1) (pf_f (x_proof P0 T_zero 2 1))) = true) by (vm_compute; reflexivity).
  apply seqb_neq in Hxi. destruct (x_proved P0 T_zero 2 1 ltac:(lia) Hxi) as [Hch Hp].
  exists N, counter, (x_witness P0 T_zero 2), (x_statement P0 T_zero 2), 5%N, (x_transcript 1), (x_proof P0 T_zero 2 1),
    (prover_transcript (x_transcript 1) (x_statement P0 T_zero 2) (x_proof P0 T_zero 2 1)), 7%N,
    (verifier_transcript (x_transcript 1) (x_statement P0 T_zero 2) (x_proof P0 T_zero 2 1)).
  split; [apply x_witness_made; lia|]. split; [apply x_statement_made|]. split; [exact Hp|].
  assert (Hd : ~ nondegenerate (x_transcript 1) (x_statement P0 T_zero 2) (x_proof P0 T_zero 2 1)).
  { intros [_ H]. rewrite Hch in H.
    pose proof (proj1 (no_zero_spec (x_proof P0 T_zero 2 1) (x_xi P0 T_zero 2 1)) H) as Hf. rewrite Hz in Hf. discriminate. }
  apply (verify_degenerate (toy_laws P0 T_zero)).
  - apply x_statement_made.
  - exact (honest_well_shaped (x_statement P0 T_zero 2) 2 x_r x_r1 _ (x_xi P0 T_zero 2 1)).
  - apply (x_fits P0 T_zero 2). lia.
  - rewrite Hch. exact Hxi.
  - exact Hd.
Qed.
Print Assumptions C62_perfect_completeness_refuted.

(** ** As C24: the verdict on one proof, case by case; the cases are exhaustive. *)
Theorem C63_verify_exactly :
  forall (E : env), env_laws E -> forall md (pf : proof E) (st : statement E) t r t', made_statement st ->
    verify_returns md pf st t r t' ->
    let p := st_get_params st in
    let xi := challenge t st pf in
    (~ well_shaped p pf -> (exists reason, r = Err (InvalidParameter reason)) /\ t' = t) /\
    (well_shaped p pf -> ~ fits md p 1 -> r = Panic /\ t' = t) /\
    (well_shaped p pf -> fits md p 1 -> xi = s0 -> r = Err InvalidChallenge /\ t' = prover_transcript t st pf) /\
    (well_shaped p pf -> fits md p 1 -> xi <> s0 -> ~ nondegenerate t st pf ->
       r = Err (InvalidParameter "proof `f` matrix contained 0") /\ t' = verifier_transcript t st pf) /\
    (well_shaped p pf -> fits md p 1 -> nondegenerate t st pf ->
       t' = verifier_transcript t st pf /\
       exists ws g, next_weights (E := E) 5 (weight_rng [st] [pf] [t]) ws g /\ length ws = 5%nat /\ ~ In s0 ws /\
         let total := lincomb ws (defects p (get_keys (st_get_input_set st)) (get_auxiliary_keys (st_get_input_set st)) (st_get_offset st) (st_get_J st) pf xi) in
         ((total = pid E /\ r = Ok tt) \/ (total <> pid E /\ r = Err FailedVerification))).
Proof. intros E L md pf st t r t' Hst H. exact (verify_cases L md pf st t r t' Hst H). Qed.
Print Assumptions C63_verify_exactly.

(** ... the five points that are weighted vanish exactly when the five verification equations hold... *)
Theorem C63_defects_are_the_equations :
  forall (E : env), env_laws E -> forall (p : params E) M M1 offset J (pf : proof E) xi,
    (forall d, In d (defects p M M1 offset J pf xi) -> d = pid E) <-> equations p M M1 offset J pf xi.
Proof.
  intros E L p M M1 offset J pf xi. rewrite (defects_zero L), Forall_forall. tauto.
Qed.
Print Assumptions C63_defects_are_the_equations.

(** ... and a proof whose equations do not hold is accepted only if the weights derived from it cancel the defects. *)
Theorem C63_accepted_valid_or_cancel :
  forall (E : env), env_laws E -> forall md (pf : proof E) (st : statement E) t t', made_statement st ->
    verify_returns md pf st t (Ok tt) t' ->
    valid_proof t st pf \/
    exists ws g, next_weights (E := E) 5 (weight_rng [st] [pf] [t]) ws g /\ length ws = 5%nat /\ ~ In s0 ws /\
      let ds := defects (st_get_params st) (get_keys (st_get_input_set st)) (get_auxiliary_keys (st_get_input_set st)) (st_get_offset st) (st_get_J st) pf (challenge t st pf) in
      (exists d, In d ds /\ d <> pid E) /\ lincomb ws ds = pid E.
Proof.
  intros E L md pf st t t' Hst H. destruct (verify_cases L md pf st t (Ok tt) t' Hst H) as (H1 & H2 & H3 & H4 & H5).
  destruct (well_shaped_dec (st_get_params st) pf) as [Hw|Hw]; [|destruct (H1 Hw) as [[s Hc] _]; discriminate].
  destruct (fits_dec md (st_get_params st) 1) as [Hf|Hf]; [|destruct (H2 Hw Hf) as [Hc _]; discriminate].
  destruct (scalar_eq_dec (challenge t st pf) s0) as [Hx|Hx]; [destruct (H3 Hw Hf Hx) as [Hc _]; discriminate|].
  destruct (nondeg_dec [(st, pf, t)]) as [Hn|Hn].
  2:{ destruct (H4 Hw Hf Hx) as [Hc _]; [|discriminate]. intros Hc. apply Hn. constructor; [exact Hc|constructor]. }
  apply Forall_inv in Hn. destruct (H5 Hw Hf Hn) as (_ & ws & g & Ha & Hb & Hc & [[Hd _]|[_ Hd]]); [|discriminate].
  set (ds := defects (st_get_params st) (get_keys (st_get_input_set st)) (get_auxiliary_keys (st_get_input_set st)) (st_get_offset st) (st_get_J st) pf (challenge t st pf)) in *.
  assert (Hdec : Forall (fun d => d = pid E) ds \/ exists d, In d ds /\ d <> pid E).
  { clearbody ds. clear - L. induction ds as [|d ds IH]; [left; constructor|].
    destruct (peqb E d (pid E)) eqn:He.
    - apply (peqb_eq E L) in He. destruct IH as [IH|(d' & Hi & Hd)]; [left; constructor; assumption|right; exists d'; split; [right; exact Hi|exact Hd]].
    - right. exists d. split; [left; reflexivity|]. intros Hc. apply (peqb_eq E L) in Hc. congruence. }
  destruct Hdec as [Hz|Hz].
  - left. split; [exact Hw|]. split; [exact Hx|]. split; [exact (proj2 Hn)|]. apply (defects_zero L). exact Hz.
  - right. exists ws, g. split; [exact Ha|]. split; [exact Hb|]. split; [exact Hc|]. split; [exact Hz|exact Hd].
Qed.
Print Assumptions C63_accepted_valid_or_cancel.

(** ** As C25 *)
Theorem C62_batch_completeness :
  forall (E : env), env_laws E -> forall md (st0 : statement E) sts pfs ts,
    Forall made_statement (st0 :: sts) -> one_ring (st0 :: sts) ->
    length (st0 :: sts) = length pfs -> length (st0 :: sts) = length ts ->
    all_valid (st0 :: sts) pfs ts -> fits md (st_get_params st0) (N.of_nat (length pfs)) ->
    (forall r ts', verify_batch_returns md (st0 :: sts) pfs ts r ts' -> r = Ok tt) /\
    (weights_terminate (E := E) 5 -> exists ts', verify_batch_returns md (st0 :: sts) pfs ts (Ok tt) ts').
Proof.
  intros E L md st0 sts pfs ts Hm H1 Hl1 Hl2 Hv Hf.
  destruct (batch_of_valid L md st0 sts pfs ts (Forall_inv Hm) H1 Hl1 Hl2 Hv Hf) as [Ha Hb]. split.
  - intros r ts' H. exact (proj1 (Ha r ts' H)).
  - intros Ht. eexists. exact (Hb Ht).
Qed.
Print Assumptions C62_batch_completeness.

(** Two honest proofs over one ring, from different transcripts. *)
Example C62_batch_example : exists (sts : list (statement E0)) pfs ts ts',
  length sts = 2%nat /\ Forall made_statement sts /\ one_ring sts /\ all_valid sts pfs ts /\ nth_error pfs 0 <> nth_error pfs 1 /\
  verify_batch_returns OverflowPanics sts pfs ts (Ok tt) ts'.
Proof.
  pose (st := x_statement P0 T0 2).
  assert (Hm : Forall made_statement [st; st]) by (repeat constructor; apply x_statement_made).
  assert (H1 : one_ring [st; st]) by (intros a b [<-|[<-|[]]] [<-|[<-|[]]]; split; reflexivity).
  assert (Hv : all_valid [st; st] [x_proof P0 T0 2 1; x_proof P0 T0 2 2] [x_transcript 1; x_transcript 2]).
  { intros i s pf t (Ha & Hb & Hc). destruct i as [|[|i]]; cbn [nth_error] in Ha, Hb, Hc.
    - injection Ha as <-. injection Hb as <-. injection Hc as <-. apply x_valid; [lia|exact x_check_2_1].
    - injection Ha as <-. injection Hb as <-. injection Hc as <-. apply x_valid; [lia|exact x_check_2_2].
    - destruct i; discriminate. }
  destruct (C62_batch_completeness E0 L0 OverflowPanics st [st] [x_proof P0 T0 2 1; x_proof P0 T0 2 2] [x_transcript 1; x_transcript 2] Hm H1 eq_refl eq_refl Hv) as [_ H].
  - apply (x_fits P0 T0 2). cbn. lia.
  - destruct (H (E0_weights_terminate 5)) as [ts' H'].
    exists [st; st], [x_proof P0 T0 2 1; x_proof P0 T0 2 2], [x_transcript 1; x_transcript 2], ts'.
    split; [reflexivity|]. split; [exact Hm|]. split; [exact H1|]. split; [exact Hv|]. split; [|exact H'].
    intros Hc. apply (f_equal (option_map (fun pf => sval (pf_z_A pf)))) in Hc. revert Hc. vm_compute. discriminate.
Qed.

(** ** As C26: an accepted batch consists of proofs that are valid for their own statements, unless the nonzero weights derived
    from the batch cancel nonzero defects or a hash collision made two rings or two sets of parameters look alike. *)
Theorem C63_batch_soundness :
  forall (E : env), env_laws E -> forall md (st0 : statement E) sts pfs ts ts',
    Forall made_statement (st0 :: sts) ->
    verify_batch_returns md (st0 :: sts) pfs ts (Ok tt) ts' ->
    length (st0 :: sts) = length pfs /\ length (st0 :: sts) = length ts /\
    (all_valid (st0 :: sts) pfs ts \/
     weights_cancel (st_get_params st0) (get_keys (st_get_input_set st0)) (get_auxiliary_keys (st_get_input_set st0)) (st0 :: sts) pfs ts \/
     exists st, In st sts /\ (params_collide (st_get_params st) (st_get_params st0) \/
                              input_sets_collide (st_get_input_set st) (st_get_input_set st0))).
Proof.
  intros E L md st0 sts pfs ts ts' Hm H. destruct (accepted_batch L md st0 sts pfs ts ts' Hm H) as (H1 & H2 & _ & H3).
  split; [exact H1|]. split; [exact H2|exact H3].
Qed.
Print Assumptions C63_batch_soundness.

(** Weights that cancel are exceptional: if equation [j] of proof [i] is violated then, with all other weights fixed in any
    way, at most one value of its weight makes the weighted sum vanish. *)
Theorem C63_at_most_one_weight :
  forall (E : env), env_laws E -> forall (p : params E) M M1 sts pfs ts (h : nat -> nat -> scalar) i j st pf t w w',
    length sts = length pfs -> length sts = length ts ->
    member sts pfs ts i st pf t -> (j < 5)%nat ->
    nth j (defects p M M1 (st_get_offset st) (st_get_J st) pf (challenge t st pf)) (pid E) <> pid E ->
    weighted_defects p M M1 sts pfs ts (mkmat (length pfs) 5 (with_weight h i j w)) = pid E ->
    weighted_defects p M M1 sts pfs ts (mkmat (length pfs) 5 (with_weight h i j w')) = pid E -> w = w'.
Proof.
  intros E L p M M1 sts pfs ts h i j st pf t w w' Hl1 Hl2 Hm Hj Hd Hw Hw'. apply member_combine in Hm.
  assert (Hl : length (combine (combine sts pfs) ts) = length pfs) by (rewrite !combine_length; lia).
  rewrite <- Hl in Hw, Hw'. exact (weight_unique L p M M1 sts pfs ts h i j st pf t w w' Hm Hj Hd Hw Hw').
Qed.
Print Assumptions C63_at_most_one_weight.

(** ** As C30: any lists of proof objects whatsoever; overflow wraps. *)
Theorem C66_never_panics :
  forall (E : env), env_laws E -> forall (sts : list (statement E)) (pfs : list (proof E)) (ts : list transcript),
    Forall made_statement sts ->
    (forall r ts', verify_batch_returns OverflowWraps sts pfs ts r ts' ->
       r = Ok tt \/ r = Err InvalidChallenge \/ r = Err FailedVerification \/ exists reason, r = Err (InvalidParameter reason)) /\
    (weights_terminate (E := E) 5 -> exists r ts', verify_batch_returns OverflowWraps sts pfs ts r ts').
Proof.
  intros E L sts pfs ts Hm.
  assert (Hg : Forall good_statement sts) by (eapply Forall_impl; [|exact Hm]; intros a; apply (made_statement_good L)).
  split; [|intros Ht; exact (verify_batch_total L OverflowWraps sts pfs ts Hg Ht)].
  intros r ts' (fuel & H & Hr). pose proof (verify_batch_cases L fuel OverflowWraps sts pfs ts Hg) as Hc. rewrite H in Hc. cbn [fst] in Hc.
  destruct Hc as [Hc|[Hc|[Hc|[Hc|[Hc|[Hc _]]]]]]; [left; exact Hc|right; right; right; exact Hc|right; left; exact Hc|right; right; left; exact Hc|contradiction|discriminate].
Qed.
Print Assumptions C66_never_panics.

(** ** As C31: with overflow checks, a call panics only if the number of points does not fit in 32 bits... *)
Theorem C66_overflow_checked :
  forall (E : env), env_laws E -> forall (st0 : statement E) sts pfs ts r ts',
    Forall made_statement (st0 :: sts) ->
    verify_batch_returns OverflowPanics (st0 :: sts) pfs ts r ts' ->
    (msm_size (st_get_params st0) (N.of_nat (length pfs)) < 2 ^ 32)%N -> r <> Panic.
Proof.
  intros E L st0 sts pfs ts r ts' Hm (fuel & H & Hr) Hs ->.
  assert (Hg : Forall good_statement (st0 :: sts)) by (eapply Forall_impl; [|exact Hm]; intros a; apply (made_statement_good L)).
  pose proof (verify_batch_cases L fuel OverflowPanics (st0 :: sts) pfs ts Hg) as Hc. rewrite H in Hc. cbn [fst] in Hc.
  destruct Hc as [Hc|[[s Hc]|[Hc|[Hc|[Hc|(_ & _ & s & l & He & Hsz)]]]]]; try discriminate.
  injection He as <- <-. unfold st_get_params in Hs. lia.
Qed.
Print Assumptions C66_overflow_checked.

(** ... and then it does panic, on batches that pass all other checks. *)
Theorem C66_overflow_panics :
  forall (E : env), env_laws E -> forall (st0 : statement E) sts pfs ts,
    Forall made_statement (st0 :: sts) -> one_ring (st0 :: sts) ->
    length (st0 :: sts) = length pfs -> length (st0 :: sts) = length ts ->
    (forall pf, In pf pfs -> well_shaped (st_get_params st0) pf) ->
    (N.of_nat (length pfs) < 2 ^ 32)%N -> (2 ^ 32 <= msm_size (st_get_params st0) (N.of_nat (length pfs)))%N ->
    verify_batch_returns OverflowPanics (st0 :: sts) pfs ts Panic ts.
Proof.
  intros E L st0 sts pfs ts Hm H1 Hl1 Hl2 Hw Hb Hs. pose proof (made_statement_good L st0 (Forall_inv Hm)) as Hg.
  exists 0%nat. split; [|discriminate].
  assert (Hsr : Forall (same_ring st0) sts).
  { apply Forall_forall. intros st Hin. destruct (H1 st st0 (or_intror Hin) (or_introl eq_refl)) as [Hp Hi]. unfold same_ring. rewrite Hp, Hi. split; reflexivity. }
  assert (Hws : Forall (well_shaped (st_params st0)) pfs) by (apply Forall_forall; exact Hw).
  destruct (verify_batch_unfit 0 OverflowPanics st0 sts pfs ts Hg Hl1 Hl2 Hsr Hws) as [_ H]. exact (H Hb Hs eq_refl).
Qed.
Print Assumptions C66_overflow_panics.

(** Accepted parameters exist for which even a single proof makes the verifier panic: [n = 2, m = 31]. *)
Lemma overflow_instance (E : env) (L : env_laws E) (p : params E) (P P1 offset J : pt E) : made_params p -> P <> pid E -> P1 <> offset ->
  (2 ^ 32 <= msm_size p 1)%N ->
  exists (s : input_set E) (st : statement E) (pf : proof E),
    input_set_new_with_padding [P] [P1] p = Ok s /\ statement_new p s offset J = Ok st /\
    well_shaped p pf /\ forall t, verify_returns OverflowPanics pf st t Panic t.
Proof.
  intros Hmp HP HP1 Hsz. pose proof (made_good p Hmp) as Hgp.
  destruct (proj1 (C59_padding E p [P] [P1] Hmp) P P1) as (s & Hs & Hk & Hk1 & Hlen & _).
  { reflexivity. }
  { assert (Hx : (get_n p ^ get_m p <> 0)%N) by (apply N.pow_nonzero; pose proof (gp_n p Hgp) as H2; change (get_n p) with (p_n p); lia).
    cbn [length]. lia. }
  { reflexivity. }
  { reflexivity. }
  destruct (proj1 (C60_statement_accepted_exactly E L p s offset J Hmp)) as (st & Hst & Hstp & Hsts & _).
  { rewrite Hlen. apply N2Nat.id. }
  { rewrite Hk. intros [H|H]; [exact (HP H)|apply repeat_spec in H; congruence]. }
  { rewrite Hk1. intros [H|H]; [exact (HP1 H)|apply repeat_spec in H; congruence]. }
  pose (pf := mk_proof P P P P (repeat P (N.to_nat (get_m p))) (repeat P (N.to_nat (get_m p))) (repeat P (N.to_nat (get_m p)))
                (repeat (repeat s0 (N.to_nat (get_n p) - 1)) (N.to_nat (get_m p))) s0 s0 s0 s0).
  exists s, st, pf. split; [exact Hs|]. split; [exact Hst|].
  assert (Hw : well_shaped p pf).
  { unfold well_shaped, shape, pf. cbn [pf_X pf_X1 pf_Y pf_f]. rewrite !repeat_length. repeat split; try reflexivity.
    apply Forall_forall. intros row H. apply repeat_spec in H. subst row. apply repeat_length. }
  split; [exact Hw|]. intros t. apply (verify_returns_batch).
  apply (C66_overflow_panics E L st [] _ [t]); try reflexivity.
  - constructor; [|constructor]. exists p, s, offset, J. split; [exact Hmp|]. split; [|exact Hst]. right. exists [P], [P1], p. split; [exact Hmp|exact Hs].
  - intros a b [<-|[]] [<-|[]]. split; reflexivity.
  - intros pf' [<-|[]]. rewrite Hstp. exact Hw.
  - rewrite Hstp. exact Hsz.
Qed.

Theorem C66_never_panics_refuted :
  forall (E : env), env_laws E -> forall G G1 U P P1 offset J : pt E, P <> pid E -> P1 <> offset ->
    exists (p : params E) (s : input_set E) (st : statement E) (pf : proof E),
      new_with_generators 2 31 G G1 U = Ok p /\ input_set_new_with_padding [P] [P1] p = Ok s /\ statement_new p s offset J = Ok st /\
      well_shaped p pf /\ forall t, verify_returns OverflowPanics pf st t Panic t.
Proof.
  intros E L G G1 U P P1 offset J HP HP1.
  assert (Hv : valid_nm 2 31) by (unfold valid_nm; repeat split; vm_compute; congruence).
  destruct (proj1 (C57_parameters_accepted_exactly E 2 31 G G1 U) Hv) as [p Hp].
  assert (Hmp : made_params p) by (eexists _, _, _, _, _; exact Hp).
  destruct (C57_parameters_exact E 2 31 G G1 U p Hp) as (Hn & Hm & _ & _ & _ & HN & _).
  assert (Hsz : (2 ^ 32 <= msm_size p 1)%N) by (unfold msm_size; rewrite Hn, Hm, HN; vm_compute; discriminate).
  destruct (overflow_instance E L p P P1 offset J Hmp HP HP1 Hsz) as (s & st & pf & H).
  exists p, s, st, pf. split; [exact Hp|exact H].
Qed.
Print Assumptions C66_never_panics_refuted.

(** ** As C32 *)
Theorem C66_empty_and_mismatched :
  forall (E : env) md,
    verify_batch_returns (E := E) md [] [] [] (Ok tt) [] /\
    forall (sts : list (statement E)) (pfs : list (proof E)) (ts : list transcript) r ts',
      length sts <> length pfs \/ length sts <> length ts ->
      verify_batch_returns md sts pfs ts r ts' ->
      ts' = ts /\
      (length sts <> length pfs -> r = Err (InvalidParameter "number of statements and proofs does not match")) /\
      (length sts = length pfs -> r = Err (InvalidParameter "number of statements and transcripts does not match")).
Proof.
  intros E md. split; [exists 0%nat; split; [reflexivity|discriminate]|].
  intros sts pfs ts r ts' Hd (fuel & H & Hr). destruct (verify_batch_lengths fuel md sts pfs ts) as [H1 H2].
  destruct (Nat.eq_dec (length sts) (length pfs)) as [He|He].
  - destruct Hd as [Hd|Hd]; [contradiction|]. rewrite (H2 He Hd) in H. injection H as <- <-. repeat split; intros; try reflexivity; contradiction.
  - rewrite (H1 He) in H. injection H as <- <-. repeat split; intros; try reflexivity; contradiction.
Qed.
Print Assumptions C66_empty_and_mismatched.

(** ** As C33 *)
Theorem C66_malformed_rejected :
  forall (E : env), env_laws E -> forall md (st0 : statement E) sts pfs ts pf,
    made_statement st0 -> In pf pfs -> ~ well_shaped (st_get_params st0) pf ->
    exists reason, verify_batch_returns md (st0 :: sts) pfs ts (Err (InvalidParameter reason)) ts.
Proof.
  intros E L md st0 sts pfs ts pf Hm Hin Hw. pose proof (made_statement_good L st0 Hm) as Hg.
  destruct (verify_batch_misshaped 0 md st0 sts pfs ts Hg) as (s & Hs).
  { intros Hf. rewrite Forall_forall in Hf. exact (Hw (Hf pf Hin)). }
  exists s, 0%nat. split; [exact Hs|discriminate].
Qed.
Print Assumptions C66_malformed_rejected.

(** ** As C34 *)
Theorem C66_mixed_rejected :
  forall (E : env) md (sts : list (statement E)) pfs ts st st',
    In st sts -> In st' sts ->
    (input_set_get_hash (st_get_input_set st) <> input_set_get_hash (st_get_input_set st') \/
     params_get_hash (st_get_params st) <> params_get_hash (st_get_params st')) ->
    exists reason, verify_batch_returns md sts pfs ts (Err (InvalidParameter reason)) ts.
Proof.
  intros E md sts pfs ts st st' H H' Hd. destruct sts as [|st0 sts]; [destruct H|].
  destruct (verify_batch_lengths 0 md (st0 :: sts) pfs ts) as [L1 L2].
  destruct (Nat.eq_dec (length (st0 :: sts)) (length pfs)) as [Hl1|Hl1].
  2:{ eexists. exists 0%nat. split; [exact (L1 Hl1)|discriminate]. }
  destruct (Nat.eq_dec (length (st0 :: sts)) (length ts)) as [Hl2|Hl2].
  2:{ eexists. exists 0%nat. split; [exact (L2 Hl1 Hl2)|discriminate]. }
  destruct (verify_batch_mixed 0 md st0 sts pfs ts Hl1 Hl2) as [M1 M2].
  assert (Hb : forall h : statement E -> bytes, (forall s, In s sts -> h s = h st0) \/ ~ (forall s, In s sts -> h s = h st0)).
  { intros h. clear. induction sts as [|s sts IH]; [left; intros s []|].
    destruct (list_eq_dec Byte.byte_eq_dec (h s) (h st0)) as [He|He].
    - destruct IH as [IH|IH]; [left; intros x [<-|Hin]; [exact He|exact (IH x Hin)]|right; intros Hc; apply IH; intros x Hin; apply Hc; right; exact Hin].
    - right. intros Hc. apply He. apply Hc. left. reflexivity. }
  destruct (Hb (fun s => input_set_get_hash (st_get_input_set s))) as [Hi|Hi].
  2:{ eexists. exists 0%nat. split; [exact (M1 Hi)|discriminate]. }
  destruct (Hb (fun s => params_get_hash (st_get_params s))) as [Hp|Hp].
  2:{ eexists. exists 0%nat. split; [exact (M2 Hi Hp)|discriminate]. }
  exfalso. assert (Ha : forall h : statement E -> bytes, (forall s, In s sts -> h s = h st0) -> h st = h st').
  { intros h Hh. transitivity (h st0); [|symmetry].
    - destruct H as [<-|H]; [reflexivity|exact (Hh st H)].
    - destruct H' as [<-|H']; [reflexivity|exact (Hh st' H')]. }
  destruct Hd as [Hd|Hd]; [exact (Hd (Ha _ Hi))|exact (Hd (Ha _ Hp))].
Qed.
Print Assumptions C66_mixed_rejected.
