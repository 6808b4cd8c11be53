(** Properties C81 to C86: how the calls of the parallel API fit together. *)
From Verif Require Import SpecPositions PositionFacts ParSpecSound ParSpecUsage ParSpecVerdict ParFacts ParProverFacts ParVerifierFacts ParCompleteness ParVerdict ParBlame ParVerifierApi
  ParProverApi ParBinding ParSoundness ParLone ParExamples ParExamplesRun
  Properties_ParParams Properties_ParInputs Properties_ParProver Properties_ParVerifier Properties_ParSoundness Properties_ParBlame Properties_ParCodec
  Properties_ParBinding.
From Verif Require Import Algebra.

(** ** C81: the whole life of a proof.  The owner of the key at position [k] of a ring that is padded to [N] keys may sign at
    position [k], and if [k] is the last position also at every padded one. *)

Lemma verify_total {E : env} (L : env_laws E) md (st : statement E) pf t : made_statement st -> weights_terminate (E := E) 5 ->
  exists res t', verify_returns md pf st t res t'.
Proof.
  intros Hm Ht. assert (Hg : Forall good_statement [st]) by (constructor; [exact (made_statement_good L st Hm)|constructor]).
  destruct (verify_batch_total L md [st] [pf] [t] Hg Ht) as (r & ts & H). pose proof H as (fuel & Hq & _).
  assert (Hl : length ts = 1%nat) by (pose proof (verify_batch_keeps_length fuel md [st] [pf] [t]) as Hk; rewrite Hq in Hk; exact Hk).
  destruct ts as [|t' [|]]; try discriminate Hl. exists r, t'. apply verify_returns_batch. exact H.
Qed.

Theorem C81_life_of_a_proof :
  forall (E : env), env_laws E -> forall (R : Type) (ro : rng_ops R) md (p : params E) (l : N) (r r1 : scalar) (w : witness E) (ring aux : list (pt E)) (offset : pt E),
    (* a witness, and a ring that holds its verification key and its auxiliary key plus the offset, and neither the identity nor the offset itself *)
    made_params p -> witness_new p l r r1 = Ok w -> length aux = length ring -> (1 <= length ring <= N.to_nat (get_n p ^ get_m p))%nat -> ~ In (pid E) ring -> ~ In offset aux ->
    nth_error ring (signing_position ring (N.to_nat l)) = Some (compute_verification_key w) ->
    nth_error aux (signing_position ring (N.to_nat l)) = Some (padd E (compute_auxiliary_verification_key w) offset) ->
    exists s st, input_set_new_with_padding ring aux p = Ok s /\ statement_new p s offset (compute_linking_tag w) = Ok st /\
      forall (rng : R) (t : transcript),
        (* the challenge comes out zero... *)
        (prover_challenge t st w (fst (rng_fill ro rng 32)) = s0 /\
         exists t' rng', prove_with_rng ro w st rng t = (Err InvalidChallenge, t', rng')) \/
        (* ... or there is a proof, and it can be sent and received... *)
        exists pf t' rng' bs, prove_with_rng ro w st rng t = (Ok pf, t', rng') /\ to_bytes pf = Ok bs /\ from_bytes bs = Ok pf /\
          (* ... and verified, unless a nonce made one of the responses zero. *)
          (fits md p 1 ->
           (weights_terminate (E := E) 5 -> exists res t'', verify_returns md pf st t res t'') /\
           forall res t'', verify_returns md pf st t res t'' -> res = Ok tt \/
             (res = Err (InvalidParameter "proof `f` matrix contained 0") /\
              let a := mat (map balance (c_a (prover_coins t st w (fst (rng_fill ro rng 32))))) in
              exists j i, (j < N.to_nat (get_m p))%nat /\ (i < N.to_nat (get_n p))%nat /\
                (a j i + sigma_at (get_n p) l j i * challenge t st pf)%sc = s0)).
Proof.
  intros E L R ro md p l r r1 w ring aux offset Hp Hw Haux HM Hid Hoff Hk Hk1.
  destruct (nth_error ring (length ring - 1)) as [last|] eqn:Elast.
  2: { apply nth_error_None in Elast. lia. }
  destruct (nth_error aux (length ring - 1)) as [last1|] eqn:Elast1.
  2: { apply nth_error_None in Elast1. lia. }
  destruct (C59_padding E p ring aux Hp) as (Hpad & _). destruct (Hpad last last1 Haux HM Elast Elast1) as (s & Hs & Hkeys & Hkeys1 & Hlen & Hlen1 & _).
  assert (Hr : r <> s0 /\ r1 <> s0 /\ (l < get_n p ^ get_m p)%N).
  { destruct (C58_witness_accepted_exactly E p l r r1 Hp) as (_ & H0 & H01 & H1).
    destruct (scalar_eq_dec r s0) as [Hr|Hr]; [rewrite (H0 Hr) in Hw; discriminate|].
    destruct (scalar_eq_dec r1 s0) as [Hr1|Hr1]; [rewrite (H01 Hr Hr1) in Hw; discriminate|].
    split; [exact Hr|]. split; [exact Hr1|].
    destruct (N.lt_ge_cases l (get_n p ^ get_m p)) as [H|H]; [exact H|]. rewrite (H1 Hr Hr1 H) in Hw. discriminate. }
  destruct Hr as (Hr & Hr1 & Hl).
  destruct (proj1 (C58_witness_accepted_exactly E p l r r1 Hp) Hr Hr1 Hl) as (w' & Hw' & Hwp & Hwl & Hwr & Hwr1).
  rewrite Hw in Hw'. injection Hw' as <-.
  assert (Hmw : made_witness w) by (left; exists p, l, r, r1; split; assumption).
  assert (Hid' : ~ In (pid E) (get_keys s)).
  { rewrite Hkeys. intros H. apply in_app_or in H. destruct H as [H|H]; [exact (Hid H)|].
    apply repeat_spec in H. apply Hid. rewrite H. exact (nth_error_In _ _ Elast). }
  assert (Hoff' : ~ In offset (get_auxiliary_keys s)).
  { rewrite Hkeys1. intros H. apply in_app_or in H. destruct H as [H|H]; [exact (Hoff H)|].
    apply repeat_spec in H. apply Hoff. rewrite H. exact (nth_error_In _ _ Elast1). }
  destruct (proj1 (C60_statement_accepted_exactly E L p s offset (compute_linking_tag w) Hp)) as (st & Hst & Hsp & Hss & HsO & HsJ).
  { rewrite Hlen. lia. } { exact Hid'. } { exact Hoff'. }
  assert (Hmst : made_statement st).
  { exists p, s, offset, (compute_linking_tag w). split; [exact Hp|]. split; [|exact Hst]. right. exists ring, aux, p. split; assumption. }
  exists s, st. split; [exact Hs|]. split; [exact Hst|]. intros rng t.
  assert (Hrel : relation st (w_get_l w) (w_get_r w) (w_get_r1 w)).
  { apply (C58_tag_and_key E L w); [rewrite Hwr; exact Hr|rewrite Hwp; exact Hsp|exact HsJ| |].
    - rewrite Hss, Hkeys, Hwl. rewrite (nth_padded ring last _ (N.to_nat l) last HM); [exact Hk|lia|exact Elast].
    - rewrite Hss, Hkeys1, Hwl, HsO. rewrite <- Haux in *.
      rewrite (nth_padded aux last1 _ (N.to_nat l) last1 HM); [|lia|exact Elast1]. unfold signing_position in *. rewrite Haux in *. exact Hk1. }
  destruct (C61_prove_exactly E L R ro w st rng t Hmw Hmst) as (_ & _ & _ & _ & Hzero & Hok).
  destruct (scalar_eq_dec (prover_challenge t st w (fst (rng_fill ro rng 32))) s0) as [Hxi|Hxi].
  - left. split; [exact Hxi|]. eexists _, _. apply Hzero; [rewrite Hwp; symmetry; exact Hsp|exact Hrel|exact Hxi].
  - right. destruct (Hok ltac:(rewrite Hwp; symmetry; exact Hsp) Hrel Hxi) as [_ Hprove].
    match type of Hprove with _ = (Ok ?q, ?a, ?b) => set (pf := q) in *; set (t' := a) in *; set (rng' := b) in * end.
    destruct (proj1 (C69_roundtrip_of_proofs E L pf) R ro w st rng t t' rng' Hmw Hmst Hprove) as (bs & Hb & Hb').
    exists pf, t', rng', bs. split; [exact Hprove|]. split; [exact Hb|]. split; [exact Hb'|]. intros Hf.
    split; [intros Ht; exact (verify_total L md st pf t Hmst Ht)|]. intros res t'' Hv.
    rewrite <- Hsp in Hf.
    destruct (proj1 (C62_completeness E L R ro md w st rng t pf t' rng' Hmw Hmst Hprove Hf) res t'' Hv) as (_ & Herr & Hcase).
    destruct Hcase as [Hcase|Hcase]; [left; exact Hcase|right]. split; [exact Hcase|]. cbv zeta.
    apply (proj1 Herr) in Hcase.
    pose proof (C62_honest_rejection_condition E L R ro w st rng t pf t' rng' Hmw Hmst Hprove) as Hcond. cbv zeta in Hcond.
    rewrite Hsp, Hwl in Hcond.
    set (a := mat _) in *. set (xi := challenge t st pf) in *. clearbody a xi.
    assert (Hdec : forall m n, (exists j i, (j < m)%nat /\ (i < n)%nat /\ (a j i + sigma_at (get_n p) l j i * xi)%sc = s0) \/
      (forall j i, (j < m)%nat -> (i < n)%nat -> (a j i + sigma_at (get_n p) l j i * xi)%sc <> s0)).
    { clear. intros m n. induction m as [|m IH]; [right; intros; lia|]. destruct IH as [(j & i & Hj & Hi & H)|IH].
      - left. exists j, i. repeat split; [lia|exact Hi|exact H].
      - assert (Hrow : (exists i, (i < n)%nat /\ (a m i + sigma_at (get_n p) l m i * xi)%sc = s0) \/
          (forall i, (i < n)%nat -> (a m i + sigma_at (get_n p) l m i * xi)%sc <> s0)).
        { induction n as [|n IHn]; [right; intros; lia|]. destruct IHn as [(i & Hi & H)|IHn].
          - intros j i Hj Hi. apply IH; lia.
          - left. exists i. split; [lia|exact H].
          - destruct (scalar_eq_dec (a m n + sigma_at (get_n p) l m n * xi)%sc s0) as [H|H].
            + left. exists n. split; [lia|exact H].
            + right. intros i Hi. destruct (Nat.eq_dec i n) as [->|Hne]; [exact H|apply IHn; lia]. }
        destruct Hrow as [(i & Hi & H)|Hrow]; [left; exists m, i; repeat split; [lia|exact Hi|exact H]|].
        right. intros j i Hj Hi. destruct (Nat.eq_dec j m) as [->|Hne]; [apply Hrow; exact Hi|apply IH; [lia|exact Hi]]. }
    destruct (Hdec (N.to_nat (get_m p)) (N.to_nat (get_n p))) as [H|H]; [exact H|].
    destruct (Hcase (proj2 Hcond H)).
Qed.
Print Assumptions C81_life_of_a_proof.
(** A ring of two keys in parameters for four, signed at the padded position 3. *)
Example C81_example : exists (p : params E0) (w : witness E0) ring aux offset, made_params p /\ witness_new p 3 x_r x_r1 = Ok w /\ length ring = 2%nat /\
  length aux = length ring /\
  (1 <= length ring <= N.to_nat (get_n p ^ get_m p))%nat /\ ~ In (pid E0) ring /\ ~ In offset aux /\
  nth_error ring (signing_position ring 3) = Some (compute_verification_key w) /\
  nth_error aux (signing_position ring 3) = Some (padd E0 (compute_auxiliary_verification_key w) offset).
Proof.
  exists (x_params P0 T0), (x_witness P0 T0 3), [smk 5; compute_verification_key (x_witness P0 T0 3)],
    [smk 5; padd E0 (compute_auxiliary_verification_key (x_witness P0 T0 3)) (smk 9)], (smk 9).
  split; [exact (x_params_made P0 T0)|]. split; [reflexivity|]. split; [reflexivity|]. split; [reflexivity|]. split; [split; vm_compute; lia|].
  split; [intros [H|[H|[]]]; revert H; scalars_differ|]. split; [intros [H|[H|[]]]; revert H; scalars_differ|]. split; reflexivity.
Qed.

(** ** C82: how often an honest proof is rejected.  Unless a nonce off the signer's digits is zero, the challenges for which the proof
    is rejected are at most [m] out of the whole field, and the nonces alone determine them; if one is zero, the proof is rejected
    under every challenge. *)
Theorem C82_completeness_error :
  forall (E : env), env_laws E -> forall (R : Type) (ro : rng_ops R) md (w : witness E) (st : statement E) (rng : R) (t : transcript) pf t' rng' res t'',
    made_witness w -> made_statement st -> prove_with_rng ro w st rng t = (Ok pf, t', rng') ->
    fits md (st_get_params st) 1 -> verify_returns md pf st t res t'' ->
    let seed := fst (rng_fill ro rng 32) in
    length (rejecting_challenges t st w seed) = N.to_nat (get_m (st_get_params st)) /\
    (res <> Ok tt <-> zero_nonce t st w seed \/ In (challenge t st pf) (rejecting_challenges t st w seed)).
Proof.
  intros E L R ro md w st rng t pf t' rng' res t'' Hw Hst Hp Hf Hv seed.
  split; [unfold rejecting_challenges; rewrite map_length, seq_length; reflexivity|].
  destruct (proj1 (C62_completeness E L R ro md w st rng t pf t' rng' Hw Hst Hp Hf) res t'' Hv) as (Hok & Herr & Hcase).
  pose proof (C62_honest_rejection_condition E L R ro w st rng t pf t' rng' Hw Hst Hp) as Hcond. cbv zeta in Hcond. fold seed in Hcond.
  rewrite Hcond in Hok. clear Hcond Herr. unfold zero_nonce, rejecting_challenges.
  set (a := mat _) in *. set (xi := challenge t st pf) in *. set (n := get_n (st_get_params st)) in *. set (m := N.to_nat (get_m (st_get_params st))) in *.
  set (l := w_get_l w) in *. clearbody a xi. clear - Hok Hcase Hw Hst L Hp. rename Hp into Hprove.
  assert (Hdig : forall j, (N.to_nat (gray_digit n l j) < N.to_nat n)%nat).
  { intros j. pose proof (gp_n _ (gs_params _ (made_statement_good L st Hst))) as Hn. change (p_n (st_params st)) with n in Hn.
    assert (gray_digit n l j < n)%N by (unfold gray_digit; apply N.mod_lt; lia). lia. }
  split.
  - intros Hne. destruct (existsb (fun j => existsb (fun i => negb (Nat.eqb i (N.to_nat (gray_digit n l j))) && seqb (a j i) s0) (seq 0 (N.to_nat n))) (seq 0 m)) eqn:E1.
    + left. apply existsb_exists in E1. destruct E1 as (j & Hj & E1). apply existsb_exists in E1. destruct E1 as (i & Hi & E1).
      apply in_seq in Hj, Hi. apply andb_prop in E1. destruct E1 as [E1 E2]. apply Bool.negb_true_iff, Nat.eqb_neq in E1. apply seqb_eq in E2.
      exists j, i. repeat split; [lia|lia|exact E1|exact E2].
    + right. destruct (in_dec scalar_eq_dec xi (map (fun j => - a j (N.to_nat (gray_digit n l j)))%sc (seq 0 m))) as [Hin|Hin]; [exact Hin|].
      exfalso. apply Hne. apply (proj2 Hok). intros j i Hj Hi Hz. unfold sigma_at in Hz. destruct (Nat.eqb_spec i (N.to_nat (gray_digit n l j))) as [Heq|Hd].
      * apply Hin. apply in_map_iff. exists j. split; [|apply in_seq; lia]. rewrite <- Heq.
        replace xi with (a j i + s1 * xi - a j i)%sc by ring. rewrite Hz. ring.
      * assert (Hf : existsb (fun j => existsb (fun i => negb (Nat.eqb i (N.to_nat (gray_digit n l j))) && seqb (a j i) s0) (seq 0 (N.to_nat n))) (seq 0 m) = true).
        { apply existsb_exists. exists j. split; [apply in_seq; lia|]. apply existsb_exists. exists i. split; [apply in_seq; lia|].
          apply andb_true_intro. split; [apply Bool.negb_true_iff, Nat.eqb_neq; exact Hd|apply seqb_eq]. rewrite <- Hz. ring. }
        rewrite Hf in E1. discriminate.
  - intros [(j & i & Hj & Hi & Hd & Hz)|Hin] Hr; rewrite Hok in Hr.
    + apply (Hr j i Hj Hi). unfold sigma_at. apply Nat.eqb_neq in Hd. rewrite Hd, Hz. ring.
    + apply in_map_iff in Hin. destruct Hin as (j & Hj & Hin). apply in_seq in Hin. apply (Hr j (N.to_nat (gray_digit n l j))); [lia|apply Hdig|].
      unfold sigma_at. rewrite Nat.eqb_refl, <- Hj. ring.
Qed.
Print Assumptions C82_completeness_error.
(** The run of [C62_completeness_example] meets the hypotheses and is accepted, that of [C62_perfect_completeness_refuted] meets them and is
    rejected. *)

(** ** C83: removing what the blame functions name leaves a batch that verifies. *)

Lemma pick_member {E : env} ks (sts : list (statement E)) pfs ts i st pf t : length sts = length pfs -> length sts = length ts ->
  (forall k, In k ks -> (k < length sts)%nat) ->
  member (pick ks sts) (pick ks pfs) (pick ks ts) i st pf t <-> exists k, nth_error ks i = Some k /\ member sts pfs ts k st pf t.
Proof.
  intros H1 H2 Hk. unfold member. rewrite !pick_nth by (intros k Hin; specialize (Hk k Hin); lia).
  destruct (nth_error ks i) as [k|]; split.
  - intros H. exists k. split; [reflexivity|exact H].
  - intros (k' & Hk' & H). injection Hk' as <-. exact H.
  - intros (H & _). discriminate.
  - intros (k & H & _). discriminate.
Qed.

(** The valid proofs of a batch verify together, whatever the others are. *)
Lemma valid_positions_verify {E : env} (L : env_laws E) md (sts : list (statement E)) pfs ts ks :
  length sts = length pfs -> length sts = length ts -> Forall made_statement sts -> one_ring sts ->
  (forall st, In st sts -> fits md (st_get_params st) (N.of_nat (length pfs))) ->
  (forall k, In k ks -> (k < length sts)%nat) -> (length ks <= length sts)%nat ->
  (forall k st pf t, In k ks -> member sts pfs ts k st pf t -> valid_proof t st pf) ->
  (forall r ts', verify_batch_returns md (pick ks sts) (pick ks pfs) (pick ks ts) r ts' -> r = Ok tt) /\
  (weights_terminate (E := E) 5 -> exists ts', verify_batch_returns md (pick ks sts) (pick ks pfs) (pick ks ts) (Ok tt) ts').
Proof.
  intros Hl1 Hl2 Hm Hr Hf Hk Hlen Hv. destruct ks as [|k0 ks].
  - pose proof (C66_empty_and_mismatched E md) as [H0 _]. cbn [pick flat_map]. split.
    + intros r ts' H. exact (proj1 (verify_batch_returns_det _ _ _ _ _ _ _ _ H H0)).
    + intros _. eexists. exact H0.
  - assert (Hp1 : length (pick (k0 :: ks) sts) = length (k0 :: ks)) by (apply pick_length; exact Hk).
    assert (Hp2 : length (pick (k0 :: ks) pfs) = length (k0 :: ks)) by (apply pick_length; rewrite <- Hl1; exact Hk).
    assert (Hp3 : length (pick (k0 :: ks) ts) = length (k0 :: ks)) by (apply pick_length; rewrite <- Hl2; exact Hk).
    assert (Hall : all_valid (pick (k0 :: ks) sts) (pick (k0 :: ks) pfs) (pick (k0 :: ks) ts)).
    { intros i st pf t Hmem. apply pick_member in Hmem; [|exact Hl1|exact Hl2|exact Hk]. destruct Hmem as (k & Hi & Hmem).
      exact (Hv k st pf t (nth_error_In _ _ Hi) Hmem). }
    assert (Hin : forall st, In st (pick (k0 :: ks) sts) -> In st sts) by (intros st; apply pick_in).
    revert Hp1 Hall Hin. generalize (pick (k0 :: ks) sts). intros [|st0 sts'] Hp1 Hall Hin; [discriminate|].
    apply (C62_batch_completeness E L md st0 sts').
    + rewrite Forall_forall in *. intros st Hs. exact (Hm st (Hin st Hs)).
    + intros a b Ha Hb. exact (Hr a b (Hin a Ha) (Hin b Hb)).
    + rewrite Hp1, Hp2. reflexivity.
    + rewrite Hp1, Hp3. reflexivity.
    + exact Hall.
    + apply (fits_le md _ (N.of_nat (length pfs)) _); [rewrite Hp2; lia|]. exact (Hf st0 (Hin st0 (or_introl eq_refl))).
Qed.

Theorem C83_pruned_by_full_blame :
  forall (E : env), env_laws E -> forall md (sts : list (statement E)) pfs ts l ts',
    length sts = length pfs -> length sts = length ts -> Forall made_statement sts -> one_ring sts ->
    (forall st, In st sts -> fits md (st_get_params st) (N.of_nat (length pfs))) ->
    full_blame_returns md sts pfs ts (Err (FailedBatchVerificationWithFullBlame l)) ts' ->
    (* unless an invalid proof cancels with its own weights *)
    (forall i st pf t, member sts pfs ts i st pf t -> ~ In i l ->
       ~ weights_cancel (st_get_params st) (get_keys (st_get_input_set st)) (get_auxiliary_keys (st_get_input_set st)) [st] [pf] [t]) ->
    let ks := other_positions l (length pfs) in
    (forall i st pf t, member sts pfs ts i st pf t -> (In i ks <-> valid_proof t st pf)) /\
    (forall r ts2, verify_batch_returns md (pick ks sts) (pick ks pfs) (pick ks ts) r ts2 -> r = Ok tt) /\
    (weights_terminate (E := E) 5 -> exists ts2, verify_batch_returns md (pick ks sts) (pick ks pfs) (pick ks ts) (Ok tt) ts2).
Proof.
  intros E L md sts pfs ts l ts' Hl1 Hl2 Hm Hr Hf Hb Hc ks.
  assert (Hf1 : forall st, In st sts -> fits md (st_get_params st) 1).
  { intros st Hs. apply (fits_le md _ (N.of_nat (length pfs)) 1); [|exact (Hf st Hs)]. destruct sts; [destruct Hs|]. rewrite <- Hl1. cbn [length]. lia. }
  pose proof (C67_listed_are_invalid E L md sts pfs ts l ts' Hm Hf1 Hb) as Hlist.
  assert (Hval : forall i st pf t, member sts pfs ts i st pf t -> (In i ks <-> valid_proof t st pf)).
  { intros i st pf t Hmem. destruct (Hlist i st pf t Hmem) as [H1 H2].
    assert (Hi : (i < length pfs)%nat) by (apply nth_error_Some; rewrite (proj1 (proj2 Hmem)); discriminate).
    unfold ks. rewrite in_other_positions. split.
    - intros [_ Hn]. destruct (H2 Hn) as [Hv|Hv]; [exact Hv|]. destruct (Hc i st pf t Hmem Hn Hv).
    - intros Hv. split; [exact Hi|]. intros Hin. exact (H1 Hin Hv). }
  split; [exact Hval|]. apply (valid_positions_verify L); try assumption.
  - intros k Hk. apply in_other_positions in Hk. lia.
  - unfold ks, other_positions. rewrite Hl1.
    assert (Hfl : forall (g : nat -> bool) xs, (length (filter g xs) <= length xs)%nat).
    { intros g xs. induction xs as [|x xs IH]; [reflexivity|]. cbn [filter]. destruct (g x); cbn [length]; lia. }
    eapply Nat.le_trans; [apply Hfl|]. rewrite seq_length. reflexivity.
  - intros k st pf t Hk Hmem. exact (proj1 (Hval k st pf t Hmem) Hk).
Qed.
Print Assumptions C83_pruned_by_full_blame.

Section Pruning.
Context {E : env} (L : env_laws E) (md : overflow_mode) (sts : list (statement E)) (pfs : list (proof E)) (ts : list transcript).
Hypothesis Hl1 : length sts = length pfs.
Hypothesis Hl2 : length sts = length ts.
Hypothesis Hmade : Forall made_statement sts.
Hypothesis Hring : one_ring sts.
Hypothesis Hfits : forall st, In st sts -> fits md (st_get_params st) (N.of_nat (length pfs)).
Hypothesis Hnc : never_cancels sts pfs ts.

(** What one call says about the proofs at positions [ks]. *)
Lemma prune_step ks r ts' : StronglySorted lt ks -> (forall k, In k ks -> (k < length sts)%nat) ->
  single_blame_returns md (pick ks sts) (pick ks pfs) (pick ks ts) r ts' ->
  (r = Ok tt /\ forall k st pf t, In k ks -> member sts pfs ts k st pf t -> valid_proof t st pf) \/
  (exists i k, r = Err (FailedBatchVerificationWithSingleBlame (Some i)) /\ nth_error ks i = Some k /\
     forall st pf t, member sts pfs ts k st pf t -> ~ valid_proof t st pf).
Proof.
  intros Hs Hk Hb.
  assert (Hp1 : length (pick ks sts) = length ks) by (apply pick_length; exact Hk).
  assert (Hp2 : length (pick ks pfs) = length ks) by (apply pick_length; rewrite <- Hl1; exact Hk).
  assert (Hp3 : length (pick ks ts) = length ks) by (apply pick_length; rewrite <- Hl2; exact Hk).
  destruct ks as [|k0 ks0].
  - left. split; [|intros k st pf t []]. destruct Hb as (fuel & Hb & _).
    assert (H0 : verify_batch_with_single_blame fuel md (E := E) [] [] [] = (Ok tt, [])) by reflexivity.
    change (pick [] sts) with (@nil (statement E)) in Hb. change (pick [] pfs) with (@nil (proof E)) in Hb. change (pick [] ts) with (@nil transcript) in Hb.
    rewrite H0 in Hb. injection Hb as <- _. reflexivity.
  - remember (k0 :: ks0) as ks eqn:Eks.
    assert (Hin : forall st, In st (pick ks sts) -> In st sts) by (intros st; apply pick_in).
    assert (Hr' : one_ring (pick ks sts)) by (intros a b Ha Hb'; exact (Hring a b (Hin a Ha) (Hin b Hb'))).
    assert (Hm' : Forall made_statement (pick ks sts)) by (rewrite Forall_forall in *; intros st Hst; exact (Hmade st (Hin st Hst))).
    assert (Hf' : forall st, In st (pick ks sts) -> fits md (st_get_params st) (N.of_nat (length (pick ks pfs)))).
    { intros st Hst. apply (fits_le md _ (N.of_nat (length pfs)) _); [|exact (Hfits st (Hin st Hst))].
      rewrite Hp2. pose proof (sorted_length ks (length sts) Hs Hk). lia. }
    assert (Hcn : forall st a b, In st (pick ks sts) -> (a < b <= length (pick ks pfs))%nat ->
      ~ weights_cancel (st_get_params st) (get_keys (st_get_input_set st)) (get_auxiliary_keys (st_get_input_set st)) (sub (pick ks sts) a b) (sub (pick ks pfs) a b) (sub (pick ks ts) a b)).
    { intros st a b Hst Hab. rewrite Hp2 in Hab. rewrite !pick_sub by (first [lia|exact Hk|rewrite <- Hl1; exact Hk|rewrite <- Hl2; exact Hk]).
      apply Hnc; [exact (Hin st Hst)|apply sub_sorted; exact Hs|]. intros k Hkin. apply Hk. exact (in_sub _ _ _ _ Hkin). }
    assert (Hmem : forall i st pf t, member (pick ks sts) (pick ks pfs) (pick ks ts) i st pf t <-> exists k, nth_error ks i = Some k /\ member sts pfs ts k st pf t)
      by (intros; apply pick_member; assumption).
    assert (Hne : pick ks sts <> []) by (intros Hnil; rewrite Hnil, Eks in Hp1; discriminate).
    revert Hp1 Hp2 Hp3 Hin Hr' Hm' Hf' Hcn Hmem Hne Hb. generalize (pick ks sts) (pick ks pfs) (pick ks ts).
    intros [|st0 ss] qs us Hp1 Hp2 Hp3 Hin Hr' Hm' Hf' Hcn Hmem Hne Hb; [congruence|].
    destruct (C67_blames_first_invalid E L md st0 ss qs us r ts') as [->|(i & -> & Hi & Hcase)].
    { lia. } { lia. } { exact Hm'. } { exact Hr'. } { exact (Hf' st0 (or_introl eq_refl)). } { exact Hb. }
    + left. split; [reflexivity|]. intros k st pf t Hkin Hkm. pose proof (proj1 (C67_single_blame_agrees E md (st0 :: ss) qs us)) as Hag.
      apply Hag in Hb. destruct Hb as (_ & ts2 & Hb).
      destruct (accepted_one_ring L md st0 ss qs us ts2 (Forall_inv Hm') Hr' Hb) as [Hv|Hv].
      * apply In_nth_error in Hkin. destruct Hkin as [i Hi]. apply (Hv i). apply Hmem. exists k. split; assumption.
      * exfalso. assert (Hall : forall {A} (xs : list A), length xs = length ks -> sub xs 0 (length ks) = xs).
        { intros A xs Hx. unfold sub. rewrite Nat.sub_0_r, <- Hx. cbn [skipn]. apply firstn_all. }
        apply (Hcn st0 0%nat (length ks) (or_introl eq_refl)).
        -- rewrite Hp2. split; [rewrite Eks; cbn [length]; lia|lia].
        -- rewrite !Hall by assumption. exact Hv.
    + right. assert (Hks : exists k, nth_error ks i = Some k).
      { destruct (nth_error ks i) as [k|] eqn:Ek; [exists k; reflexivity|]. apply nth_error_None in Ek. lia. }
      destruct Hks as [k Ek]. exists i, k. split; [reflexivity|]. split; [exact Ek|].
      destruct Hcase as [[Hbad _]|(a & b & Hab & Hc)].
      * intros st pf t Hkm. apply Hbad. apply Hmem. exists k. split; assumption.
      * destruct (Hcn st0 a b (or_introl eq_refl) Hab Hc).
Qed.

Lemma prune_result s q u k s' q' u' : pruned md s q u k s' q' u' -> forall ks, StronglySorted lt ks -> (forall i, In i ks -> (i < length sts)%nat) ->
  s = pick ks sts -> q = pick ks pfs -> u = pick ks ts ->
  exists ks', StronglySorted lt ks' /\ (forall i, In i ks' -> In i ks) /\
    (forall i st pf t, In i ks -> member sts pfs ts i st pf t -> (In i ks' <-> valid_proof t st pf)) /\
    s' = pick ks' sts /\ q' = pick ks' pfs /\ u' = pick ks' ts /\ (k + length ks' = length ks)%nat.
Proof.
  intros H. induction H as [s q u Hb|s q u i k s' q' u' Hb Hp IH]; intros ks Hs Hk -> -> ->.
  - exists ks. destruct (prune_step ks _ _ Hs Hk Hb) as [[_ Hv]|(i & j & Hx & _)]; [|discriminate].
    split; [exact Hs|]. split; [trivial|]. split.
    + intros i st pf t Hin Hm. split; [intros _; exact (Hv i st pf t Hin Hm)|intros _; exact Hin].
    + repeat split; reflexivity.
  - destruct (prune_step ks _ _ Hs Hk Hb) as [[Hx _]|(i' & j & Hx & Hj & Hbad)]; [discriminate|]. injection Hx as <-.
    destruct (remove_at_in i ks j Hs Hj) as [Hs' Hin'].
    assert (Hi : (i < length ks)%nat) by (apply nth_error_Some; congruence).
    destruct (IH (remove_at i ks)) as (ks' & H1 & H2 & H3 & H4 & H5 & H6 & H7).
    + exact Hs'.
    + intros x Hx. apply Hin' in Hx. apply Hk. exact (proj1 Hx).
    + apply pick_remove; [exact Hk|exact Hi].
    + apply pick_remove; [rewrite <- Hl1; exact Hk|exact Hi].
    + apply pick_remove; [rewrite <- Hl2; exact Hk|exact Hi].
    + exists ks'. split; [exact H1|]. split; [intros x Hx; apply (Hin' x); exact (H2 x Hx)|]. split.
      * intros x st pf t Hx Hm. destruct (Nat.eq_dec x j) as [->|Hne].
        -- split; [intros Hc; apply H2, Hin' in Hc; destruct Hc as [_ Hc]; congruence|intros Hv; destruct (Hbad st pf t Hm Hv)].
        -- apply H3; [apply Hin'; split; assumption|exact Hm].
      * repeat split; [exact H4|exact H5|exact H6|]. rewrite remove_at_length in H7 by exact Hi. lia.
Qed.

Lemma prune_ends (Ht : weights_terminate (E := E) 5) n : forall ks, length ks = n -> StronglySorted lt ks -> (forall i, In i ks -> (i < length sts)%nat) ->
  exists k s' q' u', pruned md (pick ks sts) (pick ks pfs) (pick ks ts) k s' q' u'.
Proof.
  induction n as [|n IH]; intros ks Hn Hs Hk.
  all: assert (Hp1 : length (pick ks sts) = length ks) by (apply pick_length; exact Hk).
  all: assert (Hp2 : length (pick ks pfs) = length ks) by (apply pick_length; rewrite <- Hl1; exact Hk).
  all: assert (Hp3 : length (pick ks ts) = length ks) by (apply pick_length; rewrite <- Hl2; exact Hk).
  all: assert (Hm' : Forall made_statement (pick ks sts)) by (rewrite Forall_forall in *; intros st Hst; exact (Hmade st (pick_in _ _ _ Hst))).
  all: destruct (C67_single_blame_returns E L Ht md (pick ks sts) (pick ks pfs) (pick ks ts) ltac:(lia) ltac:(lia) Hm') as [r Hr].
  all: destruct (prune_step ks r _ Hs Hk Hr) as [[-> _]|(i & j & -> & Hj & _)]; [eexists _, _, _, _; apply pruned_done; exact Hr|].
  - destruct ks; [destruct i; discriminate|discriminate].
  - assert (Hi : (i < length ks)%nat) by (apply nth_error_Some; congruence). destruct (remove_at_in i ks j Hs Hj) as [Hs' Hin'].
    destruct (IH (remove_at i ks)) as (k & s' & q' & u' & Hp).
    + rewrite remove_at_length by exact Hi. lia.
    + exact Hs'.
    + intros x Hx. apply Hin' in Hx. apply Hk. exact (proj1 Hx).
    + exists (S k), s', q', u'. apply pruned_more with (i := i); [exact Hr|]. rewrite !pick_remove; try assumption.
      * rewrite <- Hl2. exact Hk.
      * rewrite <- Hl1. exact Hk.
Qed.
End Pruning.

Theorem C83_pruned_by_single_blame :
  forall (E : env), env_laws E -> forall md (sts : list (statement E)) pfs ts,
    length sts = length pfs -> length sts = length ts -> Forall made_statement sts -> one_ring sts ->
    (forall st, In st sts -> fits md (st_get_params st) (N.of_nat (length pfs))) -> never_cancels sts pfs ts ->
    (weights_terminate (E := E) 5 -> exists k sts' pfs' ts', pruned md sts pfs ts k sts' pfs' ts') /\
    (forall k sts' pfs' ts', pruned md sts pfs ts k sts' pfs' ts' ->
       exists ks, StronglySorted lt ks /\ (forall i, In i ks -> (i < length pfs)%nat) /\
         (forall i st pf t, member sts pfs ts i st pf t -> (In i ks <-> valid_proof t st pf)) /\
         sts' = pick ks sts /\ pfs' = pick ks pfs /\ ts' = pick ks ts /\
         (* one call per invalid proof, and a last one *)
         (k + length ks = length pfs)%nat).
Proof.
  intros E L md sts pfs ts Hl1 Hl2 Hm Hr Hf Hnc.
  assert (H1 : sts = pick (seq 0 (length sts)) sts) by (symmetry; apply pick_seq).
  assert (H2 : pfs = pick (seq 0 (length sts)) pfs) by (rewrite Hl1; symmetry; apply pick_seq).
  assert (H3 : ts = pick (seq 0 (length sts)) ts) by (rewrite Hl2; symmetry; apply pick_seq).
  assert (Hs : forall i, In i (seq 0 (length sts)) -> (i < length sts)%nat) by (intros i Hi; apply in_seq in Hi; lia).
  split.
  - intros Ht. destruct (prune_ends L md sts pfs ts Hl1 Hl2 Hm Hr Hf Hnc Ht _ (seq 0 (length sts)) eq_refl (sorted_seq _ _) Hs) as (k & s' & q' & u' & H).
    rewrite <- H1, <- H2, <- H3 in H. exists k, s', q', u'. exact H.
  - intros k sts' pfs' ts' H.
    destruct (prune_result L md sts pfs ts Hl1 Hl2 Hm Hr Hf Hnc _ _ _ _ _ _ _ H (seq 0 (length sts)) (sorted_seq _ _) Hs H1 H2 H3)
      as (ks & Hs' & Hin & Hv & G1 & G2 & G3 & Hlen).
    exists ks. split; [exact Hs'|]. split; [intros i Hi; rewrite <- Hl1; exact (Hs i (Hin i Hi))|]. split.
    + intros i st pf t Hmem. apply Hv; [|exact Hmem]. apply in_seq. assert (nth_error sts i <> None) by (rewrite (proj1 Hmem); discriminate).
      apply nth_error_Some in H0. lia.
    + rewrite seq_length in Hlen. repeat split; [exact G1|exact G2|exact G3|lia].
Qed.
Print Assumptions C83_pruned_by_single_blame.
(** A batch with a lone failure (C74) never cancels, so C83 applies to it; [C74_example] is one. *)
Lemma lone_never_cancels {E : env} (L : env_laws E) (sts : list (statement E)) pfs ts i :
  length sts = length pfs -> length sts = length ts -> one_ring sts -> lone_failure sts pfs ts i -> never_cancels sts pfs ts.
Proof.
  intros Hl1 Hl2 Hr [(sti & pfi & ti & Hmi & Hfi) Hrest] st ks Hst Hs Hk (ws & Hw & Hz & Hne).
  assert (Hp1 : length (pick ks sts) = length ks) by (apply pick_length; exact Hk).
  assert (Hp2 : length (pick ks pfs) = length ks) by (apply pick_length; rewrite <- Hl1; exact Hk).
  assert (Hp3 : length (pick ks ts) = length ks) by (apply pick_length; rewrite <- Hl2; exact Hk).
  assert (Hmem : forall i st pf t, member (pick ks sts) (pick ks pfs) (pick ks ts) i st pf t <-> exists k, nth_error ks i = Some k /\ member sts pfs ts k st pf t)
    by (intros; apply pick_member; assumption).
  destruct (in_dec Nat.eq_dec i ks) as [Hi|Hi].
  - apply In_nth_error in Hi. destruct Hi as [x Hx].
    assert (Hlone : lone_failure (pick ks sts) (pick ks pfs) (pick ks ts) x).
    { split; [exists sti, pfi, ti; split; [apply Hmem; exists i; split; assumption|exact Hfi]|].
      intros y st' pf' t' Hy Hm. apply Hmem in Hm. destruct Hm as (k & Hky & Hm). apply (Hrest k st' pf' t'); [|exact Hm].
      intros ->. apply Hy. assert (Hnd : NoDup ks).
      { clear - Hs. induction Hs as [|k ks Hs IH Hf]; constructor; [|exact IH]. intros Hin. rewrite Forall_forall in Hf. specialize (Hf k Hin). lia. }
      apply (proj1 (NoDup_nth_error ks) Hnd); [|congruence]. apply nth_error_Some. congruence. }
    assert (Hin : forall st, In st (pick ks sts) -> In st sts) by (intros st'; apply pick_in).
    assert (Hne' : pick ks sts <> []) by (intros Hnil; rewrite Hnil in Hp1; destruct ks; [destruct x; discriminate|discriminate]).
    revert Hp1 Hin Hlone Hne' Hz Hw. generalize (pick ks sts). intros [|st0 ss] Hp1 Hin Hlone Hne' Hz Hw; [congruence|].
    destruct (Hr st st0 Hst (Hin st0 (or_introl eq_refl))) as [E1 E2]. rewrite E1, E2 in Hz.
    revert Hz. apply (weighted_lone L st0 ss (pick ks pfs) (pick ks ts) ws x (weight_rng (st0 :: ss) (pick ks pfs) (pick ks ts))); try assumption.
    + intros a b Ha Hb. exact (Hr a b (Hin a Ha) (Hin b Hb)).
    + congruence.
    + congruence.
  - apply Hne. intros st' pf' t' Hin. apply In_nth_error in Hin. destruct Hin as [x Hx].
    assert (Hm : member (pick ks sts) (pick ks pfs) (pick ks ts) x st' pf' t') by (apply member_combine; exact Hx).
    pose proof (proj1 (Hmem _ _ _ _) Hm) as (k & Hkx & Hm').
    assert (Hki : k <> i) by (intros ->; apply Hi; exact (nth_error_In _ _ Hkx)).
    destruct (Hrest k st' pf' t' Hki Hm') as (_ & _ & _ & He).
    destruct (Hr st st' Hst (nth_error_In _ _ (proj1 Hm'))) as [E1 E2]. rewrite E1, E2. exact He.
Qed.
Example C83_example : length x_sts = length x_pfs /\ length x_sts = length x_ts /\ Forall made_statement x_sts /\ one_ring x_sts /\
  (forall st, In st x_sts -> fits OverflowPanics (st_get_params st) (N.of_nat (length x_pfs))) /\ never_cancels x_sts x_pfs x_ts.
Proof.
  split; [reflexivity|]. split; [reflexivity|]. split; [exact x_statements_made|]. split; [exact x_statements_ring|]. split.
  - intros st [<-|[<-|[]]]; exact (x_fits P0 T0 2 OverflowPanics 2 ltac:(lia)).
  - exact (lone_never_cancels L0 x_sts x_pfs x_ts 1 eq_refl eq_refl x_statements_ring x_lone).
Qed.

(** ** C84: a ring filled up by padding and the same keys given in full are different rings: a batch that contains both is refused,
    unless their hashes collide. *)
Theorem C84_padded_ring_is_another_ring :
  forall (E : env), env_laws E -> forall md (p p' : params E) M M1 s s' O O' J J' st st' sts pfs ts,
    made_params p -> made_params p' -> (length M < N.to_nat (get_n p ^ get_m p))%nat ->
    input_set_new_with_padding M M1 p = Ok s -> input_set_new (get_keys s) (get_auxiliary_keys s) = Ok s' ->
    statement_new p s O J = Ok st -> statement_new p' s' O' J' = Ok st' ->
    get_keys (st_get_input_set st) = get_keys (st_get_input_set st') /\
    get_auxiliary_keys (st_get_input_set st) = get_auxiliary_keys (st_get_input_set st') /\
    (In st sts -> In st' sts ->
      (exists reason, verify_batch_returns md sts pfs ts (Err (InvalidParameter reason)) ts) \/
      collide (E := E) (input_set_query (get_keys s) (get_auxiliary_keys s) (N.of_nat (length M)))
        (input_set_query (get_keys s) (get_auxiliary_keys s) (N.of_nat (length (get_keys s))))).
Proof.
  intros E L md p p' M M1 s s' O O' J J' st st' sts pfs ts Hp Hp' HM Hs Hs' Hst Hst'.
  destruct (C59_padding E p M M1 Hp) as (Hpad & Hdif & Hempty & _).
  assert (HMM : length M1 = length M).
  { destruct (Nat.eq_dec (length M) (length M1)) as [H|H]; [symmetry; exact H|]. rewrite (proj1 (Hdif H)) in Hs. discriminate. }
  assert (HM1 : (1 <= length M <= N.to_nat (get_n p ^ get_m p))%nat).
  { split; [|lia]. destruct M as [|x M]; [|cbn [length]; lia]. destruct M1; [|discriminate HMM].
    rewrite (Hempty eq_refl eq_refl) in Hs. discriminate. }
  destruct (nth_error M (length M - 1)) as [last|] eqn:El; [|apply nth_error_None in El; lia].
  destruct (nth_error M1 (length M - 1)) as [last1|] eqn:El1; [|apply nth_error_None in El1; lia].
  destruct (proj1 (C59_padding E p M M1 Hp) last last1 HMM HM1 El El1) as (s1' & Hs1 & Hk1 & Hk1' & Hl1 & Hl1' & Hh1). rewrite Hs in Hs1. injection Hs1 as <-.
  assert (Hb : (N.of_nat (length (get_keys s)) < 2 ^ 32)%N).
  { rewrite Hl1. pose proof (made_good p Hp) as Hg. pose proof (gp_pow _ Hg) as Hpow. change u32_bound with (2 ^ 32)%N in Hpow.
    change (p_n p) with (get_n p) in Hpow. change (p_m p) with (get_m p) in Hpow. lia. }
  destruct (proj1 (proj2 (C59_input_set_hash_binds E L)) (get_keys s) (get_auxiliary_keys s) ltac:(congruence) Hb) as (s2 & Hs2 & Hk2 & Hk2' & Hh2).
  rewrite Hs' in Hs2. injection Hs2 as <-.
  assert (Hss : st_get_input_set st = s).
  { apply (statement_new_inv L) in Hst. repeat match goal with H : _ /\ _ |- _ => destruct H end. subst. reflexivity. }
  assert (Hss' : st_get_input_set st' = s').
  { apply (statement_new_inv L) in Hst'. repeat match goal with H : _ /\ _ |- _ => destruct H end. subst. reflexivity. }
  split; [rewrite Hss, Hss', Hk2; reflexivity|]. split; [rewrite Hss, Hss', Hk2'; reflexivity|]. intros Hin Hin'.
  destruct (list_eq_dec Byte.byte_eq_dec (input_set_get_hash s) (input_set_get_hash s')) as [He|Hne].
  - right. split.
    + intros Hq. apply (proj1 (C59_input_set_hash_binds E L)) in Hq; [|lia|exact Hb]. destruct Hq as (_ & _ & Hq). lia.
    + rewrite <- Hh2, <- He, Hh1, Hk1, Hk1'. reflexivity.
  - left. apply (C66_mixed_rejected E md sts pfs ts st st' Hin Hin'). left. rewrite Hss, Hss'. exact Hne.
Qed.
Print Assumptions C84_padded_ring_is_another_ring.
(** The owner of one key pads a ring of two to four; somebody else writes the four keys down. *)
Example C84_example : exists (p : params E0) (s s' : input_set E0) (st st' : statement E0), made_params p /\
  input_set_new_with_padding (E := E0) [smk 4; smk 5] [smk 6; smk 7] p = Ok s /\
  (length [smk 4; smk 5] < N.to_nat (get_n p ^ get_m p))%nat /\
  input_set_new (get_keys s) (get_auxiliary_keys s) = Ok s' /\ statement_new p s (smk 9 : pt E0) (smk 99 : pt E0) = Ok st /\
  statement_new p s' (smk 9) (smk 99) = Ok st'.
Proof.
  pose proof (x_params_made P0 T0) as Hp. exists (x_params P0 T0).
  destruct (proj1 (C59_padding E0 (x_params P0 T0) ([smk 4; smk 5] : list (pt E0)) [smk 6; smk 7] Hp) (smk 5) (smk 7) eq_refl ltac:(split; vm_compute; lia) eq_refl eq_refl)
    as (s & Hs & Hk & Hk' & Hl & Hl' & _).
  assert (Hkk : get_keys s = [smk 4; smk 5; smk 5; smk 5]) by (rewrite Hk; reflexivity). clear Hk.
  assert (Hkk' : get_auxiliary_keys s = [smk 6; smk 7; smk 7; smk 7]) by (rewrite Hk'; reflexivity). clear Hk'.
  destruct (proj1 (proj2 (C59_input_set_hash_binds E0 L0)) [smk 4; smk 5; smk 5; smk 5] [smk 6; smk 7; smk 7; smk 7] eq_refl eq_refl) as (s' & Hs' & Hk2 & Hk2' & _).
  assert (Hid : ~ In (pid E0) [smk 4; smk 5; smk 5; smk 5]) by (intros [H|[H|[H|[H|[]]]]]; revert H; scalars_differ).
  assert (Hof : ~ In (smk 9 : pt E0) [smk 6; smk 7; smk 7; smk 7]) by (intros [H|[H|[H|[H|[]]]]]; revert H; scalars_differ).
  destruct (proj1 (C60_statement_accepted_exactly E0 L0 (x_params P0 T0) s (smk 9) (smk 99) Hp)) as (st & Hst & _).
  { rewrite Hkk. reflexivity. } { rewrite Hkk. exact Hid. } { rewrite Hkk'. exact Hof. }
  destruct (proj1 (C60_statement_accepted_exactly E0 L0 (x_params P0 T0) s' (smk 9) (smk 99) Hp)) as (st' & Hst' & _).
  { rewrite Hk2. reflexivity. } { rewrite Hk2. exact Hid. } { rewrite Hk2'. exact Hof. }
  exists s, s', st, st'. split; [exact Hp|]. split; [exact Hs|]. split; [vm_compute; lia|].
  split; [rewrite Hkk, Hkk'; exact Hs'|]. split; [exact Hst|exact Hst'].
Qed.

(** ** C85: the identity as linking tag or generator. *)
(** A statement may carry the identity as its tag, but unless [U] is the identity too nobody can prove it: there is no witness, the
    prover refuses, and rewinding a forger gives a relation between the commitment generators... *)
Theorem C85_identity_tag_unprovable :
  forall (E : env), env_laws E -> forall (st : statement E), made_statement st ->
    st_get_J st = pid E -> get_U (st_get_params st) <> pid E ->
    (forall l r r1, ~ relation st l r r1) /\
    (forall (R : Type) (ro : rng_ops R) w rng t, made_witness w -> exists reason, prove_with_rng ro w st rng t = (Err (InvalidParameter reason), t, rng)) /\
    (forall runs, forked st runs -> length runs = S (N.to_nat (get_m (st_get_params st))) -> (forall t pf, In (t, pf) runs -> valid_proof t st pf) ->
       exists cs, extract (st_get_params st) (challenges_and_proofs st runs) = Broken cs /\
         is_relation (get_CommitmentG (st_get_params st)) (get_CommitmentH (st_get_params st)) cs).
Proof.
  intros E L st Hm HJ HU.
  assert (Hn : forall l r r1, ~ relation st l r r1) by (intros l r r1 (_ & _ & H); apply HU; rewrite <- H, HJ; apply (pmul_0_r L)).
  split; [exact Hn|]. split.
  - intros R ro w rng t Hw. apply (C61_refusal_has_no_effect E L R ro w st rng t Hw Hm). right. apply Hn.
  - intros runs Hf Hl Hv. pose proof (C64_special_soundness E L st runs Hm Hf Hl Hv) as H.
    destruct (extract _ _) as [[[l r] r1]|cs]; [destruct (Hn l r r1 H)|]. exists cs. split; [reflexivity|exact H].
Qed.
Print Assumptions C85_identity_tag_unprovable.
(** ... with the identity as [G] nothing can be proved at all, because no ring may contain the identity... *)
Theorem C85_identity_G_unprovable :
  forall (E : env), env_laws E -> forall (st : statement E), made_statement st -> get_G (st_get_params st) = pid E ->
    (forall l r r1, ~ relation st l r r1) /\
    (forall (R : Type) (ro : rng_ops R) w rng t, made_witness w -> exists reason, prove_with_rng ro w st rng t = (Err (InvalidParameter reason), t, rng)).
Proof.
  intros E L st Hm HG.
  assert (Hn : forall l r r1, ~ relation st l r r1).
  { intros l r r1 [H _]. rewrite HG, (pmul_0_r L) in H. apply nth_error_In in H. exact (gs_nonid _ (made_statement_good L st Hm) H). }
  split; [exact Hn|]. intros R ro w rng t Hw. apply (C61_refusal_has_no_effect E L R ro w st rng t Hw Hm). right. apply Hn.
Qed.
Print Assumptions C85_identity_G_unprovable.
(** ... nor with the identity as [G1], because no auxiliary key may be the offset... *)
Theorem C85_identity_G1_unprovable :
  forall (E : env), env_laws E -> forall (st : statement E), made_statement st -> get_G1 (st_get_params st) = pid E ->
    (forall l r r1, ~ relation st l r r1) /\
    (forall (R : Type) (ro : rng_ops R) w rng t, made_witness w -> exists reason, prove_with_rng ro w st rng t = (Err (InvalidParameter reason), t, rng)).
Proof.
  intros E L st Hm HG.
  assert (Hn : forall l r r1, ~ relation st l r r1).
  { intros l r r1 (_ & (M1_l & H1 & H2) & _). rewrite HG, (pmul_0_r L) in H2. apply (proj1 (psub_0 L _ _)) in H2. subst M1_l.
    apply nth_error_In in H1. exact (gs_nonid1 _ (made_statement_good L st Hm) H1). }
  split; [exact Hn|]. intros R ro w rng t Hw. apply (C61_refusal_has_no_effect E L R ro w st rng t Hw Hm). right. apply Hn.
Qed.
Print Assumptions C85_identity_G1_unprovable.
(** ... and that parameters guarantee different tags for different keys is refuted: [U] may be the identity, and then all tags agree. *)
Theorem C85_tags_differ_refuted :
  forall (E : env), env_laws E -> forall n m (G G1 : pt E), valid_nm n m ->
    exists p, new_with_generators n m G G1 (pid E) = Ok p /\
      forall w w' : witness E, w_get_params w = p -> w_get_params w' = p -> compute_linking_tag w = compute_linking_tag w'.
Proof.
  intros E L n m G G1 Hv. destruct (proj1 (C57_parameters_accepted_exactly E n m G G1 (pid E)) Hv) as [p Hp]. exists p. split; [exact Hp|].
  destruct (C57_parameters_exact _ _ _ _ _ _ _ Hp) as (_ & _ & _ & _ & HU & _).
  intros w w' Hw Hw'. unfold compute_linking_tag. change (w_params w) with (w_get_params w). change (w_params w') with (w_get_params w').
  rewrite Hw, Hw', HU, !(pmul_0_r L). reflexivity.
Qed.
Print Assumptions C85_tags_differ_refuted.
Example C85_example :
  (exists st : statement E0, made_statement st /\ st_get_J st = pid E0 /\ get_U (st_get_params st) <> pid E0) /\
  (exists st : statement E0, made_statement st /\ get_G (st_get_params st) = pid E0) /\
  (exists st : statement E0, made_statement st /\ get_G1 (st_get_params st) = pid E0).
Proof.
  assert (Hgen : forall G G1 : pt E0, exists st : statement E0, made_statement st /\ get_G (st_get_params st) = G /\ get_G1 (st_get_params st) = G1).
  { intros G G1.
    destruct (proj1 (C57_parameters_accepted_exactly E0 2 2 G G1 (smk 4)) ltac:(unfold valid_nm; repeat split; vm_compute; congruence)) as [p Hp].
    destruct (C57_parameters_exact _ _ _ _ _ _ _ Hp) as (Hn & Hm & HG & HG1 & _). assert (Hmp : made_params p) by (eexists _, _, _, _, _; exact Hp).
    destruct (proj1 (C60_statement_accepted_exactly E0 L0 p (x_set P0 T0 2) (x_offset P0 T0) (smk 1) Hmp)) as (st & Hst & Hsp & _).
    { rewrite Hn, Hm. reflexivity. } { exact (x_ring_no_identity P0 T0 2). } { exact (x_ring1_no_offset P0 T0 2). }
    exists st. split; [exists p, (x_set P0 T0 2), (x_offset P0 T0), (smk 1); split; [exact Hmp|split; [exact (x_set_made P0 T0 2)|exact Hst]]|]. rewrite Hsp.
    split; [exact HG|exact HG1]. }
  split; [|split].
  - destruct (with_other_tag L0 (x_params P0 T0) (x_set P0 T0 2) (x_offset P0 T0) (x_offset P0 T0) (x_J P0 T0) (pid E0) _ (x_params_made P0 T0) (x_set_made P0 T0 2)
      (x_ring1_no_offset P0 T0 2) (x_statement_new P0 T0 2)) as (st & Hm & _ & Hp & _ & _ & HJ).
    exists st. split; [exact Hm|]. split; [exact HJ|]. rewrite Hp. scalars_differ.
  - destruct (Hgen (pid E0) (smk 3)) as (st & Hm & HG & _). exists st. split; assumption.
  - destruct (Hgen (smk 3) (pid E0)) as (st & Hm & _ & HG). exists st. split; assumption.
Qed.
(** Histories. *)
Lemma prover_history_snoc {E : env} t h (x : statement E * proof E) : prover_history t (h ++ [x]) = prover_transcript (prover_history t h) (fst x) (snd x).
Proof. unfold prover_history. rewrite fold_left_app. reflexivity. Qed.
Lemma prover_transcript_longer {E : env} t (st : statement E) pf : (length t < length (prover_transcript t st pf))%nat.
Proof. unfold prover_transcript, fs_transcript. rewrite !app_length. cbn [length]. lia. Qed.
Lemma prover_history_length {E : env} t (h : list (statement E * proof E)) : (length t + length h <= length (prover_history t h))%nat.
Proof.
  revert t. induction h as [|x h IH]; intros t; [cbn; lia|]. unfold prover_history. cbn [fold_left length].
  specialize (IH (prover_transcript t (fst x) (snd x))). unfold prover_history in IH. pose proof (prover_transcript_longer t (fst x) (snd x)). lia.
Qed.
Lemma histories_differ {E : env} (h : list (statement E * proof E)) : forall t t', h <> [] -> (length t <= length t')%nat ->
  (length (prover_history t h) < length (verifier_history t' h))%nat.
Proof.
  assert (Hstep : forall t t' (x : statement E * proof E), (length t <= length t')%nat ->
    (length (prover_transcript t (fst x) (snd x)) < length (verifier_transcript t' (fst x) (snd x)))%nat).
  { intros t t' x H. unfold verifier_transcript, prover_transcript, fs_transcript. rewrite !app_length. cbn [length]. lia. }
  assert (Hle : forall (h : list (statement E * proof E)) t t', (length t < length t')%nat -> (length (prover_history t h) < length (verifier_history t' h))%nat).
  { clear h. induction h as [|x h IH]; intros t t' H; [exact H|]. unfold prover_history, verifier_history. cbn [fold_left]. apply IH. apply Hstep. lia. }
  intros t t' Hne H. destruct h as [|x h]; [congruence|]. unfold prover_history, verifier_history. cbn [fold_left]. apply Hle. apply Hstep. exact H.
Qed.

(** ** C86: several proofs on one running transcript.  What the prover leaves behind determines every statement and every first
    message that went into it, in their order and number... *)
Theorem C86_history_bound :
  forall (E : env), env_laws E -> forall t (h h' : list (statement E * proof E)),
    prover_history t h = prover_history t h' <->
    Forall2 (fun x y => st_get_hash (fst x) = st_get_hash (fst y) /\ same_first_message (snd x) (snd y)) h h'.
Proof.
  intros E L t h. induction h as [|[st pf] h IH] using rev_ind; intros h'.
  - cbn [prover_history fold_left]. split.
    + intros H. destruct h' as [|x h' _] using rev_ind; [constructor|]. exfalso.
      pose proof (prover_history_length t (h' ++ [x])) as Hl. rewrite app_length in Hl. cbn [length] in Hl. rewrite <- H in Hl. cbn [prover_history fold_left] in Hl. lia.
    + intros H. inversion H. reflexivity.
  - destruct h' as [|[st' pf'] h' _] using rev_ind.
    + split; [|intros H; destruct h; inversion H].
      intros H. exfalso. pose proof (prover_history_length t (h ++ [(st, pf)])) as Hl.
      rewrite app_length in Hl. cbn [length] in Hl. rewrite H in Hl. cbn [prover_history fold_left] in Hl. lia.
    + rewrite !prover_history_snoc. cbn [fst snd]. unfold prover_transcript. split.
      * intros H. apply app_inj_tail in H. destruct H as [H _]. apply (C68_challenge_query_binds E L) in H. destruct H as (H1 & H2 & H3).
        apply Forall2_app; [apply IH; exact H1|]. constructor; [split; assumption|constructor].
      * intros H. apply Forall2_app_inv_l in H. destruct H as (a & b & Ha & Hb & He).
        inversion Hb as [|x y xs ys Hxy Hnil Hx Hy]. subst. inversion Hnil. subst. apply app_inj_tail in He. destruct He as [<- <-].
        f_equal. apply (C68_challenge_query_binds E L). cbn [fst snd] in Hxy. split; [apply IH; exact Ha|exact Hxy].
Qed.
Print Assumptions C86_history_bound.

(** ... successive calls of the prover leave just that... *)
Theorem C86_prover_leaves_history :
  forall (E : env), env_laws E -> forall (R : Type) (ro : rng_ops R) jobs rng t (h : list (statement E * proof E)) t' rng',
    (forall w st, In (w, st) jobs -> made_witness w /\ made_statement st) ->
    proves ro jobs rng t h t' rng' -> t' = prover_history t h /\ map fst h = map snd jobs.
Proof.
  intros E L R ro jobs rng t h t' rng' Hj H. induction H as [rng t|w st jobs rng t pf t1 rng1 h t' rng' Hp Hrest IH].
  - split; reflexivity.
  - destruct (Hj w st (or_introl eq_refl)) as [Hw Hst]. destruct IH as [H1 H2]; [intros w' st' Hin; apply Hj; right; exact Hin|].
    destruct (prove_result L ro w st rng t pf t1 rng1 Hw Hst Hp) as (_ & _ & _ & Ht & _).
    split; [|cbn [map fst snd]; rewrite H2; reflexivity]. rewrite H1, Ht. reflexivity.
Qed.
Print Assumptions C86_prover_leaves_history.

(** ... and successive accepting verifications leave the whole proofs... *)
Theorem C86_verifier_leaves_history :
  forall (E : env), env_laws E -> forall md t (h : list (statement E * proof E)) t',
    (forall st pf, In (st, pf) h -> made_statement st) -> verifies md h t t' -> t' = verifier_history t h.
Proof.
  intros E L md t h t' Hm H. induction H as [t|st pf h t t1 t' Hv Hrest IH]; [reflexivity|].
  rewrite IH by (intros s q Hin; apply (Hm s q); right; exact Hin). cbn [verifier_history fold_left fst snd].
  apply verify_returns_batch in Hv. destruct (C68_weights_come_from_it E L md st [] [pf] [t] [t1] (Hm st pf (or_introl eq_refl)) Hv) as [Ht _].
  unfold verified_transcripts in Ht. cbn [combine map fst snd] in Ht. injection Ht as ->. reflexivity.
Qed.
Print Assumptions C86_verifier_leaves_history.

(** ... so that, from the second proof on, the verifier of a running transcript never asks for the challenge the prover was given:
    that a chain of honest proofs verifies as a chain is refuted. *)
Theorem C86_chain_in_step_refuted :
  forall (E : env), env_laws E -> forall (R : Type) (ro : rng_ops R) md jobs rng t (h : list (statement E * proof E)) t1 rng1 t2,
    (forall w st, In (w, st) jobs -> made_witness w /\ made_statement st) -> jobs <> [] ->
    proves ro jobs rng t h t1 rng1 -> verifies md h t t2 ->
    forall (st st' : statement E) pf pf', fs_transcript t1 st pf <> fs_transcript t2 st' pf'.
Proof.
  intros E L R ro md jobs rng t h t1 rng1 t2 Hj Hne Hp Hv st st' pf pf' He.
  destruct (C86_prover_leaves_history E L R ro jobs rng t h t1 rng1 Hj Hp) as [H1 Hmap].
  assert (Hm : forall st pf, In (st, pf) h -> made_statement st).
  { intros s q Hin. apply (in_map fst) in Hin. rewrite Hmap in Hin. cbn [fst] in Hin. apply in_map_iff in Hin. destruct Hin as ([w s'] & Hs & Hin).
    cbn [snd] in Hs. subst s'. exact (proj2 (Hj w s Hin)). }
  pose proof (C86_verifier_leaves_history E L md t h t2 Hm Hv) as H2.
  apply (C68_challenge_query_binds E L) in He. destruct He as [He _]. rewrite H1, H2 in He.
  assert (Hh : h <> []) by (intros ->; destruct jobs; [congruence|discriminate Hmap]).
  apply (f_equal (@length _)) in He. pose proof (histories_differ h t t Hh (Nat.le_refl _)). lia.
Qed.
Print Assumptions C86_chain_in_step_refuted.
Example C86_example : exists h t1 rng1 t2, proves counter [(x_witness P0 T0 2, x_statement P0 T0 2)] 5%N (x_transcript 1) h t1 rng1 /\
  verifies OverflowPanics h (x_transcript 1) t2.
Proof.
  destruct (x_check_ok P0 T0 2 1 x_check_2_1) as [Hx _]. destruct (x_proved P0 T0 2 1 ltac:(lia) Hx) as [_ Hp].
  destruct (valid_one OverflowPanics (x_statement P0 T0 2) (x_proof P0 T0 2 1) (x_transcript 1) (x_statement_made P0 T0 2)
    (x_valid P0 T0 2 1 ltac:(lia) x_check_2_1) (x_fits P0 T0 2 OverflowPanics 1 ltac:(lia))) as [t2 Hv].
  exists [(x_statement P0 T0 2, x_proof P0 T0 2 1)]. eexists _, _, t2. split.
  - eapply proves_cons; [exact Hp|]. apply proves_nil.
  - eapply verifies_cons; [exact Hv|]. apply verifies_nil.
Qed.
